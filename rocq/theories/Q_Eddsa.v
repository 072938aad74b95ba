(** PureEdDSA, EdDSA and eddsa_open as a whole. *)
From Coq Require Import List ZArith NArith Bool Arith Lia String.
From Verif Require Import Field Base R1CS R1CSFacts Gadget Gadget2 Gadget3 M_Lookup P_Lookup M_Bits P_Bits Q_Basic M_Point M_Jubjub M_Montgomery M_Eddsa
  Spec_Curve Spec_Mont Spec_Eddsa P_Curve P_JubLeaf P_Group P_Chain P_ScalarMult P_Fbm P_Poseidon P_Zmul P_Zcash P_Zcash2 P_Float Q_Jubjub P_Eddsa.
Import ListNotations.
Local Open Scope nat_scope.

Lemma validator_pg X Y n : X < n -> Y < n ->
  exists g n', validator_new X Y n = (g, n') /\
   (forall s : assign, sat s (validator_constraints g) -> on_curve (pt s X Y) /\ px (smul 8 (pt s X Y)) <> F0) /\
   pg n n' (validator_constraints g) (validator_witness g) (fun s => on_curve (pt s X Y) /\ px (smul 8 (pt s X Y)) <> F0)
     (fun _ (_ : unit) => True) (fun _ _ => True) (fun _ => tt).
Proof.
  intros HX HY. destruct (validator_lemma X Y n HX HY) as (g & n' & E & Hs & Hw). exists g, n'. split; [exact E|].
  split. { intros s H. destruct (Hs s H) as (H1 & H2 & _). split; assumption. }
  assert (En : g = {| pv_nl := fst (notloworder_new X Y n); pv_ic := fst (isoncurve_new X Y (n + 20)) |} /\ n' = n + 22).
  { revert E. unfold validator_new, notloworder_new. cbn [doubler_new isnonzero_new isoncurve_new fst db_X3 db_Y3].
    replace (S (S (n + 6 + 6 + 6))) with (n + 20)%nat by lia. intros E.
    pose proof (f_equal fst E) as E1. pose proof (f_equal snd E) as E2. cbn [fst snd] in *. split; [symmetry; exact E1|lia]. }
  destruct En as [Eg En].
  constructor; auto.
  - lia.
  - rewrite Eg. unfold validator_constraints. cbn [pv_ic pv_nl]. apply cs_all_app. split.
    + unfold isoncurve_new, isoncurve_constraints. cbn [fst ic_X ic_Y ic_xx ic_yy]. repeat constructor; cbn; try exact I; lia.
    + destruct (notloworder_gok X Y n HX HY) as [_ GN]. eapply cs_all_impl; [|exact (k_scope GN)]. cbn. intros v [Hv|[-> | ->]]; lia.
  - intros s s' Es. now rewrite (pt_same n X Y s s').
  - intros s _. exists tt. auto.
  - intros s [] [H1 H2] _. destruct (Hw s H1 H2) as (s' & _ & F & S). exists s'. auto.
  - intros s [H1 H2]. destruct (Hw s H1 H2) as (s' & W & F & S). exists s'. auto.
Qed.

(** on the curve the validator's witness generation never aborts, whatever the order of the point *)
Lemma validator_run X Y n g n' s : X < n -> Y < n -> validator_new X Y n = (g, n') -> on_curve (pt s X Y) ->
  exists s', validator_witness g s = Ok s' /\ frame n n' s s'.
Proof.
  intros HX HY E Hon.
  set (d2 := fst (doubler_new X Y n)). set (d4 := fst (doubler_new (n + 4) (n + 5) (n + 6))%nat).
  set (d8 := fst (doubler_new (n + 10) (n + 11) (n + 12))%nat). set (nz := fst (isnonzero_new (n + 16) (n + 18))%nat).
  assert (Eg : g = {| pv_nl := {| nl_d2 := d2; nl_d4 := d4; nl_d8 := d8; nl_nz := nz |}; pv_ic := fst (isoncurve_new X Y (n + 20)) |} /\ n' = n + 22).
  { revert E. unfold validator_new, notloworder_new, d2, d4, d8, nz. cbn [doubler_new isnonzero_new isoncurve_new fst db_X3 db_Y3].
    replace (n + 6 + 4)%nat with (n + 10)%nat by lia. replace (n + 6 + 5)%nat with (n + 11)%nat by lia.
    replace (n + 6 + 6)%nat with (n + 12)%nat by lia. replace (n + 12 + 4)%nat with (n + 16)%nat by lia. replace (n + 12 + 6)%nat with (n + 18)%nat by lia.
    replace (S (S (n + 18))) with (n + 20)%nat by lia. intros E.
    pose proof (f_equal fst E) as E1. pose proof (f_equal snd E) as E2. cbn [fst snd] in *. split; [symmetry; exact E1|lia]. }
  destruct Eg as [-> ->].
  assert (GI : gok (fun v => n + 20 <= v < n + 20 + 2)%nat (fun v => In v [X; Y]) (isoncurve_constraints (fst (isoncurve_new X Y (n + 20)))) (isoncurve_witness (fst (isoncurve_new X Y (n + 20))))
    (fun s => on_curve (pt s X Y)) (fun s => True)).
  { apply isoncurve_gok. cbn. intros v [<-|[<-|[]]]; lia. }
  assert (G2 : gok (fun v => n <= v < n + 6)%nat (fun v => In v [X; Y]) (doubler_constraints d2) (doubler_witness d2)
     (fun s => on_curve (pt s X Y)) (fun s => pt s (n + 4)%nat (n + 5)%nat = padd (pt s X Y) (pt s X Y))).
  { apply doubler_gok. cbn. intros v [<-|[<-|[]]]; lia. }
  assert (G4 : gok (fun v => n + 6 <= v < n + 6 + 6)%nat (fun v => In v [n + 4; n + 5]%nat) (doubler_constraints d4) (doubler_witness d4)
     (fun s => on_curve (pt s (n + 4)%nat (n + 5)%nat)) (fun s => pt s (n + 6 + 4)%nat (n + 6 + 5)%nat = padd (pt s (n + 4)%nat (n + 5)%nat) (pt s (n + 4)%nat (n + 5)%nat))).
  { apply doubler_gok. cbn. intros v [<-|[<-|[]]]; lia. }
  assert (G8 : gok (fun v => n + 12 <= v < n + 12 + 6)%nat (fun v => In v [n + 10; n + 11]%nat) (doubler_constraints d8) (doubler_witness d8)
     (fun s => on_curve (pt s (n + 10)%nat (n + 11)%nat)) (fun s => pt s (n + 12 + 4)%nat (n + 12 + 5)%nat = padd (pt s (n + 10)%nat (n + 11)%nat) (pt s (n + 10)%nat (n + 11)%nat))).
  { apply doubler_gok. cbn. intros v [<-|[<-|[]]]; lia. }
  assert (GZ : gok (fun v => n + 18 <= v < n + 18 + 2)%nat (fun v => v = n + 16)%nat (isnonzero_constraints nz) (fun s => Ok (isnonzero_witness nz s))
     (fun s => True) (fun s => s (n + 18)%nat = (if Feqb (s (n + 16)%nat) F0 then F0 else F1))).
  { apply isnonzero_gok. lia. }
  replace (n + 6 + 4)%nat with (n + 10)%nat in G4 by lia. replace (n + 6 + 5)%nat with (n + 11)%nat in G4 by lia.
  replace (n + 12 + 4)%nat with (n + 16)%nat in G8 by lia. replace (n + 12 + 5)%nat with (n + 17)%nat in G8 by lia.
  destruct (k_run _ _ _ _ _ _ s GI Hon) as (s1 & W1 & F1' & _ & _ & _).
  assert (E1 : pt s1 X Y = pt s X Y) by (apply pt_ext; apply F1'; lia).
  assert (Hon1 : on_curve (pt s1 X Y)) by (rewrite E1; exact Hon).
  destruct (k_run _ _ _ _ _ _ _ G2 Hon1) as (s2 & W2 & F2 & S2 & _ & E2).
  assert (P2 : pt s2 X Y = pt s1 X Y) by (apply pt_ext; apply F2; lia). rewrite P2 in E2.
  assert (O2 : on_curve (pt s2 (n + 4)%nat (n + 5)%nat)) by (rewrite E2; now apply padd_closed).
  destruct (k_run _ _ _ _ _ _ _ G4 O2) as (s4 & W4 & F4 & S4 & _ & E4).
  assert (P4 : pt s4 (n + 4)%nat (n + 5)%nat = pt s2 (n + 4)%nat (n + 5)%nat) by (apply pt_ext; apply F4; lia). rewrite P4 in E4.
  assert (O4 : on_curve (pt s4 (n + 10)%nat (n + 11)%nat)) by (rewrite E4; now apply padd_closed).
  destruct (k_run _ _ _ _ _ _ _ G8 O4) as (s8 & W8 & F8 & S8 & _ & E8).
  destruct (k_run _ _ _ _ _ _ s8 GZ I) as (sz & WZ & FZ & SZ & _ & EZ).
  exists sz. unfold validator_witness, notloworder_witness. cbn [pv_ic pv_nl nl_d2 nl_d4 nl_d8 nl_nz]. rewrite W1. cbn [obind]. rewrite W2. cbn [obind]. rewrite W4. cbn [obind]. rewrite W8. cbn [obind].
  split; [exact WZ|]. intros v Hv. rewrite FZ, F8, F4, F2, F1' by lia. reflexivity.
Qed.

Lemma pure_eddsa_pg mkb B rbases A R sv msg n :
  on_curve B -> List.length sv mod 2 = 0 -> 4 <= List.length sv -> Forall (fun v => v < n) sv ->
  good_bases mkb "EdDSA_Verify.RAM" (508 + List.length msg) rbases -> Forall (fun v => v < n) msg ->
  vp_x A < n -> vp_y A < n -> vp_x R < n -> vp_y R < n ->
  let PA s := pt s (vp_x A) (vp_y A) in let PR s := pt s (vp_x R) (vp_y R) in
  exists g n' cs lx ly rx ry, pure_eddsa_new mkb B A R sv msg n = Ok (g, n') /\
    pure_eddsa_constraints g = Ok (cs ++ [R1 (V lx) L1 (V rx); R1 (V ly) L1 (V ry)]) /\
    lx < n' /\ ly < n' /\ rx < n' /\ ry < n' /\ Forall (fun v => v < n') (hram_result (pe_hash g)) /\
    (forall s, sat s cs -> on_curve (PR s) /\ px (smul 8 (PR s)) <> F0) /\
    (forall s, on_curve (PA s) -> on_curve (PR s) -> (exists sb, bitpre sv sb s) -> (exists M, bitpre msg M s) ->
       exists s', pure_eddsa_witness g s = Ok s' /\ frame n n' s s') /\
    pg n n' cs (pure_eddsa_witness g)
     (fun s => on_curve (PA s) /\ (on_curve (PR s) /\ px (smul 8 (PR s)) <> F0) /\ (exists sb, bitpre sv sb s) /\ exists M, bitpre msg M s)
     (fun s c => let '(rb, ab, hb) := c in decodes rb (s (vp_x R)) /\ decodes ab (s (vp_x A)) /\
                  forall M, bitpre msg M s -> decodes hb (pedersen_x rbases (rb ++ ab ++ M)))
     (fun s c => map s (hram_result (pe_hash g)) = map b2F (snd c) /\
        (forall sb, bitpre sv sb s -> pt s lx ly = smul (bits_N sb) B) /\
        (on_curve (PR s) -> on_curve (PA s) -> pt s rx ry = padd (PR s) (smul (bits_N (snd c)) (PA s))))
     (fun s => let rb := bits_of_Z 254 (fval (s (vp_x R))) in let ab := bits_of_Z 254 (fval (s (vp_x A))) in
                (rb, ab, bits_of_Z 254 (fval (pedersen_x rbases (rb ++ ab ++ rdb s msg))))).
Proof.
  intros HB He HL Hsv HG Hmsg HAx HAy HRx HRy PA PR.
  destruct (validator_pg (vp_x R) (vp_y R) n HRx HRy) as (gv & n1 & Nv & Sv & Gv). pose proof (p_le Gv) as Le1.
  assert (Up : forall k l, n <= k -> Forall (fun v => v < n) l -> Forall (fun v => v < k) l).
  { intros k l Hk H. eapply Forall_impl; [|exact H]. cbn. intros; lia. }
  destruct (fbm_pg B sv n1 HB He HL (Up _ _ Le1 Hsv)) as (gl & n2 & cl & lx & ly & Nl & Cl & Rl & Hlx & Hly & Gl). pose proof (p_le Gl) as Le2.
  destruct (hram_pg mkb rbases R A msg n2 HG ltac:(lia) ltac:(lia) (Up n2 msg ltac:(lia) Hmsg)) as (gh & n3 & ch & Nh & Ch & Lh & Fh & Gh). pose proof (p_le Gh) as Le3.
  assert (Fh' : Forall (fun v => v < n3) (hram_result gh)) by (eapply Forall_impl; [|exact Fh]; cbn; intros; lia).
  destruct (tail_pg (vp_x R) (vp_y R) (vp_x A) (vp_y A) (hram_result gh) n3 ltac:(rewrite Lh; lia) ltac:(lia) ltac:(lia) ltac:(lia) ltac:(lia) Fh')
    as (gm & n4 & ax & ay & ga & n5 & Nm & Rm & Na & Hrx & Hry & Gt). pose proof (p_le Gt) as Le4.
  exists {| pe_valid := gv; pe_lhs := gl; pe_hash := gh; pe_At := gm; pe_rhs := ga |}, n5,
     (validator_constraints gv ++ (cl ++ (ch ++ (scalarmult_constraints gm ++ adder_constraints ga)))), lx, ly, (ad_X3 ga), (ad_Y3 ga).
  cbn [pe_valid pe_lhs pe_hash pe_At pe_rhs].
  split. { unfold pure_eddsa_new. rewrite Nv, Nl. cbn [obind]. rewrite Nh. cbn [obind]. rewrite Nm. cbn [obind]. rewrite Rm. cbn [obind]. rewrite Na. reflexivity. }
  split. { unfold pure_eddsa_constraints. cbn [pe_valid pe_lhs pe_hash pe_At pe_rhs]. rewrite Cl. cbn [obind]. rewrite Ch. cbn [obind]. rewrite Rl. cbn [obind].
    rewrite <- !app_assoc. reflexivity. }
  split; [lia|]. split; [lia|]. split; [lia|]. split; [lia|].
  split; [eapply Forall_impl; [|exact Fh']; cbn; intros; lia|].
  split. { intros s H. apply Sv. apply sat_app in H. apply H. }
  set (preB := fun s => on_curve (PA s) /\ on_curve (PR s) /\ (exists sb, bitpre sv sb s) /\ exists M, bitpre msg M s).
  set (pre := fun s => on_curve (PA s) /\ (on_curve (PR s) /\ px (smul 8 (PR s)) <> F0) /\ (exists sb, bitpre sv sb s) /\ exists M, bitpre msg M s).
  assert (Hpre : forall k s s', n <= k -> same k s s' -> pre s -> pre s').
  { intros k s s' Hk E (H1 & H2 & (sb & H3) & M & H4). unfold pre, PA, PR. rewrite (pt_same k (vp_x A) (vp_y A) s s'), (pt_same k (vp_x R) (vp_y R) s s') by (auto; lia).
    split; [exact H1|]. split; [exact H2|]. split; [exists sb|exists M]; apply (bitpre_same k _ _ s); auto. }
  assert (HpreB : forall k s s', n <= k -> same k s s' -> preB s -> preB s').
  { intros k s s' Hk E (H1 & H2 & (sb & H3) & M & H4). unfold preB, PA, PR. rewrite (pt_same k (vp_x A) (vp_y A) s s'), (pt_same k (vp_x R) (vp_y R) s s') by (auto; lia).
    split; [exact H1|]. split; [exact H2|]. split; [exists sb|exists M]; apply (bitpre_same k _ _ s); auto. }
  set (adm := fun (s : assign) (c : list bool * list bool * list bool) => let '(rb, ab, hb) := c in decodes rb (s (vp_x R)) /\ decodes ab (s (vp_x A)) /\
                  forall M, bitpre msg M s -> decodes hb (pedersen_x rbases (rb ++ ab ++ M))).
  set (can := fun s : assign => let rb := bits_of_Z 254 (fval (s (vp_x R))) in let ab := bits_of_Z 254 (fval (s (vp_x A))) in
                (rb, ab, bits_of_Z 254 (fval (pedersen_x rbases (rb ++ ab ++ rdb s msg))))).
  assert (Hadm : forall s s' c, same n s s' -> adm s c -> adm s' c).
  { intros s s' [[rb ab] hb] E (H1 & H2 & H3). unfold adm. rewrite (E (vp_x R)), (E (vp_x A)) by assumption. split; [exact H1|]. split; [exact H2|].
    intros M HM. apply H3. apply (bitpre_same n _ _ s'); auto using same_sym. }
  assert (Hcan : forall s s', same n s s' -> can s' = can s).
  { intros s s' E. unfold can. rewrite (E (vp_x R)), (E (vp_x A)) by assumption. rewrite (rdb_same n _ s s' Hmsg E). reflexivity. }
  pose proof (pg_seq_tail n2 n3 n5 _ _ _ _ preB _ _ _ _ _ _ Gh Gt) as G3. cbn beta in G3.
  specialize (G3 ltac:(intros s s'; apply HpreB; lia) ltac:(intros s (_ & _ & _ & H); exact H)
    ltac:(intros s [[rb ab] hb] (H1 & H2 & _) H; cbn [snd] in H; split; [exact H2|]; split; [exact H1|]; exists hb; exact H)).
  pose proof (pg_seq_unit n1 n2 n5 _ _ _ _ preB _ _ _ _ _ _ Gl G3
    ltac:(intros s s'; apply HpreB; lia) ltac:(intros s (_ & _ & H & _); exact H) ltac:(auto)
    ltac:(intros s s' c E; apply Hadm; apply (same_le n n1); auto) ltac:(intros s s' E; apply Hcan; apply (same_le n n1); auto)) as G2.
  pose proof (pg_seq_unit n n1 n5 _ _ _ _ pre _ _ _ _ _ _ Gv G2
    ltac:(intros s s'; apply Hpre; lia) ltac:(intros s (_ & H & _); exact H) ltac:(intros s (H1 & (H2 & _) & H3); split; [exact H1|]; split; [exact H2|exact H3]) Hadm Hcan) as G1.
  unfold pure_eddsa_witness. cbn [pe_valid pe_lhs pe_hash pe_At pe_rhs].
  split.
  { intros s HA HR Hsb HM. destruct (validator_run _ _ _ _ _ s HRx HRy Nv HR) as (s1 & W1 & F1). rewrite W1. cbn [obind].
    destruct (p_wit G2 s1) as (s2 & W2 & F2 & _).
    { apply (HpreB n s s1); [lia|exact (frame_same _ _ _ _ F1)|]. split; [exact HA|]. split; [exact HR|]. split; [exact Hsb|exact HM]. }
    exists s2. split; [exact W2|]. apply (frame_trans n n1 n5 s s1); auto. lia. }
  assert (Hcont : forall s (c : list bool * list bool * list bool), True /\ (forall bs, bitpre sv bs s -> pt s lx ly = smul (bits_N bs) B) /\
     map s (hram_result gh) = map b2F (snd c) /\
     (on_curve (pt s (vp_x R) (vp_y R)) -> on_curve (pt s (vp_x A) (vp_y A)) -> forall bs, bitpre (hram_result gh) bs s ->
        pt s (ad_X3 ga) (ad_Y3 ga) = padd (pt s (vp_x R) (vp_y R)) (smul (bits_N bs) (pt s (vp_x A) (vp_y A)))) ->
     map s (hram_result gh) = map b2F (snd c) /\
        (forall sb, bitpre sv sb s -> pt s lx ly = smul (bits_N sb) B) /\
        (on_curve (PR s) -> on_curve (PA s) -> pt s (ad_X3 ga) (ad_Y3 ga) = padd (PR s) (smul (bits_N (snd c)) (PA s)))).
  { intros s c (_ & H1 & H2 & H3). split; [exact H2|]. split; [exact H1|]. intros HR HA. apply H3; auto. }
  eapply pg_map; [exact G1|..]; cbn beta.
  - intros s c _ Ha H. exists c. split; [exact Ha|]. apply Hcont. exact H.
  - intros s c _ Ha. exists c. split; [exact Ha|]. intros s' _ H. apply Hcont. exact H.
  - intros s s' _ _ H. apply Hcont. exact H.
  - exact Hadm.
  - intros s s' c E (H1 & H2 & H3). unfold PA, PR.
    rewrite (pt_same n5 (vp_x A) (vp_y A) s s'), (pt_same n5 (vp_x R) (vp_y R) s s'), (pt_same n5 lx ly s s'), (pt_same n5 (ad_X3 ga) (ad_Y3 ga) s s') by (auto; lia).
    split; [|split; [|exact H3]].
    + rewrite <- H1. apply map_ext_in. intros v Hv. apply E. rewrite Forall_forall in Fh'. apply Fh' in Hv. lia.
    + intros sb Hsb. apply H2. apply (bitpre_same n5 _ _ s'); auto using same_sym. apply Up; [lia|exact Hsv].
  - exact Hcan.
Qed.

(** ** EdDSA *)
Lemma eddsa_pg mkb B mbases rbases A R sv msg n :
  on_curve B -> List.length sv mod 2 = 0 -> 4 <= List.length sv -> Forall (fun v => v < n) sv ->
  good_bases mkb "EdDSA_Verify.M" (List.length msg) mbases -> good_bases mkb "EdDSA_Verify.RAM" 762 rbases -> Forall (fun v => v < n) msg ->
  vp_x A < n -> vp_y A < n -> vp_x R < n -> vp_y R < n ->
  let PA s := pt s (vp_x A) (vp_y A) in let PR s := pt s (vp_x R) (vp_y R) in
  exists g n' cs lx ly rx ry, eddsa_new mkb B A R sv msg n = Ok (g, n') /\
    eddsa_constraints g = Ok (cs ++ [R1 (V lx) L1 (V rx); R1 (V ly) L1 (V ry)]) /\
    lx < n' /\ ly < n' /\ rx < n' /\ ry < n' /\
    (forall s, sat s cs -> on_curve (PR s) /\ px (smul 8 (PR s)) <> F0) /\
    (forall s, on_curve (PA s) -> on_curve (PR s) -> (exists sb, bitpre sv sb s) -> (exists M, bitpre msg M s) ->
       exists s', eddsa_witness g s = Ok s' /\ frame n n' s s') /\
    pg n n' cs (eddsa_witness g)
     (fun s => on_curve (PA s) /\ (on_curve (PR s) /\ px (smul 8 (PR s)) <> F0) /\ (exists sb, bitpre sv sb s) /\ exists M, bitpre msg M s)
     (fun s c => let '(mb, (rb, ab, hb)) := c in decodes rb (s (vp_x R)) /\ decodes ab (s (vp_x A)) /\
                  decodes hb (pedersen_x rbases (rb ++ ab ++ mb)) /\ forall M, bitpre msg M s -> decodes mb (pedersen_x mbases M))
     (fun s c => map s (hram_result (pe_hash (ed_ver g))) = map b2F (snd (snd c)) /\
        (forall sb, bitpre sv sb s -> pt s lx ly = smul (bits_N sb) B) /\
        (on_curve (PR s) -> on_curve (PA s) -> pt s rx ry = padd (PR s) (smul (bits_N (snd (snd c))) (PA s))))
     (fun s => let rb := bits_of_Z 254 (fval (s (vp_x R))) in let ab := bits_of_Z 254 (fval (s (vp_x A))) in
               let mb := bits_of_Z 254 (fval (pedersen_x mbases (rdb s msg))) in
                (mb, (rb, ab, bits_of_Z 254 (fval (pedersen_x rbases (rb ++ ab ++ mb)))))).
Proof.
  intros HB He HL Hsv HGm HGr Hmsg HAx HAy HRx HRy PA PR.
  destruct (phb_pg mkb "EdDSA_Verify.M" mbases msg n HGm Hmsg) as (gm & n1 & c1 & N1 & C1 & L1 & F1 & G1). pose proof (p_le G1) as Le1.
  assert (Up : forall l, Forall (fun v => v < n) l -> Forall (fun v => v < n1) l).
  { intros l H. eapply Forall_impl; [|exact H]. cbn. intros; lia. }
  assert (F1' : Forall (fun v => v < n1) (phb_result gm)) by (eapply Forall_impl; [|exact F1]; cbn; intros; lia).
  destruct (pure_eddsa_pg mkb B rbases A R sv (phb_result gm) n1 HB He HL (Up _ Hsv) ltac:(rewrite L1; exact HGr) F1' ltac:(lia) ltac:(lia) ltac:(lia) ltac:(lia))
    as (gv & n2 & c2 & lx & ly & rx & ry & N2 & C2 & B1 & B2 & B3 & B4 & B5 & HV & HW & G2). pose proof (p_le G2) as Le2.
  exists {| ed_msg := gm; ed_ver := gv |}, n2, (c1 ++ c2), lx, ly, rx, ry. cbn [ed_msg ed_ver].
  split. { unfold eddsa_new. rewrite N1. cbn [obind]. rewrite N2. reflexivity. }
  split. { unfold eddsa_constraints. cbn [ed_msg ed_ver]. rewrite C1. cbn [obind]. rewrite C2. cbn [obind]. now rewrite app_assoc. }
  split; [exact B1|]. split; [exact B2|]. split; [exact B3|]. split; [exact B4|].
  split. { intros s H. apply sat_app in H. apply HV. apply H. }
  assert (EP : forall k s s', n <= k -> same k s s' -> PA s' = PA s /\ PR s' = PR s).
  { intros k s s' Hk E. unfold PA, PR. split; apply (pt_same k); auto; lia. }
  split. { intros s HA HR [sb Hsb] HM. unfold eddsa_witness. cbn [ed_msg ed_ver].
    destruct (p_wit G1 s HM) as (s1 & W1 & Fr1 & _ & Q1). rewrite W1. cbn [obind]. pose proof (frame_same _ _ _ _ Fr1) as E1.
    destruct (EP n s s1 (le_n n) E1) as [EA ER].
    destruct (HW s1) as (s2 & W2 & Fr2).
    - fold (PA s1). now rewrite EA.
    - fold (PR s1). now rewrite ER.
    - exists sb. apply (bitpre_same n _ _ s); auto.
    - eexists. exact Q1.
    - exists s2. split; [exact W2|]. apply (frame_trans n n1 n2 s s1); auto. }
  set (pre := fun s => on_curve (PA s) /\ (on_curve (PR s) /\ px (smul 8 (PR s)) <> F0) /\ (exists sb, bitpre sv sb s) /\ exists M, bitpre msg M s).
  assert (Hpre : forall s s', same n s s' -> pre s -> pre s').
  { intros s s' E (H1 & H2 & (sb & H3) & M & H4). destruct (EP n s s' (le_n n) E) as [EA ER]. unfold pre. rewrite EA, ER.
    split; [exact H1|]. split; [exact H2|]. split; [exists sb|exists M]; apply (bitpre_same n _ _ s); auto. }
  assert (G1' : pg n n1 c1 (phb_witness gm) pre (fun s hb => forall bs, bitpre msg bs s -> decodes hb (pedersen_x mbases bs))
      (fun s hb => map s (phb_result gm) = map b2F hb) (fun s => bits_of_Z 254 (fval (pedersen_x mbases (rdb s msg))))).
  { eapply pg_pre; [exact G1|exact Hpre|]. intros s (_ & _ & _ & H). exact H. }
  set (adm := fun (s : assign) (c : list bool * (list bool * list bool * list bool)) => let '(mb, (rb, ab, hb)) := c in
     decodes rb (s (vp_x R)) /\ decodes ab (s (vp_x A)) /\ decodes hb (pedersen_x rbases (rb ++ ab ++ mb))).
  set (can := fun s : assign => let rb := bits_of_Z 254 (fval (s (vp_x R))) in let ab := bits_of_Z 254 (fval (s (vp_x A))) in
               let mb := bits_of_Z 254 (fval (pedersen_x mbases (rdb s msg))) in
                (rb, ab, bits_of_Z 254 (fval (pedersen_x rbases (rb ++ ab ++ mb))))).
  assert (GS : pg n n2 (c1 ++ c2) (fun s => obind (phb_witness gm s) (pure_eddsa_witness gv)) pre
    (fun s c => (forall bs, bitpre msg bs s -> decodes (fst c) (pedersen_x mbases bs)) /\ adm s c)
    (fun s c => map s (phb_result gm) = map b2F (fst c) /\ (map s (hram_result (pe_hash gv)) = map b2F (snd (snd c)) /\
        (forall sb, bitpre sv sb s -> pt s lx ly = smul (bits_N sb) B) /\
        (on_curve (PR s) -> on_curve (PA s) -> pt s rx ry = padd (PR s) (smul (bits_N (snd (snd c))) (PA s)))))
    (fun s => (bits_of_Z 254 (fval (pedersen_x mbases (rdb s msg))), can s))).
  { apply (pg_seq n n1 n2 c1 c2 _ _ pre _ _ _ _ _ _ _ adm can G1' G2).
    - intros s mb (H1 & H2 & H3 & M & H4) Ha Hr. split.
      + split; [exact H1|]. split; [exact H2|]. split; [exact H3|]. exists mb. exact Hr.
      + intros [[rb ab] hb]. unfold adm. split.
        * intros (D1 & D2 & D3). split; [exact D1|]. split; [exact D2|]. intros M' HM'. rewrite (bitpre_fun _ M' mb s HM' Hr). exact D3.
        * intros (D1 & D2 & D3). split; [exact D1|]. split; [exact D2|]. apply D3. exact Hr.
    - intros s _ bs Hbs. rewrite (rdb_pre _ s bs Hbs). apply canonical_decodes, canonical_bits.
    - intros s _ Hr. unfold can. now rewrite (rdb_pre _ s _ Hr).
    - intros s s' (mb & ((rb & ab) & hb)) E H _. unfold adm in *. rewrite (E (vp_x R)), (E (vp_x A)) by assumption. exact H.
    - intros s s' E. unfold can. rewrite (E (vp_x R)), (E (vp_x A)) by assumption. rewrite (rdb_same n _ s s' Hmsg E). reflexivity. }
  unfold eddsa_witness. cbn [ed_msg ed_ver].
  eapply pg_map; [exact GS|..]; cbn beta.
  - intros s (mb & ((rb & ab) & hb)) _ (H1 & H2 & H3 & H4) (_ & H5). exists (mb, (rb, ab, hb)). split; [auto|exact H5].
  - intros s (mb & ((rb & ab) & hb)) _ (H1 & H2 & H3 & H4). exists (mb, (rb, ab, hb)). split; [unfold adm; auto|]. intros s' _ (_ & H5). exact H5.
  - intros s s' _ _ (_ & H5). exact H5.
  - intros s s' (mb & ((rb & ab) & hb)) E (H1 & H2 & H3 & H4). rewrite (E (vp_x R)), (E (vp_x A)) by assumption.
    split; [exact H1|]. split; [exact H2|]. split; [exact H3|]. intros M HM. apply H4. apply (bitpre_same n _ _ s'); auto using same_sym.
  - intros s s' (mb & ((rb & ab) & hb)) E (H1 & H2 & H3). destruct (EP n2 s s' ltac:(lia) E) as [EA ER]. rewrite EA, ER.
    rewrite (pt_same n2 lx ly s s'), (pt_same n2 rx ry s s') by auto.
    split; [|split; [|exact H3]].
    + rewrite <- H1. apply map_ext_in. intros v Hv. apply E. rewrite Forall_forall in B5. apply B5 in Hv. lia.
    + intros sb Hsb. apply H2. apply (bitpre_same n2 _ _ s'); auto using same_sym. eapply Forall_impl; [|exact Hsv]. cbn. intros; lia.
  - intros s s' E. unfold can. cbn zeta. rewrite (E (vp_x R)), (E (vp_x A)) by assumption. rewrite (rdb_same n _ s s' Hmsg E). reflexivity.
Qed.

(** ** The two gadgets, with the final comparison *)
Lemma eq_check s lx ly rx ry : sat s [R1 (V lx) L1 (V rx); R1 (V ly) L1 (V ry)] <-> pt s lx ly = pt s rx ry.
Proof.
  split.
  - intros H. apply sat_cons in H. destruct H as [H1 H]. apply sat_cons in H. destruct H as [H2 _]. unfold holds in *. cbn [cA cB cC ev L1] in *.
    apply point_eq; cbn [pt px py]; [rewrite <- H1|rewrite <- H2]; ring.
  - intros H. pose proof (f_equal px H) as H1. pose proof (f_equal py H) as H2. cbn [pt px py] in *.
    apply sat_cons. split; [|apply sat_cons; split; [|constructor]]; unfold holds; cbn [cA cB cC ev L1]; [rewrite H1|rewrite H2]; ring.
Qed.

Lemma pure_eddsa_lemma mkb B rbases A R sv msg n :
  on_curve B -> (List.length sv mod 2 = 0)%nat -> (4 <= List.length sv)%nat -> Forall (fun v => v < n)%nat sv -> Forall (fun v => v < n)%nat msg ->
  good_bases mkb "EdDSA_Verify.RAM" (508 + List.length msg) rbases ->
  (vp_x A < n)%nat -> (vp_y A < n)%nat -> (vp_x R < n)%nat -> (vp_y R < n)%nat ->
  exists g n' cs, pure_eddsa_new mkb B A R sv msg n = Ok (g, n') /\ pure_eddsa_constraints g = Ok cs /\
  forall (s : assign) (sb M : list bool), map s sv = map b2F sb -> map s msg = map b2F M ->
    let PA := mkpt (s (vp_x A)) (s (vp_y A)) in let PR := mkpt (s (vp_x R)) (s (vp_y R)) in
    on_curve PA ->
    (sat s cs -> on_curve PR /\ px (smul 8 PR) <> F0 /\
       exists rb ab hb, decodes rb (px PR) /\ decodes ab (px PA) /\ decodes hb (pedersen_x rbases (rb ++ ab ++ M)) /\
         map s (hram_result (pe_hash g)) = map b2F hb /\ eddsa_equation B PA PR (bits_N sb) (bits_N hb)) /\
    (on_curve PR -> px (smul 8 PR) <> F0 ->
       (forall rb ab hb, decodes rb (px PR) -> decodes ab (px PA) -> decodes hb (pedersen_x rbases (rb ++ ab ++ M)) ->
          eddsa_equation B PA PR (bits_N sb) (bits_N hb) ->
          exists s', frame n n' s s' /\ sat s' cs /\ map s' (hram_result (pe_hash g)) = map b2F hb) /\
       (forall rb ab hb, canonical rb (px PR) -> canonical ab (px PA) -> canonical hb (pedersen_x rbases (rb ++ ab ++ M)) ->
          exists s', pure_eddsa_witness g s = Ok s' /\ frame n n' s s' /\ map s' (hram_result (pe_hash g)) = map b2F hb /\
            (sat s' cs <-> eddsa_equation B PA PR (bits_N sb) (bits_N hb)))).
Proof.
  intros HB He HL Hsv Hmsg HG HAx HAy HRx HRy.
  destruct (pure_eddsa_pg mkb B rbases A R sv msg n HB He HL Hsv HG Hmsg HAx HAy HRx HRy)
    as (g & n' & cs & lx & ly & rx & ry & N & C & B1 & B2 & B3 & B4 & B5 & HV & HW & G).
  exists g, n', (cs ++ [R1 (V lx) L1 (V rx); R1 (V ly) L1 (V ry)]). split; [exact N|]. split; [exact C|].
  intros s sb M Hsb HM PA PR HA.
  assert (EP : forall s', frame n n' s s' -> pt s' (vp_x A) (vp_y A) = PA /\ pt s' (vp_x R) (vp_y R) = PR).
  { intros s' Fr. apply frame_same in Fr. split; [exact (pt_same n _ _ s s' HAx HAy Fr)|exact (pt_same n _ _ s s' HRx HRy Fr)]. }
  split.
  - intros HS. apply sat_app in HS. destruct HS as [S1 S2]. destruct (HV s S1) as [HR Hlow]. split; [exact HR|]. split; [exact Hlow|].
    destruct (p_sound G s) as ([[rb ab] hb] & (D1 & D2 & D3) & Q1 & Q2 & Q3).
    { split; [exact HA|]. split; [split; [exact HR|exact Hlow]|]. split; [exists sb; exact Hsb|exists M; exact HM]. }
    { exact S1. }
    exists rb, ab, hb. split; [exact D1|]. split; [exact D2|]. split; [apply D3; exact HM|]. split; [exact Q1|].
    unfold eddsa_equation. rewrite <- (Q2 sb Hsb). apply eq_check in S2. rewrite S2. apply Q3; assumption.
  - intros HR Hlow.
    assert (Hpre : on_curve (pt s (vp_x A) (vp_y A)) /\ (on_curve (pt s (vp_x R) (vp_y R)) /\ px (smul 8 (pt s (vp_x R) (vp_y R))) <> F0) /\
       (exists sb, bitpre sv sb s) /\ exists M, bitpre msg M s).
    { split; [exact HA|]. split; [split; [exact HR|exact Hlow]|]. split; [exists sb; exact Hsb|exists M; exact HM]. }
    split.
    + intros rb ab hb D1 D2 D3 Heq. destruct (p_ext G s (rb, ab, hb) Hpre) as (s' & Fr & S & Q1 & Q2 & Q3).
      { split; [exact D1|]. split; [exact D2|]. intros M' HM'. rewrite (bitpre_fun _ M' M s HM' HM). exact D3. }
      exists s'. split; [exact Fr|]. split; [|exact Q1]. apply sat_app. split; [exact S|]. apply eq_check.
      destruct (EP s' Fr) as [EA ER]. rewrite (Q2 sb), Q3.
      * rewrite EA, ER. exact Heq.
      * rewrite ER. exact HR.
      * rewrite EA. exact HA.
      * apply (bitpre_same n _ _ s); auto. exact (frame_same _ _ _ _ Fr).
    + intros rb ab hb D1 D2 D3. destruct (p_wit G s Hpre) as (s' & W & Fr & S & Q1 & Q2 & Q3).
      assert (E1 : bits_of_Z 254 (fval (s (vp_x R))) = rb) by (apply (canonical_unique _ _ (px PR)); [apply canonical_bits|exact D1]).
      assert (E2 : bits_of_Z 254 (fval (s (vp_x A))) = ab) by (apply (canonical_unique _ _ (px PA)); [apply canonical_bits|exact D2]).
      cbn zeta in Q1, Q3. cbn [snd] in Q1, Q3. rewrite E1, E2, (rdb_pre _ s M HM) in Q1, Q3.
      assert (E3 : bits_of_Z 254 (fval (pedersen_x rbases (rb ++ ab ++ M))) = hb) by (apply (canonical_unique _ _ (pedersen_x rbases (rb ++ ab ++ M))); [apply canonical_bits|exact D3]).
      rewrite E3 in Q1, Q3. exists s'. split; [exact W|]. split; [exact Fr|]. split; [exact Q1|].
      destruct (EP s' Fr) as [EA ER].
      rewrite sat_app, eq_check, (Q2 sb), Q3.
      * rewrite EA, ER. unfold eddsa_equation. tauto.
      * rewrite ER. exact HR.
      * rewrite EA. exact HA.
      * apply (bitpre_same n _ _ s); auto. exact (frame_same _ _ _ _ Fr).
Qed.

Lemma eddsa_lemma mkb B mbases rbases A R sv msg n :
  on_curve B -> (List.length sv mod 2 = 0)%nat -> (4 <= List.length sv)%nat -> Forall (fun v => v < n)%nat sv -> Forall (fun v => v < n)%nat msg ->
  good_bases mkb "EdDSA_Verify.M" (List.length msg) mbases -> good_bases mkb "EdDSA_Verify.RAM" 762 rbases ->
  (vp_x A < n)%nat -> (vp_y A < n)%nat -> (vp_x R < n)%nat -> (vp_y R < n)%nat ->
  exists g n' cs, eddsa_new mkb B A R sv msg n = Ok (g, n') /\ eddsa_constraints g = Ok cs /\
  forall (s : assign) (sb M : list bool), map s sv = map b2F sb -> map s msg = map b2F M ->
    let PA := mkpt (s (vp_x A)) (s (vp_y A)) in let PR := mkpt (s (vp_x R)) (s (vp_y R)) in
    on_curve PA ->
    (sat s cs -> on_curve PR /\ px (smul 8 PR) <> F0 /\
       exists mb rb ab hb, decodes mb (pedersen_x mbases M) /\ decodes rb (px PR) /\ decodes ab (px PA) /\
         decodes hb (pedersen_x rbases (rb ++ ab ++ mb)) /\
         map s (hram_result (pe_hash (ed_ver g))) = map b2F hb /\ eddsa_equation B PA PR (bits_N sb) (bits_N hb)) /\
    (on_curve PR -> px (smul 8 PR) <> F0 ->
       (forall mb rb ab hb, decodes mb (pedersen_x mbases M) -> decodes rb (px PR) -> decodes ab (px PA) ->
          decodes hb (pedersen_x rbases (rb ++ ab ++ mb)) -> eddsa_equation B PA PR (bits_N sb) (bits_N hb) ->
          exists s', frame n n' s s' /\ sat s' cs /\ map s' (hram_result (pe_hash (ed_ver g))) = map b2F hb) /\
       (forall mb rb ab hb, canonical mb (pedersen_x mbases M) -> canonical rb (px PR) -> canonical ab (px PA) ->
          canonical hb (pedersen_x rbases (rb ++ ab ++ mb)) ->
          exists s', eddsa_witness g s = Ok s' /\ frame n n' s s' /\ map s' (hram_result (pe_hash (ed_ver g))) = map b2F hb /\
            (sat s' cs <-> eddsa_equation B PA PR (bits_N sb) (bits_N hb)))).
Proof.
  intros HB He HL Hsv Hmsg HGm HG HAx HAy HRx HRy.
  destruct (eddsa_pg mkb B mbases rbases A R sv msg n HB He HL Hsv HGm HG Hmsg HAx HAy HRx HRy)
    as (g & n' & cs & lx & ly & rx & ry & N & C & B1 & B2 & B3 & B4 & HV & HW & G).
  exists g, n', (cs ++ [R1 (V lx) L1 (V rx); R1 (V ly) L1 (V ry)]). split; [exact N|]. split; [exact C|].
  intros s sb M Hsb HM PA PR HA.
  assert (EP : forall s', frame n n' s s' -> pt s' (vp_x A) (vp_y A) = PA /\ pt s' (vp_x R) (vp_y R) = PR).
  { intros s' Fr. apply frame_same in Fr. split; [exact (pt_same n _ _ s s' HAx HAy Fr)|exact (pt_same n _ _ s s' HRx HRy Fr)]. }
  split.
  - intros HS. apply sat_app in HS. destruct HS as [S1 S2]. destruct (HV s S1) as [HR Hlow]. split; [exact HR|]. split; [exact Hlow|].
    destruct (p_sound G s) as ((mb & ((rb & ab) & hb)) & (D1 & D2 & D3 & D4) & Q1 & Q2 & Q3).
    { split; [exact HA|]. split; [split; [exact HR|exact Hlow]|]. split; [exists sb; exact Hsb|exists M; exact HM]. }
    { exact S1. }
    exists mb, rb, ab, hb. split; [apply D4; exact HM|]. split; [exact D1|]. split; [exact D2|]. split; [exact D3|]. split; [exact Q1|].
    unfold eddsa_equation. rewrite <- (Q2 sb Hsb). apply eq_check in S2. rewrite S2. apply Q3; assumption.
  - intros HR Hlow.
    assert (Hpre : on_curve (pt s (vp_x A) (vp_y A)) /\ (on_curve (pt s (vp_x R) (vp_y R)) /\ px (smul 8 (pt s (vp_x R) (vp_y R))) <> F0) /\
       (exists sb, bitpre sv sb s) /\ exists M, bitpre msg M s).
    { split; [exact HA|]. split; [split; [exact HR|exact Hlow]|]. split; [exists sb; exact Hsb|exists M; exact HM]. }
    split.
    + intros mb rb ab hb D0 D1 D2 D3 Heq. destruct (p_ext G s (mb, (rb, ab, hb)) Hpre) as (s' & Fr & S & Q1 & Q2 & Q3).
      { split; [exact D1|]. split; [exact D2|]. split; [exact D3|]. intros M' HM'. rewrite (bitpre_fun _ M' M s HM' HM). exact D0. }
      exists s'. split; [exact Fr|]. split; [|exact Q1]. apply sat_app. split; [exact S|]. apply eq_check.
      destruct (EP s' Fr) as [EA ER]. rewrite (Q2 sb), Q3.
      * rewrite EA, ER. exact Heq.
      * rewrite ER. exact HR.
      * rewrite EA. exact HA.
      * apply (bitpre_same n _ _ s); auto. exact (frame_same _ _ _ _ Fr).
    + intros mb rb ab hb D0 D1 D2 D3. destruct (p_wit G s Hpre) as (s' & W & Fr & S & Q1 & Q2 & Q3).
      assert (E0 : bits_of_Z 254 (fval (pedersen_x mbases M)) = mb) by (apply (canonical_unique _ _ (pedersen_x mbases M)); [apply canonical_bits|exact D0]).
      assert (E1 : bits_of_Z 254 (fval (s (vp_x R))) = rb) by (apply (canonical_unique _ _ (px PR)); [apply canonical_bits|exact D1]).
      assert (E2 : bits_of_Z 254 (fval (s (vp_x A))) = ab) by (apply (canonical_unique _ _ (px PA)); [apply canonical_bits|exact D2]).
      cbn zeta in Q1, Q3. cbn [snd] in Q1, Q3. rewrite (rdb_pre _ s M HM), E0, E1, E2 in Q1, Q3.
      assert (E3 : bits_of_Z 254 (fval (pedersen_x rbases (rb ++ ab ++ mb))) = hb) by (apply (canonical_unique _ _ (pedersen_x rbases (rb ++ ab ++ mb))); [apply canonical_bits|exact D3]).
      rewrite E3 in Q1, Q3. exists s'. split; [exact W|]. split; [exact Fr|]. split; [exact Q1|].
      destruct (EP s' Fr) as [EA ER].
      rewrite sat_app, eq_check, (Q2 sb), Q3.
      * rewrite EA, ER. unfold eddsa_equation. tauto.
      * rewrite ER. exact HR.
      * rewrite EA. exact HA.
      * apply (bitpre_same n _ _ s); auto. exact (frame_same _ _ _ _ Fr).
Qed.

(** ** eddsa_open *)
Lemma open_state (B A R : point) (s : F) (msg : list bool) : let m := List.length msg in
  let mv := var_array 1 m in
  let s0 := upds (fun _ => F0) mv (map b2F msg) in
  let sv := var_array (1 + m) 254 in
  let s0 := upds s0 sv (map b2F (bits_of_Z 254 (fval s))) in
  let s0 := upd (upd s0 (255 + m)%nat (px A)) (256 + m)%nat (py A) in
  let s0 := upd (upd s0 (257 + m)%nat (px R)) (258 + m)%nat (py R) in
  bitpre mv msg s0 /\ bitpre sv (bits_of_Z 254 (fval s)) s0 /\ pt s0 (255 + m) (256 + m) = A /\ pt s0 (257 + m) (258 + m) = R /\
  Forall (fun v => v < 259 + m) mv /\ Forall (fun v => v < 259 + m) sv /\ List.length mv = m /\ List.length sv = 254.
Proof.
  intros m mv s1 sv s2 s3 s4.
  assert (O : forall v, v < 255 + m -> s4 v = s2 v). { intros v Hv. unfold s4, s3. rewrite !upd_other by lia. reflexivity. }
  assert (Lm : List.length mv = m) by apply seq_length. assert (Ls : List.length sv = 254) by apply seq_length.
  split.
  { unfold bitpre. rewrite <- (upds_map (fun _ => F0) mv (map b2F msg)); [|apply seq_NoDup|now rewrite map_length].
    apply map_ext_in. intros v Hv. apply var_array_In in Hv. rewrite O by lia. unfold s2. rewrite upds_other; [reflexivity|].
    intros H. apply var_array_In in H. lia. }
  split.
  { unfold bitpre. rewrite <- (upds_map s1 sv (map b2F (bits_of_Z 254 (fval s)))); [|apply seq_NoDup|rewrite map_length, bits_of_Z_length; now symmetry].
    apply map_ext_in. intros v Hv. apply var_array_In in Hv. rewrite O by lia. reflexivity. }
  split. { apply point_eq; cbn [pt px py]; unfold s4, s3.
    - rewrite !upd_other by lia. apply upd_same.
    - rewrite upd_other by lia. rewrite upd_other by lia. apply upd_same. }
  split. { apply point_eq; cbn [pt px py]; unfold s4.
    - rewrite upd_other by lia. apply upd_same.
    - apply upd_same. }
  split; [apply Forall_forall; intros v Hv; apply var_array_In in Hv; lia|].
  split; [apply Forall_forall; intros v Hv; apply var_array_In in Hv; lia|]. auto.
Qed.

(** without a valid R nothing verifies; with one the result is the verification equation for the canonical challenge *)
Lemma pure_eddsa_open_lemma mkb B A R s msg rbases :
  on_curve B -> on_curve A -> on_curve R -> good_bases mkb "EdDSA_Verify.RAM" (508 + List.length msg) rbases ->
  forall rb ab hb, canonical rb (px R) -> canonical ab (px A) -> canonical hb (pedersen_x rbases (rb ++ ab ++ msg)) ->
  exists b, pure_eddsa_open mkb B A R s msg = Ok b /\
    (b = true <-> px (smul 8 R) <> F0 /\ eddsa_equation B A R (Z.to_N (fval s)) (bits_N hb)).
Proof.
  intros HB HA HR HG rb ab hb D1 D2 D3.
  pose proof (open_state B A R s msg) as OS. cbv zeta in OS. destruct OS as (Pm & Ps & PA & PR & Fm & Fs & Lm & Ls).
  unfold pure_eddsa_open, eddsa_open_with. cbv zeta. cbn [vp_x vp_y].
  set (m := List.length msg) in *. set (mv := var_array 1 m) in *. set (sv := var_array (1 + m) 254) in *.
  match type of Pm with bitpre _ _ ?st => set (s0 := st) in * end.
  set (Av := {| vp_x := (255 + m)%nat; vp_y := (256 + m)%nat |}). set (Rv := {| vp_x := (257 + m)%nat; vp_y := (258 + m)%nat |}).
  assert (Esb : bits_N (bits_of_Z 254 (fval s)) = Z.to_N (fval s)).
  { destruct (canonical_bits s) as [_ E]. exact (eq_trans (eq_sym (N2Z.id _)) (f_equal Z.to_N E)). }
  destruct (pure_eddsa_pg mkb B rbases Av Rv sv mv (259 + m) HB ltac:(rewrite Ls; reflexivity) ltac:(rewrite Ls; lia) Fs ltac:(rewrite Lm; exact HG) Fm
     ltac:(cbn; lia) ltac:(cbn; lia) ltac:(cbn; lia) ltac:(cbn; lia))
    as (g & n' & cs & lx & ly & rx & ry & N & C & B1 & B2 & B3 & B4 & B5 & HV & HW & G).
  rewrite N. cbn [obind]. rewrite C. cbn [obind]. cbn [vp_x vp_y Av Rv] in HV, HW, G.
  destruct (HW s0) as (s1 & W & Fr).
  { rewrite PA. exact HA. } { rewrite PR. exact HR. } { eexists; exact Ps. } { eexists; exact Pm. }
  rewrite W. cbn [obind]. eexists. split; [reflexivity|]. rewrite satb_spec, sat_app.
  pose proof (frame_same _ _ _ _ Fr) as Sm.
  assert (PR1 : pt s1 (257 + m) (258 + m) = R) by (rewrite (pt_same (259 + m) _ _ s0 s1); auto; lia).
  assert (PA1 : pt s1 (255 + m) (256 + m) = A) by (rewrite (pt_same (259 + m) _ _ s0 s1); auto; lia).
  assert (Run : px (smul 8 R) <> F0 -> sat s1 cs /\ pt s1 lx ly = smul (Z.to_N (fval s)) B /\ pt s1 rx ry = padd R (smul (bits_N hb) A)).
  { intros Hlow. destruct (p_wit G s0) as (s2 & W2 & Fr2 & S2 & Q1 & Q2 & Q3).
    { rewrite PA, PR. split; [exact HA|]. split; [split; assumption|]. split; [eexists; exact Ps|eexists; exact Pm]. }
    rewrite W in W2. apply Ok_inj in W2. subst s2. split; [exact S2|].
    assert (E1 : bits_of_Z 254 (fval (s0 (257 + m))) = rb).
    { apply (canonical_unique _ _ (px R)); [|exact D1]. rewrite <- PR. apply canonical_bits. }
    assert (E2 : bits_of_Z 254 (fval (s0 (255 + m))) = ab).
    { apply (canonical_unique _ _ (px A)); [|exact D2]. rewrite <- PA. apply canonical_bits. }
    cbn zeta in Q1, Q3. cbn [snd] in Q1, Q3. rewrite E1, E2, (rdb_pre _ s0 msg Pm) in Q1, Q3.
    assert (E3 : bits_of_Z 254 (fval (pedersen_x rbases (rb ++ ab ++ msg))) = hb) by (apply (canonical_unique _ _ (pedersen_x rbases (rb ++ ab ++ msg))); [apply canonical_bits|exact D3]).
    rewrite E3 in Q1, Q3. rewrite PR1, PA1 in Q3. split; [|apply Q3; assumption].
    rewrite <- Esb. apply Q2. apply (bitpre_same (259 + m) _ _ s0); auto. }
  rewrite eq_check. unfold eddsa_equation. split.
  - intros [S1 S2]. destruct (HV s1 S1) as [_ Hlow]. rewrite PR1 in Hlow. destruct (Run Hlow) as (_ & E1 & E2). split; [exact Hlow|]. rewrite <- E1, <- E2. exact S2.
  - intros [Hlow E]. destruct (Run Hlow) as (S1 & E1 & E2). split; [exact S1|]. rewrite E1, E2. exact E.
Qed.

Lemma eddsa_open_lemma mkb B A R s msg mbases rbases :
  on_curve B -> on_curve A -> on_curve R ->
  good_bases mkb "EdDSA_Verify.M" (List.length msg) mbases -> good_bases mkb "EdDSA_Verify.RAM" 762 rbases ->
  forall mb rb ab hb, canonical mb (pedersen_x mbases msg) -> canonical rb (px R) -> canonical ab (px A) ->
  canonical hb (pedersen_x rbases (rb ++ ab ++ mb)) ->
  exists b, eddsa_open mkb B A R s msg = Ok b /\
    (b = true <-> px (smul 8 R) <> F0 /\ eddsa_equation B A R (Z.to_N (fval s)) (bits_N hb)).
Proof.
  intros HB HA HR HGm HG mb rb ab hb D0 D1 D2 D3.
  pose proof (open_state B A R s msg) as OS. cbv zeta in OS. destruct OS as (Pm & Ps & PA & PR & Fm & Fs & Lm & Ls).
  unfold eddsa_open, eddsa_open_with. cbv zeta. cbn [vp_x vp_y].
  set (m := List.length msg) in *. set (mv := var_array 1 m) in *. set (sv := var_array (1 + m) 254) in *.
  match type of Pm with bitpre _ _ ?st => set (s0 := st) in * end.
  set (Av := {| vp_x := (255 + m)%nat; vp_y := (256 + m)%nat |}). set (Rv := {| vp_x := (257 + m)%nat; vp_y := (258 + m)%nat |}).
  assert (Esb : bits_N (bits_of_Z 254 (fval s)) = Z.to_N (fval s)).
  { destruct (canonical_bits s) as [_ E]. exact (eq_trans (eq_sym (N2Z.id _)) (f_equal Z.to_N E)). }
  destruct (eddsa_pg mkb B mbases rbases Av Rv sv mv (259 + m) HB ltac:(rewrite Ls; reflexivity) ltac:(rewrite Ls; lia) Fs ltac:(rewrite Lm; exact HGm) HG Fm
     ltac:(cbn; lia) ltac:(cbn; lia) ltac:(cbn; lia) ltac:(cbn; lia))
    as (g & n' & cs & lx & ly & rx & ry & N & C & B1 & B2 & B3 & B4 & HV & HW & G).
  rewrite N. cbn [obind]. rewrite C. cbn [obind]. cbn [vp_x vp_y Av Rv] in HV, HW, G.
  destruct (HW s0) as (s1 & W & Fr).
  { rewrite PA. exact HA. } { rewrite PR. exact HR. } { eexists; exact Ps. } { eexists; exact Pm. }
  rewrite W. cbn [obind]. eexists. split; [reflexivity|]. rewrite satb_spec, sat_app.
  pose proof (frame_same _ _ _ _ Fr) as Sm.
  assert (PR1 : pt s1 (257 + m) (258 + m) = R) by (rewrite (pt_same (259 + m) _ _ s0 s1); auto; lia).
  assert (PA1 : pt s1 (255 + m) (256 + m) = A) by (rewrite (pt_same (259 + m) _ _ s0 s1); auto; lia).
  assert (Run : px (smul 8 R) <> F0 -> sat s1 cs /\ pt s1 lx ly = smul (Z.to_N (fval s)) B /\ pt s1 rx ry = padd R (smul (bits_N hb) A)).
  { intros Hlow. destruct (p_wit G s0) as (s2 & W2 & Fr2 & S2 & Q1 & Q2 & Q3).
    { rewrite PA, PR. split; [exact HA|]. split; [split; assumption|]. split; [eexists; exact Ps|eexists; exact Pm]. }
    rewrite W in W2. apply Ok_inj in W2. subst s2. split; [exact S2|].
    assert (E0 : bits_of_Z 254 (fval (pedersen_x mbases msg)) = mb) by (apply (canonical_unique _ _ (pedersen_x mbases msg)); [apply canonical_bits|exact D0]).
    assert (E1 : bits_of_Z 254 (fval (s0 (257 + m))) = rb).
    { apply (canonical_unique _ _ (px R)); [|exact D1]. rewrite <- PR. apply canonical_bits. }
    assert (E2 : bits_of_Z 254 (fval (s0 (255 + m))) = ab).
    { apply (canonical_unique _ _ (px A)); [|exact D2]. rewrite <- PA. apply canonical_bits. }
    cbn zeta in Q1, Q3. cbn [snd] in Q1, Q3. rewrite (rdb_pre _ s0 msg Pm), E0, E1, E2 in Q1, Q3.
    assert (E3 : bits_of_Z 254 (fval (pedersen_x rbases (rb ++ ab ++ mb))) = hb) by (apply (canonical_unique _ _ (pedersen_x rbases (rb ++ ab ++ mb))); [apply canonical_bits|exact D3]).
    rewrite E3 in Q1, Q3. rewrite PR1, PA1 in Q3. split; [|apply Q3; assumption].
    rewrite <- Esb. apply Q2. apply (bitpre_same (259 + m) _ _ s0); auto. }
  rewrite eq_check. unfold eddsa_equation. split.
  - intros [S1 S2]. destruct (HV s1 S1) as [_ Hlow]. rewrite PR1 in Hlow. destruct (Run Hlow) as (_ & E1 & E2). split; [exact Hlow|]. rewrite <- E1, <- E2. exact S2.
  - intros [Hlow E]. destruct (Run Hlow) as (S1 & E1 & E2). split; [exact S1|]. rewrite E1, E2. exact E.
Qed.
