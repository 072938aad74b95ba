(** The scanner on the texts of Spec_Lexer. *)
From Coq Require Import List ZArith Bool Arith Ascii String Lia.
From Verif Require Import Primes Field Base R1CS M_Circuit M_Export M_Lexer Spec_Export Spec_Lexer P_Export.
Import ListNotations.
Local Open Scope list_scope.
Local Open Scope nat_scope.

(** ** characters and numbers *)
Definition blank (c : ascii) : Prop := c = " "%char \/ c = "009"%char.
Definition nonul (c : ascii) : Prop := c <> "000"%char.
Lemma digit_char b c n : (b <= 36)%Z -> digit b c n -> (0 <= digit_value c < b)%Z /\ digit_value c = n.
Proof. intros Hb H. apply (digit_spec b c n Hb) in H. pose proof (digit_value_range c). lia. Qed.
Lemma dv_char (P : ascii -> bool) : forallb (fun n => let c := ascii_of_nat n in (36 <=? digit_value c)%Z || P c) (seq 0 256) = true ->
  forall c, (digit_value c < 36)%Z -> P c = true.
Proof.
  intros H c Hc. pose proof (ascii_all (fun c => (36 <=? digit_value c)%Z || P c) H c) as X. apply orb_prop in X.
  destruct X as [X|X]; [apply Z.leb_le in X; lia|exact X].
Qed.
Lemma dv_nospace c : (digit_value c < 36)%Z -> isspace c = false.
Proof. intros H. apply (dv_char (fun c => negb (isspace c))) in H; [now apply negb_true_iff in H|vm_compute; reflexivity]. Qed.
Lemma dv_not x c : (digit_value c < 36)%Z -> (36 <=? digit_value x)%Z = true -> c <> x.
Proof. intros H Hx ->. apply Z.leb_le in Hx. lia. Qed.
Lemma blank_space c : blank c -> isspace c = true. Proof. intros [-> | ->]; reflexivity. Qed.
Lemma eqb_neq (a b : ascii) : a <> b -> Ascii.eqb a b = false. Proof. apply Ascii.eqb_neq. Qed.
Lemma T_app a b : T (a ++ b) = T a ++ T b.
Proof. unfold T. induction a as [|c a IH]; [reflexivity|]. cbn. now rewrite IH. Qed.

Lemma written_ok b s v : (2 <= b <= 36)%Z -> written b s v ->
  s <> [] /\ Forall (fun c => (0 <= digit_value c < b)%Z) s /\ (0 <= v)%Z /\ fold_left (fun a c => (b * a + digit_value c)%Z) s 0%Z = v.
Proof.
  intros Hb H. induction H as [c n H|s v c n Hw IH H].
  - apply digit_char in H; [|lia]. destruct H as [H <-]. repeat split; [discriminate|constructor; [exact H|constructor]|lia|]. cbn [fold_left]. lia.
  - apply digit_char in H; [|lia]. destruct H as [H <-]. destruct IH as (A & B & C & D). repeat split.
    + now destruct s.
    + apply Forall_app. split; [exact B|]. constructor; [exact H|constructor].
    + lia.
    + rewrite fold_left_app, D. reflexivity.
Qed.
Lemma written_mpz s : Forall (fun c => (0 <= digit_value c < 16)%Z) s -> forall a, mpz_digits 16 s a = Some (fold_left (fun a c => (16 * a + digit_value c)%Z) s a).
Proof.
  induction 1 as [|c s Hc Hs IH]; intros a; [reflexivity|]. cbn [mpz_digits fold_left]. rewrite dv_nospace by lia.
  replace (digit_value c <? 16)%Z with true by (symmetry; apply Z.ltb_lt; lia). apply IH.
Qed.
Lemma isdigit_iff c : isdigit c = true <-> (digit_value c < 10)%Z. Proof. apply Z.ltb_lt. Qed.

(** ** span, c_str, skip_space *)
Definition stops (p : ascii -> bool) (s : text) : Prop := match s with [] => True | c :: _ => p c = false end.
Lemma span_app p a b : Forall (fun c => p c = true) a -> stops p b -> span p (a ++ b) = (a, b).
Proof.
  intros H Hb. induction H as [|c a Hc Ha IH]; cbn [app].
  - destruct b as [|c b]; [reflexivity|]. cbn [span]. cbn [stops] in Hb. now rewrite Hb.
  - cbn [span]. now rewrite Hc, IH.
Qed.
Lemma c_str_app a b : Forall nonul a -> c_str (a ++ b) = a ++ c_str b.
Proof. induction 1 as [|c a Hc Ha IH]; [reflexivity|]. cbn [app c_str]. rewrite eqb_neq by exact Hc. now rewrite IH. Qed.
Lemma skip_stop s : stops isspace s -> skip_space s = s.
Proof. destruct s as [|c s]; [reflexivity|]. cbn [stops skip_space]. now intros ->. Qed.
Lemma skip_blanks b s : Forall (fun c => isspace c = true) b -> stops isspace s -> skip_space (b ++ s) = s.
Proof. induction 1 as [|c b Hc Hb IH]; intros Hs; [now apply skip_stop|]. cbn [app skip_space]. rewrite Hc. now apply IH. Qed.
Lemma no_digit_stops s : no_digit_first s -> stops isdigit (c_str s).
Proof.
  destruct s as [|c s]; [trivial|]. cbn [no_digit_first c_str]. intros H. destruct (Ascii.eqb c "000"); [exact I|]. cbn [stops].
  destruct (isdigit c) eqn:E; [|reflexivity]. apply isdigit_iff in E. exfalso. apply (H (digit_value c)). apply digit_spec; [lia|]. now split.
Qed.

(** ** one conversion at a time *)
Lemma s_lit c f r : scan (DLit c :: f) (c :: r) = scan f r. Proof. cbn [scan]. now rewrite Ascii.eqb_refl. Qed.
Lemma s_miss c c' f r : c <> c' -> scan (DLit c :: f) (c' :: r) = Ok []. Proof. intros H. cbn [scan]. now rewrite eqb_neq. Qed.
Lemma s_ws0 f s : stops isspace s -> scan (DWs :: f) s = scan f s. Proof. intros H. cbn [scan]. now rewrite skip_stop. Qed.
Lemma s_ws1 f s : stops isspace s -> scan (DWs :: f) (" "%char :: s) = scan f s. Proof. intros H. cbn [scan skip_space]. change (isspace " ") with true. cbn iota. now rewrite skip_stop. Qed.
Lemma written10 d z : written 10 d z -> exists c t, d = c :: t /\ (digit_value c < 10)%Z /\ Forall (fun c => isdigit c = true) d /\ dec_value d = z /\ (0 <= z)%Z.
Proof.
  intros H. apply written_ok in H; [|lia]. destruct H as (A & B & C & D). destruct d as [|c t]; [now destruct A|]. exists c, t.
  split; [reflexivity|]. pose proof (Forall_inv B) as B1. cbn beta in B1. split; [lia|]. split; [|split; [exact D|exact C]].
  eapply Forall_impl; [|exact B]. intros a Ha. cbn beta in Ha. apply isdigit_iff. lia.
Qed.
Lemma dig_sign c t : (digit_value c < 36)%Z -> scan_sign (c :: t) = (false, c :: t).
Proof. intros H. cbn [scan_sign]. rewrite !eqb_neq; [reflexivity|..]; apply dv_not; try exact H; reflexivity. Qed.
Lemma dig_stop c t : (digit_value c < 36)%Z -> stops isspace (c :: t). Proof. apply dv_nospace. Qed.
Lemma s_uint bits f d z r : written 10 d z -> stops isdigit r ->
  scan (DUint bits :: f) (d ++ r) = (vs <- scan f r ;; Ok (VU (glibc_uint bits false z) :: vs)).
Proof.
  intros H Hr. destruct (written10 d z H) as (c & t & -> & Hc & Hd & <- & _). cbn [scan].
  rewrite skip_stop by (cbn [app]; apply dig_stop; lia). cbn [app]. rewrite dig_sign by lia. change (c :: t ++ r) with ((c :: t) ++ r).
  rewrite span_app by assumption. reflexivity.
Qed.
Lemma glibc_small z : (0 <= z < 2 ^ 32)%Z -> glibc_uint 32 false z = z.
Proof.
  intros H. unfold glibc_uint. replace (z <? 2 ^ 64)%Z with true by (symmetry; apply Z.ltb_lt; lia). apply Z.mod_small. exact H.
Qed.
Lemma s_uint32 f d z r : written 10 d z -> (z < 2 ^ 32)%Z -> stops isdigit r -> scan (DUint 32 :: f) (d ++ r) = (vs <- scan f r ;; Ok (VU z :: vs)).
Proof. intros H Hz Hr. rewrite (s_uint 32 f d z r H Hr). rewrite glibc_small; [reflexivity|]. destruct (written10 d z H) as (_ & _ & _ & _ & _ & _ & X). lia. Qed.
Lemma s_set p cap f t r : t <> [] -> Forall (fun c => p c = true) t -> stops p r -> List.length t < cap ->
  scan (DSet p cap :: f) (t ++ r) = (vs <- scan f r ;; Ok (VS t :: vs)).
Proof.
  intros Ht H Hr Hc. cbn [scan]. rewrite span_app by assumption. destruct t as [|c t]; [now destruct Ht|]. cbn [store].
  replace (S (List.length (c :: t)) <=? cap) with true by (symmetry; apply Nat.leb_le; lia). reflexivity.
Qed.
Lemma s_str cap f t r : t <> [] -> Forall (fun c => isspace c = false) t -> stops (fun c => negb (isspace c)) r -> List.length t < cap ->
  scan (DStr cap :: f) (t ++ r) = (vs <- scan f r ;; Ok (VS t :: vs)).
Proof.
  intros Ht H Hr Hc. cbn [scan]. destruct t as [|c t]; [now destruct Ht|]. inversion H; subst.
  rewrite skip_stop by assumption. rewrite span_app; [|eapply Forall_impl; [|exact H]; intros a ->; reflexivity|exact Hr]. cbn [store].
  replace (S (List.length (c :: t)) <=? cap) with true by (symmetry; apply Nat.leb_le; lia). reflexivity.
Qed.

(** ** lists of wires and of table entries *)
Definition good (c : ascii) : Prop := blank c \/ (0 <= digit_value c < 10)%Z.
Lemma good_nonul c : good c -> nonul c.
Proof. intros [[-> | ->]|H]; [discriminate..|]. apply dv_not; [lia|reflexivity]. Qed.
Lemma good_notgt c : good c -> not_gt c = true.
Proof. intros [[-> | ->]|H]; [reflexivity..|]. unfold not_gt. rewrite eqb_neq; [reflexivity|]. apply dv_not; [lia|reflexivity]. Qed.
Lemma written10_good d z : written 10 d z -> Forall good d.
Proof. intros H. apply written_ok in H; [|lia]. destruct H as (_ & B & _). eapply Forall_impl; [|exact B]. now right. Qed.
Lemma items_good {A} (one : text -> A -> Prop) : (forall s a, one s a -> s <> [] /\ Forall good s) -> forall s l, items one s l -> s <> [] /\ Forall good s.
Proof.
  intros H s l Hi. induction Hi as [s a H1|s a b t l H1 Hb Hi IH]; [now apply (H s a)|]. destruct (H s a H1) as [A1 A2]. split; [now destruct s|].
  apply Forall_app. split; [exact A2|]. apply Forall_app. split; [|apply IH]. destruct Hb as [_ Hb]. eapply Forall_impl; [|exact Hb]. now left.
Qed.
Lemma wire_good s w : wire_text s w -> s <> [] /\ Forall good s.
Proof. intros (z & H & _). split; [|now apply written10_good in H]. apply written_ok in H; [|lia]. tauto. Qed.
Lemma entry_good s x : entry_text s x -> s <> [] /\ Forall good s.
Proof. intros (z & H & _). split; [|now apply written10_good in H]. apply written_ok in H; [|lia]. tauto. Qed.
Lemma blanks_stop b t : blanks b -> stops isdigit (b ++ t) /\ stops (fun c => negb (isspace c)) (b ++ t).
Proof. intros [Hb H]. destruct b as [|c b]; [now destruct Hb|]. inversion H as [|? ? Hc]; subst. cbn [app stops]. destruct Hc as [-> | ->]; split; reflexivity. Qed.
Lemma item_first {A} (one : text -> A -> Prop) : (forall s a, one s a -> exists c t, s = c :: t /\ (digit_value c < 10)%Z) ->
  forall s l, items one s l -> exists c t, s = c :: t /\ (digit_value c < 10)%Z.
Proof.
  intros H s l Hi. destruct Hi as [s a H1|s a b t l H1 _ _]; [now apply (H s a)|]. destruct (H s a H1) as (c & r & -> & Hc). now exists c, (r ++ b ++ t).
Qed.
Lemma wire_first s w : wire_text s w -> exists c t, s = c :: t /\ (digit_value c < 10)%Z.
Proof. intros (z & H & _). destruct (written10 s z H) as (c & t & -> & Hc & _). now exists c, t. Qed.
Lemma entry_first s x : entry_text s x -> exists c t, s = c :: t /\ (digit_value c < 10)%Z.
Proof. intros (z & H & _). destruct (written10 s z H) as (c & t & -> & Hc & _). now exists c, t. Qed.
Lemma blanks_space b : Forall (fun c => c = " "%char \/ c = "009"%char) b -> Forall (fun c => isspace c = true) b.
Proof. intros H. eapply Forall_impl; [|exact H]. intros c. apply blank_space. Qed.
Lemma stream_blanks b s : Forall (fun c => isspace c = true) b -> stops isspace s -> stream_uint (b ++ s) = stream_uint s.
Proof. intros Hb Hs. unfold stream_uint. rewrite skip_blanks by assumption. now rewrite skip_stop. Qed.
Lemma stream_wire d w r : wire_text d w -> stops isdigit r -> exists z, stream_uint (d ++ r) = Some (z, r) /\ w = Z.to_nat z.
Proof.
  intros (z & H & Hz & ->) Hr. exists z. split; [|reflexivity]. destruct (written10 d z H) as (c & t & -> & Hc & Hd & Hv & _). unfold stream_uint.
  rewrite skip_stop by (cbn [app]; apply dig_stop; lia). cbn [app]. rewrite dig_sign by lia. change (c :: t ++ r) with ((c :: t) ++ r).
  rewrite span_app by assumption. rewrite Hv. replace (z <? 2 ^ 32)%Z with true by (symmetry; apply Z.ltb_lt; lia). reflexivity.
Qed.
Lemma readIds_items s ws : items wire_text s ws -> forall b f, Forall (fun c => isspace c = true) b -> List.length s < f -> readIds_loop f (b ++ s) = ws.
Proof.
  intros Hi. induction Hi as [s w H|s w b' t l H Hb Hi IH]; intros b f Hb0 Hf; (destruct f as [|f]; [lia|]); cbn [readIds_loop];
    destruct (wire_first s w H) as (c & r & E & Hc).
  - rewrite stream_blanks; [|exact Hb0|rewrite E; apply dig_stop; lia].
    destruct (stream_wire s w [] H I) as (z & X & ->). rewrite app_nil_r in X. rewrite X. f_equal. destruct f as [|f]; [reflexivity|]. reflexivity.
  - rewrite stream_blanks; [|exact Hb0|rewrite E; apply dig_stop; lia].
    destruct (stream_wire s w (b' ++ t) H (proj1 (blanks_stop b' t Hb))) as (z & X & ->). rewrite X. f_equal. apply IH.
    + apply blanks_space. apply Hb.
    + rewrite !app_length in Hf. rewrite E in Hf. cbn [List.length] in Hf. lia.
Qed.
Lemma readIds_ok s ws : items wire_text s ws -> readIds s = ws.
Proof. intros H. unfold readIds. apply (readIds_items s ws H []); [constructor|lia]. Qed.
Lemma FieldT_entry s x : entry_text s x -> FieldT_of_string s = Ok x.
Proof.
  intros (z & H & Hz & ->). destruct (written10 s z H) as (c & t & E & _ & Hd & Hv & _). unfold FieldT_of_string. rewrite Hv.
  replace (z <? 2 ^ 256)%Z with true by (symmetry; apply Z.ltb_lt; lia).
  replace (forallb isdigit s) with true by (symmetry; apply forallb_forall; apply Forall_forall; exact Hd). now rewrite E.
Qed.
Lemma readTable_items s xs : items entry_text s xs -> forall b f, Forall (fun c => isspace c = true) b -> List.length s < f -> readTable_loop f (b ++ s) = Ok xs.
Proof.
  intros Hi. induction Hi as [s x H|s x b' t l H Hb Hi IH]; intros b f Hb0 Hf; (destruct f as [|f]; [lia|]); cbn [readTable_loop];
    destruct (entry_first s x H) as (c & r & E & Hc);
    (assert (Hn : Forall (fun c => negb (isspace c) = true) s)
      by (destruct H as (z & H & _); apply written_ok in H; [|lia]; destruct H as (_ & H & _); eapply Forall_impl; [|exact H]; intros a Ha; cbn beta in Ha; rewrite dv_nospace by lia; reflexivity)).
  - rewrite skip_blanks; [|exact Hb0|rewrite E; apply dig_stop; lia].
    pose proof (span_app (fun c => negb (isspace c)) s [] Hn I) as X. rewrite app_nil_r in X. rewrite X, (FieldT_entry s x H). rewrite E. cbn [obind].
    destruct f; reflexivity.
  - rewrite skip_blanks; [|exact Hb0|rewrite E; apply dig_stop; lia].
    rewrite (span_app (fun c => negb (isspace c)) s (b' ++ t) Hn (proj2 (blanks_stop b' t Hb))), (FieldT_entry s x H). rewrite E. cbn [obind].
    rewrite IH; [reflexivity|apply blanks_space; apply Hb|]. rewrite !app_length in Hf. rewrite E in Hf. cbn [List.length] in Hf. lia.
Qed.
Lemma readTable_ok s xs : items entry_text s xs -> readTable s = Ok xs.
Proof. intros H. unfold readTable. apply (readTable_items s xs H []); [constructor|lia]. Qed.
Lemma hex_ok h v : written 16 h v -> (v < 2 ^ 256)%Z -> readFieldElementFromHex h = Ok (Fof v).
Proof.
  intros H Hv. apply written_ok in H; [|lia]. destruct H as (A & B & C & D). unfold readFieldElementFromHex.
  assert (E : mpz_init_set_str16 h = v).
  { unfold mpz_init_set_str16. destruct h as [|c t]; [now destruct A|]. pose proof (Forall_inv B) as B1. cbn beta in B1.
    rewrite skip_stop by (apply dig_stop; lia). rewrite eqb_neq by (apply dv_not; [lia|reflexivity]). 
    replace (digit_value c <? 16)%Z with true by (symmetry; apply Z.ltb_lt; lia). rewrite written_mpz by exact B. now rewrite D. }
  rewrite E. replace ((10 ^ 149 <=? v) || (v <=? - 10 ^ 148))%Z with false.
  - replace (0 <=? v)%Z with true by (symmetry; apply Z.leb_le; lia). cbn [oassert obind].
    replace (v <? 2 ^ 256)%Z with true by (symmetry; apply Z.ltb_lt; lia). reflexivity.
  - symmetry. apply orb_false_iff. split; apply Z.leb_gt.
    + apply (Z.lt_trans _ (2 ^ 256)); [exact Hv|reflexivity].
    + apply (Z.lt_le_trans _ 0); [reflexivity|exact C].
Qed.
