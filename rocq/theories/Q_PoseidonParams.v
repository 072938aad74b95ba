(** The Poseidon parameters. *)
From Coq Require Import List ZArith Bool Arith Lia.
From Verif Require Import Primes Field Base R1CS R1CSFacts M_Bits M_Point M_Utils M_Blake2b M_Poseidon M_PoseidonParams M_Groth
  Spec_Utils Spec_Sha256 Spec_Blake2b Spec_Poseidon Spec_PoseidonParams Spec_Groth P_Utils P_Sha256 P_Sha256b P_Blake2b Q_Blake2b P_Groth Q_Mimc Q_Poseidon.
Import ListNotations.
Local Open Scope nat_scope.

(** ** the constants *)
Lemma iter_r {A} (f : A -> A) n : forall x, Nat.iter (S n) f x = Nat.iter n f (f x).
Proof. induction n as [|n IH]; intros x; [reflexivity|]. change (Nat.iter (S (S n)) f x) with (f (Nat.iter (S n) f x)). rewrite IH. reflexivity. Qed.
Definition ctx_shape (c : bctx) : Prop := length (bc_b c) = 128 /\ length (bc_h c) = 8.
Lemma output_size_eq : output_size = 32. Proof. reflexivity. Qed.
Lemma hash_into_ok c old inp : ctx_shape c -> Forall byte inp ->
  hash_into c old inp = Ok (rfc_blake2b 32 [] inp) /\ length (rfc_blake2b 32 [] inp) = 32 /\ Forall byte (rfc_blake2b 32 [] inp).
Proof.
  intros [Lb Lh] B. unfold hash_into, blake2b. rewrite output_size_eq.
  rewrite (blake2b_stream_ok c 32 [] [inp] Lb Lh); [|lia|cbn [length]; lia|apply Forall_nil|apply Forall_cons; [exact B|apply Forall_nil]].
  cbn [concat obind]. rewrite app_nil_r. split; [reflexivity|]. apply rfc_blake2b_shape; [lia|cbn [length]; lia|apply Forall_nil|exact B].
Qed.
Lemma le_field bs : length bs = 32 -> Forall byte bs -> exists x, bytes_to_FieldT_littleendian bs = Ok x /\ fval x = (le_val bs mod p_mod)%Z.
Proof. intros L B. apply (bytes_to_FieldT_main bs B). lia. Qed.
Lemma constants_loop_ok c k : ctx_shape c -> forall out, length out = 32 -> Forall byte out ->
  exists l, constants_loop c k out = Ok l /\ length l = k /\ forall i, i < k -> fval (nth i l F0) = (le_val (digest i out) mod p_mod)%Z.
Proof.
  intros Hc. induction k as [|k IH]; intros out L B.
  - exists []. split; [reflexivity|]. split; [reflexivity|]. intros i Hi. lia.
  - cbn [constants_loop]. destruct (hash_into_ok c out out Hc B) as (E & L1 & B1). rewrite E. cbn [obind].
    destruct (le_field _ L1 B1) as (x & Ex & Vx). rewrite Ex. cbn [obind]. destruct (IH _ L1 B1) as (l & El & Ll & Vl). rewrite El. cbn [obind].
    exists (x :: l). split; [reflexivity|]. split; [cbn [length]; lia|]. intros [|i] Hi.
    + exact Vx.
    + cbn [nth]. rewrite Vl by lia. unfold digest. rewrite (iter_r _ (S i)). reflexivity.
Qed.
Lemma constants_gen c seed n : ctx_shape c -> Forall byte seed ->
  let k := Z.to_nat ((n - 1) mod 2 ^ 32) in
  exists l, poseidon_constants c seed n = Ok l /\ length l = S k /\ forall i, i <= k -> fval (nth i l F0) = (le_val (digest i seed) mod p_mod)%Z.
Proof.
  intros Hc B k. unfold poseidon_constants. destruct (hash_into_ok c (repeat 0%Z output_size) seed Hc B) as (E & L1 & B1). rewrite E. cbn [obind].
  destruct (le_field _ L1 B1) as (x & Ex & Vx). rewrite Ex. cbn [obind]. fold k. destruct (constants_loop_ok c k Hc _ L1 B1) as (l & El & Ll & Vl). rewrite El. cbn [obind].
  exists (x :: l). split; [reflexivity|]. split; [cbn [length]; lia|]. intros [|i] Hi.
  + exact Vx.
  + cbn [nth]. rewrite Vl by lia. unfold digest. rewrite (iter_r _ (S i)). reflexivity.
Qed.
Lemma constants_lemma : forall c seed n, length (bc_b c) = 128 -> length (bc_h c) = 8 -> Forall byte seed -> (1 <= n < 2 ^ 32)%Z ->
  exists l, poseidon_constants c seed n = Ok l /\ Z.of_nat (length l) = n /\
    forall i, i < length l -> fval (nth i l F0) = (le_val (digest i seed) mod p_mod)%Z.
Proof.
  intros c seed n H1 H2 B Hn. destruct (constants_gen c seed n (conj H1 H2) B) as (l & E & L & V). rewrite Z.mod_small in L, V by lia.
  exists l. split; [exact E|]. split; [rewrite L; lia|]. intros i Hi. apply V. lia.
Qed.
Lemma constants_zero_lemma : forall c seed, length (bc_b c) = 128 -> length (bc_h c) = 8 -> Forall byte seed ->
  exists l, poseidon_constants c seed 0 = Ok l /\ Z.of_nat (length l) = (2 ^ 32)%Z.
Proof.
  intros c seed H1 H2 B. destruct (constants_gen c seed 0 (conj H1 H2) B) as (l & E & L & V).
  exists l. split; [exact E|]. rewrite L. change ((0 - 1) mod 2 ^ 32)%Z with (2 ^ 32 - 1)%Z. lia.
Qed.

(** ** the matrix *)
Local Open Scope F_scope.
Lemma omapM_all {A B} (f : A -> outcome B) (g : A -> B) l : (forall a, In a l -> f a = Ok (g a)) -> omapM f l = Ok (map g l).
Proof.
  induction l as [|a l IH]; intros H; [reflexivity|]. cbn [omapM map]. rewrite H by (left; reflexivity). cbn [obind].
  rewrite IH by (intros; apply H; right; assumption). reflexivity.
Qed.
Lemma omapM_abort {A B} (f : A -> outcome B) (P : A -> Prop) l : (forall a, In a l -> P a \/ exists b, f a = Ok b) -> (forall a, In a l -> P a -> f a = Abort) ->
  (exists a, In a l /\ P a) -> omapM f l = Abort.
Proof.
  induction l as [|a l IH]; intros H1 H2 (x & Hx & Px); [destruct Hx|]. cbn [omapM].
  destruct (H1 a) as [Pa|[b Eb]]; [left; reflexivity| |].
  - rewrite H2 by (assumption || (left; reflexivity)). reflexivity.
  - rewrite Eb. cbn [obind]. destruct Hx as [->|Hx].
    + rewrite (H2 x) in Eb by (assumption || (left; reflexivity)). discriminate Eb.
    + rewrite IH; [reflexivity| | |exists x; auto]; intros; [apply H1|apply H2]; try right; assumption.
Qed.
Definition cauchy (t : nat) (cs : list F) : list F :=
  concat (map (fun i => map (fun j => Finv (nth i cs F0 - nth (t + j) cs F0)) (seq 0 t)) (seq 0 t)).
Definition clash (t : nat) (cs : list F) : Prop := exists i j, (i < t /\ j < t)%nat /\ nth i cs F0 = nth (t + j) cs F0.
Lemma matrix_of t cs : length cs = (2 * t)%nat ->
  let m := omapM (fun i => omapM (fun j => a <- idx cs i ;; b <- idx cs (t + j)%nat ;; inverse (Fsub a b)) (seq 0 t)) (seq 0 t) in
  (~ clash t cs -> (rows <- m ;; Ok (concat rows)) = Ok (cauchy t cs)) /\ (clash t cs -> (rows <- m ;; Ok (concat rows)) = Abort).
Proof.
  intros L m.
  assert (EL : forall i j, In i (seq 0 t) -> In j (seq 0 t) ->
    (a <- idx cs i ;; b <- idx cs (t + j)%nat ;; inverse (Fsub a b)) = inverse (nth i cs F0 - nth (t + j) cs F0)).
  { intros i j Hi Hj. apply in_seq in Hi, Hj. rewrite (P_Sha256.idx_nth cs i F0) by lia. cbn [obind]. rewrite (P_Sha256.idx_nth cs (t + j) F0) by lia. reflexivity. }
  assert (NZ : forall i j, nth i cs F0 <> nth (t + j) cs F0 -> inverse (nth i cs F0 - nth (t + j) cs F0) = Ok (Finv (nth i cs F0 - nth (t + j) cs F0))).
  { intros i j N. unfold inverse. destruct (Feqb_spec (nth i cs F0 - nth (t + j) cs F0) F0) as [E|E]; [|reflexivity].
    exfalso. apply N. replace (nth i cs F0) with (nth i cs F0 - nth (t + j) cs F0 + nth (t + j) cs F0) by ring. rewrite E. ring. }
  assert (ZE : forall i j, nth i cs F0 = nth (t + j) cs F0 -> inverse (nth i cs F0 - nth (t + j) cs F0) = Abort).
  { intros i j E. unfold inverse. rewrite E. replace (nth (t + j) cs F0 - nth (t + j) cs F0) with F0 by ring. rewrite Feqb_refl. reflexivity. }
  split.
  - intros N. unfold m. rewrite (omapM_all _ (fun i => map (fun j => Finv (nth i cs F0 - nth (t + j) cs F0)) (seq 0 t))); [reflexivity|].
    intros i Hi. apply omapM_all. intros j Hj. rewrite EL by assumption. apply NZ. intros E. apply N. exists i, j. apply in_seq in Hi, Hj. split; [lia|exact E].
  - intros (i & j & [Hi Hj] & E).
    assert (ROW : forall k, In k (seq 0 t) -> (exists q, In q (seq 0 t) /\ nth k cs F0 = nth (t + q) cs F0) ->
      omapM (fun j => a <- idx cs k ;; b <- idx cs (t + j)%nat ;; inverse (Fsub a b)) (seq 0 t) = Abort).
    { intros k Hk (q & Hq & Eq). apply (omapM_abort _ (fun q => nth k cs F0 = nth (t + q) cs F0)).
      - intros a Ha. rewrite EL by assumption. destruct (Feq_dec (nth k cs F0) (nth (t + a) cs F0)) as [Y|Y]; [left; exact Y|right; eexists; apply NZ, Y].
      - intros a Ha Pa. rewrite EL by assumption. apply ZE, Pa.
      - exists q. auto. }
    assert (DEC : forall k, (exists q, In q (seq 0 t) /\ nth k cs F0 = nth (t + q) cs F0) \/ (forall q, In q (seq 0 t) -> nth k cs F0 <> nth (t + q) cs F0)).
    { intros k. destruct (existsb (fun q => Feqb (nth k cs F0) (nth (t + q) cs F0)) (seq 0 t)) eqn:X.
      - left. apply existsb_exists in X as (q & Hq & Eq). exists q. split; [exact Hq|]. apply Feqb_true, Eq.
      - right. intros q Hq Eq. assert (Y : existsb (fun q => Feqb (nth k cs F0) (nth (t + q) cs F0)) (seq 0 t) = true) by (apply existsb_exists; exists q; split; [exact Hq|apply Feqb_true, Eq]).
        congruence. }
    unfold m. rewrite (omapM_abort _ (fun k => exists q, In q (seq 0 t) /\ nth k cs F0 = nth (t + q) cs F0)); [reflexivity| | |].
    + intros k Hk. destruct (DEC k) as [Y|Y]; [left; exact Y|]. right. eexists. apply (omapM_all _ (fun j => Finv (nth k cs F0 - nth (t + j) cs F0))).
      intros q Hq. rewrite EL by assumption. apply NZ, Y, Hq.
    + intros k Hk Pk. apply ROW; assumption.
    + exists i. split; [apply in_seq; lia|]. exists j. split; [apply in_seq; lia|exact E].
Qed.
Lemma concat_length_const {A} (n : nat) : forall ls : list (list A), Forall (fun l => length l = n) ls -> length (concat ls) = (length ls * n)%nat.
Proof. induction ls as [|l ls IH]; intros H; [reflexivity|]. cbn [concat length]. rewrite app_length, IH by exact (Forall_inv_tail H). rewrite (Forall_inv H). reflexivity. Qed.
Lemma nth_concat_const {A} (n : nat) (d : A) : forall (ls : list (list A)) i j, Forall (fun l => length l = n) ls -> (i < length ls)%nat -> (j < n)%nat ->
  nth (i * n + j) (concat ls) d = nth j (nth i ls []) d.
Proof.
  induction ls as [|l ls IH]; intros i j H Hi Hj; [cbn [length] in Hi; lia|]. assert (Ll := Forall_inv H). cbv beta in Ll. cbn [concat]. destruct i as [|i].
  - cbn [Nat.mul Nat.add nth]. rewrite app_nth1 by lia. reflexivity.
  - rewrite app_nth2 by (cbn [Nat.mul]; lia). replace (S i * n + j - length l)%nat with (i * n + j)%nat by (cbn [Nat.mul]; lia). cbn [nth].
    apply IH; [exact (Forall_inv_tail H)|cbn [length] in Hi; lia|exact Hj].
Qed.
Lemma cauchy_rows t cs : Forall (fun l => length l = t) (map (fun i => map (fun j => Finv (nth i cs F0 - nth (t + j) cs F0)) (seq 0 t)) (seq 0 t)).
Proof. apply Forall_forall. intros l H. apply in_map_iff in H as (i & <- & _). rewrite map_length, seq_length. reflexivity. Qed.
Lemma cauchy_length t cs : length (cauchy t cs) = (t * t)%nat.
Proof. unfold cauchy. rewrite (concat_length_const t) by apply cauchy_rows. rewrite map_length, seq_length. reflexivity. Qed.
Lemma nth_map_seq {A} (f : nat -> A) n i d : (i < n)%nat -> nth i (map f (seq 0 n)) d = f i.
Proof. intros H. rewrite (nth_indep _ d (f 0%nat)) by (rewrite map_length, seq_length; exact H). rewrite map_nth, seq_nth by exact H. reflexivity. Qed.
Lemma cauchy_nth t cs i j : (i < t)%nat -> (j < t)%nat -> nth (i * t + j) (cauchy t cs) F0 = Finv (nth i cs F0 - nth (t + j) cs F0).
Proof.
  intros Hi Hj. unfold cauchy. rewrite nth_concat_const; [|apply cauchy_rows|rewrite map_length, seq_length; exact Hi|exact Hj].
  rewrite !nth_map_seq by assumption. reflexivity.
Qed.
Lemma firstn_skipn_concat {A} n : forall (ls : list (list A)) i, Forall (fun l => length l = n) ls -> (i < length ls)%nat -> firstn n (skipn (i * n) (concat ls)) = nth i ls [].
Proof.
  induction ls as [|l ls IH]; intros i H Hi; [cbn [length] in Hi; lia|]. assert (Ll := Forall_inv H). cbv beta in Ll. cbn [concat]. destruct i as [|i].
  - cbn [Nat.mul skipn nth]. rewrite firstn_app, Ll, Nat.sub_diag, firstn_O, app_nil_r. apply firstn_all2. lia.
  - cbn [Nat.mul]. rewrite skipn_app, Ll. rewrite (skipn_all2 l) by lia. cbn [app nth]. replace (n + i * n - n)%nat with (i * n)%nat by lia. apply IH; [exact (Forall_inv_tail H)|cbn [length] in Hi; lia].
Qed.
Lemma cauchy_row t cs i : (i < t)%nat -> row t (cauchy t cs) i = map (fun j => Finv (nth i cs F0 - nth (t + j) cs F0)) (seq 0 t).
Proof.
  intros Hi. unfold row, cauchy. rewrite firstn_skipn_concat; [|apply cauchy_rows|rewrite map_length, seq_length; exact Hi]. rewrite nth_map_seq by exact Hi. reflexivity.
Qed.
Lemma matrix_lemma : forall c seed t, length (bc_b c) = 128%nat -> length (bc_h c) = 8%nat -> Forall byte seed -> (1 <= Z.of_nat t < 2 ^ 31)%Z ->
  exists cs, poseidon_constants c seed (2 * Z.of_nat t) = Ok cs /\ length cs = (2 * t)%nat /\
    ((exists i j, (i < t /\ j < t)%nat /\ nth i cs F0 = nth (t + j) cs F0) -> poseidon_matrix c seed t = Abort) /\
    (~ (exists i j, (i < t /\ j < t)%nat /\ nth i cs F0 = nth (t + j) cs F0) ->
       exists M, poseidon_matrix c seed t = Ok M /\ length M = (t * t)%nat /\
         forall i j, (i < t)%nat -> (j < t)%nat -> (nth (i * t + j) M F0 * (nth i cs F0 - nth (t + j) cs F0))%F = F1).
Proof.
  intros c seed t H1 H2 B Ht. destruct (constants_lemma c seed (2 * Z.of_nat t) H1 H2 B) as (cs & E & L & _); [lia|].
  assert (L' : length cs = (2 * t)%nat) by lia. exists cs. split; [exact E|]. split; [exact L'|].
  assert (EM : poseidon_matrix c seed t = (rows <- omapM (fun i => omapM (fun j => a <- idx cs i ;; b <- idx cs (t + j)%nat ;; inverse (Fsub a b)) (seq 0 t)) (seq 0 t) ;; Ok (concat rows))).
  { unfold poseidon_matrix. rewrite (Z.mod_small (Z.of_nat t * 2)) by lia. rewrite Z.mul_comm, E. reflexivity. }
  rewrite EM. destruct (matrix_of t cs L') as [M1 M2]. split; [exact M2|]. intros N. exists (cauchy t cs). split; [exact (M1 N)|]. split; [apply cauchy_length|].
  intros i j Hi Hj. rewrite cauchy_nth by assumption. apply Finv_l. intros Z0. apply N. exists i, j. split; [auto|].
  replace (nth i cs F0) with (nth i cs F0 - nth (t + j) cs F0 + nth (t + j) cs F0) by ring. rewrite Z0. ring.
Qed.

(** ** a Cauchy matrix is MDS *)
Fixpoint cpoly (l : list (F * F)) : list F :=
  match l with
  | [] => []
  | (y, v) :: l' => padd_ (pscale v (fold_right pmul_lin [F1] (map fst l'))) (pmul_lin y (cpoly l'))
  end.
Fixpoint csum (l : list (F * F)) (x : F) : F := match l with [] => F0 | (y, v) :: l' => Finv (x - y) * v + csum l' x end.
Lemma cpoly_length l : length (cpoly l) = length l.
Proof.
  induction l as [|[y v] l IH]; [reflexivity|]. cbn [cpoly length]. rewrite padd_length, pscale_length, prods_length, pmul_lin_length, IH, map_length. lia.
Qed.
Lemma sub_nz a b : a <> b -> a - b <> F0.
Proof. intros N E. apply N. replace a with (a - b + b) by ring. rewrite E. ring. Qed.
Lemma cpoly_eval l x : ~ In x (map fst l) -> peval (cpoly l) x = fprod (map (fun y => x - y) (map fst l)) * csum l x.
Proof.
  induction l as [|[y v] l IH]; intros N; [cbn; ring|]. cbn [cpoly csum map fst] in *.
  rewrite peval_padd, peval_pscale, peval_prods, peval_pmul_lin, IH by (intros H; apply N; right; exact H).
  cbn [fprod fold_right]. fold (fprod (map (fun y => x - y) (map fst l))). set (p := fprod _).
  assert (E : (x - y) * Finv (x - y) = F1) by (apply Finv_r, sub_nz; intros ->; apply N; left; reflexivity).
  replace ((x - y) * p * (Finv (x - y) * v + csum l x)) with ((x - y) * Finv (x - y) * (v * p) + (x - y) * p * csum l x) by ring. rewrite E. ring.
Qed.
Lemma cauchy_roots y v l rs : NoDup (map fst ((y, v) :: l)) -> v <> F0 -> NoDup rs -> (forall x, In x rs -> ~ In x (map fst ((y, v) :: l)) /\ csum ((y, v) :: l) x = F0) ->
  (length rs < length ((y, v) :: l))%nat.
Proof.
  intros ND Nv NR HR. destruct (le_lt_dec (length ((y, v) :: l)) (length rs)) as [G|G]; [exfalso|exact G].
  assert (Z := roots_zero rs (cpoly ((y, v) :: l)) NR). rewrite cpoly_length in Z. specialize (Z G).
  assert (Z' : Forall (fun c => c = F0) (cpoly ((y, v) :: l))).
  { apply Z. intros x Hx. destruct (HR x Hx) as [N E]. rewrite cpoly_eval by exact N. rewrite E. ring. }
  assert (P := zero_peval _ y Z'). cbn [cpoly] in P. rewrite peval_padd, peval_pscale, peval_prods, peval_pmul_lin in P.
  replace (y - y) with F0 in P by ring. cbn [map fst] in ND. apply NoDup_cons_iff in ND as [N1 _].
  assert (Q : fprod (map (fun s => y - s) (map fst l)) <> F0).
  { apply fprod_nz. intros H. apply in_map_iff in H as (s & E & Hs). apply N1. replace y with (y - s + s) by ring. rewrite E. replace (F0 + s) with s by ring. exact Hs. }
  assert (P' : v * fprod (map (fun s => y - s) (map fst l)) = F0) by (rewrite <- P; ring).
  apply Fmul_integral in P' as [P'|P']; contradiction.
Qed.
Lemma csum_filter l x : csum (filter (fun p => negb (Feqb (snd p) F0)) l) x = csum l x.
Proof.
  induction l as [|[y v] l IH]; [reflexivity|]. cbn [filter snd csum]. destruct (Feqb_spec v F0) as [->|N]; cbn [negb].
  - rewrite IH. ring.
  - cbn [csum]. rewrite IH. reflexivity.
Qed.
Lemma csum_dot ys v x : csum (combine ys v) x = dot (map (fun y => Finv (x - y)) ys) v.
Proof. revert v. induction ys as [|y ys IH]; intros [|w v]; cbn [combine csum map dot]; try reflexivity. rewrite IH. reflexivity. Qed.
Lemma filter_combine_length (ys : list F) : forall v : list F, length ys = length v -> length (filter (fun p => negb (Feqb (snd p) F0)) (combine ys v)) = weight v.
Proof.
  induction ys as [|y ys IH]; intros [|w v] L; try discriminate L; [reflexivity|]. cbn [combine filter snd]. unfold weight. cbn [filter].
  destruct (negb (Feqb w F0)); cbn [length]; rewrite IH by (cbn [length] in L; lia); reflexivity.
Qed.
Lemma NoDup_fst_filter (f : F * F -> bool) l : NoDup (map fst l) -> NoDup (map fst (filter f l)).
Proof.
  induction l as [|[y v] l IH]; intros H; [exact H|]. cbn [map fst] in H. apply NoDup_cons_iff in H as [H1 H2]. cbn [filter]. destruct (f (y, v)); [|apply IH, H2].
  cbn [map fst]. apply NoDup_cons; [|apply IH, H2]. intros X. apply H1. apply in_map_iff in X as (p & E & Hp). apply filter_In in Hp as [Hp _]. apply in_map_iff. exists p. auto.
Qed.
Lemma map_fst_combine (a b : list F) : length a = length b -> map fst (combine a b) = a.
Proof. revert b. induction a as [|x a IH]; intros [|y b] L; try discriminate L; [reflexivity|]. cbn [combine map fst]. rewrite IH by (cbn [length] in L; lia). reflexivity. Qed.
Lemma zero_count (g : F -> F) xs : (length (filter (fun x => Feqb (g x) F0) xs) + weight (map g xs) = length xs)%nat.
Proof.
  unfold weight. induction xs as [|x xs IH]; [reflexivity|]. cbn [filter map length]. destruct (Feqb (g x) F0); cbn [negb length]; lia.
Qed.
Lemma map_nth_seq {A} (l : list A) d : map (fun i => nth i l d) (seq 0 (length l)) = l.
Proof. induction l as [|a l IH]; [reflexivity|]. cbn [length seq map nth]. rewrite <- seq_shift, map_map. rewrite IH. reflexivity. Qed.
Lemma cauchy_mds t cs : length cs = (2 * t)%nat -> NoDup cs -> mds t (cauchy t cs).
Proof.
  intros L ND. split; [apply cauchy_length|]. intros v Lv (x0 & Hx0 & Nx0).
  set (xs := firstn t cs). set (ys := skipn t cs).
  assert (Ecs : cs = xs ++ ys) by (symmetry; apply firstn_skipn).
  assert (Lx : length xs = t) by (unfold xs; rewrite firstn_length; lia). assert (Ly : length ys = t) by (unfold ys; rewrite skipn_length; lia).
  assert (NX : NoDup xs /\ NoDup ys /\ forall a, In a xs -> ~ In a ys).
  { rewrite Ecs in ND. clear - ND. induction xs as [|a xs IH]; [cbn [app] in ND; split; [constructor|]; split; [exact ND|intros a []]|].
    cbn [app] in ND. apply NoDup_cons_iff in ND as [N1 N2]. destruct (IH N2) as (I1 & I2 & I3). split; [apply NoDup_cons; [intros H; apply N1, in_or_app; left; exact H|exact I1]|].
    split; [exact I2|]. intros b [<-|Hb]; [intros H; apply N1, in_or_app; right; exact H|apply I3, Hb]. }
  destruct NX as (NX & NY & NXY).
  assert (EMV : mat_vec t (cauchy t cs) v = map (fun x => csum (combine ys v) x) xs).
  { unfold mat_vec. transitivity (map (fun i => csum (combine ys v) (nth i xs F0)) (seq 0 t)).
    - apply map_ext_in. intros i Hi. apply in_seq in Hi. rewrite cauchy_row by lia. rewrite csum_dot. f_equal.
      transitivity (map (fun j => Finv (nth i xs F0 - nth j ys F0)) (seq 0 t)).
      + apply map_ext_in. intros j Hj. apply in_seq in Hj. rewrite Ecs. rewrite app_nth1 by lia. rewrite app_nth2 by lia. replace (t + j - length xs)%nat with j by lia. reflexivity.
      + transitivity (map (fun y => Finv (nth i xs F0 - y)) (map (fun j => nth j ys F0) (seq 0 (length ys)))); [rewrite map_map, Ly; reflexivity|rewrite map_nth_seq; reflexivity].
    - transitivity (map (fun x => csum (combine ys v) x) (map (fun i => nth i xs F0) (seq 0 (length xs)))); [rewrite map_map, Lx; reflexivity|rewrite map_nth_seq; reflexivity]. }
  rewrite EMV. assert (Z := zero_count (fun x => csum (combine ys v) x) xs).
  rewrite <- (filter_combine_length ys v) by lia. set (l := filter (fun p => negb (Feqb (snd p) F0)) (combine ys v)).
  set (rs := filter (fun x => Feqb (csum (combine ys v) x) F0) xs) in Z.
  assert (G : (length rs < length l)%nat); [|lia].
  assert (NDl : NoDup (map fst l)) by (apply NoDup_fst_filter; rewrite map_fst_combine by lia; exact NY).
  assert (In_l : forall y, In y (map fst l) -> In y ys).
  { intros y Hy. apply in_map_iff in Hy as ([a b] & <- & Hp). apply filter_In in Hp as [Hp _]. apply in_combine_l in Hp. exact Hp. }
  remember l as l1 eqn:El. destruct l1 as [|[y w] l1].
  - exfalso. assert (X : (length l = 0)%nat) by (rewrite <- El; reflexivity). unfold l in X. rewrite filter_combine_length in X by lia. unfold weight in X.
    apply length_zero_iff_nil in X. assert (Y : In x0 (filter (fun x => negb (Feqb x F0)) v)) by (apply filter_In; split; [exact Hx0|destruct (Feqb_spec x0 F0); [contradiction|reflexivity]]).
    rewrite X in Y. exact Y.
  - apply cauchy_roots; [exact NDl| | |].
    + assert (Y : In (y, w) (filter (fun p => negb (Feqb (snd p) F0)) (combine ys v))) by (fold l; rewrite <- El; left; reflexivity).
      apply filter_In in Y as [_ Y]. cbn [snd] in Y. destruct (Feqb_spec w F0); [discriminate Y|assumption].
    + apply NoDup_filter, NX.
    + intros x Hx. apply filter_In in Hx as [Hx E]. split; [intros H; exact (NXY x Hx (In_l x H))|]. rewrite El. unfold l. rewrite csum_filter. apply Feqb_true, E.
Qed.

(** ** the permutation *)
Lemma dot_sub r : forall v w, length v = length w -> dot r (map (fun p => fst p - snd p) (combine v w)) = dot r v - dot r w.
Proof.
  induction r as [|a r IH]; intros [|x v] [|y w] L; try discriminate L; cbn [combine map dot fst snd]; try ring.
  rewrite IH by (cbn [length] in L; lia). ring.
Qed.
Lemma weight_le v : (weight v <= length v)%nat.
Proof. unfold weight. induction v as [|x v IH]; cbn [filter length]; [lia|]. destruct (negb _); cbn [length]; lia. Qed.
Lemma weight_zero v : Forall (fun x => x = F0) v -> weight v = 0%nat.
Proof. unfold weight. induction 1 as [|x v -> _ IH]; [reflexivity|]. cbn [filter]. rewrite Feqb_refl. exact IH. Qed.
Lemma mds_injective t M v w : mds t M -> length v = t -> length w = t -> mat_vec t M v = mat_vec t M w -> v = w.
Proof.
  intros [_ H] Lv Lw E. set (d := map (fun p => fst p - snd p) (combine v w)).
  assert (Ld : length d = t) by (unfold d; rewrite map_length, combine_length; lia).
  assert (W0 : weight (mat_vec t M d) = 0%nat).
  { apply weight_zero. apply Forall_forall. intros x Hx. unfold mat_vec in Hx. apply in_map_iff in Hx as (i & <- & Hi). unfold d. rewrite dot_sub by lia.
    assert (Ei : dot (row t M i) v = dot (row t M i) w).
    { apply in_seq in Hi. assert (X := f_equal (fun l => nth i l F0) E). cbv beta in X. unfold mat_vec in X. rewrite !nth_map_seq in X by lia. exact X. }
    rewrite Ei. ring. }
  assert (AZ : forall x, In x d -> x = F0).
  { intros x Hx. destruct (Feq_dec x F0) as [Y|Y]; [exact Y|]. specialize (H d Ld (ex_intro _ x (conj Hx Y))). rewrite W0 in H. assert (B := weight_le d). lia. }
  clear - AZ Lv Lw. subst d. rewrite <- Lw in Lv. clear Lw. revert w AZ Lv. induction v as [|x v IH]; intros [|y w] AZ L; try discriminate L; [reflexivity|].
  cbn [combine map fst snd] in AZ. f_equal.
  - assert (Z := AZ (x - y) (or_introl eq_refl)). replace x with (x - y + y) by ring. rewrite Z. ring.
  - apply IH; [intros z Hz; apply AZ; right; exact Hz|cbn [length] in L; lia].
Qed.
Lemma pow5_inj x y : Fpow x 5 = Fpow y 5 -> x = y.
Proof. intros E. rewrite <- (proj1 (pow5_inv x)), <- (proj1 (pow5_inv y)), E. reflexivity. Qed.
Lemma add_inj a b c : a + c = b + c -> a = b.
Proof. intros E. replace a with (a + c - c) by ring. rewrite E. ring. Qed.
Lemma map_inj {A B} (f : A -> B) : (forall x y, f x = f y -> x = y) -> forall l l', map f l = map f l' -> l = l'.
Proof. intros H. induction l as [|x l IH]; intros [|y l'] E; try discriminate E; [reflexivity|]. cbn [map] in E. injection E as E1 E2. f_equal; auto. Qed.
Lemma sub_words_length nS C st : length (sub_words nS C st) = length st.
Proof. unfold sub_words. rewrite app_length, !map_length, firstn_length, skipn_length. lia. Qed.
Lemma app_inv_len {A} (a b c d : list A) : length a = length c -> a ++ b = c ++ d -> a = c /\ b = d.
Proof.
  revert c. induction a as [|x a IH]; intros [|y c] L E; try discriminate L; [auto|]. cbn [app] in E. injection E as -> E. destruct (IH c) as [-> ->]; [cbn [length] in L; lia|exact E|auto].
Qed.
Lemma sub_words_inj nS C st st' : length st = length st' -> sub_words nS C st = sub_words nS C st' -> st = st'.
Proof.
  intros L E. unfold sub_words in E. apply app_inv_len in E as [E1 E2]; [|rewrite !map_length, !firstn_length; lia].
  apply map_inj in E1; [|intros x y X; apply pow5_inj in X; exact (add_inj _ _ _ X)]. apply map_inj in E2; [|intros x y X; exact (add_inj _ _ _ X)].
  rewrite <- (firstn_skipn nS st), <- (firstn_skipn nS st'), E1, E2. reflexivity.
Qed.
Lemma round_length t nS M C st : length (round_spec t nS M C st) = t.
Proof. unfold round_spec. rewrite map_length, seq_length. reflexivity. Qed.
Lemma rounds_inj t c Fr P C M : mds t M -> forall l st st', length st = t -> length st' = t ->
  fold_left (fun st i => round_spec t (if is_partial Fr P i then c else t) M (nth i C F0) st) l st =
  fold_left (fun st i => round_spec t (if is_partial Fr P i then c else t) M (nth i C F0) st) l st' -> st = st'.
Proof.
  intros HM. induction l as [|i l IH]; intros st st' L L' E; [exact E|]. cbn [fold_left] in E. apply IH in E; [|apply round_length|apply round_length].
  apply (mds_injective t M) in E; [|exact HM|rewrite sub_words_length; exact L|rewrite sub_words_length; exact L']. apply sub_words_inj in E; [exact E|lia].
Qed.
Lemma permutation_injective : forall t c Fr P C M st st', mds t M -> length st = t -> length st' = t ->
  permutation t c Fr P C M st = permutation t c Fr P C M st' -> st = st'.
Proof.
  intros t c Fr P C M st st' HM L L' E. unfold permutation, poseidon_spec in E.
  assert (FL : forall l s, length s = t -> length (fold_left (fun st i => round_spec t (if is_partial Fr P i then c else t) M (nth i C F0) st) l s) = t).
  { induction l as [|i l IH]; intros s Ls; [exact Ls|]. cbn [fold_left]. apply IH, round_length. }
  assert (PD : forall s, length s = t -> pad t s = s) by (intros s Ls; unfold pad; rewrite Ls, Nat.sub_diag; apply app_nil_r).
  rewrite (PD st L), (PD st' L') in E. rewrite !firstn_all2 in E by (rewrite FL by assumption; lia). exact (rounds_inj t c Fr P C M HM _ _ _ L L' E).
Qed.

(** ** the parameters of Poseidon128 *)
Fixpoint nodupb (l : list Z) : bool := match l with [] => true | x :: r => negb (existsb (Z.eqb x) r) && nodupb r end.
Lemma nodupb_ok l : nodupb l = true -> NoDup l.
Proof.
  induction l as [|x r IH]; intros H; [constructor|]. cbn [nodupb] in H. apply andb_true_iff in H as [H1 H2]. apply NoDup_cons; [|apply IH, H2].
  intros X. apply negb_true_iff in H1. assert (Y : existsb (Z.eqb x) r = true) by (apply existsb_exists; exists x; split; [exact X|apply Z.eqb_refl]). congruence.
Qed.
Definition ctx0 : bctx := BCtx (repeat 0%Z 128) (repeat 0%Z 8) 0 0 0 0.
Lemma seed_matrix_distinct : match poseidon_constants ctx0 seed_matrix 12 with Ok l => nodupb (map fval l) | _ => false end = true.
Proof. vm_compute. reflexivity. Qed.
Lemma seeds_bytes : Forall byte seed_constants /\ Forall byte seed_matrix.
Proof. split; repeat (apply Forall_cons; [split; [apply Z.leb_le|apply Z.ltb_lt]; reflexivity|]); apply Forall_nil. Qed.
Lemma constants_same c c' seed n : length (bc_b c) = 128%nat -> length (bc_h c) = 8%nat -> length (bc_b c') = 128%nat -> length (bc_h c') = 8%nat -> Forall byte seed -> (1 <= n < 2 ^ 32)%Z ->
  poseidon_constants c seed n = poseidon_constants c' seed n.
Proof.
  intros H1 H2 H3 H4 B Hn. destruct (constants_lemma c seed n H1 H2 B Hn) as (l & E & L & V). destruct (constants_lemma c' seed n H3 H4 B Hn) as (l' & E' & L' & V').
  rewrite E, E'. f_equal. apply nth_ext with (d := F0) (d' := F0); [lia|]. intros i Hi. apply fval_inj. rewrite V by exact Hi. rewrite V' by lia. reflexivity.
Qed.
Lemma poseidon128_params_lemma : forall c, length (bc_b c) = 128%nat -> length (bc_h c) = 8%nat ->
  exists C M, poseidon_params c 6 8 57 = Ok (C, M) /\ length C = 65%nat /\ mds 6 M /\
    (forall i, (i < 65)%nat -> fval (nth i C F0) = (le_val (digest i seed_constants) mod p_mod)%Z).
Proof.
  intros c H1 H2. destruct seeds_bytes as [B1 B2]. unfold poseidon_params. change ((Z.of_nat 8 + Z.of_nat 57) mod 2 ^ 32)%Z with 65%Z.
  destruct (constants_lemma c seed_constants 65 H1 H2 B1) as (C & EC & LC & VC); [lia|]. rewrite EC. cbn [obind].
  destruct (constants_lemma c seed_matrix 12 H1 H2 B2) as (cs & Ec & Lc & _); [lia|].
  assert (ND : NoDup cs).
  { assert (X := seed_matrix_distinct). rewrite (constants_same ctx0 c) in X by (reflexivity || assumption || lia). rewrite Ec in X. apply nodupb_ok in X. exact (NoDup_map_inv _ _ X). }
  assert (L12 : length cs = (2 * 6)%nat) by lia.
  unfold poseidon_matrix. change ((Z.of_nat 6 * 2) mod 2 ^ 32)%Z with 12%Z. rewrite Ec. cbn [obind].
  destruct (matrix_of 6 cs L12) as [M1 _]. rewrite M1.
  - exists C, (cauchy 6 cs). split; [reflexivity|]. split; [lia|]. split; [apply cauchy_mds; assumption|]. intros i Hi. apply VC. lia.
  - intros (i & j & [Hi Hj] & E). rewrite NoDup_nth in ND. specialize (ND i (6 + j)%nat). assert (i = 6 + j)%nat by (apply ND; [lia|lia|exact E]). lia.
Qed.
Lemma pad_inj t a b : length a = length b -> pad t a = pad t b -> a = b.
Proof. intros L E. unfold pad in E. apply app_inv_len in E as [E _]; assumption. Qed.
Lemma poseidon128_gadget_lemma : forall c nI constrain inputs n, length (bc_b c) = 128%nat -> length (bc_h c) = 8%nat ->
  (nI <= 6)%nat -> length inputs = nI -> Forall (fun v => v < n)%nat inputs ->
  exists C M g n' rs cs, poseidon_params c 6 8 57 = Ok (C, M) /\
    poseidon_new 6 1 8 57 nI 6 constrain C M inputs n = Ok (g, n') /\ poseidon_results g = Ok rs /\ poseidon_constraints g = Ok cs /\
    (forall s, exists s', poseidon_witness g s = Ok s' /\ sat s' cs /\ forall v, (v < n)%nat -> s' v = s v) /\
    (forall s s', sat s cs -> sat s' cs -> map (ev s) rs = map (ev s') rs -> map s inputs = map s' inputs).
Proof.
  intros c nI constrain inputs n H1 H2 HI LI BI. destruct (poseidon128_params_lemma c H1 H2) as (C & M & EP & LC & HM & _).
  destruct (poseidon_gadget_lemma 6 1 8 57 nI 6 constrain C M inputs n) as (g & n' & rs & cs & E1 & E2 & E3 & S & W); try assumption; try lia.
  { exact (proj1 HM). }
  exists C, M, g, n', rs, cs. split; [exact EP|]. split; [exact E1|]. split; [exact E2|]. split; [exact E3|]. split.
  - intros s. destruct (W s) as (s' & Ew & Hs & Hv & _). exists s'. auto.
  - intros s s' Hs Hs' E. rewrite (S s Hs), (S s' Hs') in E.
    assert (PL : forall s, length (pad 6 (map s inputs)) = 6%nat) by (intros s0; unfold pad; rewrite app_length, map_length, repeat_length; lia).
    apply (pad_inj 6); [rewrite !map_length; reflexivity|]. apply (permutation_injective 6 1 8 57 C M); [exact HM|apply PL|apply PL|].
    assert (PP : forall s, pad 6 (pad 6 (map s inputs)) = pad 6 (map s inputs)) by (intros s0; unfold pad at 1; rewrite PL, Nat.sub_diag; apply app_nil_r).
    unfold permutation, poseidon_spec in *. rewrite !PP. exact E.
Qed.
Lemma matrix_mds_lemma : forall c seed t cs, length (bc_b c) = 128%nat -> length (bc_h c) = 8%nat -> Forall byte seed -> (1 <= Z.of_nat t < 2 ^ 31)%Z ->
  poseidon_constants c seed (2 * Z.of_nat t) = Ok cs -> NoDup cs -> exists M, poseidon_matrix c seed t = Ok M /\ mds t M.
Proof.
  intros c seed t cs H1 H2 B Ht E ND. destruct (constants_lemma c seed (2 * Z.of_nat t) H1 H2 B) as (cs' & E' & L & _); [lia|].
  assert (X : cs' = cs) by congruence. rewrite X in L. assert (L' : length cs = (2 * t)%nat) by lia. exists (cauchy t cs). split; [|apply cauchy_mds; assumption].
  unfold poseidon_matrix. rewrite (Z.mod_small (Z.of_nat t * 2)) by lia. rewrite (Z.mul_comm (Z.of_nat t) 2), E. cbn [obind].
  destruct (matrix_of t cs L') as [M1 _]. apply M1. intros (i & j & [Hi Hj] & Eij). rewrite NoDup_nth in ND. specialize (ND i (t + j)%nat).
  assert (i = t + j)%nat by (apply ND; [lia|lia|exact Eij]). lia.
Qed.
