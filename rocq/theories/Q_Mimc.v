(** Final lemmas behind the property theorems of Prop_Mimc.v. *)
From Coq Require Import List ZArith Bool Arith Lia.
From Verif Require Import Primes Field Base R1CS R1CSFacts Gadget P_Bits M_Mimc Spec_Mimc P_Mimc.
Import ListNotations.
Local Open Scope F_scope.

Lemma mimc_main_gen O e (HO : round_ok O e) C x k n : C <> [] -> (x < n)%nat -> (k < n)%nat ->
  exists g n' r, mimc_new O x k C n = (g, n') /\ mimc_result O g = Ok r /\ (n <= r < n')%nat /\
    (forall s, sat s (mimc_constraints O g) -> s r = mimc_spec e C (s x) (s k)) /\
    (forall s, frame n n' s (mimc_witness O g s) /\
       sat (mimc_witness O g s) (mimc_constraints O g) /\
       mimc_witness O g s r = mimc_spec e C (s x) (s k)).
Proof.
  intros HC Hx Hk. destruct (mimc_ok O e HO C x k n HC) as (g & n' & r & H1 & H2 & H3 & _ & H5 & H6).
  exists g, n', r. repeat (split; [assumption|]). intros s. destruct (H6 s Hx Hk) as [Hf Hs].
  split; [exact Hf|]. split; [exact Hs|]. rewrite (H5 _ Hs), !Hf by lia. reflexivity.
Qed.

(** *** C14 *)
Lemma mimc_e5_main C x k n : C <> [] -> (x < n)%nat -> (k < n)%nat ->
  exists g n' r, mimc_new e5_ops x k C n = (g, n') /\ mimc_result e5_ops g = Ok r /\ (n <= r < n')%nat /\
    (forall s, sat s (mimc_constraints e5_ops g) -> s r = mimc_spec 5 C (s x) (s k)) /\
    (forall s, frame n n' s (mimc_witness e5_ops g s) /\
       sat (mimc_witness e5_ops g s) (mimc_constraints e5_ops g) /\
       mimc_witness e5_ops g s r = mimc_spec 5 C (s x) (s k)).
Proof. apply (mimc_main_gen _ _ e5_ok). Qed.

Lemma mimc_e7_main C x k n : C <> [] -> (x < n)%nat -> (k < n)%nat ->
  exists g n' r, mimc_new e7_ops x k C n = (g, n') /\ mimc_result e7_ops g = Ok r /\ (n <= r < n')%nat /\
    (forall s, sat s (mimc_constraints e7_ops g) -> s r = mimc_spec 7 C (s x) (s k)) /\
    (forall s, frame n n' s (mimc_witness e7_ops g s) /\
       sat (mimc_witness e7_ops g s) (mimc_constraints e7_ops g) /\
       mimc_witness e7_ops g s r = mimc_spec 7 C (s x) (s k)).
Proof. apply (mimc_main_gen _ _ e7_ok). Qed.

Lemma mimc_native_main C x k :
  (C <> [] -> mimc_native C x k = Ok (mimc_spec 7 C x k)) /\ (C = [] -> mimc_native C x k = UB).
Proof. split; [apply mimc_native_ok|intros ->; reflexivity]. Qed.

Lemma mimc_empty_main x k n :
  (exists g, mimc_new e5_ops x k [] n = (g, n) /\ mimc_result e5_ops g = UB) /\
  (exists g, mimc_new e7_ops x k [] n = (g, n) /\ mimc_result e7_ops g = UB).
Proof. split; eexists; split; reflexivity. Qed.

(** *** C15 *)
Definition inv5 : Z := 17510594297471420177797124596205820070838691520332827474958563349260646796493.
Definition inv7 : Z := 12507567355336728698426517568718442907741922514523448196398973820900461997495.

Lemma pow5_inv x : Fpow (Fpow x 5) inv5 = x /\ Fpow (Fpow x inv5) 5 = x.
Proof. split; apply Fpow_root with (t := 4%Z); reflexivity || (intros H; discriminate H) || (intros _ _ _; reflexivity). Qed.
Lemma pow7_inv x : Fpow (Fpow x 7) inv7 = x /\ Fpow (Fpow x inv7) 7 = x.
Proof. split; apply Fpow_root with (t := 4%Z); reflexivity || (intros H; discriminate H) || (intros _ _ _; reflexivity). Qed.

Lemma mimc_perm_gen e d C k y : (forall x, Fpow (Fpow x e) d = x /\ Fpow (Fpow x d) e = x) ->
  exists! x, mimc_spec e C x k = y.
Proof.
  intros H. exists (mimc_inv_spec d C y k). split.
  - apply mimc_inv_gen2. apply H.
  - intros x' <-. apply mimc_inv_gen. apply H.
Qed.

Lemma mimc_e5_perm C k y : exists! x, mimc_spec 5 C x k = y.
Proof. apply mimc_perm_gen with inv5, pow5_inv. Qed.

Lemma mimc_e7_perm C k y : exists! x, mimc_spec 7 C x k = y.
Proof. apply mimc_perm_gen with inv7, pow7_inv. Qed.

(** and therefore for the gadgets: every ciphertext is reachable under every key, and
    key and ciphertext determine the plaintext in every satisfying assignment *)
Lemma mimc_gadget_perm_gen O e d (HO : round_ok O e) C x k n :
  (forall x, Fpow (Fpow x e) d = x /\ Fpow (Fpow x d) e = x) ->
  C <> [] -> x <> k -> (x < n)%nat -> (k < n)%nat ->
  exists g n' r, mimc_new O x k C n = (g, n') /\ mimc_result O g = Ok r /\
    (forall key y, exists s, sat s (mimc_constraints O g) /\ s k = key /\ s r = y) /\
    (forall s1 s2, sat s1 (mimc_constraints O g) -> sat s2 (mimc_constraints O g) ->
       s1 k = s2 k -> s1 r = s2 r -> s1 x = s2 x).
Proof.
  intros He HC Hxk Hx Hk. destruct (mimc_main_gen O e HO C x k n HC Hx Hk) as (g & n' & r & H1 & H2 & H3 & H4 & H5).
  exists g, n', r. split; [exact H1|]. split; [exact H2|]. split.
  - intros key y. set (s := upd (upd (fun _ => F0) k key) x (mimc_inv_spec d C y key)).
    destruct (H5 s) as (Hf & Hs & Hr). exists (mimc_witness O g s). split; [exact Hs|].
    assert (Ek : s k = key) by (unfold s; rewrite upd_other by congruence; apply upd_same).
    split; [rewrite Hf by lia; exact Ek|]. rewrite Hr, Ek. unfold s. rewrite upd_same.
    apply mimc_inv_gen2. apply He.
  - intros s1 s2 S1 S2 E1 E2. rewrite (H4 _ S1), (H4 _ S2), E1 in E2.
    apply (f_equal (fun y => mimc_inv_spec d C y (s2 k))) in E2.
    rewrite !mimc_inv_gen in E2 by apply He. exact E2.
Qed.

Lemma mimc_gadget_perm C x k n : C <> [] -> x <> k -> (x < n)%nat -> (k < n)%nat ->
  (exists g n' r, mimc_new e5_ops x k C n = (g, n') /\ mimc_result e5_ops g = Ok r /\
    (forall key y, exists s, sat s (mimc_constraints e5_ops g) /\ s k = key /\ s r = y) /\
    (forall s1 s2, sat s1 (mimc_constraints e5_ops g) -> sat s2 (mimc_constraints e5_ops g) ->
       s1 k = s2 k -> s1 r = s2 r -> s1 x = s2 x)) /\
  (exists g n' r, mimc_new e7_ops x k C n = (g, n') /\ mimc_result e7_ops g = Ok r /\
    (forall key y, exists s, sat s (mimc_constraints e7_ops g) /\ s k = key /\ s r = y) /\
    (forall s1 s2, sat s1 (mimc_constraints e7_ops g) -> sat s2 (mimc_constraints e7_ops g) ->
       s1 k = s2 k -> s1 r = s2 r -> s1 x = s2 x)).
Proof.
  intros HC Hxk Hx Hk. split.
  - exact (mimc_gadget_perm_gen e5_ops 5 inv5 e5_ok C x k n pow5_inv HC Hxk Hx Hk).
  - exact (mimc_gadget_perm_gen e7_ops 7 inv7 e7_ok C x k n pow7_inv HC Hxk Hx Hk).
Qed.

(** *** C16 *)
Lemma mp_main_gen O e (HO : round_ok O e) C iv ms n : C <> [] -> ms <> [] ->
  (iv < n)%nat -> (forall m, In m ms -> m < n)%nat ->
  exists g n' r cs, mp_new O C iv ms n = (g, n') /\ mp_result O g = Ok r /\ mp_constraints O g = Ok cs /\
    (n <= r < n')%nat /\
    (forall s, sat s cs -> s r = mp_spec (mimc_spec e C) (s iv) (map s ms)) /\
    (forall s, exists s', mp_witness O g s = Ok s' /\ frame n n' s s' /\ sat s' cs /\
       s' r = mp_spec (mimc_spec e C) (s iv) (map s ms)).
Proof.
  intros HC Hms Hiv Hm. destruct (mp_ok O e HO C HC iv ms n Hms Hiv Hm) as (g & n' & r & cs & H1 & H2 & H3 & H4 & H).
  exists g, n', r, cs. repeat (split; [assumption|]). split.
  - intros s Hs. exact (go_sound _ _ _ _ _ _ H s I Hs).
  - intros s. destruct (go_run _ _ _ _ _ _ s H I) as (s' & Hw & Hf & Hs & _ & HR).
    exists s'. repeat (split; [assumption|]). rewrite HR. rewrite Hf by lia. f_equal.
    apply map_ext_in. intros v Hv. apply Hf. pose proof (Hm v Hv). lia.
Qed.

Lemma mp_e5_main C iv ms n : C <> [] -> ms <> [] -> (iv < n)%nat -> (forall m, In m ms -> (m < n)%nat) ->
  exists g n' r cs, mp_new e5_ops C iv ms n = (g, n') /\ mp_result e5_ops g = Ok r /\
    mp_constraints e5_ops g = Ok cs /\ (n <= r < n')%nat /\
    (forall s, sat s cs -> s r = mp_spec (mimc_spec 5 C) (s iv) (map s ms)) /\
    (forall s, exists s', mp_witness e5_ops g s = Ok s' /\ frame n n' s s' /\ sat s' cs /\
       s' r = mp_spec (mimc_spec 5 C) (s iv) (map s ms)).
Proof. apply (mp_main_gen _ _ e5_ok). Qed.

Lemma mp_e7_main C iv ms n : C <> [] -> ms <> [] -> (iv < n)%nat -> (forall m, In m ms -> (m < n)%nat) ->
  exists g n' r cs, mp_new e7_ops C iv ms n = (g, n') /\ mp_result e7_ops g = Ok r /\
    mp_constraints e7_ops g = Ok cs /\ (n <= r < n')%nat /\
    (forall s, sat s cs -> s r = mp_spec (mimc_spec 7 C) (s iv) (map s ms)) /\
    (forall s, exists s', mp_witness e7_ops g s = Ok s' /\ frame n n' s s' /\ sat s' cs /\
       s' r = mp_spec (mimc_spec 7 C) (s iv) (map s ms)).
Proof. apply (mp_main_gen _ _ e7_ok). Qed.

Lemma mp_native_main C ms k : C <> [] ->
  (ms <> [] -> mimc_hash_native C ms k = Ok (mp_spec (mimc_spec 7 C) k ms)) /\
  (ms = [] -> mimc_hash_native C ms k = UB).
Proof. intros HC. split; [now apply mimc_hash_native_ok|intros ->; reflexivity]. Qed.

Lemma mp_empty_main C iv n :
  (exists g n', mp_new e5_ops C iv [] n = (g, n') /\ mp_result e5_ops g = UB) /\
  (exists g n', mp_new e7_ops C iv [] n = (g, n') /\ mp_result e7_ops g = UB).
Proof. split; eexists; eexists; split; reflexivity. Qed.
