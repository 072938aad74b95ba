(** Property theorems C01-C05, C10, C11: field2bits_strict, the lookup gadgets,
    IsNonZero and subadd.  Proofs are in Q_Basic.v.

    Vocabulary (all independent of the gadget code): [natbits] is the integer denoted
    by a little-endian bit list, [b2F] embeds a bool in the field, [frame n n' s s']
    says that [s'] differs from [s] at most on the variables [n, n'), [sel2]/[sel3]
    are the table index b0+2*b1(+4*b2). *)
From Coq Require Import List ZArith Bool Arith.
From Verif Require Import Primes Field Base R1CS R1CSFacts M_Lookup P_Lookup M_Bits P_Bits P_Subadd Q_Basic.
Import ListNotations.
Local Open Scope F_scope.

(** ** C01 *)
Theorem C01_field2bits_sound_complete : forall v n, (v < n)%nat ->
  exists g n' cs, field2bits_new v n = Ok (g, n') /\ f2b_constraints g = Ok cs /\
    NoDup (f2b_result g) /\ (forall u, In u (f2b_result g) -> (n <= u < n')%nat) /\
    (forall s, sat s cs -> exists bs, length bs = 254%nat /\
        map s (f2b_result g) = map b2F bs /\ s v = Fof (natbits bs)) /\
    (forall s, exists s' bs, f2b_witness g s = Ok s' /\ sat s' cs /\ frame n n' s s' /\
        length bs = 254%nat /\ map s' (f2b_result g) = map b2F bs /\ natbits bs = fval (s v)).
Proof. exact f2b_main. Qed.
Print Assumptions C01_field2bits_sound_complete.
(** the hypothesis is met with the gadget reading variable 1 and allocated from 2 *)
Example C01_example : exists g n' cs s' bs, field2bits_new 1 2 = Ok (g, n') /\ f2b_constraints g = Ok cs /\
  f2b_witness g (upd (fun _ => F0) 1 (Fof 5)) = Ok s' /\ sat s' cs /\
  map s' (f2b_result g) = map b2F bs /\ natbits bs = 5%Z.
Proof.
  destruct (C01_field2bits_sound_complete 1 2) as (g & n' & cs & H1 & H2 & _ & _ & _ & H); [repeat constructor|].
  destruct (H (upd (fun _ => F0) 1 (Fof 5))) as (s' & bs & H3 & H4 & _ & _ & H5 & H6).
  exists g, n', cs, s', bs. repeat (split; [assumption|]). exact H6.
Qed.

(** ** C02: false of the code; the digits of value+modulus are accepted as well *)
Theorem C02_field2bits_unique_refuted : exists v n g n' cs s1 s2,
  field2bits_new v n = Ok (g, n') /\ f2b_constraints g = Ok cs /\
  sat s1 cs /\ sat s2 cs /\ s1 v = s2 v /\ map s1 (f2b_result g) <> map s2 (f2b_result g).
Proof. exact f2b_unique_refuted. Qed.
Print Assumptions C02_field2bits_unique_refuted.
Theorem C02_field2bits_every_small_value_has_two_decodings : forall v n g n' cs s, (v < n)%nat -> field2bits_new v n = Ok (g, n') ->
  f2b_constraints g = Ok cs -> (fval (s v) < 2 ^ 254 - p_mod)%Z ->
  exists s1 s2 b1 b2, sat s1 cs /\ sat s2 cs /\ frame n n' s s1 /\ frame n n' s s2 /\
    map s1 (f2b_result g) = map b2F b1 /\ map s2 (f2b_result g) = map b2F b2 /\
    natbits b1 = fval (s v) /\ natbits b2 = (fval (s v) + p_mod)%Z.
Proof. exact f2b_two_decodings. Qed.
Print Assumptions C02_field2bits_every_small_value_has_two_decodings.
(** what is true: no third decoding, and uniqueness for values >= 2^254 - p *)
Theorem C02_field2bits_decodings_partial : forall v n g n' cs s bs, field2bits_new v n = Ok (g, n') ->
  f2b_constraints g = Ok cs -> sat s cs -> map s (f2b_result g) = map b2F bs ->
  natbits bs = fval (s v) \/ (natbits bs = fval (s v) + p_mod /\ fval (s v) < 2 ^ 254 - p_mod)%Z.
Proof. exact f2b_classify. Qed.
Print Assumptions C02_field2bits_decodings_partial.
Example C02_example : (0 < 2 ^ 254 - p_mod)%Z /\ (2 ^ 254 - p_mod < p_mod)%Z.
Proof. split; reflexivity. Qed.

(** ** C03 *)
Theorem C03_lookup_1bit : forall c b n, length c = 2%nat -> (b < n)%nat ->
  exists g n' cs, lookup1_new c b n = Ok (g, n') /\ lookup1_constraints g = Ok cs /\
   (n <= lookup1_result g < n')%nat /\
   (forall s (bit : bool), s b = b2F bit ->
      (sat s cs <-> nth_error c (if bit then 1 else 0) = Some (s (lookup1_result g)))) /\
   (forall s (bit : bool), s b = b2F bit ->
      exists s', lookup1_witness g s = Ok s' /\ frame n n' s s' /\ sat s' cs) /\
   (forall s, (2 <= fval (s b) mod 2 ^ 64)%Z -> lookup1_witness g s = UB).
Proof. exact lookup1_main. Qed.
Print Assumptions C03_lookup_1bit.
Theorem C03_lookup_2bit : forall c b0 b1 n, length c = 4%nat -> (b0 < n)%nat -> (b1 < n)%nat ->
  exists g n' cs, lookup2_new c [b0; b1] n = Ok (g, n') /\ lookup2_constraints g = Ok cs /\
   (n <= lk2_r g < n')%nat /\
   (forall s x0 x1, s b0 = b2F x0 -> s b1 = b2F x1 ->
      (sat s cs <-> nth_error c (sel2 x0 x1) = Some (s (lk2_r g)))) /\
   (forall s x0 x1, s b0 = b2F x0 -> s b1 = b2F x1 ->
      exists s', lookup2_witness g s = Ok s' /\ frame n n' s s' /\ sat s' cs) /\
   (forall s, ~ isbit (s b0) \/ ~ isbit (s b1) -> lookup2_witness g s = Abort).
Proof. exact lookup2_main. Qed.
Print Assumptions C03_lookup_2bit.
Example C03_example : length [Fof 7; Fof 9] = 2%nat /\ length [Fof 1; Fof 2; Fof 3; Fof 4] = 4%nat /\
  match lookup1_new [Fof 7; Fof 9] 1 2 with
  | Ok (g, _) => match lookup1_witness g (upd (fun _ => F0) 1 F1), lookup1_witness g (upd (fun _ => F0) 1 (Fof 2)) with
                 | Ok s, UB => Feqb (s 2%nat) (Fof 9) | _, _ => false end
  | _ => false end = true /\
  ~ isbit (Fof 2).
Proof.
  split; [reflexivity|]. split; [reflexivity|]. split; [vm_compute; reflexivity|].
  unfold isbit. intros [H|H]; apply (f_equal fval) in H; vm_compute in H; discriminate.
Qed.

(** ** C04 *)
Theorem C04_lookup_3bit : forall c b0 b1 b2 n, length c = 8%nat -> (b0 < n)%nat -> (b1 < n)%nat -> (b2 < n)%nat ->
  exists g n' cs, lookup3_new c [b0; b1; b2] n = Ok (g, n') /\ lookup3_constraints g = Ok cs /\
   (n <= lk3_r g < n')%nat /\
   (forall s x0 x1 x2, s b0 = b2F x0 -> s b1 = b2F x1 -> s b2 = b2F x2 ->
      (sat s cs -> nth_error c (sel3 x0 x1 x2) = Some (s (lk3_r g))) /\
      (nth_error c (sel3 x0 x1 x2) = Some (s (lk3_r g)) ->
        exists s', (forall v, v = lk3_r g \/ (v < n)%nat \/ (n' <= v)%nat -> s' v = s v) /\ sat s' cs)) /\
   (forall s x0 x1 x2, s b0 = b2F x0 -> s b1 = b2F x1 -> s b2 = b2F x2 ->
      exists s', lookup3_witness g s = Ok s' /\ frame n n' s s' /\ sat s' cs).
Proof. exact lookup3_main. Qed.
Print Assumptions C04_lookup_3bit.
Theorem C04_lookup_signed_3bit : forall c b0 b1 b2 n, length c = 4%nat -> (b0 < n)%nat -> (b1 < n)%nat -> (b2 < n)%nat ->
  exists g n' cs, lookups_new c [b0; b1; b2] n = Ok (g, n') /\ lookups_constraints g = Ok cs /\
   (n <= lks_r g < n')%nat /\
   (forall s x0 x1 x2, s b0 = b2F x0 -> s b1 = b2F x1 -> s b2 = b2F x2 -> sat s cs ->
      exists x, nth_error c (sel2 x0 x1) = Some x /\ s (lks_r g) = if x2 then - x else x) /\
   (forall s x0 x1 x2 x, s b0 = b2F x0 -> s b1 = b2F x1 -> s b2 = b2F x2 ->
      nth_error c (sel2 x0 x1) = Some x -> s (lks_r g) = (if x2 then - x else x) ->
      exists s', (forall v, v = lks_r g \/ (v < n)%nat \/ (n' <= v)%nat -> s' v = s v) /\ sat s' cs) /\
   (forall s x0 x1 x2, s b0 = b2F x0 -> s b1 = b2F x1 -> s b2 = b2F x2 ->
      exists s', lookups_witness g s = Ok s' /\ frame n n' s s' /\ sat s' cs).
Proof. exact lookups_main. Qed.
Print Assumptions C04_lookup_signed_3bit.
Example C04_example :
  match lookup3_new (map Fof [1; 2; 3; 4; 5; 6; 7; 8]%Z) [1; 2; 3]%nat 4, lookups_new (map Fof [1; 2; 3; 4]%Z) [1; 2; 3]%nat 4 with
  | Ok (g, _), Ok (h, _) =>
      match lookup3_witness g (upd (upd (fun _ => F0) 1 F1) 3 F1), lookups_witness h (upd (upd (fun _ => F0) 1 F1) 3 F1) with
      | Ok s, Ok s2 => Feqb (s (lk3_r g)) (Fof 6) && Feqb (s2 (lks_r h)) (Fof (-2))
      | _, _ => false end
  | _, _ => false end = true.
Proof. vm_compute. reflexivity. Qed.

(** ** C05 *)
Theorem C05_isnonzero : forall x n, (x < n)%nat ->
  exists g n', isnonzero_new x n = (g, n') /\ (n <= isnonzero_result g < n')%nat /\
   (forall s, sat s (isnonzero_constraints g) ->
      (s x = F0 /\ s (isnonzero_result g) = F0) \/ (s x <> F0 /\ s (isnonzero_result g) = F1)) /\
   (forall s, s (isnonzero_result g) = (if Feqb (s x) F0 then F0 else F1) ->
      exists s', (forall v, v = isnonzero_result g \/ (v < n)%nat \/ (n' <= v)%nat -> s' v = s v) /\
        sat s' (isnonzero_constraints g)) /\
   (forall s, frame n n' s (isnonzero_witness g s) /\ sat (isnonzero_witness g s) (isnonzero_constraints g)).
Proof. exact isnonzero_main. Qed.
Print Assumptions C05_isnonzero.
Example C05_example : let (g, _) := isnonzero_new 1 2 in
  Feqb (isnonzero_witness g (upd (fun _ => F0) 1 (Fof 17)) 2%nat) F1 && Feqb (isnonzero_witness g (fun _ => F0) 2%nat) F0 = true.
Proof. vm_compute. reflexivity. Qed.

(** ** C10 *)
Theorem C10_subadd_range_checked : forall n A B N k g k' s, subadd_new n A B N k = Ok (g, k') ->
  (A < k)%nat -> (B < k)%nat -> (N < k)%nat ->
  (fval (s A) < 2 ^ Z.of_nat n)%Z -> (fval (s B) < 2 ^ Z.of_nat n)%Z -> (fval (s N) < 2 ^ Z.of_nat n)%Z ->
  ((exists s', frame k k' s s' /\ sat s' (subadd_constraints g)) <->
   (fval (s N) <= fval (s A) /\ fval (s B) + fval (s N) < 2 ^ Z.of_nat n)%Z) /\
  (sat s (subadd_constraints g) ->
     fval (s (sa_X g)) = (fval (s A) - fval (s N))%Z /\ fval (s (sa_Y g)) = (fval (s B) + fval (s N))%Z) /\
  (exists s', subadd_witness g s = Ok s' /\ frame k k' s s' /\
    (sat s' (subadd_constraints g) <->
     (fval (s N) <= fval (s A) /\ fval (s B) + fval (s N) < 2 ^ Z.of_nat n)%Z)).
Proof. exact subadd_main. Qed.
Print Assumptions C10_subadd_range_checked.
Theorem C10_subadd_constructible : forall n A B N k, (1 <= n <= 252)%nat -> exists g k', subadd_new n A B N k = Ok (g, k').
Proof. exact subadd_new_ok. Qed.
Print Assumptions C10_subadd_constructible.
Theorem C10_subadd_size_limit : forall n A B N k, ~ (1 <= n <= 252)%nat -> subadd_new n A B N k = Abort.
Proof. exact subadd_new_abort. Qed.
Print Assumptions C10_subadd_size_limit.
Example C10_example :
  match subadd_new 8 1 2 3 4 with
  | Ok (g, _) => match subadd_witness g (upd (upd (upd (fun _ => F0) 1 (Fof 200)) 2 (Fof 5)) 3 (Fof 100)) with
      | Ok s => satb s (subadd_constraints g) && Feqb (s (sa_X g)) (Fof 100) && Feqb (s (sa_Y g)) (Fof 105)
      | _ => false end
  | _ => false end = true.
Proof. vm_compute. reflexivity. Qed.

(** ** C11: false of the code; the input range has to be enforced by the caller *)
Theorem C11_subadd_unchecked_inputs_refuted : exists n A B N k g k' s,
  subadd_new n A B N k = Ok (g, k') /\ (A < k /\ B < k /\ N < k)%nat /\ sat s (subadd_constraints g) /\
  fval (s A) = 0%Z /\ fval (s B) = 0%Z /\
  ~ (fval (s (sa_Y g)) < 2 ^ Z.of_nat n)%Z.
Proof. exact subadd_unchecked_refuted. Qed.
Print Assumptions C11_subadd_unchecked_inputs_refuted.
Theorem C11_subadd_unchecked_inputs_partial : forall n A B N k g k' s, subadd_new n A B N k = Ok (g, k') ->
  sat s (subadd_constraints g) ->
  (fval (s (sa_X g)) < 2 ^ Z.of_nat n)%Z /\
  s (sa_X g) + s (sa_Y g) = s A + s B /\
  ((fval (s (sa_Y g)) < 2 ^ Z.of_nat n)%Z \/ (p_mod - 2 ^ Z.of_nat n < fval (s (sa_Y g)))%Z).
Proof. exact subadd_unchecked. Qed.
Print Assumptions C11_subadd_unchecked_inputs_partial.
