(** What the properties of the JSON exporter, importer and verification entry points refer to: affine
    coordinates, the alt_bn128 curve and its twist, number notations, JSON texts, and the keys and proofs
    that JSON values stand for. *)
From Coq Require Import ZArith List Bool Arith Ascii String.
From Verif Require Import Primes Field FieldQ Base M_Groth Spec_Groth M_Export.
Import ListNotations.
Local Open Scope Z_scope.

(** ** points *)
(** (x, y) are the affine coordinates of the finite point (X : Y : Z) *)
Definition affine1 (P : G1T) (x y : Fq) : Prop :=
  jZ P <> Q0 /\ jX P = (x * (jZ P * jZ P))%Q /\ jY P = (y * (jZ P * jZ P * jZ P))%Q.
Definition affine2 (P : G2T) (x y : Fq2) : Prop :=
  jZ P <> Q20 /\ jX P = (x * (jZ P * jZ P))%Q2 /\ jY P = (y * (jZ P * jZ P * jZ P))%Q2.
(** two representatives of one finite point *)
Definition same1 (P Q : G1T) : Prop := exists x y, affine1 P x y /\ affine1 Q x y.
Definition same2 (P Q : G2T) : Prop := exists x y, affine2 P x y /\ affine2 Q x y.
(** the curve y^2 = x^3 + 3 and the twist y^2 = x^3 + 3/(9+u) *)
Definition curve1 (x y : Fq) : Prop := (y * y)%Q = (x * x * x + Qof 3)%Q.
Definition curve2 (x y : Fq2) : Prop :=
  (mkq2 (Qof 9) Q1 * (y * y - x * x * x))%Q2 = mkq2 (Qof 3) Q0.

(** ** number notations: white space, an optional minus, a prefix fixing the base, digits (between which
    white space may stand) *)
Definition space (c : ascii) : Prop :=
  In c [" "; "009"; "010"; "011"; "012"; "013"]%char.
Inductive digit (base : Z) : ascii -> Z -> Prop :=
| d_dec n : 0 <= n < 10 -> n < base -> digit base (ascii_of_nat (48 + Z.to_nat n)) n
| d_upper n : 10 <= n < 36 -> n < base -> digit base (ascii_of_nat (55 + Z.to_nat n)) n
| d_lower n : 10 <= n < 36 -> n < base -> digit base (ascii_of_nat (87 + Z.to_nat n)) n.
(** [digits base s v w]: reading [s] after the value [v] gives the value [w] *)
Inductive digits (base : Z) : text -> Z -> Z -> Prop :=
| ds_nil v : digits base [] v v
| ds_space c s v w : space c -> digits base s v w -> digits base (c :: s) v w
| ds_digit c n s v w : digit base c n -> digits base s (v * base + n) w -> digits base (c :: s) v w.
Inductive magnitude : text -> Z -> Prop :=
| m_dec c n s v : digit 10 c n -> n <> 0 -> digits 10 s n v -> magnitude (c :: s) v
| m_oct s v : digits 8 s 0 v -> magnitude ("0"%char :: s) v
| m_hex x s v : x = "x"%char \/ x = "X"%char -> digits 16 s 0 v -> magnitude ("0"%char :: x :: s) v
| m_bin b s v : b = "b"%char \/ b = "B"%char -> digits 2 s 0 v -> magnitude ("0"%char :: b :: s) v.
Definition numeral (s : text) (z : Z) : Prop :=
  exists w m, Forall space w /\
    ((s = w ++ m /\ magnitude m z) \/ (s = w ++ "-"%char :: m /\ magnitude m (- z))).
(** what a string from the JSON file denotes: the part before a NUL character counts *)
Definition before_nul (s t : text) : Prop :=
  ~ In "000"%char t /\ (s = t \/ exists r, s = t ++ "000"%char :: r).
Definition denotes (s : text) (z : Z) : Prop :=
  exists t, before_nul s t /\ numeral t z /\ 0 <= z < 2 ^ 256.

(** ** JSON texts (the part of RFC 8259 used here: strings without escapes, arrays, objects) *)
Definition jspace (c : ascii) : Prop := In c [" "; "009"; "010"; "013"]%char.
Definition ws (w : text) : Prop := Forall jspace w.
(** characters that need no escaping *)
Definition plain (c : ascii) : Prop :=
  (32 <= nat_of_ascii c < 128)%nat /\ c <> quote /\ c <> "\"%char.
Inductive jtext : json -> text -> Prop :=
| jt_str s : Forall plain s -> jtext (JStr s) (quote :: s ++ [quote])
| jt_arr0 w : ws w -> jtext (JArr []) ("["%char :: w ++ ["]"%char])
| jt_arr l s : jelems l s -> jtext (JArr l) ("["%char :: s ++ ["]"%char])
| jt_obj0 w : ws w -> jtext (JObj []) ("{"%char :: w ++ ["}"%char])
| jt_obj l s : NoDup (map fst l) -> jmems l s -> jtext (JObj l) ("{"%char :: s ++ ["}"%char])
with jelems : list json -> text -> Prop :=
| je_one t s a b : ws a -> ws b -> jtext t s -> jelems [t] (a ++ s ++ b)
| je_cons t s a b l r : ws a -> ws b -> jtext t s -> jelems l r ->
    jelems (t :: l) (a ++ s ++ b ++ ","%char :: r)
with jmems : list (text * json) -> text -> Prop :=
| jm_one k t s a b c d : ws a -> ws b -> ws c -> ws d -> Forall plain k -> jtext t s ->
    jmems [(k, t)] (a ++ quote :: k ++ quote :: b ++ ":"%char :: c ++ s ++ d)
| jm_cons k t s a b c d l r : ws a -> ws b -> ws c -> ws d -> Forall plain k -> jtext t s -> jmems l r ->
    jmems ((k, t) :: l) (a ++ quote :: k ++ quote :: b ++ ":"%char :: c ++ s ++ d ++ ","%char :: r).
(** a JSON parser that reads these texts, and on any text returns a value or throws *)
Definition conforming (parse : text -> outcome json) : Prop :=
  (forall t s a b, ws a -> ws b -> jtext t s -> parse (a ++ s ++ b) = Ok t) /\
  (forall s, parse s = Throw \/ exists t, parse s = Ok t).

(** ** what JSON values stand for *)
Definition g1_value (t : json) (P : G1T) : Prop :=
  exists sx sy x y, t = JArr [JStr sx; JStr sy] /\ denotes sx x /\ denotes sy y /\ P = Jac (Qof x) (Qof y) Q1.
Definition g2_value (t : json) (P : G2T) : Prop :=
  exists sx1 sx0 sy1 sy0 x1 x0 y1 y0,
    t = JArr [JArr [JStr sx1; JStr sx0]; JArr [JStr sy1; JStr sy0]] /\
    denotes sx1 x1 /\ denotes sx0 x0 /\ denotes sy1 y1 /\ denotes sy0 y0 /\
    P = Jac (mkq2 (Qof x0) (Qof x1)) (mkq2 (Qof y0) (Qof y1)) (mkq2 Q1 Q0).
(** the value of a key *)
Definition member (t : json) (k : string) (v : json) : Prop :=
  exists l1 l2, t = JObj (l1 ++ (T k, v) :: l2) /\ ~ In (T k) (map fst l1).
(** the elements of a list: an array; an object's values are taken, too, and nothing else than null is
    the empty list and a string is a list of one *)
Inductive elements : json -> list json -> Prop :=
| el_arr l : elements (JArr l) l
| el_obj l : elements (JObj l) (map snd l)
| el_null : elements JNull []
| el_str s : elements (JStr s) [JStr s].
Definition input_value (t : json) (x : F) : Prop :=
  exists s z, t = JStr s /\ denotes s z /\ x = Fof z.
Definition key_value (t : json) (vk : VerificationKeyT) : Prop :=
  exists a b c d g l,
    member t "alpha" a /\ member t "beta" b /\ member t "gamma" c /\ member t "delta" d /\
    member t "gammaABC" g /\ elements g l /\
    g1_value a (alpha_g1 vk) /\ g2_value b (beta_g2 vk) /\ g2_value c (gamma_g2 vk) /\
    g2_value d (delta_g2 vk) /\ Forall2 g1_value l (gamma_ABC_first vk :: gamma_ABC_rest vk).
Definition proof_value (t : json) (input : list F) (pf : ProofT) : Prop :=
  exists a b c i l,
    member t "A" a /\ member t "B" b /\ member t "C" c /\ member t "input" i /\ elements i l /\
    g1_value a (g_A pf) /\ g2_value b (g_B pf) /\ g1_value c (g_C pf) /\ Forall2 input_value l input.

(** a key that parses except that its list of points is empty *)
Definition empty_key (t : json) : Prop :=
  exists a b c d g pa pb pc pd,
    member t "alpha" a /\ member t "beta" b /\ member t "gamma" c /\ member t "delta" d /\ member t "gammaABC" g /\
    g1_value a pa /\ g2_value b pb /\ g2_value c pc /\ g2_value d pd /\ elements g [].

(** ** acceptance *)
(** [e1], [e2] take coordinates to the elements of the groups of [E]; well-formedness of finite points
    is membership of the curve or the twist *)
Definition represents (E : pairing) (e1 : G1T -> G1 E) (e2 : G2T -> G2 E) : Prop :=
  (forall P x y, affine1 P x y -> (g1_wf E (e1 P) = true <-> curve1 x y)) /\
  (forall P x y, affine2 P x y -> (g2_wf E (e2 P) = true <-> curve2 x y)) /\
  (forall P Q, same1 P Q -> e1 P = e1 Q) /\ (forall P Q, same2 P Q -> e2 P = e2 Q).
(** the proof is valid for the key and the inputs *)
Definition accepted (E : pairing) (e1 : G1T -> G1 E) (e2 : G2T -> G2 E)
    (vk : VerificationKeyT) (input : list F) (pf : ProofT) : Prop :=
  List.length input = List.length (gamma_ABC_rest vk) /\
  curve1 (jX (g_A pf)) (jY (g_A pf)) /\ curve2 (jX (g_B pf)) (jY (g_B pf)) /\
  curve1 (jX (g_C pf)) (jY (g_C pf)) /\
  groth_equation E (e1 (alpha_g1 vk)) (e2 (beta_g2 vk)) (e2 (gamma_g2 vk)) (e2 (delta_g2 vk))
    (statement_point E (e1 (gamma_ABC_first vk)) (map e1 (gamma_ABC_rest vk)) input)
    (e1 (g_A pf)) (e2 (g_B pf)) (e1 (g_C pf)).

(** ** round trips *)
(** a finite G2 point in a representation that the exporter handles: already affine, or with both
    components of Z different from 0 *)
Definition handled2 (P : G2T) : Prop :=
  jZ P = Q21 \/ (c0 (jZ P) <> Q0 /\ c1 (jZ P) <> Q0).
Definition exportable_key (vk : VerificationKeyT) : Prop :=
  jZ (alpha_g1 vk) <> Q0 /\ handled2 (beta_g2 vk) /\ handled2 (gamma_g2 vk) /\ handled2 (delta_g2 vk) /\
  jZ (gamma_ABC_first vk) <> Q0 /\ Forall (fun P => jZ P <> Q0) (gamma_ABC_rest vk).
Definition exportable_proof (pf : ProofT) : Prop :=
  jZ (g_A pf) <> Q0 /\ handled2 (g_B pf) /\ jZ (g_C pf) <> Q0.
Definition same_key (v w : VerificationKeyT) : Prop :=
  same1 (alpha_g1 v) (alpha_g1 w) /\ same2 (beta_g2 v) (beta_g2 w) /\ same2 (gamma_g2 v) (gamma_g2 w) /\
  same2 (delta_g2 v) (delta_g2 w) /\ same1 (gamma_ABC_first v) (gamma_ABC_first w) /\
  Forall2 same1 (gamma_ABC_rest v) (gamma_ABC_rest w).
Definition same_proof (v w : ProofT) : Prop :=
  same1 (g_A v) (g_A w) /\ same2 (g_B v) (g_B w) /\ same1 (g_C v) (g_C w).

(** ** the verification entry points *)
(** the texts [vk_text], [proof_text] are a key and a proof that is valid for it *)
Definition valid_texts (parse : text -> outcome json) (E : pairing) (e1 : G1T -> G1 E) (e2 : G2T -> G2 E)
    (vk_text proof_text : text) : Prop :=
  exists tv tp vk input pf, parse vk_text = Ok tv /\ parse proof_text = Ok tp /\
    key_value tv vk /\ proof_value tp input pf /\ accepted E e1 e2 vk input pf.
