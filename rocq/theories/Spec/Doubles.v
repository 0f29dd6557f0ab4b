(** Doubles, decimal numbers and their texts. *)
From Coq Require Import Ascii String List NArith ZArith QArith Qabs Bool.
From Verif Require Import Base Spec.Params Model.Doubles.
Import ListNotations.
Open Scope Z_scope.

Definition pow (b e : Z) : Q := (inject_Z b ^ e)%Q.
Definition signed (neg : bool) (q : Q) : Q := if neg then (- q)%Q else q.
Definition value (x : dbl) : Q := signed (d_neg x) (inject_Z (d_m x) * pow 2 (d_e x)).
(** the finite IEEE doubles, each in one way *)
Definition is_double (x : dbl) : Prop :=
  (2 ^ 52 <= d_m x < 2 ^ 53 /\ -1074 <= d_e x <= 971) \/ (0 <= d_m x < 2 ^ 52 /\ d_e x = -1074).
Definition largest : Q := (inject_Z (2 ^ 53 - 1) * pow 2 971)%Q.
(** no double is closer to q *)
Definition closest (q : Q) (x : dbl) : Prop := is_double x /\ forall y, is_double y -> (Qabs (q - value x) <= Qabs (q - value y))%Q.
(** decimal numbers with at most six digits *)
Definition six_digits (q : Q) : Prop := exists m e, Z.abs m < 1000000 /\ (q == inject_Z m * pow 10 e)%Q.
(** texts of numbers: sign, digits, fraction, exponent *)
Definition sign_text (sg : str) (neg : bool) : Prop := sg = [] /\ neg = false \/ sg = lit "+" /\ neg = false \/ sg = lit "-" /\ neg = true.
Inductive exponent_text : str -> Z -> Prop :=
| no_exp : exponent_text [] 0
| an_exp : forall c sg neg d, (c = "e"%char \/ c = "E"%char) -> sign_text sg neg -> Forall digit d -> d <> [] ->
    exponent_text (c :: sg ++ d) (if neg : bool then - Z.of_N (dec_val d) else Z.of_N (dec_val d)).
Inductive numeral : str -> Q -> Prop :=
| num : forall sg neg a f fr ex e, sign_text sg neg ->
    Forall digit a -> Forall digit f -> (fr = [] /\ f = [] \/ fr = "."%char :: f) -> (a ++ f)%list <> [] -> exponent_text ex e ->
    numeral (sg ++ a ++ fr ++ ex) (signed neg (inject_Z (Z.of_N (dec_val (a ++ f))) * pow 10 (e - Z.of_nat (length f)))).
(** neither too small nor too large *)
Definition ordinary (q : Q) : Prop := (q == 0 \/ (pow 10 (-307) <= Qabs q /\ Qabs q <= pow 10 307))%Q.
