(** Model of double valued parameters: src/tools/ParamContainer.cpp:223-234 (GetValue), 573-592 (SetValue), 278-294 and 611-624 (arrays).

    Doubles are the finite IEEE binary64 numbers.  ostream << prints six significant digits, correctly rounded, in the style of printf %g; sscanf %lf rounds to the
    nearest double.  Hexadecimal numbers, infinities and NaN are left out, as are texts with an incomplete exponent. *)
From Coq Require Import Ascii String List NArith ZArith Lia Bool.
From Verif Require Import Base Model.Params.
Import ListNotations.
Open Scope Z_scope.

(** ± m * 2^e *)
Record dbl := mkD { d_neg : bool; d_m : Z; d_e : Z }.

(** * Rounding of n / d, n and d positive *)
(** the largest e with b^e <= n / d *)
Fixpoint up (b : Z) (fuel : nat) (n d e : Z) : Z := match fuel with O => e | S f => if n <? b * d then e else up b f n (b * d) (e + 1) end.
Fixpoint down (b : Z) (fuel : nat) (n d e : Z) : Z := match fuel with O => e | S f => if d <=? n then e else down b f (b * n) d (e - 1) end.
Definition flog (b n d : Z) : Z := if d <=? n then up b (S (Z.to_nat (Z.log2 n))) n d 0 else down b (S (Z.to_nat (Z.log2 d))) n d 0.
(** to the nearest integer, ties to even *)
Definition rhe (n d : Z) : Z :=
  let q := n / d in
  match 2 * (n mod d) ?= d with Lt => q | Gt => q + 1 | Eq => if Z.even q then q else q + 1 end.
(** n / d in units of b^e *)
Definition in_units (b n d e : Z) : Z := if 0 <=? e then rhe n (d * b ^ e) else rhe (n * b ^ (- e)) d.
(** six decimal digits m and the exponent of the first *)
Definition six (n d : Z) : Z * Z :=
  let x := flog 10 n d in
  let m := in_units 10 n d (x - 5) in
  if m =? 1000000 then (100000, x + 1) else (m, x).
(** the double; nothing: too large *)
Definition to_dbl (neg : bool) (n d : Z) : option dbl :=
  if n =? 0 then Some (mkD neg 0 (-1074)) else
  let e := Z.max (flog 2 n d - 52) (-1074) in
  let m := in_units 2 n d e in
  let '(m, e) := if m =? 2 ^ 53 then (2 ^ 52, e + 1) else (m, e) in
  if 971 <? e then None else Some (mkD neg m e).

(** * Texts *)
Fixpoint skip0 (s : str) : str := match s with c :: t => if Ascii.eqb c "0" then skip0 t else s | [] => [] end.
(** without zeros at the end *)
Definition strip0 (s : str) : str := rev (skip0 (rev s)).
Definition point (f : str) : str := match f with [] => [] | _ => "."%char :: f end.
(** printf %g: the digits [ds], the first of them at 10^x *)
Definition fixed (x : Z) (ds : str) : str :=
  if 0 <=? x then (firstn (Z.to_nat (x + 1)) ds ++ point (strip0 (skipn (Z.to_nat (x + 1)) ds)))%list
  else (lit "0" ++ point (repeat "0"%char (Z.to_nat (- x - 1)) ++ strip0 ds))%list.
Definition two_digits (n : Z) : str := if n <? 10 then "0"%char :: dec_print (Z.to_N n) else dec_print (Z.to_N n).
Definition expo (x : Z) (ds : str) : str :=
  (firstn 1 ds ++ point (strip0 (skipn 1 ds)) ++ lit "e" ++ (if x <? 0 then lit "-" else lit "+") ++ two_digits (Z.abs x))%list.
Definition print_g (x : dbl) : str :=
  let body :=
    if d_m x =? 0 then lit "0"
    else let '(m, x) := if 0 <=? d_e x then six (d_m x * 2 ^ d_e x) 1 else six (d_m x) (2 ^ (- d_e x)) in
         let ds := dec_print (Z.to_N m) in
         if (-4 <=? x) && (x <? 6) then fixed x ds else expo x ds in
  if d_neg x then "-"%char :: body else body.
(** sscanf %lf: sign, digits, point, digits, exponent *)
Definition sign_of (s : str) : bool * str :=
  match s with
  | c :: t => if Ascii.eqb c "-" then (true, t) else if Ascii.eqb c "+" then (false, t) else (false, s)
  | [] => (false, [])
  end.
Definition exponent (s : str) : Z :=
  match s with
  | c :: t => if Ascii.eqb c "e" || Ascii.eqb c "E" then let '(neg, t) := sign_of t in let v := Z.of_N (dec_val (span_digits t)) in if neg : bool then - v else v else 0
  | [] => 0
  end.
(** the digits read, and the power of ten *)
Definition scan_lf (s : str) : option (bool * Z * Z) :=
  let '(neg, s) := sign_of (skip_space s) in
  let a := span_digits s in
  let r := skipn (length a) s in
  let f := match r with c :: t => if Ascii.eqb c "." then span_digits t else [] | [] => [] end in
  let r := match r with c :: t => if Ascii.eqb c "." then skipn (length f) t else r | [] => [] end in
  match (a ++ f)%list with
  | [] => None
  | ds => Some (neg, Z.of_N (dec_val ds), exponent r - Z.of_nat (length f))
  end.
(** ± m * 10^e; nothing: no number or too large *)
Definition read_lf (s : str) : option (option dbl) :=
  match scan_lf s with
  | None => None
  | Some (neg, m, e) => Some (if 0 <=? e then to_dbl neg (m * 10 ^ e) 1 else to_dbl neg m (10 ^ (- e)))
  end.

(** * Parameters *)
(** ParamContainer.cpp:583-592 *)
Definition set_double (c : container) (k : str) (v : dbl) : container := set_value c k (print_g v) t_double.
Definition zero : dbl := mkD false 0 (-1074).
(** ParamContainer.cpp:223-234: success, and the value, nothing being an infinity; [old]: the content of the variable, which stays if there is no number *)
Definition get_double (c : container) (k : str) (old : dbl) : bool * option dbl :=
  match get_value c k with
  | Some s => (true, match read_lf s with Some r => r | None => Some old end)
  | None => (false, Some zero)
  end.
(** ParamContainer.cpp:611-624 *)
Fixpoint join_doubles (l : list dbl) : str :=
  match l with
  | [] => []
  | [z] => print_g z
  | z :: t => (print_g z ++ ","%char :: join_doubles t)%list
  end.
Definition set_array_double (c : container) (k : str) (l : list dbl) : container := set_value c k (join_doubles l) t_double.
(** ParamContainer.cpp:278-294; a part without number leaves an uninitialised variable *)
Fixpoint read_parts (l : list str) : outcome (list (option dbl)) :=
  match l with
  | [] => Ok []
  | s :: t => match read_lf s with Some z => let* zs := read_parts t in Ok (z :: zs) | None => UB end
  end.
Definition get_array_double (c : container) (k : str) : outcome (bool * list (option dbl)) :=
  match get_value c k with
  | None => Ok (false, [])
  | Some s => let* zs := read_parts (split s) in Ok (true, zs)
  end.
