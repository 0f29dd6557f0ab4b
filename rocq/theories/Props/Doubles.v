(** C70: double valued parameters pass through texts. *)
From Coq Require Import Ascii String List NArith ZArith QArith Qabs Lia Bool.
From Verif Require Import Base Model.Params Spec.Params Model.Doubles Spec.Doubles Proofs.Doubles.
Import ListNotations.
Open Scope Z_scope.

(** a text is read as the double closest to the number it denotes; too large numbers become infinite *)
Theorem C70_scan c k w s q old : Forall white w -> numeral s q -> get_value c k = Some (w ++ s)%list ->
  exists r, get_double c k old = (true, r) /\
    match r with Some x => closest q x /\ (q < 0 -> d_neg x = true)%Q | None => (largest < Qabs q)%Q end.
Proof. intros Hw N E. destruct (read_closest w s q Hw N) as (r & R & C). exists r. split; [|exact C]. unfold get_double. rewrite E, R. reflexivity. Qed.
Print Assumptions C70_scan.
(** a double is written as a decimal number with six digits, and none is closer *)
Theorem C70_print c k x : is_double x -> exists s q, get_value (set_double c k x) k = Some s /\ numeral s q /\ six_digits q /\ good_value s /\
  (forall r, six_digits r -> Qabs (value x - q) <= Qabs (value x - r))%Q.
Proof.
  intros H. destruct (print_spec x H) as (q & N & S & B). exists (print_g x), q. split; [|split; [exact N|split; [exact S|split; [exact (numeral_good _ _ N)|exact B]]]].
  unfold set_double. rewrite Proofs.Params.get_value_set. destruct (str_eq_dec k k); [reflexivity|contradiction].
Qed.
Print Assumptions C70_print.
(** what is read back: a value set as a double comes back unchanged *)
Definition C70_full : Prop := forall c k x old, is_double x -> get_double (set_double c k x) k old = (true, Some x).
(** 1000001 comes back as 1000000 *)
Theorem C70_refuted : ~ C70_full.
Proof.
  intros F. pose (x := mkD false (1000001 * 2 ^ 33) (-33)). assert (H : is_double x) by (left; vm_compute; split; split; discriminate || reflexivity). specialize (F empty_c (lit "dt") x zero H).
  assert (E : get_double (set_double empty_c (lit "dt") x) (lit "dt") zero = (true, Some (mkD false (1000000 * 2 ^ 33) (-33)))) by (vm_compute; reflexivity).
  rewrite E in F. injection F as F. revert F. unfold x. clear. lia.
Qed.
Print Assumptions C70_refuted.
(** numbers given with at most six digits do *)
Theorem C70_partial c k c' k' w s q old old' : Forall white w -> numeral s q -> six_digits q -> ordinary q -> get_value c k = Some (w ++ s)%list ->
  exists x, get_double c k old = (true, Some x) /\ get_double (set_double c' k' x) k' old' = (true, Some x).
Proof.
  intros Hw N S O E. destruct (back_six w s q Hw N S O) as (x & R & B). exists x. split; [unfold get_double; rewrite E, R; reflexivity|]. apply get_set_double, B.
Qed.
Print Assumptions C70_partial.
(** every other is off by at most one part in 100000; the sign stays *)
Theorem C70_error c k x old : is_double x -> exists w, get_double (set_double c k x) k old = (true, Some w) /\ is_double w /\ d_neg w = d_neg x /\
  (Qabs (value w - value x) <= (1 # 100000) * Qabs (value x))%Q.
Proof. exact (double_error c k x old). Qed.
Print Assumptions C70_error.
(** further passes lose nothing more *)
Theorem C70_twice c k x old : is_double x -> ordinary (value x) ->
  exists w, get_double (set_double c k x) k old = (true, Some w) /\ forall c' k' old', get_double (set_double c' k' w) k' old' = (true, Some w).
Proof. intros H O. destruct (back_twice x H O) as (w & A & B). exists w. split; [apply get_set_double, A|intros c' k' old'; apply get_set_double, B]. Qed.
Print Assumptions C70_twice.
(** arrays: each element as alone *)
Theorem C70_array c k l : Forall is_double l -> l <> [] ->
  get_array_double (set_array_double c k l) k = Ok (true, map (fun x => snd (get_double (set_double c k x) k zero)) l).
Proof. exact (double_array c k l). Qed.
Print Assumptions C70_array.
(** an empty array comes back with an uninitialised element *)
Theorem C70_array_empty_code c k : get_array_double (set_array_double c k []) k = UB.
Proof. unfold get_array_double, set_array_double. rewrite Proofs.Params.get_value_set. destruct (str_eq_dec k k); [reflexivity|contradiction]. Qed.
Print Assumptions C70_array_empty_code.
(** without the key or without a number *)
Theorem C70_missing_code c k old : get_value c k = None -> get_double c k old = (false, Some zero).
Proof. intros E. unfold get_double. rewrite E. reflexivity. Qed.
Print Assumptions C70_missing_code.
(** of two equally close doubles the even one is taken *)
Theorem C70_ties c k w s q x y old : Forall white w -> numeral s q -> get_value c k = Some (w ++ s)%list -> get_double c k old = (true, Some x) ->
  is_double y -> (Qabs (q - value x) == Qabs (q - value y))%Q -> ~ (value x == value y)%Q -> Z.even (d_m x) = true.
Proof.
  intros Hw N E G. destruct (read_closest w s q Hw N) as (r & R & _). unfold get_double in G. rewrite E, R in G. injection G as ->. exact (read_tie w s q x y Hw N R).
Qed.
Print Assumptions C70_ties.
(** a text that does not begin with a number leaves the variable as it was, and success is reported *)
Theorem C70_no_number_code c k w s old : get_value c k = Some (w ++ s)%list -> Forall white w -> (forall x t, s = x :: t -> ~ white x /\ ~ digit x /\ x <> "-"%char /\ x <> "+"%char /\ x <> "."%char) ->
  get_double c k old = (true, Some old).
Proof.
  intros E Hw H. unfold get_double. rewrite E, (no_number_code (w ++ s)%list _); [reflexivity| |reflexivity]. rewrite Proofs.Params.skip_space_app; [|exact Hw|intros x t X; apply (H x t X)]. intros x t X. apply (H x t X).
Qed.
Print Assumptions C70_no_number_code.
Theorem C70_array_missing c k : get_value c k = None -> get_array_double c k = Ok (false, []).
Proof. intros E. unfold get_array_double. rewrite E. reflexivity. Qed.
Print Assumptions C70_array_missing.

(** * Examples *)
Definition x01 : dbl := mkD false 7205759403792794 (-56).
(** half way between 2^53 and 2^53 + 2 *)
Example tie_01 : get_double (set_value empty_c (lit "a") (lit "9007199254740993") t_string) (lit "a") zero = (true, Some (mkD false (2 ^ 52) 1)).
Proof. vm_compute. reflexivity. Qed.
Example no_number_01 : get_double (set_value empty_c (lit "a") (lit "  fast") t_string) (lit "a") x01 = (true, Some x01).
Proof. vm_compute. reflexivity. Qed.
(** the formats *)
Example formats : map (fun t => match read_lf (lit t) with Some (Some x) => print_g x | _ => [] end) ["1000000"; "999999.5"; "123456"; "0.0001"; "0.00001"; "1e100"; "-1.5e-7"; "25"; "4.9e-324"]%string =
  map lit ["1e+06"; "1e+06"; "123456"; "0.0001"; "1e-05"; "1e+100"; "-1.5e-07"; "25"; "4.94066e-324"]%string.
Proof. vm_compute. reflexivity. Qed.
Example is_double_01 : is_double x01.
Proof. left. vm_compute. repeat split; discriminate || reflexivity. Qed.
Example numeral_01 : numeral (lit "-2.50e-1") (signed true (inject_Z 250 * pow 10 (-1 - 2))).
Proof.
  apply (num (lit "-") true (lit "2") (lit "50") (lit ".50") (lit "e-1") (-1)); [right; right; split; reflexivity|repeat constructor; discriminate|repeat constructor; discriminate|right; reflexivity|discriminate|].
  apply (an_exp "e" (lit "-") true (lit "1")); [left; reflexivity|right; right; split; reflexivity|repeat constructor; discriminate|discriminate].
Qed.
Example six_01 : six_digits (signed true (inject_Z 250 * pow 10 (-1 - 2))) /\ ordinary (signed true (inject_Z 250 * pow 10 (-1 - 2))).
Proof. split; [exists (-250), (-3); split; [lia|vm_compute; reflexivity]|right; vm_compute; split; discriminate]. Qed.
Example read_01 : get_double (set_value empty_c (lit "dt") (lit " -2.50e-1") t_string) (lit "dt") zero = (true, Some (mkD true (2 ^ 52) (-54))).
Proof. vm_compute. reflexivity. Qed.
Example print_01 : get_value (set_double empty_c (lit "dt") x01) (lit "dt") = Some (lit "0.1").
Proof. vm_compute. reflexivity. Qed.
(** the longest step of a clock in femtoseconds, 41.341373 atomic units *)
Example print_fs : get_value (set_double (set_value empty_c (lit "x") (lit "41.341373") t_string) (lit "dt")
  (match get_double (set_value empty_c (lit "x") (lit "41.341373") t_string) (lit "x") zero with (_, Some x) => x | _ => zero end)) (lit "dt") = Some (lit "41.3414").
Proof. vm_compute. reflexivity. Qed.
Example array_01 : get_array_double (set_array_double empty_c (lit "a") [x01; mkD true (2 ^ 52) (-54)]) (lit "a") = Ok (true, [Some x01; Some (mkD true (2 ^ 52) (-54))]).
Proof. vm_compute. reflexivity. Qed.
Example ordinary_01 : ordinary (value x01).
Proof. right. vm_compute. split; discriminate. Qed.
