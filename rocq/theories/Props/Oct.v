(** Properties C75-C78: the optimal control program.  The oracles are the propagator U, the gobbler, the coupling mu, the
    scalar product, the target operators and the filters; [report] makes the yield of the states. *)
From Coq Require Import List ZArith QArith Qabs Qcanon Lia Bool.
From Verif Require Import Base Algebra Complex Arrays Model.Oct Spec.Oct Proofs.Oct Proofs.OctEx.
Import ListNotations.
Open Scope Z_scope.

(** ** C75: Krotov, Rabitz and frequency shaping *)
(** the run makes the fields e 1, ..., e K, each the solution of the field equation of the method for its predecessor, with
    the targets propagated back under the predecessor; it reports their yields and writes the last of them *)
Theorem C75_krotov :
  forall (F : fld) (W : Type) U gobbler mu dot target pass stop shape alpha phase ntargets steps PsiI PsiT report iterations convergence series tt lasers,
  0 < steps -> 0 < ntargets -> steps <= Z.of_nat (length shape) -> Z.of_nat (length PsiI) = ntargets -> Z.of_nat (length PsiT) = ntargets ->
  0 <= iterations -> lasers <> [] -> long_enough F steps lasers ->
  let step := fun d k e w => match gobbler with Some g => g (U d k e w) | None => U d k e w end in
  let tg := fun old => match tt with Overlap => PsiT | Oper => op_targets F W step target steps old PsiI end in
  exists K e x,
    run F W U gobbler mu dot target pass stop shape alpha phase ntargets steps PsiI PsiT report iterations convergence series Krotov tt false lasers =
      Some (Ok (x, hd [] (e K))) /\
    course F steps (fun old => krotov_update F W step mu dot shape alpha phase steps PsiI (tg old) old) lasers K e /\
    let y := yields (fun ls => at_time F W step ls PsiI steps) report PsiT tg e in
    l_rep _ _ x = rev (map y (seq 0 (S K))) /\ stops iterations convergence y K.
Proof.
  intros F W U gobbler mu dot target pass stop shape alpha phase ntargets steps PsiI PsiT report iterations convergence series tt lasers H1 H2 H3 H4 H5 H6 H7 H8.
  exact (run_plain F W U gobbler mu dot target pass stop shape alpha phase ntargets steps PsiI PsiT H1 H2 H3 H4 H5 report iterations convergence series H6 Krotov tt lasers (or_introl eq_refl) H7 H8).
Qed.
Print Assumptions C75_krotov.

Theorem C75_rabitz :
  forall (F : fld) (W : Type) U gobbler mu dot target pass stop shape alpha phase ntargets steps PsiI PsiT report iterations convergence series tt lasers,
  0 < steps -> 0 < ntargets -> steps <= Z.of_nat (length shape) -> Z.of_nat (length PsiI) = ntargets -> Z.of_nat (length PsiT) = ntargets ->
  0 <= iterations -> lasers <> [] -> long_enough F steps lasers ->
  let step := fun d k e w => match gobbler with Some g => g (U d k e w) | None => U d k e w end in
  let tg := fun old => match tt with Overlap => PsiT | Oper => op_targets F W step target steps old PsiI end in
  exists K e x,
    run F W U gobbler mu dot target pass stop shape alpha phase ntargets steps PsiI PsiT report iterations convergence series Rabitz tt false lasers =
      Some (Ok (x, hd [] (e K))) /\
    course F steps (fun old => rabitz_update F W step mu dot shape alpha phase steps PsiI (tg old) old) lasers K e /\
    let y := yields (fun ls => at_time F W step ls PsiI steps) report PsiT tg e in
    l_rep _ _ x = rev (map y (seq 0 (S K))) /\ stops iterations convergence y K.
Proof.
  intros F W U gobbler mu dot target pass stop shape alpha phase ntargets steps PsiI PsiT report iterations convergence series tt lasers H1 H2 H3 H4 H5 H6 H7 H8.
  exact (run_plain F W U gobbler mu dot target pass stop shape alpha phase ntargets steps PsiI PsiT H1 H2 H3 H4 H5 report iterations convergence series H6 Rabitz tt lasers (or_intror eq_refl) H7 H8).
Qed.
Print Assumptions C75_rabitz.

(** frequency shaping, for lasers with exactly as many entries as there are steps; the yields are made with the targets that went
    back to 0 and forth again *)
Theorem C75_freq :
  forall (F : fld) (W : Type) U gobbler mu dot target pass stop shape alpha phase ntargets steps PsiI PsiT report iterations convergence series tt lasers,
  0 < steps -> 0 < ntargets -> steps <= Z.of_nat (length shape) -> Z.of_nat (length PsiI) = ntargets -> Z.of_nat (length PsiT) = ntargets ->
  0 <= iterations -> lasers <> [] -> Forall (fun l => Z.of_nat (length l) = steps) lasers ->
  (forall l, length (pass l) = length l) -> (forall l, length (stop l) = length l) ->
  let step := fun d k e w => match gobbler with Some g => g (U d k e w) | None => U d k e w end in
  let tg := fun old => match tt with Overlap => PsiT | Oper => op_targets F W step target steps old PsiI end in
  let shaped := fun old : list (list F) => repeat (pass (hd [] old)) (length old) in
  let round_trip := fun old => at_time F W step (shaped old) (back_at F W step steps (shaped old) (tg (shaped old)) 0) steps in
  exists K e x,
    run F W U gobbler mu dot target pass stop shape alpha phase ntargets steps PsiI PsiT report iterations convergence series Freq tt false lasers =
      Some (Ok (x, hd [] (e K))) /\
    course F steps (fun old => freq_update F W step mu dot shape alpha phase steps pass stop PsiI tg old) lasers K e /\
    let y := yields (fun ls => at_time F W step ls PsiI steps) report PsiT round_trip e in
    l_rep _ _ x = rev (map y (seq 0 (S K))) /\ stops iterations convergence y K.
Proof.
  intros F W U gobbler mu dot target pass stop shape alpha phase ntargets steps PsiI PsiT report iterations convergence series tt lasers H1 H2 H3 H4 H5 H6 H7 H8 H9 H10.
  exact (run_freq F W U gobbler mu dot target pass stop shape alpha phase ntargets steps PsiI PsiT H1 H2 H3 H4 H5 report iterations convergence series H6 H9 H10 tt lasers H7 H8).
Qed.
Print Assumptions C75_freq.

(** the field equation determines the field at every step *)
Theorem C75_unique :
  forall (F : fld) (W : Type) U gobbler mu dot shape alpha phase steps PsiI base gamma chi f f', 0 < steps ->
  let step := fun d k e w => match gobbler with Some g => g (U d k e w) | None => U d k e w end in
  let solves := field_eq F W step mu dot shape alpha phase steps base gamma PsiI chi in
  length f = length f' -> solves f -> solves f' -> forall k, 0 <= k < steps -> values F f k = values F f' k.
Proof.
  intros F W U gobbler mu dot shape alpha phase steps PsiI base gamma chi f f' H.
  exact (field_eq_unique F W U gobbler mu dot (fun _ w => w) (fun l => l) (fun l => l) shape alpha phase steps PsiI H base gamma chi f f').
Qed.
Print Assumptions C75_unique.

(** a two level system, two steps, one target: one iteration takes the yield from 0.689 to 0.979 *)
Example C75_example :
  (exists K e x, run2 Krotov Overlap false 1 = Some (Ok (x, hd [] (e K))) /\ K = 1%nat /\
    krotov_update Qcf W2 (fun d k e w => U2 d k e w) mu2 dot2 [q 1 1; q 1 1] (q 1 1) false 2 [up] [down] [[q 1 4; q 1 4]] (e 1%nat)) /\
  map millionths (yields2 Krotov Overlap 1) = [689646; 979739].
Proof.
  split; [|vm_compute; reflexivity].
  destruct (C75_krotov Qcf W2 U2 None mu2 dot2 proj_down (fun l => l) (map (fun _ => 0%Qc)) [q 1 1; q 1 1] (q 1 1) false 1 2 [up] [down]
    report2 1 (1 # 1000) (fun _ _ => down) Overlap [[q 1 4; q 1 4]]) as (K & e & x & E & [C0 C] & R & S1 & S2 & S3);
    [lia|lia|cbn; lia|reflexivity|reflexivity|lia|discriminate|constructor; [cbn; lia|constructor]|].
  exists K, e, x. split; [exact E|]. assert (HK : K = 1%nat).
  { destruct K as [|[|K]]; [|reflexivity|lia]. exfalso. apply (Qlt_irrefl 1). apply Qle_lt_trans with (1 # 1000)%Q; [|reflexivity].
    apply S3. lia. }
  split; [exact HK|]. subst K. destruct (C 0%nat) as [H _]; [lia|]. rewrite C0 in H. exact H.
Qed.
(** operator targets *)
Example C75_example_op : map millionths (yields2 Krotov Oper 1) = [689646; 999825].
Proof. vm_compute. reflexivity. Qed.

(** ** C76: Rabitz with feedback *)
(** the field calculated on the way back drives the way back, and operator targets are formed at the final time *)
Definition C76_full : Prop :=
  forall (F : fld) (W : Type) U gobbler mu dot target pass stop shape alpha phase ntargets steps PsiI PsiT report iterations convergence series tt lasers,
  0 < steps -> 0 < ntargets -> steps <= Z.of_nat (length shape) -> Z.of_nat (length PsiI) = ntargets -> Z.of_nat (length PsiT) = ntargets ->
  0 <= iterations -> lasers <> [] -> long_enough F steps lasers ->
  let step := fun d k e w => match gobbler with Some g => g (U d k e w) | None => U d k e w end in
  let tg := fun old => match tt with Overlap => PsiT | Oper => op_targets F W step target steps old PsiI end in
  exists K e x,
    run F W U gobbler mu dot target pass stop shape alpha phase ntargets steps PsiI PsiT report iterations convergence series RabitzFB tt false lasers =
      Some (Ok (x, hd [] (e K))) /\
    course F steps (fun old => feedback_update F W step mu dot shape alpha phase steps PsiI (tg old) old) lasers K e /\
    l_rep _ _ x = rev (map (yields (fun ls => at_time F W step ls PsiI steps) report PsiT tg e) (seq 0 (S K))).
(** overlap targets: the field calculated on the way back is put into the lasers that are not used *)
Theorem C76_overlap_refuted : ~ C76_full.
Proof. exact feedback_refuted. Qed.
Print Assumptions C76_overlap_refuted.
(** operator targets: the operator is applied to the initial states *)
Theorem C76_operator_refuted : ~ C76_full.
Proof. exact feedback_op_refuted. Qed.
Print Assumptions C76_operator_refuted.
(** what the method does: the updates are those of the method without feedback; operator targets are made of the initial
    states, in every iteration *)
Theorem C76_code :
  forall (F : fld) (W : Type) U gobbler mu dot target pass stop shape alpha phase ntargets steps PsiI PsiT report iterations convergence series tt mv lasers,
  0 < steps -> 0 < ntargets -> steps <= Z.of_nat (length shape) -> Z.of_nat (length PsiI) = ntargets -> Z.of_nat (length PsiT) = ntargets ->
  0 <= iterations -> lasers <> [] -> long_enough F steps lasers ->
  let step := fun d k e w => match gobbler with Some g => g (U d k e w) | None => U d k e w end in
  let tg := match tt with Overlap => PsiT | Oper => map (fun p => target (Z.of_nat (fst p)) (snd p)) (combine (seq 0 (length PsiI)) PsiI) end in
  exists K e x,
    run F W U gobbler mu dot target pass stop shape alpha phase ntargets steps PsiI PsiT report iterations convergence series RabitzFB tt mv lasers =
      Some (Ok (x, hd [] (e K))) /\
    course F steps (rabitz_update F W step mu dot shape alpha phase steps PsiI tg) lasers K e /\
    let y := yields (fun ls => at_time F W step ls PsiI steps) report PsiT (fun _ => tg) e in
    l_rep _ _ x = rev (map y (seq 0 (S K))) /\ stops iterations convergence y K.
Proof.
  intros F W U gobbler mu dot target pass stop shape alpha phase ntargets steps PsiI PsiT report iterations convergence series tt mv lasers H1 H2 H3 H4 H5 H6 H7 H8.
  exact (run_feedback F W U gobbler mu dot target pass stop shape alpha phase ntargets steps PsiI PsiT H1 H2 H3 H4 H5 report iterations convergence series H6 tt mv lasers H7 H8).
Qed.
Print Assumptions C76_code.

Example C76_example : outcome1 (run1 U1 1%Qc (fun _ _ => 0%Qc) RabitzFB Overlap false 1) = Some ([0%Q], 1%nat) /\
  outcome1 (run1 Udouble 1%Qc (fun _ _ => 0%Qc) RabitzFB Oper false 1) = Some ([(-1 # 2)%Q], 1%nat).
Proof. vm_compute. split; reflexivity. Qed.

(** ** C77: moving targets *)
(** the targets at step k are the wave functions k of the given series *)
Definition C77_full : Prop :=
  forall (F : fld) (W : Type) U gobbler mu dot target pass stop shape alpha phase ntargets steps PsiI PsiT report iterations convergence series lasers,
  0 < steps -> 0 < ntargets -> steps <= Z.of_nat (length shape) -> Z.of_nat (length PsiI) = ntargets -> 
  PsiT = map (fun t => series (Z.of_nat t) steps) (seq 0 (Z.to_nat ntargets)) ->
  0 <= iterations -> lasers <> [] -> long_enough F steps lasers ->
  let step := fun d k e w => match gobbler with Some g => g (U d k e w) | None => U d k e w end in
  let moving := fun k => map (fun t => series (Z.of_nat t) k) (seq 0 (Z.to_nat ntargets)) in
  exists K e x,
    run F W U gobbler mu dot target pass stop shape alpha phase ntargets steps PsiI PsiT report iterations convergence series Krotov Overlap true lasers =
      Some (Ok (x, hd [] (e K))) /\
    course F steps (fun old => field_eq F W step mu dot shape alpha phase steps (fun k => nth (Z.to_nat k) (hd [] old) c0) (fun _ => c0) PsiI moving) lasers K e /\
    l_rep _ _ x = rev (map (yields (fun ls => at_time F W step ls PsiI steps) report PsiT (fun _ => PsiT) e) (seq 0 (S K))).
(** the propagation of the guess overwrites the series *)
Theorem C77_refuted : ~ C77_full.
Proof. exact moving_refuted. Qed.
Print Assumptions C77_refuted.
(** what the method does: the targets at step k are the states under the guess, whatever the series *)
Theorem C77_krotov_code :
  forall (F : fld) (W : Type) U gobbler mu dot target pass stop shape alpha phase ntargets steps PsiI PsiT report iterations convergence series lasers,
  0 < steps -> 0 < ntargets -> steps <= Z.of_nat (length shape) -> Z.of_nat (length PsiI) = ntargets ->
  0 <= iterations -> lasers <> [] -> long_enough F steps lasers ->
  let step := fun d k e w => match gobbler with Some g => g (U d k e w) | None => U d k e w end in
  exists K e x,
    run F W U gobbler mu dot target pass stop shape alpha phase ntargets steps PsiI PsiT report iterations convergence series Krotov Overlap true lasers =
      Some (Ok (x, hd [] (e K))) /\
    course F steps (fun old => field_eq F W step mu dot shape alpha phase steps (fun k => nth (Z.to_nat k) (hd [] old) c0) (fun _ => c0) PsiI (at_time F W step lasers PsiI)) lasers K e /\
    let y := yields (fun ls => at_time F W step ls PsiI steps) report PsiT (fun _ => PsiT) e in
    l_rep _ _ x = rev (map y (seq 0 (S K))) /\ stops iterations convergence y K.
Proof.
  intros F W U gobbler mu dot target pass stop shape alpha phase ntargets steps PsiI PsiT report iterations convergence series lasers H1 H2 H3 H4 H6 H7 H8.
  exact (run_moving F W U gobbler mu dot target pass stop shape alpha phase ntargets steps PsiI PsiT H1 H2 H3 H4 report iterations convergence series H6 Krotov lasers (or_introl eq_refl) H7 H8).
Qed.
Print Assumptions C77_krotov_code.

Theorem C77_rabitz_code :
  forall (F : fld) (W : Type) U gobbler mu dot target pass stop shape alpha phase ntargets steps PsiI PsiT report iterations convergence series lasers,
  0 < steps -> 0 < ntargets -> steps <= Z.of_nat (length shape) -> Z.of_nat (length PsiI) = ntargets ->
  0 <= iterations -> lasers <> [] -> long_enough F steps lasers ->
  let step := fun d k e w => match gobbler with Some g => g (U d k e w) | None => U d k e w end in
  exists K e x,
    run F W U gobbler mu dot target pass stop shape alpha phase ntargets steps PsiI PsiT report iterations convergence series Rabitz Overlap true lasers =
      Some (Ok (x, hd [] (e K))) /\
    course F steps (fun old => field_eq F W step mu dot shape alpha phase steps (fun _ => c0) (fun _ => c0) PsiI (at_time F W step lasers PsiI)) lasers K e /\
    let y := yields (fun ls => at_time F W step ls PsiI steps) report PsiT (fun _ => PsiT) e in
    l_rep _ _ x = rev (map y (seq 0 (S K))) /\ stops iterations convergence y K.
Proof.
  intros F W U gobbler mu dot target pass stop shape alpha phase ntargets steps PsiI PsiT report iterations convergence series lasers H1 H2 H3 H4 H6 H7 H8.
  exact (run_moving F W U gobbler mu dot target pass stop shape alpha phase ntargets steps PsiI PsiT H1 H2 H3 H4 report iterations convergence series H6 Rabitz lasers (or_intror eq_refl) H7 H8).
Qed.
Print Assumptions C77_rabitz_code.

(** frequency shaping with a moving target: the trajectory of the guess in place of the targets, also in the correction field;
    the yields are made with the targets as given, passed through the gobbler once per step *)
Theorem C77_freq_code :
  forall (F : fld) (W : Type) U gobbler mu dot target pass stop shape alpha phase ntargets steps PsiI PsiT report iterations convergence series lasers,
  0 < steps -> 0 < ntargets -> steps <= Z.of_nat (length shape) -> Z.of_nat (length PsiI) = ntargets -> Z.of_nat (length PsiT) = ntargets ->
  0 <= iterations -> lasers <> [] -> Forall (fun l => Z.of_nat (length l) = steps) lasers ->
  (forall l, length (pass l) = length l) -> (forall l, length (stop l) = length l) ->
  let step := fun d k e w => match gobbler with Some g => g (U d k e w) | None => U d k e w end in
  let gob := fun w : W => match gobbler with Some g => g w | None => w end in
  let chi := at_time F W step lasers PsiI in
  let shaped := fun old : list (list F) => repeat (pass (hd [] old)) (length old) in
  let gamma := fun old => stop (map (fun k => imag_sum F W mu dot phase (at_time F W step (shaped old) PsiI k) (chi k)) (upto 0 steps)) in
  exists K e x,
    run F W U gobbler mu dot target pass stop shape alpha phase ntargets steps PsiI PsiT report iterations convergence series Freq Overlap true lasers =
      Some (Ok (x, hd [] (e K))) /\
    course F steps (fun old => field_eq F W step mu dot shape alpha phase steps (fun k => nth (Z.to_nat k) (pass (hd [] old)) c0)
                                        (fun k => nth (Z.to_nat k) (gamma old) c0) PsiI chi) lasers K e /\
    let y := yields (fun ls => at_time F W step ls PsiI steps) report PsiT (fun _ => Nat.iter (Z.to_nat steps) (map gob) PsiT) e in
    l_rep _ _ x = rev (map y (seq 0 (S K))) /\ stops iterations convergence y K.
Proof.
  intros F W U gobbler mu dot target pass stop shape alpha phase ntargets steps PsiI PsiT report iterations convergence series lasers H1 H2 H3 H4 H5 H6 H7 H8 H9 H10.
  exact (run_freq_moving F W U gobbler mu dot target pass stop shape alpha phase ntargets steps PsiI PsiT H1 H2 H3 H4 H5 report iterations convergence series H6 H9 H10 lasers H7 H8).
Qed.
Print Assumptions C77_freq_code.

Example C77_example : outcome1 (run1 U1 (q 5 1) (fun _ _ => q 5 1) Krotov Overlap true 1) = Some ([0%Q], 1%nat).
Proof. vm_compute. reflexivity. Qed.

(** ** C78: the end of the iterations *)
(** a run that ends before the allowed number of iterations has reported three yields that hardly change *)
Definition C78_full : Prop :=
  forall (F : fld) (W : Type) U gobbler mu dot target pass stop shape alpha phase ntargets steps PsiI PsiT report iterations convergence series m tt lasers x w,
  0 < steps -> 0 < ntargets -> steps <= Z.of_nat (length shape) -> Z.of_nat (length PsiI) = ntargets -> Z.of_nat (length PsiT) = ntargets ->
  0 <= iterations -> lasers <> [] -> long_enough F steps lasers ->
 m = Krotov \/ m = Rabitz ->
  run F W U gobbler mu dot target pass stop shape alpha phase ntargets steps PsiI PsiT report iterations convergence series m tt false lasers = Some (Ok (x, w)) ->
  Z.of_nat (length (l_rep _ _ x)) <= iterations ->
  exists a b c r, l_rep _ _ x = c :: b :: a :: r /\ (change a b c <= convergence)%Q.
(** a first yield of 1 ends the run *)
Theorem C78_refuted : ~ C78_full.
Proof. exact stop_refuted. Qed.
Print Assumptions C78_refuted.
(** it holds when at least three iterations were made *)
Theorem C78_partial :
  forall (F : fld) (W : Type) U gobbler mu dot target pass stop shape alpha phase ntargets steps PsiI PsiT report iterations convergence series m tt lasers x w,
  0 < steps -> 0 < ntargets -> steps <= Z.of_nat (length shape) -> Z.of_nat (length PsiI) = ntargets -> Z.of_nat (length PsiT) = ntargets ->
  0 <= iterations -> lasers <> [] -> long_enough F steps lasers ->
 m = Krotov \/ m = Rabitz ->
  run F W U gobbler mu dot target pass stop shape alpha phase ntargets steps PsiI PsiT report iterations convergence series m tt false lasers = Some (Ok (x, w)) ->
  Z.of_nat (length (l_rep _ _ x)) <= iterations -> (4 <= length (l_rep _ _ x))%nat ->
  exists a b c r, l_rep _ _ x = c :: b :: a :: r /\ (change a b c <= convergence)%Q.
Proof. exact stop_partial. Qed.
Print Assumptions C78_partial.
(** the rule as it is: C75_krotov, C75_rabitz and C75_freq with [stops]; in particular no iteration is made when the
    criterion is 1 or more *)
Theorem C78_none_code :
  forall (F : fld) (W : Type) U gobbler mu dot target pass stop shape alpha phase ntargets steps PsiI PsiT report iterations convergence series m tt lasers,
  0 < steps -> 0 < ntargets -> steps <= Z.of_nat (length shape) -> Z.of_nat (length PsiI) = ntargets -> Z.of_nat (length PsiT) = ntargets ->
  0 <= iterations -> lasers <> [] -> long_enough F steps lasers ->
 m = Krotov \/ m = Rabitz -> (1 <= convergence)%Q ->
  exists x, run F W U gobbler mu dot target pass stop shape alpha phase ntargets steps PsiI PsiT report iterations convergence series m tt false lasers =
    Some (Ok (x, hd [] lasers)) /\ length (l_rep _ _ x) = 1%nat.
Proof. exact stop_none. Qed.
Print Assumptions C78_none_code.
Example C78_example : match run1 U1 (q 2 1) (fun _ _ => 0%Qc) Krotov Overlap false 10 with
  | Some (Ok (x, _)) => rev (l_rep _ _ x) = [2; 1]%Q | _ => False end.
Proof. vm_compute. reflexivity. Qed.
