(** Concrete runs of the optimal control program: a two level system and a one dimensional caricature. *)
From Coq Require Import List ZArith QArith Qabs Qcanon Lia Bool.
From Verif Require Import Base Algebra Complex Arrays Model.Oct Spec.Oct Proofs.Oct.
Import ListNotations.
Open Scope Z_scope.

(** ** A two level system with the coupling sigma_x, propagated with the Cayley form
    (1 + i t sigma_x) / (1 - i t sigma_x), t = field (the Hamiltonian is - t sigma_x): rational and unitary *)
Definition C := Cx Qcf.
Definition W2 : Type := (C * C)%type.
Definition q (n : Z) (d : positive) : Qc := Q2Qc (n # d).
Definition cay (t : Qc) (w : W2) : W2 :=
  let n := (1 + t * t)%Qc in
  let a : C := (((1 - t * t) / n)%Qc, 0%Qc) in
  let b : C := (0%Qc, ((t + t) / n)%Qc) in
  (cx_add (cx_mul a (fst w)) (cx_mul b (snd w)), cx_add (cx_mul b (fst w)) (cx_mul a (snd w))).
Definition U2 (dir : bool) (k : Z) (e : list Qcf) (w : W2) : W2 :=
  let t := fold_right Qcplus 0%Qc e in cay (if dir then t else (- t)%Qc) w.
Definition mu2 (w : W2) : W2 := (snd w, fst w).
Definition dot2 (a b : W2) : C := cx_add (cx_mul (cx_conj (fst a)) (fst b)) (cx_mul (cx_conj (snd a)) (snd b)).
Definition c_of (x : Qc) : C := (x, 0%Qc).
Definition up : W2 := (c_of 1%Qc, c_of 0%Qc).
Definition down : W2 := (c_of 0%Qc, c_of 1%Qc).
Definition proj_down (_ : Z) (w : W2) : W2 := (c_of 0%Qc, snd w).
Definition abs2 (c : C) : Q := this (fst c * fst c + snd c * snd c)%Qc.
Definition report2 (a b : list W2) : Q := match a, b with w :: _, t :: _ => abs2 (dot2 w t) | _, _ => 0%Q end.
Definition report_op (a b : list W2) : Q := match a with w :: _ => abs2 (snd w) | _ => 0%Q end.
(** the run: two steps, one target, one laser *)
Definition run2 (m : method) (tt : ttype) (mv : bool) (iterations : Z) :=
  run Qcf W2 U2 None mu2 dot2 proj_down (fun l => l) (map (fun _ => 0%Qc)) [q 1 1; q 1 1] (q 1 1) false 1 2 [up] [down]
    (match tt with Overlap => report2 | Oper => report_op end) iterations (1 # 1000) (fun _ _ => down) m tt mv [[q 1 4; q 1 4]].
Definition yields2 m tt iterations : list Q :=
  match run2 m tt false iterations with Some (Ok (x, _)) => rev (l_rep _ _ x) | _ => [] end.
Definition millionths (x : Q) : Z := Qnum x * 1000000 / Zpos (Qden x).

(** ** One dimension: the field is added to the state; the imaginary part is the product of the states *)
Definition U1 (dir : bool) (k : Z) (e : list Qcf) (w : Qc) : Qc := if dir then (w + hd 0%Qc e)%Qc else (w - hd 0%Qc e)%Qc.
Definition dot1 (a b : Qc) : Cx Qcf := (0%Qc, (a * b)%Qc).
Definition id1 (w : Qc) : Qc := w.
Definition report1 (a b : list Qc) : Q := match a with w :: _ => this w | [] => 0%Q end.
Definition run1 (U : bool -> Z -> list Qcf -> Qc -> Qc) (PsiT : Qc) (series : Z -> Z -> Qc) (m : method) (tt : ttype) (mv : bool) (iterations : Z) :=
  run Qcf Qc U None id1 dot1 (fun _ => id1) (fun l => l) (fun l => l) [1%Qc] 1%Qc true 1 1 [1%Qc] [PsiT]
    report1 iterations (1 # 1000) series m tt mv [[1%Qc]].
(** the state doubles in every step, whatever the field *)
Definition Udouble (dir : bool) (k : Z) (e : list Qcf) (w : Qc) : Qc := if dir then (w + w)%Qc else (w / q 2 1)%Qc.

Notation step1 := (fun d k e w => tidy Qc None (U1 d k e w)).
Notation stepd := (fun d k e w => tidy Qc None (Udouble d k e w)).

Lemma yields_one {A} (f : nat -> A) K l a b : l = rev (map f (seq 0 (S K))) -> l = [a; b] -> K = 1%nat.
Proof. intros -> H. apply (f_equal (@length A)) in H. rewrite rev_length, map_length, seq_length in H. cbn in H. lia. Qed.

Lemma values_one (l : list Qcf) k : values Qcf [l] k = [nth (Z.to_nat k) l c0]. Proof. reflexivity. Qed.

(** the field a run with one step writes, and how many iterations it makes *)
Definition outcome1 (r : option (outcome (loop_st Qcf Qc * list Qcf))) : option (list Q * nat) :=
  match r with Some (Ok (x, l)) => Some (map this l, pred (length (l_rep _ _ x))) | _ => None end.
Lemma outcome1_inv r v K : outcome1 r = Some ([v], K) -> exists x w, r = Some (Ok (x, [w])) /\ this w = v /\ pred (length (l_rep _ _ x)) = K.
Proof.
  destruct r as [[[x [|w [|? ?]]]| |]|]; cbn; intros H; try discriminate. injection H as <- <-. eauto.
Qed.
Lemma forall2_len {A B} (R : A -> B -> Prop) a b : Forall2 R a b -> length a = length b.
Proof. induction 1; cbn; congruence. Qed.
Lemma course_one update (lasers : list (list Qcf)) K e x (f : nat -> Q) r v :
  r = Some (Ok (x, hd [] (e K))) -> course Qcf 1 update lasers K e -> l_rep Qcf Qc x = rev (map f (seq 0 (S K))) ->
  length lasers = 1%nat -> Forall (fun l => length l = 1%nat) lasers -> outcome1 r = Some ([v], 1%nat) ->
  exists w, update lasers [[w]] /\ this w = v.
Proof.
  intros -> [C0 C1] R L1 L2 H. destruct (outcome1_inv _ _ _ H) as (x' & w & E & Ew & Ek). injection E as <- E.
  rewrite R, rev_length, map_length, seq_length in Ek. cbn in Ek. subst K. destruct (C1 0%nat) as [H1 H2]; [lia|].
  exists w. split; [|exact Ew]. rewrite C0 in H1. destruct (e 1%nat) as [|a [|b t]]; cbn in E.
  - discriminate.
  - subst a. exact H1.
  - apply forall2_len in H2. rewrite L1 in H2. discriminate H2.
Qed.

Definition targets_of {F : fld} {W : Type} (step : bool -> Z -> list F -> W -> W) target (T : Z) (PsiI PsiT : list W) (tt : ttype) (old : list (list F)) :=
  match tt with Overlap => PsiT | Oper => op_targets F W step target T old PsiI end.

Definition feedback_full : Prop :=
  forall (F : fld) (W : Type) U gobbler mu dot target pass stop shape alpha phase ntargets steps PsiI PsiT report iterations convergence series tt lasers,
  0 < steps -> 0 < ntargets -> steps <= Z.of_nat (length shape) -> Z.of_nat (length PsiI) = ntargets -> Z.of_nat (length PsiT) = ntargets ->
  0 <= iterations -> lasers <> [] -> long_enough F steps lasers ->
  let step := fun d k e w => match gobbler with Some g => g (U d k e w) | None => U d k e w end in
  let tg := fun old => match tt with Overlap => PsiT | Oper => op_targets F W step target steps old PsiI end in
  exists K e x,
    run F W U gobbler mu dot target pass stop shape alpha phase ntargets steps PsiI PsiT report iterations convergence series RabitzFB tt false lasers =
      Some (Ok (x, hd [] (e K))) /\
    course F steps (fun old => feedback_update F W step mu dot shape alpha phase steps PsiI (tg old) old) lasers K e /\
    l_rep _ _ x = rev (map (yields (fun ls => at_time F W step ls PsiI steps) report PsiT tg e) (seq 0 (S K))).

Lemma feedback_refuted : ~ feedback_full.
Proof.
  intros H. specialize (H Qcf Qc U1 None id1 dot1 (fun _ => id1) (fun l => l) (fun l => l) [1%Qc] 1%Qc true 1 1 [1%Qc] [1%Qc]
    report1 1 (1 # 1000) (fun _ _ => 0%Qc) Overlap [[1%Qc]]).
  destruct H as (K & e & x & E & C & R); [lia|lia|cbn; lia|reflexivity|reflexivity|lia|discriminate|constructor; [cbn; lia|constructor]|].
  destruct (course_one _ _ _ _ _ _ _ 0%Q E C R) as (w & (eb & L & Hb & Hn) & Ew); [reflexivity|repeat constructor|vm_compute; reflexivity|].
  clear E C R. destruct eb as [|l [|? ?]]; [discriminate L| |discriminate L]. specialize (Hb 0 l ltac:(lia) (or_introl eq_refl)). specialize (Hn 0 [w] ltac:(lia) (or_introl eq_refl)).
  apply (f_equal this) in Hn. cbn [nth Z.to_nat] in Hn. rewrite Ew in Hn.
  destruct l as [|y t]; [apply (f_equal this) in Hb; vm_compute in Hb; discriminate Hb|].
  assert (By : y = q (-2) 1).
  { apply Qc_is_canon. apply (f_equal this) in Hb. cbn [nth Z.to_nat] in Hb. rewrite Hb. vm_compute. reflexivity. }
  subst y. vm_compute in Hn. discriminate Hn.
Qed.
(** the targets of operators are formed at time 0 *)
Lemma feedback_op_refuted : ~ feedback_full.
Proof.
  intros H. specialize (H Qcf Qc Udouble None id1 dot1 (fun _ => id1) (fun l => l) (fun l => l) [1%Qc] 1%Qc true 1 1 [1%Qc] [1%Qc]
    report1 1 (1 # 1000) (fun _ _ => 0%Qc) Oper [[1%Qc]]).
  destruct H as (K & e & x & E & C & R); [lia|lia|cbn; lia|reflexivity|reflexivity|lia|discriminate|constructor; [cbn; lia|constructor]|].
  destruct (course_one _ _ _ _ _ _ _ (-1 # 2)%Q E C R) as (w & (eb & L & Hb & Hn) & Ew); [reflexivity|repeat constructor|vm_compute; reflexivity|].
  specialize (Hn 0 [w] ltac:(lia) (or_introl eq_refl)).
  apply (f_equal this) in Hn. cbn [nth Z.to_nat] in Hn. rewrite Ew in Hn. vm_compute in Hn. discriminate Hn.
Qed.

Definition moving_full : Prop :=
  forall (F : fld) (W : Type) U gobbler mu dot target pass stop shape alpha phase ntargets steps PsiI PsiT report iterations convergence series lasers,
  0 < steps -> 0 < ntargets -> steps <= Z.of_nat (length shape) -> Z.of_nat (length PsiI) = ntargets ->
  PsiT = map (fun t => series (Z.of_nat t) steps) (seq 0 (Z.to_nat ntargets)) ->
  0 <= iterations -> lasers <> [] -> long_enough F steps lasers ->
  let step := fun d k e w => match gobbler with Some g => g (U d k e w) | None => U d k e w end in
  let moving := fun k => map (fun t => series (Z.of_nat t) k) (seq 0 (Z.to_nat ntargets)) in
  exists K e x,
    run F W U gobbler mu dot target pass stop shape alpha phase ntargets steps PsiI PsiT report iterations convergence series Krotov Overlap true lasers =
      Some (Ok (x, hd [] (e K))) /\
    course F steps (fun old => field_eq F W step mu dot shape alpha phase steps (fun k => nth (Z.to_nat k) (hd [] old) c0) (fun _ => c0) PsiI moving) lasers K e /\
    l_rep _ _ x = rev (map (yields (fun ls => at_time F W step ls PsiI steps) report PsiT (fun _ => PsiT) e) (seq 0 (S K))).
Lemma moving_refuted : ~ moving_full.
Proof.
  intros H. specialize (H Qcf Qc U1 None id1 dot1 (fun _ => id1) (fun l => l) (fun l => l) [1%Qc] 1%Qc true 1 1 [1%Qc] [q 5 1]
    report1 1 (1 # 1000) (fun _ _ => q 5 1) [[1%Qc]]).
  destruct H as (K & e & x & E & C & R); [lia|lia|cbn; lia|reflexivity|reflexivity|lia|discriminate|constructor; [cbn; lia|constructor]|].
  destruct (course_one _ _ _ _ _ _ _ 0%Q E C R) as (w & Hn & Ew); [reflexivity|repeat constructor|vm_compute; reflexivity|].
  specialize (Hn 0 [w] ltac:(lia) (or_introl eq_refl)).
  apply (f_equal this) in Hn. cbn [nth Z.to_nat] in Hn. rewrite Ew in Hn. vm_compute in Hn. discriminate Hn.
Qed.

(** ** stopping *)
Definition stop_full : Prop :=
  forall (F : fld) (W : Type) U gobbler mu dot target pass stop shape alpha phase ntargets steps PsiI PsiT report iterations convergence series m tt lasers x w,
  0 < steps -> 0 < ntargets -> steps <= Z.of_nat (length shape) -> Z.of_nat (length PsiI) = ntargets -> Z.of_nat (length PsiT) = ntargets ->
  0 <= iterations -> lasers <> [] -> long_enough F steps lasers -> m = Krotov \/ m = Rabitz ->
  run F W U gobbler mu dot target pass stop shape alpha phase ntargets steps PsiI PsiT report iterations convergence series m tt false lasers = Some (Ok (x, w)) ->
  Z.of_nat (length (l_rep _ _ x)) <= iterations ->
  exists a b c r, l_rep _ _ x = c :: b :: a :: r /\ (change a b c <= convergence)%Q.
Lemma stop_refuted : ~ stop_full.
Proof.
  intros H. specialize (H Qcf Qc U1 None id1 dot1 (fun _ => id1) (fun l => l) (fun l => l) [1%Qc] 1%Qc true 1 1 [1%Qc] [q 2 1]
    report1 10 (1 # 1000)%Q (fun _ _ => 0%Qc) Krotov Overlap [[1%Qc]]).
  assert (A : match run Qcf Qc U1 None id1 dot1 (fun _ => id1) (fun l => l) (fun l => l) [1%Qc] 1%Qc true 1 1 [1%Qc] [q 2 1]
    report1 10 (1 # 1000)%Q (fun _ _ => 0%Qc) Krotov Overlap false [[1%Qc]] with Some (Ok (x, w)) => length (l_rep _ _ x) = 2%nat | _ => False end)
    by (vm_compute; reflexivity).
  destruct (run _ _ _ _ _ _ _ _ _ _ _ _ _ _ _ _ _ _ _ _ _ _ _) as [[[x w]| |]|]; try contradiction.
  destruct (H x w) as (a & b & c & r & E & _); [lia|lia|cbn; lia|reflexivity|reflexivity|lia|discriminate|constructor; [cbn; lia|constructor]|left; reflexivity|reflexivity| |].
  - rewrite A. lia.
  - rewrite E in A. cbn in A. lia.
Qed.

(** three iterations or more *)
Lemma stop_partial :
  forall (F : fld) (W : Type) U gobbler mu dot target pass stop shape alpha phase ntargets steps PsiI PsiT report iterations convergence series m tt lasers x w,
  0 < steps -> 0 < ntargets -> steps <= Z.of_nat (length shape) -> Z.of_nat (length PsiI) = ntargets -> Z.of_nat (length PsiT) = ntargets ->
  0 <= iterations -> lasers <> [] -> long_enough F steps lasers ->
 m = Krotov \/ m = Rabitz ->
  run F W U gobbler mu dot target pass stop shape alpha phase ntargets steps PsiI PsiT report iterations convergence series m tt false lasers = Some (Ok (x, w)) ->
  Z.of_nat (length (l_rep _ _ x)) <= iterations -> (4 <= length (l_rep _ _ x))%nat ->
  exists a b c r, l_rep _ _ x = c :: b :: a :: r /\ (change a b c <= convergence)%Q.
Proof.
  intros F W U gobbler mu dot target pass stop shape alpha phase ntargets steps PsiI PsiT report iterations convergence series m tt lasers x w H1 H2 H3 H4 H5 H6 H7 H8 Hm E L1 L2.
  destruct (run_plain F W U gobbler mu dot target pass stop shape alpha phase ntargets steps PsiI PsiT H1 H2 H3 H4 H5 report iterations convergence series H6 m tt lasers Hm H7 H8)
    as (K & e & x' & E' & C & R & S1 & S2 & S3).
  rewrite E in E'. injection E' as <- _. rewrite R in *. clear R E. rewrite rev_length, map_length, seq_length in L1, L2.
  set (y := Oct.yield _ _ _ _ _ _ _ _ _ _) in *. destruct K as [|[|[|K]]]; try lia.
  exists (y (S K)), (y (S (S K))), (y (S (S (S K)))), (rev (map y (seq 0 (S K)))). split.
  - replace (S (S (S (S K)))) with (S K + 3)%nat by lia. rewrite seq_app, map_app, rev_app_distr. cbn [seq map rev app].
    replace (0 + S K)%nat with (S K) by lia. reflexivity.
  - specialize (S3 ltac:(lia)). cbn [padded_change] in S3. replace (S (S (S K)) - 2)%nat with (S K) in S3 by lia.
    replace (S (S (S K)) - 1)%nat with (S (S K)) in S3 by lia. exact S3.
Qed.
Lemma stop_none :
  forall (F : fld) (W : Type) U gobbler mu dot target pass stop shape alpha phase ntargets steps PsiI PsiT report iterations convergence series m tt lasers,
  0 < steps -> 0 < ntargets -> steps <= Z.of_nat (length shape) -> Z.of_nat (length PsiI) = ntargets -> Z.of_nat (length PsiT) = ntargets ->
  0 <= iterations -> lasers <> [] -> long_enough F steps lasers ->
 m = Krotov \/ m = Rabitz -> (1 <= convergence)%Q ->
  exists x, run F W U gobbler mu dot target pass stop shape alpha phase ntargets steps PsiI PsiT report iterations convergence series m tt false lasers =
    Some (Ok (x, hd [] lasers)) /\ length (l_rep _ _ x) = 1%nat.
Proof.
  intros F W U gobbler mu dot target pass stop shape alpha phase ntargets steps PsiI PsiT report iterations convergence series m tt lasers H1 H2 H3 H4 H5 H6 H7 H8 Hm Hc.
  destruct (run_plain F W U gobbler mu dot target pass stop shape alpha phase ntargets steps PsiI PsiT H1 H2 H3 H4 H5 report iterations convergence series H6 m tt lasers Hm H7 H8)
    as (K & e & x' & E' & C & R & S1 & S2 & S3).
  destruct K as [|K].
  - exists x'. rewrite E'. rewrite (proj1 C). split; [reflexivity|]. rewrite R. reflexivity.
  - exfalso. specialize (S2 0%nat ltac:(lia)). cbn [padded_change] in S2. apply (Qlt_not_le _ _ S2). exact Hc.
Qed.
