(** Property C50: local maxima and peaks. *)
From Coq Require Import List ZArith QArith Bool Lia Sorted.
From Verif Require Import Base Arrays Model.Peaks Spec.Peaks Proofs.Peaks.
Import ListNotations.
Open Scope Z_scope.

(** The set of maxima is exactly the set of strict local maxima. *)
Theorem C50_maximas : forall data, exists ml, maximas data = Ok ml /\ StronglySorted Z.lt ml /\ forall i, In i ml <-> local_max data i.
Proof. exact maximas_spec. Qed.
Print Assumptions C50_maximas.

Example C50_example : maximas [1#1; 3#1; 2#1; 2#1; 5#1; 4#1; 4#1; 6#1]%Q = Ok [1; 4].
Proof. reflexivity. Qed.

(** The windowed search reports only local maxima, which lie inside the data. *)
Theorem C50_window : forall sq tol data win, 0 <= win -> exists ps, find_window sq tol data win = Ok ps /\ forall p, In p ps -> local_max data p.
Proof. exact window_spec. Qed.
Print Assumptions C50_window.

Example C50_window_example : find_window qsqrt 1%Q [0#1; 3#1; 0#1; 0#1; 1#1; 0#1; 0#1]%Q 2 = Ok [1; 4].
Proof. reflexivity. Qed.

(** Every peak reported by the search without window lies inside the data. *)
Definition C50_inside (sq : Q -> Q) : Prop := forall tol data ps, find_peaks sq tol data = Ok ps ->
  forall p, In p ps -> 0 <= p < Z.of_nat (length data).

(** For thresholds that are not negative: each peak is the summit of a region above the threshold, and each value above
    the threshold belongs to the region of a reported peak, except for a last region that ends at its maximum. *)
Theorem C50_regions_partial : forall data thr, (0 <= thr)%Q -> exists ps, find_regions data thr = Ok ps /\
  (forall p, In p ps -> good data thr p) /\
  (forall j, 0 <= j < zlen data -> (thr < at_ data j)%Q -> covered data thr ps j \/
     exists a, region data thr a (zlen data) /\ a <= j /\ forall k, a <= k < zlen data -> (at_ data k <= at_ data (zlen data - 1))%Q).
Proof. exact regions_spec. Qed.
Print Assumptions C50_regions_partial.

Theorem C50_good_inside : forall data thr p, good data thr p -> 0 <= p < Z.of_nat (length data) /\ (thr < at_ data p)%Q.
Proof. exact good_inside. Qed.
Print Assumptions C50_good_inside.

Example C50_regions_example : find_regions [0#1; 2#1; 5#1; 3#1; 0#1; 4#1; 1#1; 7#1]%Q (1#1)%Q = Ok [2] /\
  find_regions [0#1; 2#1; 5#1; 3#1; 0#1; 4#1; 0#1; 7#1; 6#1]%Q (1#1)%Q = Ok [2; 5; 7].
Proof. vm_compute. auto. Qed.

(** With negative data the index -1 is reported. *)
Theorem C50_inside_refuted : forall sq, root sq -> ~ C50_inside sq.
Proof. exact (fun sq R H => match H _ _ _ (lost_peak sq R) (-1) (or_introl eq_refl) with conj A _ => A eq_refl end). Qed.
Print Assumptions C50_inside_refuted.
Theorem C50_root_exists : root qsqrt.
Proof. exact qsqrt_root. Qed.
Print Assumptions C50_root_exists.

(** Minimas reports ascents, not minima. *)
Theorem C50_minimas_refuted : ~ forall data ml, minimas data = Ok ml -> forall i, In i ml -> local_min data i.
Proof. exact (fun H => match H [1#1; 2#1; 3#1]%Q [0; 1] eq_refl 0 (or_introl eq_refl) with conj A _ => A eq_refl end). Qed.
Print Assumptions C50_minimas_refuted.
