(** Property C55: lossy reduction. *)
From Coq Require Import List NArith ZArith QArith Qabs Lia Bool.
From Verif Require Import Base Model.Reduce Spec.Reduce Proofs.Reduce.
Import ListNotations.
Open Scope Q_scope.

(** Grid wave functions in position space: the wave function is untouched and its Fourier components, divided by the number
    of points, are kept unless below the tolerance times the largest one. *)
Theorem C55_grid : forall cabs forward tol w, g_k w = false -> forward (g_vec w) <> [] ->
  exists w' out M, grid_reduce cabs forward tol w = Ok (w', out) /\ g_vec w' = g_vec w /\ g_k w' = false /\
    largest cabs (forward (g_vec w)) M /\
    reduced_vec (inject_Z (Z.of_nat (length (g_vec w)))) (M * tol) (forward (g_vec w)) out.
Proof. exact grid_ok. Qed.
Print Assumptions C55_grid.

(** A wave function already in k space loses its vector: it ends with the content of the buffer. *)
Theorem C55_grid_kspace_code : forall cabs forward tol w, g_k w = true -> forward (g_buf w) <> [] ->
  exists w' out, grid_reduce cabs forward tol w = Ok (w', out) /\ g_vec w' = g_buf w /\ g_k w' = false.
Proof. exact grid_k. Qed.
Print Assumptions C55_grid_kspace_code.

(** Level wave functions: the full property. *)
Definition C55_level_full : Prop := forall cabs norm tol psi M, psi <> [] -> is_abs cabs psi -> largest cabs psi M ->
  0 <= norm -> norm * norm == norm2 psi -> 0 <= tol -> kept_or_small_vec (tol * M) psi (level_reduce norm tol psi).

(** It holds when no component is negative. *)
Theorem C55_level_partial : forall cabs norm tol psi M, psi <> [] -> is_abs cabs psi -> largest cabs psi M ->
  0 <= norm -> norm * norm == norm2 psi -> 0 <= tol -> (forall c, In c psi -> 0 <= fst c /\ 0 <= snd c) ->
  kept_or_small_vec (tol * M) psi (level_reduce norm tol psi).
Proof. exact level_kept. Qed.
Print Assumptions C55_level_partial.

(** What the code does: every component below norm/size*tolerance is zeroed, whatever its absolute value. *)
Theorem C55_level_code : forall norm tol psi, let thr := norm / inject_Z (Z.of_nat (length psi)) * tol in
  Forall2 (fun c d => (fst c < thr /\ fst d = 0 \/ ~ fst c < thr /\ fst d = fst c) /\
                      (snd c < thr /\ snd d = 0 \/ ~ snd c < thr /\ snd d = snd c)) psi (level_reduce norm tol psi).
Proof. exact level_exact. Qed.
Print Assumptions C55_level_code.

Definition ex_abs (c : dcq) : Q := Qabs (fst c) + Qabs (snd c).
(** a state with one negative amplitude is erased *)
Theorem C55_level_refuted : ~ C55_level_full.
Proof.
  intros H. specialize (H ex_abs 1 0 [(-(1), 0)] 1). assert (K : kept_or_small_vec (0 * 1) [(-(1), 0)] (level_reduce 1 0 [(-(1), 0)])).
  { apply H; try discriminate.
    - intros c [<-|[]]. vm_compute. split; [discriminate|reflexivity].
    - split; [intros c [<-|[]]; vm_compute; discriminate|]. exists (-(1), 0). split; [left; reflexivity|reflexivity].
    - reflexivity. }
  inversion K as [|c d t u [[E|[_ L]] _] _]; [vm_compute in E; discriminate E|vm_compute in L; discriminate L].
Qed.
Print Assumptions C55_level_refuted.

Example C55_level_example : let psi := [(3, 0); (0, 4)] in is_abs ex_abs psi /\ largest ex_abs psi 4 /\ 5 * 5 == norm2 psi /\
  level_reduce 5 (3 # 2) psi = [(0, 0); (0, 4)] /\ level_reduce 5 1 psi = psi /\ level_reduce 5 (1 # 5) [(-(3), 0); (0, -(4))] = [(0, 0); (0, 0)].
Proof.
  cbv zeta. split; [|split; [|split; [reflexivity|split; [reflexivity|split; reflexivity]]]].
  - intros c [<-|[<-|[]]]; vm_compute; split; [discriminate|reflexivity|discriminate|reflexivity].
  - split; [intros c [<-|[<-|[]]]; vm_compute; discriminate|]. exists (0, 4). split; [right; left; reflexivity|reflexivity].
Qed.
Example C55_grid_example : grid_reduce ex_abs (fun v => v) (1 # 2) (mkG [(-(8), 0); (0, 3)] [] false) =
  Ok (mkG [(-(8), 0); (0, 3)] [(-(8), 0); (0, 3)] false, [(-(8) / 2, 0); (0, 0)]) .
Proof. reflexivity. Qed.
