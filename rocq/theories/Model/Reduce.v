(** Model of the lossy reduction of wave functions: WFLevel::Reduce (src/qdlib/WFLevel.cpp:102-124),
    WFGridSystem::Reduce (src/qdlib/WFGridSystem.cpp:90-122) and VecMax (src/math/math_functions.cpp:53-61).

    Doubles are rational numbers; cabs, Norm and the forward Fourier transform are parameters. *)
From Coq Require Import List NArith ZArith QArith Qabs Lia Bool.
From Verif Require Import Base.
Import ListNotations.
Open Scope Q_scope.

Definition dcq : Type := Q * Q.
Definition Qltb (a b : Q) : bool := negb (Qle_bool b a).

(** WFLevel.cpp:112-120: one component *)
Definition level_comp (thr x : Q) : Q := if Qltb x thr then 0 else x.
(** WFLevel.cpp:102-124; norm: the value of Norm() *)
Definition level_reduce (norm tolerance : Q) (psi : list dcq) : list dcq :=
  let thr := norm / inject_Z (Z.of_nat (length psi)) * tolerance in
  map (fun c => (level_comp thr (fst c), level_comp thr (snd c))) psi.

Section Grid.
  Variable cabs : dcq -> Q.
  Variable forward : list dcq -> list dcq.
  (** math_functions.cpp:53-61; v[0] of an empty vector is outside of it *)
  Definition vec_max (v : list dcq) : outcome Q :=
    match v with
    | [] => UB
    | a :: t => Ok (fold_left (fun d x => if Qltb d (cabs x) then cabs x else d) t (cabs a))
    end.
  (** a wave function on a grid: the vector, its space buffer and which of them is in k space *)
  Record gwf := mkG { g_vec : list dcq; g_buf : list dcq; g_k : bool }.
  (** WaveFunction.h:118-128 (buffers of equal size) *)
  Definition set_k (is : bool) (w : gwf) : gwf :=
    if Bool.eqb (g_k w) is then w else mkG (g_buf w) (g_vec w) is.
  (** the plan of the FFT always transforms the position space vector into the other one (WFGridSystem.cpp:30-47) *)
  Definition fft_forward (w : gwf) : gwf :=
    if g_k w then mkG (forward (g_buf w)) (g_buf w) true else mkG (g_vec w) (forward (g_vec w)) false.
  (** WFGridSystem.cpp:106-118 *)
  Definition grid_comp (size thr x : Q) : Q := if Qltb (Qabs x) thr then 0 else x / size.
  (** WFGridSystem.cpp:90-122 *)
  Definition grid_reduce (tolerance : Q) (w : gwf) : outcome (gwf * list dcq) :=
    let size := inject_Z (Z.of_nat (length (g_vec w))) in
    let w := set_k true (fft_forward w) in
    let* m := vec_max (g_vec w) in
    let thr := m * tolerance in
    Ok (set_k false w, map (fun c => (grid_comp size thr (fst c), grid_comp size thr (snd c))) (g_vec w)).
End Grid.
