(** What the relaxation and the diagonalisation are meant to deliver. *)
From Coq Require Import List ZArith Bool QArith Qcanon.
From Verif Require Import Base Arrays Algebra Complex Model.Operators Spec.Operators Spec.Projection.
Import ListNotations.
Open Scope Z_scope.

Section S.
  Variable D : cring.
  Variable M : cmodule (Cx D).
  Variable dot : M -> M -> Cx D.
  Variable U : Z -> M -> M.
  Variable H : M -> M.
  Variable normalize : M -> option M.
  Variable dist : M -> M -> Qc.
  (** the scalar product: linear on the right, exchanging the sides conjugates *)
  Definition product : Prop := linear_dot (Cx D) M dot /\ forall x y, dot y x = cx_conj (dot x y).
  (** a normalised vector is a real multiple of length one *)
  Definition normalizes : Prop := forall x y, normalize x = Some y -> dot y y = c1 /\ exists r, y = mscale (cx_of r) x.
  Definition linear_map (F : M -> M) : Prop := (forall x y, F (madd x y) = madd (F x) (F y)) /\ (forall a x, F (mscale a x) = mscale a (F x)).
  Definition hermitian : Prop := forall x y, dot x (H y) = cx_conj (dot y (H x)).
  Definition delta (i k : Z) : Cx D := if i =? k then c1 else c0.
  (** the part of [x] not in the span of the states [low] *)
  Definition outside (low : list M) (x : M) : M := madd x (mopp (onto (Cx D) M dot low x)).
  (** [w] is where the relaxation of [x0] ends, kept away from the states [low]: at least one step, no more than [max], none after the first that changes
      no more than [conv] *)
  Definition relaxes (conv : Qc) (max : Z) (low : list M) (x0 w : M) : Prop := exists (x : Z -> M) (n : Z),
    1 <= n <= max /\ x 0 = x0 /\ x n = w /\
    (forall k, 0 <= k < n -> normalize (outside low (U k (x k))) = Some (x (k + 1))) /\
    (forall k, 0 <= k < n - 1 -> Qclt conv (dist (x k) (x (k + 1)))) /\
    (n = max \/ Qcle (dist (x (n - 1)) (x n)) conv).
  (** The files after the writes [fs], the last one counts. *)
  Definition disk (old : Z -> option M) (fs : list (Z * M)) (i : Z) : option M :=
    fold_left (fun o f => if fst f =? i then Some (snd f) else o) fs (old i).
  (** the first files hold orthonormal states *)
  Definition sound_files (files : Z -> option M) (n : Z) : Prop := forall i k x y,
    0 <= i < n -> 0 <= k < n -> files i = Some x -> files k = Some y -> dot x y = delta i k.
  (** all matrix elements between the first files are real *)
  Definition real_files (files : Z -> option M) (n : Z) : Prop := forall i k x y,
    0 <= i < n -> 0 <= k < n -> files i = Some x -> files k = Some y -> snd (dot x (H y)) = c0.
  (** The contract of LAPACK's dsyev for the upper triangle: orthonormal eigenvectors in the columns. *)
  Definition dsyev (lapack : Z -> (Z -> Z -> D) -> option ((Z -> D) * (Z -> Z -> D))) : Prop := forall n A E V, lapack n A = Some (E, V) ->
    let B := fun j k => if j <=? k then A j k else A k j in
    (forall i j, 0 <= i < n -> 0 <= j < n -> lsum (fun k => cmul (B j k) (V k i)) (upto 0 n) = cmul (E i) (V j i)) /\
    (forall i k, 0 <= i < n -> 0 <= k < n -> lsum (fun j => cmul (V j i) (V j k)) (upto 0 n) = if i =? k then c1 else c0).
End S.
