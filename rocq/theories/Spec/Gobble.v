(** What an absorber should be: windows given by Butterworth filters of the coordinates. *)
From Coq Require Import List ZArith Bool Arith QArith Qcanon.
From Verif Require Import Base Arrays Algebra Complex Spec.Grid.
Import ListNotations.
Open Scope Z_scope.

(** weights falling from 1 to 0, resp. rising from 0 to 1, one half at the cut-off; distances from the first grid point *)
Definition left_pass (x0 cut : Qc) (m : nat) (x : Qc) : Qc := ((cut - x0) ^ m / ((cut - x0) ^ m + (x - x0) ^ m))%Qc.
Definition right_pass (x0 cut : Qc) (m : nat) (x : Qc) : Qc := ((x - x0) ^ m / ((cut - x0) ^ m + (x - x0) ^ m))%Qc.

Fixpoint qprod {A} (f : A -> Qc) (l : list A) : Qc := match l with [] => 1%Qc | a :: l => (f a * qprod f l)%Qc end.
Fixpoint qsum {A} (f : A -> Qc) (l : list A) : Qc := match l with [] => 0%Qc | a :: l => (f a + qsum f l)%Qc end.

Section Window.
  (** the grid (first coordinate and spacing per dimension), the cut-offs and the exponent *)
  Variable ds : list Z.
  Variables x0 dx : nat -> Qc.
  Variables lp rp : nat -> option Qc.
  Variable m : nat.
  Definition at_ (d : nat) (cs : list Z) : Qc := (x0 d + @ofZ Qcf (nth d cs 0%Z) * dx d)%Qc.
  Definition lweight (cs : list Z) (d : nat) : Qc :=
    match lp d with Some c => left_pass (x0 d) c m (at_ d cs) | None => 1%Qc end.
  Definition rweight (one : Qc) (cs : list Z) (d : nat) : Qc :=
    match rp d with Some c => right_pass (x0 d) c m (at_ d cs) | None => one end.
  Definition dims : list nat := seq 0 (length ds).
  (** a window: the product of all filters *)
  Definition window (cs : list Z) : Qc := qprod (fun d => lweight cs d * rweight 1 cs d)%Qc dims.
  (** a potential: the sum of the right passes *)
  Definition barrier (cs : list Z) : Qc := qsum (rweight 0 cs) dims.
  (** what the loop makes: the left passes of later dimensions multiply what earlier dimensions have added *)
  Definition barrier_code (cs : list Z) : Qc :=
    qsum (fun d => rweight 0 cs d * qprod (lweight cs) (seq (S d) (length ds - S d)))%Qc dims.
  (** cut-offs in the half-open interval accepted by the code, and inside the grid *)
  Definition all_cuts (P : nat -> Qc -> Prop) : Prop :=
    forall d c, (d < length ds)%nat -> lp d = Some c \/ rp d = Some c -> P d c.
  Definition outside (d : nat) (c : Qc) : Prop :=
    (c <= x0 d - dx d)%Qc \/ (x0 d + (@ofZ Qcf (nth d ds 0%Z) + 1) * dx d <= c)%Qc.
  Definition inside (d : nat) (c : Qc) : Prop := (x0 d <= c)%Qc /\ (c <= x0 d + @ofZ Qcf (nth d ds 0%Z - 1) * dx d)%Qc.
End Window.

(** a table of finite numbers *)
Definition gtab (ds : list Z) (t : list (option Qc)) (f : list Z -> Qc) : Prop :=
  zlen t = points ds /\ forall cs, in_box ds cs -> rd t (flat ds cs) = Ok (Some (f cs)).

(** squared norm of a vector, pointwise multiplication by a complex diagonal, scalar product *)
Definition nrm (psi : list (Cx Qcf)) : Qc := qsum (fun a => fst a * fst a + snd a * snd a)%Qc psi.
Fixpoint diag_mul (d : list (Cx Qcf)) (psi : list (Cx Qcf)) : list (Cx Qcf) :=
  match d, psi with w :: d, a :: psi => cmul w a :: diag_mul d psi | _, _ => [] end.
Fixpoint dotc (a b : list (Cx Qcf)) : Cx Qcf :=
  match a, b with x :: a, y :: b => cadd (cmul (cx_conj x) y) (dotc a b) | _, _ => c0 end.
