(** What matrix operators read from files are, written without the code. *)
From Coq Require Import Ascii String List ZArith Bool.
From Verif Require Import Base Arrays Algebra Complex Ordered Model.MatOp.
Import ListNotations.

Section Spec.
  Variable F : ofld.
  Open Scope cr_scope.
  (** row i, column j of a matrix stored by columns *)
  Definition entry (n : nat) (d : list F) (i j : nat) : F := nth (j * n + i) d 0.
  (** d' is d with m subtracted from the diagonal *)
  Definition lowered (n : nat) (d : list F) (m : F) (d' : list F) : Prop :=
    length d' = (n * n)%nat /\ forall i j, (i < n)%nat -> (j < n)%nat -> entry n d' i j = if (i =? j)%nat then entry n d i j - m else entry n d i j.
  (** a file with a whole n x n matrix; a meta file does not ask for immediate diagonalisation *)
  Definition whole (f : mfile F) (n : nat) (d : list F) : Prop :=
    (0 < n)%nat /\ length d = (n * n)%nat /\
    match f with MRaw h x => x = d /\ mp_size h = Z.of_nat n /\ mp_qdiag h = false | MStrm k x => x = d /\ k = n end.
  (** the parameters in effect after reading: those of the meta file, or, for a stream, the own *)
  Definition in_effect (f : mfile F) (p : mpars F) : mpars F := match f with MRaw h _ => h | MStrm _ _ => p end.
  Definition mscale_of (p : mpars F) : F := match mp_scale p with Some s => s | None => 1 end.
  (** a times the matrix times psi *)
  Definition product (n : nat) (d : list F) (a : F) (psi r : list (Cx F)) : Prop :=
    length r = n /\ forall i, (i < n)%nat -> nth_error r i = Some (cx_scale a (lsum (fun j => cx_scale (entry n d i j) (nth j psi c0)) (seq 0 n))).
  Definition fits (c : clock F) (e : list F * F) : Prop := snd e = cl_dt c /\ (cl_steps c <= length (fst e))%nat.
  Definition between (lo x hi : F) : Prop := ole lo x /\ ole x hi.
End Spec.
Arguments entry {F}. Arguments lowered {F}. Arguments whole {F}. Arguments in_effect {F}. Arguments mscale_of {F}. Arguments product {F}. Arguments fits {F}. Arguments between {F}.
