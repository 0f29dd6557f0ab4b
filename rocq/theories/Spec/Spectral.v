(** What an operator that is diagonal in momentum space does: it multiplies each Fourier coefficient with a number. *)
From Coq Require Import List ZArith Bool Arith.
From Verif Require Import Base Arrays Algebra Complex Model.Grid Model.Repr Spec.Repr.
Import ListNotations.
Open Scope Z_scope.

Section Shows.
  Variable A : Type.
  (** wave function number i shows x in position space *)
  Definition shows (s : state A) (i : nat) (ds : list Z) (x : list A) : Prop :=
    exists r, live A s i = Some r /\ r_dims A r = ds /\ r_k A r = false /\ r_pos A r = Some x.
  (** it is there, on this grid *)
  Definition on_grid (s : state A) (i : nat) (ds : list Z) : Prop := exists r, live A s i = Some r /\ r_dims A r = ds.
  Definition od_ok (ds : list Z) (od : option nat) : Prop := match od with None => True | Some d => (d < length ds)%nat end.
  (** it may be transformed in this dimension without loss (C81): plans cost nothing, or it was not first transformed in momentum space *)
  Definition free_of (p : prepared) (s : state A) (i : nat) (ds : list Z) (od : option nat) : Prop :=
    match od with None => True | Some d => p ds od = true \/ forall r, live A s i = Some r -> r_made A r <> Some true end.
  (** the same for the storage of the model *)
  Definition looks (w : world A) (i : nat) (ds : list Z) (x : list A) : Prop :=
    exists o, get A w i = Ok o /\ o_dims o = ds /\ o_k o = false /\ read_vec A w i = Ok x.

  (** a careful program (C81) that ends in the state s *)
  Definition before (trans : bool -> list Z -> option nat -> list A -> list A) (junk : nat -> Z -> list A) (flag : lvl)
      (wis : prob -> option lvl) (prep : prepared) (cs : list (cmd A)) (s : state A) : Prop :=
    (forall fw ds od x, zlen x = grid_size ds -> zlen (trans fw ds od x) = zlen x) /\ (forall t n, 0 <= n -> zlen (junk t n) = n) /\
    (forall ds od, prep ds od = true -> flag = Est \/ forall fw, exists l, wis (ds, od, fw) = Some l /\ lvl_leb flag l = true) /\
    Forall (keeps A) cs /\ careful_run A trans prep (nothing A) cs /\ s_run A trans (nothing A) cs = Some s.
End Shows.

Section Spec.
  Variable F : fld.
  Notation A := (cr (Cx F)).
  Variable trans : bool -> list Z -> option nat -> list A -> list A.

  (** coefficient by coefficient *)
  Inductive times : list A -> list A -> list A -> Prop :=
  | times_nil : times [] [] []
  | times_cons a b l m n : times l m n -> times (a :: l) (b :: m) ((a * b)%cr :: n).

  (** the transforms are inverse up to the number n of points *)
  Definition inverse (ds : list Z) (od : option nat) (n : F) : Prop :=
    n <> c0 /\ forall y, zlen y = grid_size ds -> trans true ds od (trans false ds od y) = map (fun a => (cx_of n * a)%cr) y.
  (** derivative with a factor: i k; momentum: k; Operator.h:215-218: with Conj an operator is to be replaced by its adjoint *)
  Definition grad_symbol (conj momentum : bool) (fac k : F) : A :=
    let a := if momentum then cx_of (fac * k)%cr else (@cx_i F * cx_of (fac * k))%cr in if conj then cx_conj a else a.
  (** tables for one dimension hold k (first derivative) or - k^2 (second one) (C82) *)
  Definition dim_symbol (deriv : Z) (dd k : F) : A := if Z.odd deriv then (@cx_i F * cx_of (k * dd))%cr else cx_of (k * dd)%cr.
End Spec.
