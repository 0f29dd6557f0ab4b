(** Model of the kinetic energy operator with absorbing layers OGridPML (src/qdlib/OGridPML.cpp).

    Wave functions are elements of a module over exact real numbers.  Oracles: the first derivative along a dimension ([D],
    Diff.cpp:223-242 with prefactor 1; the prefactor is applied exactly) and the transformation of the layer of a dimension
    ([P], PML.cpp:147-205 and Model/PML.v; true: conjugated factors).  Left out: parameters of the layers and of the
    differentiator, the disk swapping of buffers, Emin. *)
From Coq Require Import List ZArith Lia Bool Arith.
From Verif Require Import Base Arrays Algebra Ordered.
Import ListNotations.
Open Scope Z_scope.

Section OPML.
  Variable F : ofld.
  Variable M : cmodule F.
  Variable D : Z -> M -> M.
  Variable P : bool -> Z -> M -> M.
  (** the buffers: NULL, a wave function on a grid with this many dimensions, or freed *)
  Inductive buffer := Null | Live (dims : Z) | Freed.
  (** OGridPML.h:27-32, Operator.h:85; [k_dims]: GridSystem::Dim() *)
  Record kin := mkKin { k_mass : list F; k_dims : Z; k_buf : buffer; k_conj : bool }.
  (** OGridPML.cpp:20-29 *)
  Definition kin_new : kin := mkKin (repeat c0 4) 0 Null false.
  (** OGridPML.cpp:37-45, helpers.h:79-85; [None]: no masses given *)
  Definition kin_params (o : kin) (mass : option (list F)) : kin :=
    mkKin (match mass with Some l => l | None => [] end) (k_dims o) (k_buf o) (k_conj o).
  (** OGridPML.cpp:47-75; [None]: not a grid *)
  Definition kin_psi (o : kin) (psi : option Z) : outcome kin :=
    match k_buf o with
    | Null => match psi with None => Throw | Some d => Ok (mkKin (k_mass o) d (Live d) (k_conj o)) end
    | _ => Ok o
    end.
  (** Operator.h:219 *)
  Definition kin_set_conj (o : kin) (c : bool) : kin := mkKin (k_mass o) (k_dims o) (k_buf o) c.
  (** OGridPML.cpp:119-123: the term of a dimension; a division by 0 gives [None] *)
  Definition kin_term (o : kin) (psi : M) (i : Z) : outcome (option M) :=
    let x := P (k_conj o) i (D i psi) in
    let* m := rd (k_mass o) i in
    match ocmp m c0 with
    | inleft (right _) => Ok None
    | _ => Ok (Some (P (k_conj o) i (mscale (fdiv (fdiv (copp c1) (cadd c1 c1)) m) (D i x))))
    end.
  (** OGridPML.cpp:111-128 *)
  Definition kin_apply (o : kin) (psi : M) : outcome (option M) :=
    match k_buf o with
    | Live _ => foldM (fun s i => let* t := kin_term o psi i in
                        Ok match s, t with Some a, Some b => Some (madd a b) | _, _ => None end) (upto 0 (k_dims o)) (Some m0)
    | _ => UB
    end.
  (** OGridPML.cpp:77-87, without the factor pi^2 / 2; [dx]: GridSystem::Dx *)
  Definition kin_emax (dx : Z -> F) (o : kin) : outcome F :=
    foldM (fun T i => let* m := rd (k_mass o) i in
             match ocmp c0 m with inleft (left _) => Ok (cadd T (fdiv c1 (cmul (cmul m (dx i)) (dx i)))) | _ => Ok T end) (upto 0 (k_dims o)) c0.
  (** OGridPML.cpp:135-151: the new state, and whether it returned or threw; [None]: another kind of operator.
      DELETE_WF frees the buffers and leaves the pointers, freed ones are not known to it (Collector.h:149-165) *)
  Definition free (b : buffer) : buffer := match b with Null => Null | _ => Freed end.
  Definition kin_copy (t : kin) (o : option kin) : outcome (kin * bool) :=
    match o with
    | None => Ok (mkKin (k_mass t) (k_dims t) (free (k_buf t)) (k_conj t), false)
    | Some o =>
      let t := mkKin (k_mass o) (k_dims t) Null (k_conj t) in
      match k_buf o with
      | Live d => let* t := kin_psi t (Some d) in Ok (t, true)
      | _ => UB
      end
    end.
End OPML.
Arguments mkKin {F}. Arguments k_mass {F}. Arguments k_dims {F}. Arguments k_buf {F}. Arguments k_conj {F}. Arguments kin_new {F}. Arguments kin_params {F}. Arguments kin_psi {F}. Arguments kin_set_conj {F}.
Arguments kin_term {F M}. Arguments kin_apply {F M}. Arguments kin_emax {F}. Arguments kin_copy {F}.
