(** Model of the operators OScalar (src/qdlib/OScalar.cpp, OScalar.h) and ONormalize (src/qdlib/ONormalize.h).

    [F]: exact numbers in place of double; wave functions are lists of complex numbers, [w] is the weight of a grid point in the
    scalar product.  [root]: sqrt.  A division by 0 gives [None].  The texts of the parameters are read elsewhere (Model/Params.v). *)
From Coq Require Import List ZArith Lia Bool Arith.
From Verif Require Import Base Arrays Algebra Complex Ordered.
Import ListNotations.
Open Scope Z_scope.

Section Scalar.
  Variable F : ofld.
  Variable w : F.
  Variable root : F -> F.
  Local Notation wf := (list (Cx F)).
  (** WFGridCartesian.cpp:62-118: the scalar product *)
  Definition sprod (a b : wf) : Cx F := cx_scale w (fold_right cadd c0 (map (fun x => cmul (cx_conj (fst x)) (snd x)) (combine a b))).

  (** OScalar.h:29-31; of the buffer the number of elements *)
  Record scal := mkScal { sc_value : Cx F; sc_buf : option Z }.
  (** OScalar.cpp:11-14 *)
  Definition scal_new : scal := mkScal (c1 : Cx F) None.
  (** the parameters "value" and "im" *)
  Record spars := mkSP { sp_value : option F; sp_im : option F }.
  (** ParamContainer.cpp:223-234 *)
  Definition get_value (p : option F) : F := match p with Some x => x | None => c0 end.
  (** OScalar.cpp:22-29 *)
  Definition scal_params (o : scal) (p : spars) : scal :=
    mkScal (get_value (sp_value p), match sp_im p with Some x => x | None => snd (sc_value o) end) (sc_buf o).
  (** OScalar.cpp:31-39; [None]: NULL *)
  Definition scal_psi (o : scal) (psi : option wf) : outcome scal :=
    match psi with
    | None => Throw
    | Some x => match sc_buf o with Some _ => Ok o | None => Ok (mkScal (sc_value o) (Some (zlen x))) end
    end.
  (** OScalar.cpp:53-56 *)
  Definition scal_apply (o : scal) (x : wf) : wf := map (fun c => cmul c (sc_value o)) x.
  (** OScalar.cpp:48-51, MultElementsCopyCCc.h:6-37: as many elements as the destination has *)
  Definition scal_apply_to (o : scal) (dest x : wf) : outcome wf :=
    if zlen x <? zlen dest then UB else Ok (map (fun c => cmul c (sc_value o)) (firstn (length dest) x)).
  (** OScalar.cpp:41-46; the assignment resizes the buffer *)
  Definition scal_element (o : scal) (bra ket : wf) : outcome (Cx F * scal) :=
    match sc_buf o with
    | None => UB
    | Some _ => if negb (zlen bra =? zlen ket) then UB else
                Ok (sprod bra (map (fun c => cmul c (sc_value o)) ket), mkScal (sc_value o) (Some (zlen ket)))
    end.
  (** OScalar.h:47-48 *)
  Definition scal_emax (o : scal) : Cx F := sc_value o.
  Definition scal_emin (o : scal) : Cx F := c0.
  (** Operator.h:104-105 and 206 *)
  Definition scal_hermitian (o : scal) : bool := true.
  (** OScalar.cpp:64-77; [None]: another kind of operator *)
  Definition scal_copy (t : scal) (o : option scal) : outcome scal :=
    match o with
    | None => Throw
    | Some o => Ok (mkScal (sc_value o) (match sc_buf o with Some n => Some n | None => sc_buf t end))
    end.
  (** OScalar.cpp:79-85 *)
  Definition scal_valid (o : scal) (psi : option wf) : outcome bool :=
    match psi with None => Ok false | Some x => match sc_buf o with None => UB | Some n => Ok (zlen x =? n) end end.

  (** WaveFunction.h:94-106: the norm, and the division by it *)
  Definition norm (x : wf) : F := root (fst (sprod x x)).
  Definition normalize (x : wf) : option wf :=
    match ocmp (norm x) c0 with inleft (right _) => None | _ => Some (map (fun c => cx_scale (fdiv c1 (norm x)) c) x) end.
  (** ONormalize.h:44-50; FastCopy resizes (Vector.h:378-402) *)
  Definition onorm_apply_to (dest x : wf) : option wf := normalize x.
  Definition onorm_apply (x : wf) : option wf := normalize x.
End Scalar.
Arguments mkScal {F}. Arguments sc_value {F}. Arguments sc_buf {F}. Arguments scal_new {F}. Arguments mkSP {F}. Arguments sp_value {F}. Arguments sp_im {F}. Arguments scal_params {F}.
Arguments scal_psi {F}. Arguments scal_apply {F}. Arguments scal_apply_to {F}. Arguments scal_element {F}. Arguments scal_emax {F}. Arguments scal_emin {F}. Arguments scal_hermitian {F}.
Arguments scal_copy {F}. Arguments scal_valid {F}. Arguments sprod {F}. Arguments norm {F}. Arguments normalize {F}. Arguments onorm_apply {F}. Arguments onorm_apply_to {F}.
