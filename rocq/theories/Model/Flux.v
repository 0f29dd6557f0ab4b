(** Model of the flux operator OFlux (src/qdlib/OFlux.cpp) on top of OList (src/qdlib/OList.cpp).

    [F]: exact numbers in place of double.  A wave function is the list of its values, [true] with it if it is on a grid (WFGridSystem),
    [false] for other kinds; the scalar product is the sum over the points times [w], the volume of a grid cell
    (WFGridCartesian.cpp:62-118).  Operators of the list are functions of wave functions, initialised and of the right size.
    Retired storage keeps its size; its content is not used again. *)
From Coq Require Import Ascii String List ZArith Lia Bool Arith.
From Verif Require Import Base Arrays Algebra Complex Ordered.
Import ListNotations.

Section Flux.
  Variable F : ofld.
  Variable w : F.
  Definition wf : Type := list (Cx F).
  (** OFlux.h:30-36: the operators; kind and size of the buffer; size of the constant wave function *)
  Record flux := mkFlux { fx_ops : list (wf -> wf); fx_buf : option (bool * nat); fx_one : option nat }.
  (** OFlux.cpp:12-15 with the operators added *)
  Definition flux_new (l : list (wf -> wf)) : flux := mkFlux l None None.
  (** OFlux.cpp:30-46: the number of operators is looked at after the buffers are there *)
  Definition flux_psi (o : flux) (k : bool) (n : nat) : flux * outcome unit :=
    match fx_buf o with
    | Some _ => (o, Ok tt)
    | None => (mkFlux (fx_ops o) (Some (k, n)) (Some n), if (length (fx_ops o) =? 2)%nat then Ok tt else Throw)
    end.
  (** OList.cpp:42-47 *)
  Definition get (o : flux) (i : nat) : outcome (wf -> wf) := match nth_error (fx_ops o) i with Some f => Ok f | None => Throw end.
  (** MultElementsConjugateCCd.h: A = A.conj() * B; Im.h: the imaginary part as real number *)
  Definition conj_times (a b : wf) : wf := map (fun x => cmul (cx_conj (fst x)) (snd x)) (combine a b).
  Definition imag (a : wf) : wf := map (fun z => cx_of (snd z)) a.
  (** WFGridCartesian.cpp:62-118 with the constant wave function of size m *)
  Definition times_one (m : nat) (b : wf) : outcome (Cx F) :=
    if (length b <? m)%nat then UB else
    Ok (cx_scale w (fold_left (fun c x => cadd c (cmul (cx_conj (cx_of (copp (cadd c1 c1)))) x)) (firstn m b) c0)).
  (** OFlux.cpp:48-64; a kinetic operator applied to a wave function of another size than the buffer leaves the arrays *)
  Definition flux_element (o : flux) (bra ket : wf) : outcome (Cx F) :=
    match fx_buf o, fx_one o with
    | Some (_, n), Some m =>
      let* T := get o 0 in
      if negb (length ket =? n)%nat then UB else
      if negb (length bra =? n)%nat then Throw else
      let b := imag (conj_times (T ket) bra) in
      let* G := get o 1 in
      times_one m (G b)
    | _, _ => UB
    end.
  (** OFlux.cpp:66-74 *)
  Definition flux_apply (o : flux) (psi : wf) : outcome wf := Throw.
  (** OFlux.cpp:81-99, OList.cpp:182-199; [None]: another kind of operator, whose name is asked of a null pointer.  A buffer that is there
      is deleted and replaced by one like that of the other operator; Collector.h:149-165 does not change the pointer *)
  Definition flux_copy (t : flux) (o : option flux) : outcome flux :=
    match o with
    | None => UB
    | Some o =>
      match fx_buf t with
      | None => Ok (mkFlux (fx_ops o) None (fx_one t))
      | Some _ =>
        match fx_buf o with
        | None => UB
        | Some (k, n) => Ok (mkFlux (fx_ops o) (if k then Some (k, n) else None) (fx_one t))
        end
      end
    end.
End Flux.
Arguments mkFlux {F}. Arguments fx_ops {F}. Arguments fx_buf {F}. Arguments fx_one {F}. Arguments flux_new {F}. Arguments flux_psi {F}. Arguments get {F}.
Arguments conj_times {F}. Arguments imag {F}. Arguments times_one {F}. Arguments flux_element {F}. Arguments flux_apply {F}. Arguments flux_copy {F}.
