(** Model of the projection operator and the quantum jump operator (src/qdlib/OProjection.cpp, OJump.cpp).

    Wave functions and operators as in Model/Operators.v. *)
From Coq Require Import List ZArith Lia Bool QArith Qcanon.
From Verif Require Import Base Arrays Algebra Model.Operators.
Import ListNotations.
Open Scope Z_scope.

(** * Projection (OProjection.cpp)

    [dot]: the scalar product WaveFunction::operator*.  The states are kept in a WFBuffer, of which only the list of the
    states is modelled here (see Model/WFBuffer.v); [j_buf]: the internal buffer exists.  Reading states from files is left
    out. *)
Section Proj.
  Variable R : cring.
  Variable M : cmodule R.
  Variable dot : M -> M -> R.
  Record proj := mkProj { j_states : list M; j_sign : R; j_inv : bool; j_buf : bool }.
  (** OProjection.cpp:13 *)
  Definition j_new : proj := mkProj [] c1 false false.
  (** OProjection.cpp:81-90 (Init with parameters), OProjection.h: Sign *)
  Definition j_params (s : proj) (pos inv : bool) : proj := mkProj (j_states s) (if pos then c1 else copp c1) inv (j_buf s).
  (** OProjection.cpp:30-39 *)
  Definition j_init (s : proj) : proj := if 0 <? zlen (j_states s) then s else mkProj (j_states s) (j_sign s) (j_inv s) true.
  (** WFBuffer::Add *)
  Definition j_add (s : proj) (psi : M) : proj := mkProj (j_states s ++ [psi]) (j_sign s) (j_inv s) (j_buf s).
  (** OProjection.cpp:98-121 *)
  Definition j_copy (this o : proj) : outcome proj :=
    let this := if 0 <? zlen (j_states this) then mkProj [] (j_sign this) (j_inv this) false else this in
    let this := mkProj (j_states this) (j_sign o) (j_inv o) (j_buf this) in
    foldM (fun this i => let* psi := rd (j_states o) i in Ok (j_add this psi)) (upto 0 (zlen (j_states this))) this.
  (** OProjection.cpp:133-149 *)
  Definition j_cp (s : proj) (dest src : M) : outcome M :=
    let dest := m0 in
    let* dest := foldM (fun dest i => let* w := rd (j_states s) i in Ok (madd dest (mscale (cmul (dot w src) (j_sign s)) w))) (upto 0 (zlen (j_states s))) dest in
    if j_inv s then (if j_buf s then let buf := src in let buf := madd buf (mscale (copp c1) dest) in Ok buf else UB) else Ok dest.
  (** OProjection.cpp:123-131: the source of the copying form is the internal buffer; assigning it to itself changes nothing *)
  Definition j_ip (s : proj) (psi : M) : outcome M :=
    if j_buf s then let buf := psi in j_cp s psi buf else UB.
End Proj.

(** * Jumps (OJump.cpp)

    [normalize]: WaveFunction::Normalize, [prob]: clock->Dt() times the squared norm, a real number (exact). *)
Section Jump.
  Variable R : cring.
  Variable M : cmodule R.
  Variable junk : nat -> M.
  Variable normalize : M -> M.
  Variable prob : M -> Qc.
  Notation acts := (acts R M).
  (** OJump.cpp:72-76: the cumulative probabilities *)
  Definition csums (ops : list acts) (n : nat) (psi : M) : outcome (list Qc * nat) :=
    foldM (fun s i =>
      let* o := get ops i in
      let* r := cp R M o (snd s) (junk (snd s)) psi in
      let p := prob (fst r) in
      let* prev := if 0 <? i then rd (fst s) (i - 1) else Ok (Q2Qc 0) in
      Ok (fst s ++ [(p + prev)%Qc], snd r)) (upto 0 (zlen ops)) ([], S n).
  (** OJump.cpp:65-92: [max]: _max_pjump, [rnd]: the random number *)
  Definition jump (ops : list acts) (max rnd : Qc) (n : nat) (psi : M) : outcome (M * nat) :=
    let psi := normalize psi in
    let* r := csums ops n psi in
    let cs := fst r in
    let* total := rd cs (zlen cs - 1) in
    if Qclt_le_dec total max then
      let* res := foldM (fun s i =>
        let '(psi, n, stop) := s in
        if (stop : bool) then Ok s else
        let* c := rd cs i in
        if Qclt_le_dec rnd c then
          let* o := get ops i in let* r := ip R M o n psi in Ok (normalize (fst r), snd r, true)
        else Ok s) (upto 0 (zlen ops)) (psi, snd r, false) in
      Ok (fst res)
    else Throw.
  (** OJump.cpp:59-63 *)
  Definition jump_cp (ops : list acts) (max rnd : Qc) (n : nat) (dest src : M) : outcome (M * nat) := jump ops max rnd n src.
End Jump.
