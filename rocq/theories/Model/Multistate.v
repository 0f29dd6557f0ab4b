(** Model of class WFMultistate, src/qdlib/WFMultistate.{h,cpp}: the table of states, its initialisation and the inner
    product.

    A state is its number of strides and the data of its first stride.  NewInstance of a state gives one of the same shape.
    StrideRef (src/math/Vector.h:216-241) refuses vectors whose stride size differs from that of the first one linked.
    An inner product of two states is the parameter [sp]. *)
From Coq Require Import List NArith ZArith Lia Bool.
From Verif Require Import Base Arrays Algebra.
Import ListNotations.
Open Scope Z_scope.

(** WFMultistate.h:10 *)
Definition max_states : Z := 64.

Section Multistate.
  Variable R : cring.
  Record wf := mkWf { w_strides : Z; w_data : list R }.
  Record ms := mkMs { m_n : Z; m_tab : list (option wf) }.

  (** WFMultistate.cpp:12-17 *)
  Definition ms_new : ms := mkMs 0 (repeat None (Z.to_nat max_states)).

  (** WFMultistate.cpp:43-59.  The first component tells whether the call returned normally (true) or threw; the table is
      changed before the last check. *)
  Definition ms_add (m : ms) (psi : wf) (index : Z) : outcome (bool * ms) :=
    if max_states <=? index + 1 then Ok (false, m)
    else
      let n := if m_n m <? index + 1 then index + 1 else m_n m in
      let* tab := wr (m_tab m) index (Some psi) in
      Ok (negb (1 <? w_strides psi), mkMs n tab).

  (** NewInstance followed by assignment of zero (WFMultistate.cpp:97-98) *)
  Definition zero_like (w : wf) : wf := mkWf (w_strides w) (repeat c0 (length (w_data w))).

  (** WFMultistate.cpp:94-101 and 103-110 *)
  Definition fill (n : Z) (s : list (option wf) * option wf) : outcome (list (option wf) * option wf) :=
    foldM (fun s i =>
      let '(tab, wflast) := s in
      let* x := rd tab i in
      match x, wflast with
      | Some w, _ => Ok (tab, Some w)
      | None, Some w => let* tab := wr tab i (Some (zero_like w)) in Ok (tab, wflast)
      | None, None => Ok (tab, wflast)
      end) (upto 0 n) s.

  (** WFMultistate.cpp:117-122 *)
  Definition extend (n req : Z) (w : wf) (tab : list (option wf)) : outcome (list (option wf)) :=
    foldM (fun tab i => wr tab i (Some (zero_like w))) (upto n req) tab.

  (** WFMultistate.cpp:132-135: link the states; [None]: nothing linked yet *)
  Definition link (n : Z) (tab : list (option wf)) : outcome (option Z) :=
    foldM (fun size i =>
      let* x := rd tab i in
      match x with
      | None => UB
      | Some w =>
        match size with
        | None => Ok (Some (zlen (w_data w)))
        | Some s => if zlen (w_data w) =? s then Ok size else Throw
        end
      end) (upto 0 n) None.

  (** WFMultistate.cpp:89-139 *)
  Definition ms_init (m : ms) (reqsize : Z) : outcome ms :=
    let* s1 := fill (m_n m) (m_tab m, None) in
    let* s2 := fill (m_n m) s1 in
    match snd s2 with
    | None => Throw
    | Some w =>
      let* s3 := if m_n m <? reqsize then
                   let* tab := extend (m_n m) reqsize w (fst s2) in Ok (reqsize, tab)
                 else Ok (m_n m, fst s2) in
      let* _ := link (fst s3) (snd s3) in
      Ok (mkMs (fst s3) (snd s3))
    end.

  (** WFMultistate.cpp:202-224 without MPI: this->operator*(psi) *)
  Variable C : cring.
  Variable sp : wf -> wf -> C.
  Definition ms_prod_from (rank size : Z) (a b : ms) : outcome C :=
    foldM (fun c i =>
      if i mod size =? rank then
        let* x := rd (m_tab a) i in
        let* y := rd (m_tab b) i in
        match x, y with
        | Some v, Some w => Ok (cadd c (sp v w))
        | _, _ => UB
        end
      else Ok c) (upto 0 (m_n a)) c0.
  Definition ms_prod (a b : ms) : outcome C := ms_prod_from 0 1 a b.
  (** with MPI: the ranks' sums are added (Allreduce) *)
  Definition ms_prod_mpi (size : Z) (a b : ms) : outcome C :=
    foldM (fun c r => let* x := ms_prod_from r size a b in Ok (cadd c x)) (upto 0 size) c0.
  (** WFMultistate.cpp:158-174: the square of Norm() *)
  Definition ms_norm2 (a : ms) : outcome C := ms_prod a a.

  (** WFMultistate.cpp:184-200: this = psi *)
  Definition ms_assign (a b : ms) : outcome ms :=
    if negb (m_n a =? m_n b) then Throw
    else
      let* tab := foldM (fun tab i =>
        let* x := rd tab i in
        let* y := rd (m_tab b) i in
        match x, y with
        | Some _, Some w => wr tab i (Some w)
        | _, _ => UB
        end) (upto 0 (m_n b)) (m_tab a) in
      Ok (mkMs (m_n a) tab).
End Multistate.
