(** Model of multi state operators: matrices of operators (src/qdlib/OMultistate.cpp).

    [A]: the operators in the matrix, [a_act]: how they act on wave functions of one state (see Model/Operators.v); a multi
    state wave function is the list of its states.  One MPI process (rank 0 of 1). *)
From Coq Require Import List NArith ZArith Lia Bool.
From Verif Require Import Base Arrays Algebra Model.Operators Model.Multistate.
Import ListNotations.
Open Scope Z_scope.

Section OMultistate.
  Variable R : cring.
  Variable M : cmodule R.
  Variable A : Type.
  Variable a_act : A -> acts R M.
  (** NewInstance followed by assignment *)
  Variable dup : A -> A.

  (** OMultistate.h:28-38; [o_buf]: the buffers _buf1 and _buf2 exist; [o_mat]: the table, see [cell] *)
  Record oms := mkOms { o_herm : bool; o_n : Z; o_unity : bool; o_buf : bool; o_mat : Z -> Z -> option A }.
  (** OMultistate.cpp:14-22 *)
  Definition o_new : oms := mkOms true 0 false false (fun _ _ => None).

  (** access to _matrix[i][j] *)
  Definition inside (i j : Z) : bool := (0 <=? i) && (i <? max_states) && ((0 <=? j) && (j <? max_states)).
  Definition cell (m : Z -> Z -> option A) (i j : Z) : outcome (option A) := if inside i j then Ok (m i j) else UB.
  Definition setcell (m : Z -> Z -> option A) (i j : Z) (x : option A) : outcome (Z -> Z -> option A) :=
    if inside i j then Ok (fun a b => if (a =? i) && (b =? j) then x else m a b) else UB.

  (** OMultistate.cpp:34-54; [false]: an exception was thrown *)
  Definition o_add (s : oms) (o : A) (row col : Z) : outcome (bool * oms) :=
    if (max_states <=? row) || (max_states <=? col) then Ok (false, s)
    else
      let n := Z.max (Z.max (o_n s) (row + 1)) (col + 1) in
      let s := mkOms (o_herm s) n (o_unity s) (o_buf s) (o_mat s) in
      let* c := cell (o_mat s) row col in
      match c with
      | Some _ => Ok (false, s)
      | None =>
        let* m := setcell (o_mat s) row col (Some o) in
        let* x := cell m row col in
        let* y := cell m col row in
        let both := match x, y with Some _, Some _ => negb (row =? col) | _, _ => false end in
        Ok (true, mkOms (if both then false else o_herm s) n (o_unity s) (o_buf s) m)
      end.

  (** OMultistate.cpp:79-97: [nonherm], [unity]: the parameters; [states]: the parameter if present *)
  Definition o_params (s : oms) (nonherm unity : bool) (states : option Z) : outcome oms :=
    match states with
    | Some n => if max_states <? n then Throw else Ok (mkOms (negb nonherm) n unity (o_buf s) (o_mat s))
    | None => Ok (mkOms (negb nonherm) (o_n s) unity (o_buf s) (o_mat s))
    end.

  (** OMultistate.cpp:123-132: one pair of elements in hermitian mode *)
  Definition mirror (m : Z -> Z -> option A) (i j : Z) : outcome (Z -> Z -> option A) :=
    let* u := if negb (i =? j) then cell m j i else Ok None in
    let* m := match u with Some _ => setcell m i j u | None => Ok m end in
    let* l := cell m i j in
    match l with Some _ => if negb (i =? j) then setcell m j i l else Ok m | None => Ok m end.
  (** OMultistate.cpp:99-142: [states]: the number of states of the wave function.  Initialising an element needs the
      state with its column number. *)
  Definition o_init (s : oms) (states : Z) : outcome oms :=
    if o_n s <? 1 then Throw
    else if negb (states =? o_n s) then Throw
    else if o_buf s then Ok s
    else if o_herm s then
      let* m := foldM (fun m i => foldM (fun m j => mirror m i j) (upto 0 (i + 1)) m) (upto 0 (o_n s)) (o_mat s) in
      Ok (mkOms true (o_n s) (o_unity s) true m)
    else
      let* _ := foldM (fun _ i => foldM (fun _ j => let* c := cell (o_mat s) i j in
                                                    match c with Some _ => if j <? states then Ok tt else UB | None => Ok tt end) (upto 0 (o_n s + 1)) tt) (upto 0 (o_n s)) tt in
      Ok (mkOms false (o_n s) (o_unity s) true (o_mat s)).

  (** OMultistate.cpp:206-231: the new destination and the number of buffers acquired *)
  Definition o_apply (s : oms) (n : nat) (dest psi : list M) : outcome (list M * nat) :=
    let dest := map (fun _ => m0) dest in
    foldM (fun r i =>
      let* d := wr (fst r) i m0 in
      foldM (fun r j =>
        let* c := cell (o_mat s) i j in
        match c with
        | Some a => let* x := rd (fst r) i in let* y := rd psi j in
                    let* z := ad R M (a_act a) (snd r) x y in
                    let* d := wr (fst r) i (fst z) in Ok (d, snd z)
        | None => if (i =? j) && o_unity s then
                    let* x := rd (fst r) i in let* y := rd psi j in
                    let* d := wr (fst r) i (madd x y) in Ok (d, snd r)
                  else Ok r
        end) (upto 0 (o_n s)) (d, snd r)) (upto 0 (o_n s)) (dest, n).

  (** OMultistate.cpp:279-320: the copy [this] of [o] *)
  Definition o_copy (this o : oms) : outcome oms :=
    if negb (o_buf o) then UB
    else
      let* m := foldM (fun m i => foldM (fun m j =>
          let* c := cell (o_mat o) i j in
          match c with
          | Some a => let* m := setcell m i j (Some (dup a)) in
                      if o_herm o && negb (i =? j) then setcell m j i (Some (dup a)) else Ok m
          | None => Ok m
          end) (if o_herm o then upto 0 (i + 1) else upto 0 (o_n o)) m) (upto 0 (o_n o)) (o_mat this) in
      Ok (mkOms (o_herm o) (o_n o) (o_unity this) true m).
End OMultistate.
