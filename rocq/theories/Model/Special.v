(** Model of the grid sum, the hermitian matrix operator and the Lanczos basis (src/qdlib/OGridSum.cpp, OHermitianMatrix.cpp,
    OSIL.cpp). *)
From Coq Require Import List ZArith Lia Bool.
From Verif Require Import Base Arrays Algebra Model.Operators.
Import ListNotations.
Open Scope Z_scope.

(** * Sums on the grid (OGridSum.cpp)

    A part is its values on the grid as a function of the time step ([UpdateTime] evaluates it). *)
Section GridSum.
  Variable R : cring.
  Definition MAX_OPS : Z := 16.
  Record part := mkPart { gp_size : Z; gp_at : Z -> list R }.
  (** OGridSum.h: the slots (all null at first), the number of parts, the values, _isUpTodate *)
  Record gsum := mkGsum { gs_ops : list (option part); gs_n : Z; gs_val : list R; gs_ok : bool }.
  Definition gs_new : gsum := mkGsum (repeat None (Z.to_nat MAX_OPS)) 0 [] false.
  (** OGridSum.cpp:172-195: [junk]: the content of newly allocated values *)
  Definition gs_add (junk : Z -> list R) (s : gsum) (o : option part) : outcome gsum :=
    if MAX_OPS <=? gs_n s then Throw else
    match o with
    | None => Throw
    | Some p =>
        let v := if zlen (gs_val s) =? 0 then junk (gp_size p) else gs_val s in
        if negb (gp_size p =? zlen v) then Throw else
        let* ops := wr (gs_ops s) (gs_n s) (Some p) in
        Ok (mkGsum ops (gs_n s + 1) v false)
    end.
  (** access through the pointer in slot k *)
  Definition slot (s : gsum) (k : Z) : outcome part := let* o := rd (gs_ops s) k in match o with Some p => Ok p | None => UB end.
  (** OGridSum.cpp:28-45: [t]: the current time step *)
  Definition gs_update (t : Z) (s : gsum) : outcome gsum :=
    let* p0 := slot s 0 in
    let* v := foldM (fun v i => let* x := rd (gp_at p0 t) i in wr v i x) (upto 0 (zlen (gs_val s))) (gs_val s) in
    let* v :=
      if 1 <? gs_n s then
        let* _ := foldM (fun _ k => let* _ := slot s k in Ok tt) (upto 1 (gs_n s)) tt in
        let k := gs_n s in
        foldM (fun v i => let* p := slot s k in let* a := rd v i in let* x := rd (gp_at p t) i in wr v i (cadd a x)) (upto 0 (zlen v)) v
      else Ok v in
    Ok (mkGsum (gs_ops s) (gs_n s) v true).
  (** OGridSum.cpp:60-63 *)
  Definition gs_time (t : Z) (s : gsum) : outcome gsum := if 0 <? gs_n s then gs_update t s else Ok s.
End GridSum.

(** * Matrix operators (OHermitianMatrix.cpp)

    [A]: matrices, [E]: eigenvalues; [diag]: LAPACK's eigenvalues and eigenvectors. *)
Section Herm.
  Variables A E : Type.
  Variable diag : A -> A * list E.
  (** the matrix, _X, _dspace, _valid *)
  Record hm := mkHm { h_mat : A; h_x : option A; h_d : option (list E); h_valid : bool }.
  (** OHermitianMatrix.cpp:20-34 (NewInstance): [m]: a matrix with any content *)
  Definition h_new (m : A) : hm := mkHm m None None false.
  (** OHermitianMatrix.cpp:262-277 *)
  Definition h_init (s : hm) : hm := let r := diag (h_mat s) in mkHm (h_mat s) (Some (fst r)) (Some (snd r)) true.
  (** OHermitianMatrix.cpp:141-152: the largest and the smallest eigenvalue; eigenvalues are in ascending order *)
  Definition h_bound (largest : bool) (s : hm) : outcome (E * hm) :=
    let s := if h_valid s then s else h_init s in
    match h_d s with
    | None => UB
    | Some d => let* e := rd d (if largest then zlen d - 1 else 0) in Ok (e, s)
    end.
  (** OHermitianMatrix.cpp:185-205 *)
  Definition h_copy (this op : hm) : outcome hm :=
    let* x := match h_x this with None => Ok None | Some _ => match h_x op with Some x => Ok (Some x) | None => UB end end in
    let* d := match h_d this with None => Ok None | Some _ => match h_d op with Some d => Ok (Some d) | None => UB end end in
    Ok (mkHm (h_mat op) x d (h_valid op)).
  (** OHermitianMatrix.cpp:225-231: assignment of objects *)
  Definition h_assign (this op : hm) : hm := mkHm (h_mat op) (h_x this) (h_d this) false.
  (** OHermitianMatrix.cpp:96-104, 56-75: changing the matrix *)
  Definition h_set (s : hm) (m : A) : hm := mkHm m (h_x s) (h_d s) false.
End Herm.

(** * The Lanczos basis (OSIL.cpp)

    [dot]: the real part of the scalar product, [norm]: Norm(), [conv it beta]: the error estimate before vector [it] is
    below the limit (it depends only on the off diagonal elements).  The WFBuffer is a list of wave functions. *)
Section Lanczos.
  Variable F : fld.
  Variable M : cmodule F.
  Variable junk : nat -> M.
  Variable dot : M -> M -> F.
  Variable norm : M -> F.
  Variable conv : Z -> list F -> bool.
  Notation acts := (acts F M).
  Record lz := mkLz { l_q : list M; l_a : list F; l_b : list F; l_conv : Z; l_n : nat }.
  Definition minus (x y : M) : M := madd x (mopp y).
  (** OSIL.cpp:104-146: one pass; the flag: the loop was left; [it] after the loop *)
  Definition lz_pass (H : acts) (s : lz * Z * bool) (it : Z) : outcome (lz * Z * bool) :=
    let '(st, it0, stop) := s in
    if (stop : bool) then Ok s else
    let small := conv it (l_b st) in
    let cv := l_conv st + 1 in
    let* q1 := rd (l_q st) (it - 1) in
    let* q2 := rd (l_q st) (it - 2) in
    let* old := rd (l_q st) it in
    let* r := cp F M H (l_n st) old q1 in
    let x := fst r in
    let alpha := dot q1 x in
    let* a := wr (l_a st) (it - 1) alpha in
    let x := minus x (mscale alpha q1) in
    let* b2 := rd (l_b st) (it - 2) in
    let x := minus x (mscale b2 q2) in
    let beta := norm x in
    let* b := wr (l_b st) (it - 1) beta in
    let x := mscale (fdiv c1 beta) x in
    let* q := wr (l_q st) it x in
    let st := mkLz q a b cv (snd r) in
    if small then Ok (st, it, true) else Ok (st, it + 1, false).
  (** OSIL.cpp:83-158: [q]: the buffer (any content), its size being the order *)
  Definition lz_build (H : acts) (order : Z) (q : list M) (n : nat) (psi : M) : outcome lz :=
    let a := repeat c0 (Z.to_nat order) in
    let b := repeat c0 (Z.to_nat order) in
    let* q := wr q 0 psi in
    let* r := cp F M H (2 + n) (junk n) psi in
    let alpha := dot psi (fst r) in
    let* a := wr a 0 alpha in
    let x := minus (fst r) (mscale alpha psi) in
    let beta := norm x in
    let* b := wr b 0 beta in
    let x := mscale (fdiv c1 beta) x in
    let* q := wr q 1 x in
    let* s := foldM (lz_pass H) (upto 2 order) (mkLz q a b 2 (snd r), 2, false) in
    let '(st, it, _) := s in
    let* ql := rd (l_q st) (it - 1) in
    let* r := cp F M H (l_n st) (junk (l_n st)) ql in
    let* a := wr (l_a st) (it - 1) (dot ql (fst r)) in
    Ok (mkLz (l_q st) a (l_b st) (l_conv st) (snd r)).
End Lanczos.
