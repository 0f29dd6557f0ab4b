(** Model of multi state operators in the split operator: exponentials of a matrix of diagonal operators
    (src/qdlib/ODMultistate.cpp, TransformMSD.cpp, ODSpace.h; one step as in OGSPO.cpp).

    Numbers are elements of an ordered field.  [eig n M]: LAPACK's eigenvectors X(i,j) (column j belongs to eigenvalue j) and
    eigenvalues of a symmetric n x n matrix.  [cexp]: the exponential function.  [junk]: content of memory never written. *)
From Coq Require Import List ZArith Lia Bool.
From Verif Require Import Base Arrays Algebra Complex Ordered.
Import ListNotations.
Open Scope Z_scope.

Section ODMultistate.
  Variable F : ofld.
  Notation C := (Cx F).
  Variable cexp : C -> C.
  Notation fmat := (Z -> Z -> F).
  Variable eig : Z -> fmat -> fmat * (Z -> F).
  Variable junk : F.

  (** Transform.h *)
  Record trafo := mkTr { t_fwd : list C -> list C; t_bwd : list C -> list C; t_norm : F }.
  (** A matrix element: [el_ods]: is derived from ODSpace; [el_t]: Transformation(); [el_d]: Dspace(); [el_sc]: the present factor
      with which the operator acts (minus the field for OGridDipole, Model/Dipole.v; one for a potential). *)
  Record elem := mkEl { el_ods : bool; el_t : option trafo; el_d : list F; el_sc : F }.
  Notation omat := (Z -> Z -> option elem).
  (** an entry of the array _T, ODMultistate.cpp:55: new Transform*[] sets no pointer *)
  Inductive slot := Unset | Ptr (t : trafo).
  (** ODMultistate.h:28-32; [od_d]: _dspace and _X once they exist *)
  Record odm := mkOdm { od_n : Z; od_size : Z; od_full : bool; od_t : option (list slot); od_d : option (list (list F) * list fmat) }.

  Fixpoint each {A B} (f : A -> outcome B) (l : list A) : outcome (list B) :=
    match l with [] => Ok [] | a :: t => let* b := f a in let* bs := each f t in Ok (b :: bs) end.

  (** ODMultistate.cpp:60-75: the test of element (i,j); external, _IsFullDiag, _T *)
  Definition test (m : omat) (r : bool * bool * list slot) (i j : Z) : outcome (bool * bool * list slot) :=
    let '(ext, full, T) := r in
    match m i j with
    | None => Ok r
    | Some e =>
      if negb (el_ods e) then Throw
      else match el_t e with
           | Some t => if negb (i =? j) then Throw else let* T := wr T i (Ptr t) in Ok (true, false, T)
           | None => Ok (ext, if i =? j then full else false, T)
           end
    end.
  (** ODMultistate.cpp:43-81, after OMultistate::Init (Model/OMultistate.v) accepted the wave function and completed the matrix
      [m]; [sizes]: the sizes of the n states *)
  Definition od_init (n : Z) (m : omat) (sizes : list Z) : outcome odm :=
    let* last := rd sizes 0 in
    let* _ := foldM (fun _ _ => let* s := rd sizes 0 in if negb (last =? s) then Throw else Ok tt) (upto 1 n) tt in
    let* r := foldM (fun r i => foldM (fun r j => test m r i j) (upto 0 n) r) (upto 0 n) (false, true, map (fun _ => Unset) (upto 0 n)) in
    let '(ext, full, T) := r in
    Ok (mkOdm n last full (if ext then Some T else None) None).
  (** ODMultistate.h:65; [true]: NULL *)
  Definition no_trafo (s : odm) : bool := od_full s.

  (** Vector.h:603-612 onto stride [k] of a vector with strides of the given size *)
  Definition stride_copy {A} (size : Z) (dest : list (list A)) (src : list A) (k : Z) : outcome (list (list A) * bool) :=
    if negb (zlen src =? size) then Ok (dest, false) else let* d := wr dest k src in Ok (d, true).
  (** ODMultistate.cpp:124-127, 161-164: the diagonal elements; no element: access through a null pointer *)
  Definition copy_diag (s : odm) (m : omat) (d : list (list F)) : outcome (list (list F)) :=
    foldM (fun d k => match m k k with
                      | None => UB
                      | Some e => let* r := stride_copy (od_size s) d (el_d e) k in Ok (fst r)
                      end) (upto 0 (od_n s)) d.
  (** ODMultistate.cpp:143-151: the matrix of grid point [i] *)
  Definition point (s : odm) (m : omat) (i : Z) : outcome (list (list F)) :=
    each (fun k => each (fun l => match m k l with Some e => rd (el_d e) i | None => Ok c0 end) (upto 0 (od_n s))) (upto 0 (od_n s)).
  (** LapackDiag.cpp:22-47, uplo U: the upper triangle is read *)
  Definition upper (M : list (list F)) : fmat :=
    fun k l => nth (Z.to_nat (Z.max k l)) (nth (Z.to_nat (Z.min k l)) M []) c0.
  (** ODMultistate.cpp:142-158: one grid point *)
  Definition diagonalize (s : odm) (m : omat) (r : list (list F) * list fmat) (i : Z) : outcome (list (list F) * list fmat) :=
    let* M := point s m i in
    let '(X, ev) := eig (od_n s) (upper M) in
    let* d := foldM (fun d j => let* row := rd d j in let* row := wr row i (ev j) in wr d j row) (upto 0 (od_n s)) (fst r) in
    Ok (d, snd r ++ [X]).
  (** ODMultistate.cpp:115-167: called once, while _dspace is NULL *)
  Definition init_dspace (s : odm) (m : omat) : outcome odm :=
    let d := map (fun _ => map (fun _ => junk) (upto 0 (od_size s))) (upto 0 (od_n s)) in
    let* d := if od_full s then copy_diag s m d else Ok d in
    let* r := match od_t s with
              | None => if od_full s then Ok (d, []) else foldM (diagonalize s m) (upto 0 (od_size s)) (d, [])
              | Some _ => let* d := copy_diag s m d in Ok (d, [])
              end in
    Ok (mkOdm (od_n s) (od_size s) (od_full s) (od_t s) (Some r)).

  (** codelets/ExpElementsCDc.h: as many elements as the destination has *)
  Definition exp_elements (size : Z) (d : list F) (c : C) : outcome (list C) :=
    each (fun i => let* x := rd d i in Ok (cexp (cmul (cx_of x) c))) (upto 0 size).
  (** ODMultistate.cpp:169-182, ODSpace.h:65-69, OGridDipole.cpp:83-87: into a vector with one stride per state *)
  Definition init_exponential (s : odm) (m : omat) (c : C) : outcome (odm * list (list C)) :=
    match od_t s with
    | None =>
      let* s := match od_d s with None => init_dspace s m | Some _ => Ok s end in
      match od_d s with
      | None => UB
      | Some d => let* e := each (fun k => let* x := rd (fst d) k in exp_elements (od_size s) x c) (upto 0 (od_n s)) in Ok (s, e)
      end
    | Some _ =>
      let* e := each (fun k => match m k k with
                               | None => UB
                               | Some e => exp_elements (od_size s) (el_d e) (cmul (cx_of (el_sc e)) c)
                               end) (upto 0 (od_n s)) in
      Ok (s, e)
    end.

  (** Matrix.h:305-342: row [i] of the product; transposed *)
  Definition mv (n : Z) (X : fmat) (a : list C) (i : Z) : C := lsum (fun j => cmul (cx_of (X i j)) (nth (Z.to_nat j) a c0)) (upto 0 n).
  Definition mvt (n : Z) (X : fmat) (a : list C) (i : Z) : C := lsum (fun j => cmul (cx_of (X j i)) (nth (Z.to_nat j) a c0)) (upto 0 n).
  (** TransformMSD.cpp:52-62, 88-98: one grid point *)
  Definition rotate (f : Z -> fmat -> list C -> Z -> C) (n : Z) (Xs : list fmat) (wf : list (list C)) (i : Z) : outcome (list (list C)) :=
    let* a := each (fun s => let* st := rd wf s in rd st i) (upto 0 n) in
    let* X := rd Xs i in
    foldM (fun wf s => let* st := rd wf s in let* st := wr st i (f n X a s) in wr wf s st) (upto 0 n) wf.
  (** TransformMSD.cpp:39-44, 75-80: an unset pointer is compared with NULL *)
  Definition external (f : trafo -> list C -> list C) (T : list slot) (wf : list (list C)) (i : Z) : outcome (list (list C)) :=
    let* t := rd T i in
    match t with Unset => UB | Ptr t => let* st := rd wf i in wr wf i (f t st) end.
  (** TransformMSD.cpp:31-64, 67-100; _X is NULL before InitDspace *)
  Definition transform (g : trafo -> list C -> list C) (f : Z -> fmat -> list C -> Z -> C) (s : odm) (wf : list (list C)) : outcome (list (list C)) :=
    match od_t s with
    | Some T => foldM (external g T) (upto 0 (zlen wf)) wf
    | None =>
      let* st := rd wf 0 in
      match od_d s with
      | None => if 0 <? zlen st then UB else Ok wf
      | Some d => foldM (rotate f (zlen wf) (snd d)) (upto 0 (zlen st)) wf
      end
    end.
  Definition forward : odm -> list (list C) -> outcome (list (list C)) := transform t_fwd mvt.
  Definition backward : odm -> list (list C) -> outcome (list (list C)) := transform t_bwd mv.
  (** TransformMSD.cpp:22-26 *)
  Definition normalization (s : odm) : outcome F :=
    match od_t s with
    | Some T => let* t := rd T 0 in match t with Unset => UB | Ptr t => Ok (t_norm t) end
    | None => Ok c1
    end.

  (** OGSPO.cpp:34-42, 121-129: one factor of the split operator; [c]: the exponent *)
  Definition vmul2 (a b : list (list C)) : list (list C) := map (fun p => map (fun q => cmul (fst q) (snd q)) (combine (fst p) (snd p))) (combine a b).
  Definition od_step (s : odm) (m : omat) (c : C) (wf : list (list C)) : outcome (odm * list (list C)) :=
    let* r := init_exponential s m c in
    let '(s, e) := r in
    if no_trafo s then Ok (s, vmul2 wf e)
    else
      let* k := normalization s in
      let e := map (map (cmul (cx_of k))) e in
      let* wf := forward s wf in
      let* wf := backward s (vmul2 wf e) in
      Ok (s, wf).
End ODMultistate.
