(** The kinetic energy operator with a G-matrix.
    src/qdlib/OGridGMat.cpp:16-456, src/qdlib/OGridGMat.h:29-90, src/tools/helpers.h:88-112 (ReorderLowerTriangular),
    src/math/math_functions.cpp:8-30 (VecMin, VecMax), src/qdlib/GridSystem.cpp:101-109.

    Wave functions are the elements of a module over an exact ring, real functions on the grid a type V with a multiplication
    on wave functions.  Oracles: the derivative along one dimension ([D], Diff.cpp:213-229 with prefactor 1; the prefactor is
    applied exactly), the finite difference derivative of a grid function ([dv], the first argument is the prefactor), what a
    buffer holds after Diff::DnDxnAdd ([junk], Diff.cpp:233-258 "Input is destroyed after operation"), the transformation of an
    absorbing layer ([P], PML::ApplyTransform), the comparison of an element's grid with that of the wave function ([same]) and
    the files of the elements ([files], None: cannot be read).
    Left out: the dynamic_cast of the wave function, the buffers' disk swapping (Retire/Reaquire), parameters of the layers and
    of the differentiator, reading the parameters from their texts. *)
From Coq Require Import Ascii List ZArith Bool QArith Qabs.
From Verif Require Import Base Arrays Algebra.
Import ListNotations.
Open Scope Z_scope.

(** OGridGMat.h:35 *)
Inductive source := SNone | SConst | SGrid.
Definition is_grid (s : source) : bool := match s with SGrid => true | _ => false end.
(** a pointer in a freshly allocated array: not written yet, NULL, or an object *)
Inductive ptr (A : Type) := PWild | PNull | PObj (a : A).
Arguments PWild {A}. Arguments PNull {A}. Arguments PObj {A} a.

(** An m x m matrix; access outside of it is undefined (Matrix.h operator()). *)
Record mat (A : Type) := mkMat { mt_size : Z; mt_at : Z -> Z -> A }.
Arguments mkMat {A}. Arguments mt_size {A}. Arguments mt_at {A}.
Definition mt_in {A} (m : mat A) (i j : Z) : bool := (0 <=? i) && (i <? mt_size m) && (0 <=? j) && (j <? mt_size m).
Definition mt_rd {A} (m : mat A) (i j : Z) : outcome A := if mt_in m i j then Ok (mt_at m i j) else UB.
Definition mt_wr {A} (m : mat A) (i j : Z) (x : A) : outcome (mat A) :=
  if mt_in m i j then Ok (mkMat (mt_size m) (fun a b => if (a =? i) && (b =? j) then x else mt_at m a b)) else UB.
Definition mt_all {A} (n : Z) (x : A) : mat A := mkMat n (fun _ _ => x).

(** helpers.h:96-112 with sym = true: (matrix, r, clen, c) *)
Definition tri_step {A} (s : mat A * Z * Z * Z) (x : A) : outcome (mat A * Z * Z * Z) :=
  let '(m, r, clen, c) := s in
  let* m := mt_wr m r c x in
  let* m := mt_wr m c r x in
  let c := c + 1 in
  if c =? clen then Ok (m, r + 1, clen + 1, 0) else Ok (m, r, clen, c).
Definition reorder {A} (v : list A) (m : mat A) : outcome (mat A) :=
  let* s := foldM tri_step v (m, 0, 1, 0) in
  let '(m, _, _, _) := s in Ok m.

Section G.
  Variable R : cring.
  Variable M : cmodule R.
  Variable V : Type.
  Variable half : R.
  Variable mul : V -> M -> M.
  Variable D : Z -> M -> M.
  Variable dv : R -> Z -> V -> V.
  Variable junk : M -> M.
  Variable P : Z -> M -> M.

  (** the parameters: "dims", "coup", "chainrule", "pml", "G", "Gdef", "gmat" *)
  Record params := mkParams {
    p_dims : Z; p_coup : bool; p_chain : bool; p_pml : bool;
    p_G : option (list R); p_def : option (list ascii); p_name : str }.
  (** the operator *)
  Record op := mkOp {
    o_par : params;
    o_size : Z;                  (* _size *)
    o_dim : Z;                   (* GridSystem::Dim() *)
    o_src : mat source;          (* _src *)
    o_c : mat R;                 (* _GmatC *)
    o_gm : mat (ptr V);          (* _Gmat *)
    o_gd : mat (option V);       (* _GmatDiff; None: a vector of size 0 *)
    o_bufs : Z;                  (* number of entries of _wfbuf that hold a wave function *)
    o_buf : bool; o_buf1 : bool; (* buf, buf1 allocated *)
    o_diff : bool;               (* _diff has a grid *)
    o_pml : bool;                (* _pml allocated *)
    o_coup : bool; o_chain : bool }.

  (** OGridGMat.cpp:187-195, 198-206: the list is cut to the size of a triangle *)
  Definition cut {A} (n : Z) (l : list A) : list A := firstn (Z.to_nat ((n * n + n) / 2)) l.
  (** OGridGMat.cpp:209-218 *)
  Definition src_of (c : ascii) : source :=
    if Ascii.eqb c "x" then SNone else if Ascii.eqb c "c" then SConst else if Ascii.eqb c "g" then SGrid else SNone.
  (** OGridGMat.cpp:142-244 *)
  Definition load_step (p : params) (files : Z -> Z -> option V) (src : mat source) (gm : mat (ptr V)) (i j : Z) : outcome (mat (ptr V)) :=
    if (i =? j) || p_coup p then
      let* s := mt_rd src i j in
      if is_grid s then
        if (length (p_name p) <? 2)%nat then Throw else
        match files i j with
        | None => Throw
        | Some e => let* gm := mt_wr gm i j (PObj e) in mt_wr gm j i (PObj e)
        end
      else Ok gm
    else Ok gm.
  Definition init (p : params) (files : Z -> Z -> option V) : outcome op :=
    let n := p_dims p in
    if n <? 1 then Throw else
    if 4 <? n then Throw else
    let gm := mkMat n (fun i j => if j <=? i then PNull else PWild) in
    let defs := mt_all n (match p_G p with Some _ => "c" | None => "g" end)%char in
    let* defs := match p_def p with Some l => reorder (cut n l) defs | None => Ok defs end in
    let* c := match p_G p with Some l => reorder (cut n l) (mt_all n c0) | None => Ok (mt_all n c0) end in
    let src := mkMat n (fun i j => src_of (mt_at defs i j)) in
    let* gm := foldM (fun gm i => foldM (fun gm j => load_step p files src gm i j) (upto 0 (i + 1)) gm) (upto 0 n) gm in
    Ok (mkOp p n n src c gm (mkMat 0 (fun _ _ => None)) 0 false false false false (p_coup p) false).

  (** the pointer as an object *)
  Definition deref (x : ptr V) : outcome V := match x with PObj v => Ok v | _ => UB end.
  (** x != 0 *)
  Definition nonnull (x : ptr V) : outcome bool := match x with PWild => UB | PNull => Ok false | PObj _ => Ok true end.

  (** OGridGMat.cpp:67-74 *)
  Definition check_step (same : V -> bool) (o : op) (i j : Z) : outcome unit :=
    let* s := mt_rd (o_src o) i j in
    if is_grid s then
      let* x := mt_rd (o_gm o) i j in
      let* v := deref x in
      if same v then Ok tt else Throw
    else Ok tt.
  (** OGridGMat.cpp:130-133 *)
  Definition diff_step (o : op) (gd : mat (option V)) (i j : Z) : outcome (mat (option V)) :=
    let* x := mt_rd (o_gm o) i j in
    let* a := nonnull x in
    let* b := if a then Ok true else (let* y := mt_rd (o_gm o) j i in nonnull y) in
    if b then
      let* v := deref x in
      mt_wr gd i j (Some (dv (copp half) i v))
    else Ok gd.
  (** OGridGMat.cpp:56-137: Init with a wave function of d dimensions *)
  Definition init_psi (o : op) (d : Z) (same : V -> bool) : outcome op :=
    if o_buf o then Ok o else
    let* _ := foldM (fun _ i => foldM (fun _ j => check_step same o i j) (upto 0 (i + 1)) tt) (upto 0 d) tt in
    if p_pml (o_par o) && o_chain o then Throw else
    let chain := p_chain (o_par o) in
    let o1 := mkOp (o_par o) (o_size o) d (o_src o) (o_c o) (o_gm o) (o_gd o) (o_size o) true true true (p_pml (o_par o)) (o_coup o) chain in
    if chain then
      let n := o_size o in
      let* gd := foldM (fun gd i => foldM (fun gd j => diff_step o gd i j) (upto 0 n) gd) (upto 0 n) (mt_all n None) in
      Ok (mkOp (o_par o1) (o_size o1) d (o_src o1) (o_c o1) (o_gm o1) gd (o_bufs o1) true true true (o_pml o1) (o_coup o1) chain)
    else Ok o1.

  (** Diff::DnDxn along a dimension, the grid of the differentiator has d dimensions (Diff.cpp:213-229) *)
  Definition dndx (o : op) (a : R) (i : Z) (x : M) : outcome M :=
    if o_diff o && (0 <=? i) && (i <? o_dim o) then Ok (mscale a (D i x)) else UB.
  (** a layer; there is one for each dimension (OGridGMat.cpp:85) *)
  Definition layer (o : op) (i : Z) (x : M) : outcome M := if (0 <=? i) && (i <? o_dim o) then Ok (P i x) else UB.
  (** OGridGMat.cpp:333-374 : (destPsi, _wfbuf[i], buf) *)
  Definition elem_step (o : op) (i j : Z) (s : M * M * M) : outcome (M * M * M) :=
    let '(dest, w, buf) := s in
    if (i =? j) || o_coup o then
      if o_chain o then
        let* g := mt_rd (o_gd o) j i in
        match g with
        | None => UB
        | Some g =>
            let dest := madd dest (mul g w) in
            if j <=? i then
              let* buf := dndx o (if i =? j then copp half else copp c1) j w in
              let* x := mt_rd (o_gm o) i j in
              let* v := deref x in
              Ok (madd dest (mul v buf), w, buf)
            else Ok (dest, w, buf)
        end
      else
        let* src := mt_rd (o_src o) i j in
        match src with
        | SConst =>
            let* c := mt_rd (o_c o) i j in
            if o_pml o then
              let* buf := dndx o (cmul (copp half) c) j w in
              let* buf := layer o i buf in
              let* buf := layer o j buf in
              Ok (madd dest buf, w, buf)
            else
              let buf := w in
              let* y := dndx o (cmul (copp half) c) j buf in
              Ok (madd dest y, w, junk buf)
        | SGrid =>
            let* x := mt_rd (o_gm o) i j in
            let* v := deref x in
            let buf := mul v w in
            let* y := dndx o (copp half) j buf in
            if o_pml o then
              let* y := layer o j y in
              Ok (madd dest y, w, buf)
            else Ok (madd dest y, w, junk buf)
        | SNone => Ok s
        end
    else Ok s.
  (** OGridGMat.cpp:313-385; the buffers hold [b] at the beginning *)
  Definition apply_add (o : op) (b : M) (dest psi : M) : outcome M :=
    if (o_bufs o <? o_dim o) then UB else
    if negb (o_buf o) || negb (o_buf1 o) then UB else
    let* r := foldM (fun (s : M * M) i =>
        let '(dest, buf) := s in
        let* w := dndx o c1 i psi in
        let* t := foldM (fun t j => elem_step o i j t) (upto 0 (o_size o)) (dest, w, buf) in
        let '(dest, _, buf) := t in Ok (dest, buf)) (upto 0 (o_size o)) (dest, b) in
    Ok (fst r).
  (** OGridGMat.cpp:307-311 *)
  Definition apply (o : op) (b : M) (psi : M) : outcome M := apply_add o b m0 psi.

  (** OGridGMat.cpp:408-443: copy to a new operator.  [neg] is the comparison with 0. *)
  Definition copy (neg : R -> bool) (o : op) : outcome op :=
    let n := o_size o in
    if o_bufs o <? n then UB else
    let* gm := foldM (fun gm i => foldM (fun gm j =>
        let* x := mt_rd (o_gm o) i j in
        let* a := nonnull x in
        if a then
          let* c := mt_rd (o_c o) i j in
          if neg c then let* v := deref x in let* gm := mt_wr gm i j (PObj v) in mt_wr gm j i (PObj v) else Ok gm
        else Ok gm) (upto 0 (i + 1)) gm) (upto 0 n) (mt_all n PWild) in
    Ok (mkOp (o_par o) n (o_dim o) (mkMat 0 (fun _ _ => SNone)) (o_c o) gm (mkMat 0 (fun _ _ => None)) n (0 <? n) false false false (o_coup o) false).
End G.

(** ** Energy bounds, with rational numbers in place of doubles *)
Open Scope Q_scope.
(** math_functions.cpp:8-30 *)
Definition vec_max (l : list Q) : outcome Q :=
  match l with [] => UB | a :: t => Ok (fold_left (fun d x => if Qlt_le_dec d x then x else d) t a) end.
Definition vec_min (l : list Q) : outcome Q :=
  match l with [] => UB | a :: t => Ok (fold_left (fun d x => if Qlt_le_dec x d then x else d) t a) end.
Section E.
  Variable n : Z.
  Variable coup : bool.
  Variable src : Z -> Z -> source.
  Variable c : Z -> Z -> Q.
  Variable g : Z -> Z -> list Q.
  Variable dx : Z -> Q.
  (** OGridGMat.cpp:258-280; the factor pi^2/2 of line 282 is left to the statement *)
  Definition emax_step (T : Q) (i j : Z) : outcome Q :=
    if negb (i =? j)%Z && coup then
      let* mm := match src i j with
                 | SGrid => let* a := vec_max (g i j) in let* b := vec_min (g i j) in Ok (a / (dx i * dx j), b / (dx i * dx j))
                 | SConst => Ok (c i j, c i j)
                 | SNone => Ok (0, 0)
                 end in
      let '(max, min) := mm in
      if Qlt_le_dec min 0 then
        if Qlt_le_dec (Qabs max) (Qabs min) then Ok (T + 2 * Qabs min) else Ok (T + 2 * max)
      else Ok (T + 2 * max)
    else if (i =? j)%Z then
      match src i j with
      | SGrid => let* a := vec_max (g i j) in Ok (T + a / (dx i * dx j))
      | SConst => Ok (T + c i j / (dx i * dx j))
      | SNone => Ok T
      end
    else Ok T.
  Definition emax : outcome Q :=
    foldM (fun T i => foldM (fun T j => emax_step T i j) (upto 0 (i + 1)) T) (upto 0 n) 0.
  (** OGridGMat.cpp:286-305 *)
  Definition emin_step (T : Q) (i j : Z) : outcome Q :=
    if (i =? j)%Z || coup then
      let* m := match src i j with
                | SGrid => let* b := vec_min (g i j) in Ok (b / (dx i * dx j))
                | SConst => Ok (c i j)
                | SNone => Ok 0
                end in
      if Qlt_le_dec m 0 then Ok (T + m) else Ok T
    else Ok T.
  Definition emin : outcome Q :=
    foldM (fun T i => foldM (fun T j => emin_step T i j) (upto 0 i) T) (upto 0 n) 0.
End E.
