(** Model of the transformation of matrix operators into their eigenbasis, TransformMat (src/qdlib/TransformMat.cpp), of the product of
    matrix and vector (src/math/Matrix.h:304-342), of the two representations of a wave function (src/qdlib/WaveFunction.h:118-139) and of
    one factor of the split operator with it (src/qdlib/OGSPO.cpp:114-139).

    Numbers are elements of an ordered field; matrices are real, so the adjoint is the transpose.  The wave function has one stride and its
    memory and that of the buffer are distinct.  [junk]: content of new memory; [cexp]: the exponential function. *)
From Coq Require Import List ZArith Lia Bool.
From Verif Require Import Base Arrays Algebra Complex Ordered.
Import ListNotations.
Open Scope Z_scope.

Section TransformMat.
  Variable F : ofld.
  Notation C := (Cx F).
  Variable cexp : C -> C.
  Variable junk : C.

  (** Matrix.h:36-60: numbers of rows and columns, the elements column by column *)
  Record mat := mkMat { m_rows : Z; m_cols : Z; m_v : list F }.
  (** Matrix.h:241-252: pointer to the column, then the row *)
  Definition m_at (M : mat) (i j : Z) : outcome F := if (0 <=? j) && (j <? m_cols M) then rd (m_v M) (j * m_rows M + i) else UB.
  (** new memory for [a] *)
  Definition fresh (a : list C) : list C := map (fun _ => junk) a.
  Definition fit (b a : list C) : list C := if zlen b =? zlen a then b else fresh a.
  (** Matrix.h:304-342, b = M a or the transpose of M times a *)
  Definition mat_vec (b : list C) (M : mat) (a : list C) (tr : bool) : outcome (list C) :=
    if negb (m_cols M =? zlen a) && negb tr then Ok b
    else if negb (m_rows M =? zlen a) && tr then Ok b
    else
      foldM (fun b i =>
        let* x := foldM (fun x j => let* e := (if tr then m_at M j i else m_at M i j) in let* y := rd a j in Ok (cadd x (cmul (cx_of e) y))) (upto 0 (m_cols M)) c0 in
        wr b i x) (upto 0 (m_rows M)) (fit b a).

  (** WaveFunction.h: the vector, the buffer for the other representation, _IsKspace *)
  Record wave := mkWave { w_v : list C; w_buf : option (list C); w_k : bool }.
  (** WaveFunction.h:135-139 *)
  Definition space_buffer (w : wave) : list C := match w_buf w with Some b => b | None => fresh (w_v w) end.
  (** WaveFunction.h:118-128 *)
  Definition kspace (w : wave) (is : bool) : wave :=
    let b := fit (space_buffer w) (w_v w) in
    if eqb (w_k w) is then mkWave (w_v w) (Some b) is else mkWave b (Some (w_v w)) is.
  (** TransformMat.cpp:19-30; without a matrix a null pointer is followed *)
  Definition forward (X : option mat) (w : wave) : outcome wave :=
    match X with
    | None => UB
    | Some M => let* b := mat_vec (space_buffer w) M (w_v w) true in Ok (kspace (mkWave (w_v w) (Some b) (w_k w)) true)
    end.
  Definition backward (X : option mat) (w : wave) : outcome wave :=
    match X with
    | None => UB
    | Some M => let* b := mat_vec (space_buffer w) M (w_v w) false in Ok (kspace (mkWave (w_v w) (Some b) (w_k w)) false)
    end.
  (** TransformMat.cpp:38-47 *)
  Definition set_matrix (X : mat) (adjoint : bool) : outcome (option mat) := if adjoint then Ok (Some X) else Throw.

  (** ODSpace.h:65-69, OGSPO.cpp:37-41; TransformMat.h:29: the factor of the transformation is one *)
  Definition exponential (ev : list F) (c : C) : list C := map (fun e => cmul (cexp (cmul (cx_of e) c)) c1) ev.
  (** element by element, the loop runs over the wave function (codelets/MultElementsCC.h) *)
  Definition mult (v e : list C) : outcome (list C) :=
    if zlen e <? zlen v then UB else Ok (map (fun p => cmul (fst p) (snd p)) (combine v e)).
  (** OGSPO.cpp:120-126: one factor *)
  Definition factor (X : option mat) (ev : list F) (c : C) (w : wave) : outcome wave :=
    let* w1 := forward X w in
    let* v := mult (w_v w1) (exponential ev c) in
    backward X (mkWave v (w_buf w1) (w_k w1)).
End TransformMat.
Arguments mkMat {F}. Arguments m_rows {F}. Arguments m_cols {F}. Arguments m_v {F}.
Arguments mkWave {F}. Arguments w_v {F}. Arguments w_buf {F}. Arguments w_k {F}.
