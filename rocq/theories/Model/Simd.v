(** Model of the complex kernels: src/math/dcomplex.h (scalar), src/math/m128dc.h (SSE2/SSE3), src/math/m256dc.h (AVX) and
    the loops generated from them in src/math/codelets/*.h.

    Doubles are elements of a ring; flipping the sign bit is negation and masking with zeros gives zero.  The exponential
    function of complex numbers is a parameter.  One stride (the local part) of each vector is modelled; OpenMP only
    distributes the independent iterations of these loops. *)
From Coq Require Import List NArith ZArith Lia Bool.
From Verif Require Import Base Arrays Algebra.
Import ListNotations.
Open Scope Z_scope.

Section Simd.
  Variable R : cring.
  Variable cexp : R * R -> R * R.

  (** ** dcomplex.h *)
  Definition dc : Type := R * R.
  (** dcomplex.h:47 *)
  Definition d_conj (a : dc) : dc := (fst a, copp (snd a)).
  (** dcomplex.h:28-30 *)
  Definition d_real (a : dc) : R := fst a.
  Definition d_imag (a : dc) : R := snd a.
  (** dcomplex.h:71 *)
  Definition d_assign (r : R) : dc := (r, c0).
  (** dcomplex.h:156 *)
  Definition d_add (a b : dc) : dc := (cadd (fst a) (fst b), cadd (snd a) (snd b)).
  (** dcomplex.h:178 *)
  Definition d_sub (a b : dc) : dc := (csub (fst a) (fst b), csub (snd a) (snd b)).
  (** dcomplex.h:209 *)
  Definition d_mul (a b : dc) : dc :=
    (csub (cmul (fst a) (fst b)) (cmul (snd a) (snd b)), cadd (cmul (fst a) (snd b)) (cmul (snd a) (fst b))).
  (** dcomplex.h:225, 239 *)
  Definition d_muld (a : dc) (b : R) : dc := (cmul (fst a) b, cmul (snd a) b).
  (** dcomplex.h:367 and 377 *)
  Definition d_mulI (a : dc) : dc := (copp (snd a), fst a).
  Definition r_mulI (r : R) : dc := (c0, r).

  (** ** m128dc.h: registers of two doubles, low lane first *)
  Definition m128 : Type := R * R.
  Definition x_mul (a b : m128) : m128 := (cmul (fst a) (fst b), cmul (snd a) (snd b)).
  Definition x_add (a b : m128) : m128 := (cadd (fst a) (fst b), cadd (snd a) (snd b)).
  Definition x_sub (a b : m128) : m128 := (csub (fst a) (fst b), csub (snd a) (snd b)).
  (** _mm_xor_pd with SIGNMASK128 *)
  Definition x_neghigh (a : m128) : m128 := (fst a, copp (snd a)).
  (** _mm_shuffle_pd(a, b, imm): bit 0 selects from a, bit 1 from b *)
  Definition x_shuffle (a b : m128) (imm : Z) : m128 :=
    (if Z.testbit imm 0 then snd a else fst a, if Z.testbit imm 1 then snd b else fst b).
  Definition x_hadd (a b : m128) : m128 := (cadd (fst a) (snd a), cadd (fst b) (snd b)).
  Definition x_unpacklo (a b : m128) : m128 := (fst a, fst b).
  Definition x_unpackhi (a b : m128) : m128 := (snd a, snd b).
  Definition x_load1 (r : R) : m128 := (r, r).
  (** m128dc.h:77-98; sse3: HAVE_SSE3 *)
  Definition sse_mul (sse3 : bool) (v b : m128) : m128 :=
    let re := x_neghigh (x_mul v b) in
    let im := x_mul v (x_shuffle b b 1) in
    if sse3 then x_hadd re im else x_add (x_unpacklo re im) (x_unpackhi re im).
  (** m128dc.h:112-124 *)
  Definition sse_multimag (v : m128) (a : R) : m128 :=
    let res := x_mul (x_neghigh v) (x_load1 a) in x_shuffle res res 1.
  (** m128dc.h:126-150 *)
  Definition sse_conj (v : m128) : m128 := x_neghigh v.
  Definition sse_imag (v : m128) : m128 := (c0, snd v).
  Definition sse_real (v : m128) : m128 := (fst v, c0).
  (** m128dc.h:152-166 *)
  Definition sse_imags (v : m128) : R := fst v.
  Definition sse_reals (v : m128) : R := fst v.
  (** m128dc.h:171, 188, 204 *)
  Definition sse_muld (v : m128) (a : R) : m128 := x_mul v (x_load1 a).
  Definition sse_add (v a : m128) : m128 := x_add v a.
  Definition sse_sub (v a : m128) : m128 := x_sub v a.

  (** ** m256dc.h: registers of two 128 bit halves *)
  Definition m256 : Type := m128 * m128.
  Definition y_lift2 (f : m128 -> m128 -> m128) (a b : m256) : m256 := (f (fst a) (fst b), f (snd a) (snd b)).
  Definition y_lift (f : m128 -> m128) (a : m256) : m256 := (f (fst a), f (snd a)).
  (** _mm256_permute_pd(a, imm) and _mm256_shuffle_pd(a, b, imm): one bit per lane *)
  Definition y_shuffle (a b : m256) (imm : Z) : m256 :=
    ((if Z.testbit imm 0 then snd (fst a) else fst (fst a), if Z.testbit imm 1 then snd (fst b) else fst (fst b)),
     (if Z.testbit imm 2 then snd (snd a) else fst (snd a), if Z.testbit imm 3 then snd (snd b) else fst (snd b))).
  Definition y_permute (a : m256) (imm : Z) : m256 := y_shuffle a a imm.
  (** m256dc.h:71-82: broadcasts *)
  Definition avx_load (a : dc) : m256 := (a, a).
  Definition y_broadcast (r : R) : m256 := (x_load1 r, x_load1 r).
  (** m256dc.h:101-115 *)
  Definition avx_mul (v b : m256) : m256 :=
    let re := y_lift x_neghigh (y_lift2 x_mul v b) in
    let im := y_lift2 x_mul v (y_permute b 5) in
    y_lift2 x_hadd re im.
  (** m256dc.h:128-140 *)
  Definition avx_multimag (v : m256) (a : R) : m256 :=
    let res := y_lift2 x_mul (y_lift x_neghigh v) (y_broadcast a) in y_shuffle res res 1.
  (** m256dc.h:142-164 *)
  Definition avx_conj (v : m256) : m256 := y_lift x_neghigh v.
  Definition avx_imag (v : m256) : m256 := y_lift sse_imag v.
  Definition avx_real (v : m256) : m256 := y_lift sse_real v.
  (** m256dc.h:170, 186, 203 *)
  Definition avx_muld (v : m256) (a : R) : m256 := y_lift2 x_mul v (y_broadcast a).
  Definition avx_add (v a : m256) : m256 := y_lift2 x_add v a.
  Definition avx_sub (v a : m256) : m256 := y_lift2 x_sub v a.

  (** ** codelets/*.h with a complex result *)
  Inductive codelet : Set :=
  | AddElementsCC | AddElementsCCc | AddElementsCCd | AddElementsEqCCC | ExpElements | ExpElementsCDc | Im | ImCC
  | MultElementsAddCCD | MultElementsAddCCDd | MultElementsAddCCc | MultElementsAddCCd | MultElementsCC | MultElementsCCD
  | MultElementsCCDd | MultElementsCCd | MultElementsCD | MultElementsCDc | MultElementsCDd | MultElementsCc | MultElementsCd
  | MultElementsComplexCCDd | MultElementsComplexCCd | MultElementsComplexCDd | MultElementsComplexEqCCDd
  | MultElementsConjugateCCCd | MultElementsConjugateCCd | MultElementsCopyCCC | MultElementsCopyCCCd | MultElementsCopyCCD
  | MultElementsCopyCCDd | MultElementsCopyCCc | MultElementsCopyCCd | Re | ReCC.

  Inductive arg := A | B | C.
  (** the vector the codelet stores to (line 26/30 of each file) *)
  Definition target (k : codelet) : arg :=
    match k with
    | AddElementsEqCCC | MultElementsComplexCCDd | MultElementsComplexEqCCDd | MultElementsConjugateCCCd
    | MultElementsCopyCCC | MultElementsCopyCCCd => C
    | _ => A
    end.

  (** line 30 of each file: a, b, c elements of the complex vectors, r of the real vector, z and d scalars *)
  Definition scalar_val (k : codelet) (a b c : dc) (r d : R) (z : dc) : dc :=
    match k with
    | AddElementsCC => d_add a b
    | AddElementsCCc => d_add a (d_mul b z)
    | AddElementsCCd => d_add a (d_muld b d)
    | AddElementsEqCCC => d_add a b
    | ExpElements => cexp (d_mul b z)
    | ExpElementsCDc => cexp (d_muld z r)
    | Im => d_assign (d_imag a)
    | ImCC => d_assign (d_imag b)
    | MultElementsAddCCD => d_add a (d_muld b r)
    | MultElementsAddCCDd => d_add a (d_muld (d_muld b r) d)
    | MultElementsAddCCc => d_add a (d_mul b z)
    | MultElementsAddCCd => d_add a (d_muld b d)
    | MultElementsCC => d_mul a b
    | MultElementsCCD => d_muld b r
    | MultElementsCCDd => d_muld (d_muld b r) d
    | MultElementsCCd => d_muld (d_mul a b) d
    | MultElementsCD => d_muld a r
    | MultElementsCDc => d_mul (d_muld a r) z
    | MultElementsCDd => d_muld (d_muld a r) d
    | MultElementsCc => d_mul a z
    | MultElementsCd => d_muld a d
    | MultElementsComplexCCDd => d_muld (d_muld (d_mulI (d_mul c a)) r) d
    | MultElementsComplexCCd => d_muld (d_mul (d_mulI a) b) d
    | MultElementsComplexCDd => d_muld (d_muld (d_mulI a) r) d
    | MultElementsComplexEqCCDd => d_muld (d_mul a (r_mulI r)) d
    | MultElementsConjugateCCCd => d_muld (d_mul (d_conj a) b) d
    | MultElementsConjugateCCd => d_muld (d_mul (d_conj a) b) d
    | MultElementsCopyCCC => d_mul a b
    | MultElementsCopyCCCd => d_muld (d_mul a b) d
    | MultElementsCopyCCD => d_muld b r
    | MultElementsCopyCCDd => d_muld (d_muld b r) d
    | MultElementsCopyCCc => d_mul b z
    | MultElementsCopyCCd => d_muld b d
    | Re => d_assign (d_real a)
    | ReCC => d_assign (d_real b)
    end.

  (** line 26 of each file; where an m128dc meets I, a double on the left or cexp it is converted to dcomplex *)
  Definition sse_val (sse3 : bool) (k : codelet) (a b c : dc) (r d : R) (z : dc) : dc :=
    match k with
    | AddElementsCC => sse_add a b
    | AddElementsCCc => sse_add a (sse_mul sse3 b z)
    | AddElementsCCd => sse_add a (sse_muld b d)
    | AddElementsEqCCC => sse_add a b
    | ExpElements => cexp (sse_mul sse3 b z)
    | ExpElementsCDc => cexp (d_muld z r)
    | Im => sse_imag a
    | ImCC => sse_imag b
    | MultElementsAddCCD => sse_add a (sse_muld b r)
    | MultElementsAddCCDd => sse_add a (sse_muld (sse_muld b r) d)
    | MultElementsAddCCc => sse_add a (sse_mul sse3 b z)
    | MultElementsAddCCd => sse_add a (sse_muld b d)
    | MultElementsCC => sse_mul sse3 a b
    | MultElementsCCD => sse_muld b r
    | MultElementsCCDd => sse_muld (sse_muld b r) d
    | MultElementsCCd => sse_muld (sse_mul sse3 a b) d
    | MultElementsCD => sse_muld a r
    | MultElementsCDc => sse_mul sse3 (sse_muld a r) z
    | MultElementsCDd => sse_muld (sse_muld a r) d
    | MultElementsCc => sse_mul sse3 a z
    | MultElementsCd => sse_muld a d
    | MultElementsComplexCCDd => sse_muld (sse_mul sse3 c (sse_multimag a r)) d
    | MultElementsComplexCCd => d_muld (d_mul (d_mulI a) b) d
    | MultElementsComplexCDd => d_muld (d_muld (d_mulI a) r) d
    | MultElementsComplexEqCCDd => sse_muld (sse_multimag a r) d
    | MultElementsConjugateCCCd => sse_muld (sse_mul sse3 (sse_conj a) b) d
    | MultElementsConjugateCCd => sse_muld (sse_mul sse3 (sse_conj a) b) d
    | MultElementsCopyCCC => sse_mul sse3 a b
    | MultElementsCopyCCCd => sse_muld (sse_mul sse3 a b) d
    | MultElementsCopyCCD => sse_muld b r
    | MultElementsCopyCCDd => sse_muld (sse_muld b r) d
    | MultElementsCopyCCc => sse_mul sse3 b z
    | MultElementsCopyCCd => sse_muld b d
    | Re => sse_real a
    | ReCC => sse_real b
    end.

  (** line 22 of each file.  [None]: ill formed (an m256dc has no conversion to dcomplex, so it has no product with I and no
      cexp; the line of two codelets lacks its expression) *)
  Definition avx_val (k : codelet) (a b c : dc) (r d : R) (z : dc) : option m256 :=
    let a := avx_load a in let b := avx_load b in let z := avx_load z in
    match k with
    | AddElementsCC => Some (avx_add a b)
    | AddElementsCCc => Some (avx_add a (avx_mul b z))
    | AddElementsCCd => Some (avx_add a (avx_muld b d))
    | AddElementsEqCCC => Some (avx_add a b)
    | ExpElements => None
    | ExpElementsCDc => None
    | Im => Some (avx_imag a)
    | ImCC => Some (avx_imag b)
    | MultElementsAddCCD => Some (avx_add a (avx_muld b r))
    | MultElementsAddCCDd => Some (avx_add a (avx_muld (avx_muld b r) d))
    | MultElementsAddCCc => Some (avx_add a (avx_mul b z))
    | MultElementsAddCCd => Some (avx_add a (avx_muld b d))
    | MultElementsCC => Some (avx_mul a b)
    | MultElementsCCD => Some (avx_muld b r)
    | MultElementsCCDd => Some (avx_muld (avx_muld b r) d)
    | MultElementsCCd => Some (avx_muld (avx_mul a b) d)
    | MultElementsCD => Some (avx_muld a r)
    | MultElementsCDc => Some (avx_mul (avx_muld a r) z)
    | MultElementsCDd => Some (avx_muld (avx_muld a r) d)
    | MultElementsCc => Some (avx_mul a z)
    | MultElementsCd => Some (avx_muld a d)
    | MultElementsComplexCCDd | MultElementsComplexCCd | MultElementsComplexCDd | MultElementsComplexEqCCDd => None
    | MultElementsConjugateCCCd => Some (avx_muld (avx_mul (avx_conj a) b) d)
    | MultElementsConjugateCCd => Some (avx_muld (avx_mul (avx_conj a) b) d)
    | MultElementsCopyCCC => Some (avx_mul a b)
    | MultElementsCopyCCCd => Some (avx_muld (avx_mul a b) d)
    | MultElementsCopyCCD => Some (avx_muld b r)
    | MultElementsCopyCCDd => Some (avx_muld (avx_muld b r) d)
    | MultElementsCopyCCc => Some (avx_mul b z)
    | MultElementsCopyCCd => Some (avx_muld b d)
    | Re => Some (avx_real a)
    | ReCC => Some (avx_real b)
    end.

  (** the memory holds the complex vectors; the arguments A, B, C point to vectors, possibly the same ones *)
  Definition mem := Z -> list dc.
  Record call := mkCall { ptr : arg -> Z; reals : list R; d_arg : R; z_arg : dc }.
  Definition elem (m : mem) (c : call) (x : arg) (i : Z) : outcome dc := rd (m (ptr c x)) i.
  Definition store (m : mem) (p i : Z) (v : dc) : outcome mem :=
    let* w := wr (m p) i v in Ok (fun q => if q =? p then w else m q).

  (** which vectors the codelet reads; the unused operands are not touched *)
  Definition uses (k : codelet) (x : arg) : bool :=
    match k, x with
    | (AddElementsCC | AddElementsCCc | AddElementsCCd | AddElementsEqCCC | MultElementsAddCCD | MultElementsAddCCDd
      | MultElementsAddCCc | MultElementsAddCCd | MultElementsCC | MultElementsCCd | MultElementsComplexCCd
      | MultElementsConjugateCCCd | MultElementsConjugateCCd | MultElementsCopyCCC | MultElementsCopyCCCd), (A | B) => true
    | (ExpElements | ImCC | MultElementsCCD | MultElementsCCDd | MultElementsCopyCCD | MultElementsCopyCCDd
      | MultElementsCopyCCc | MultElementsCopyCCd | ReCC), B => true
    | (Im | Re | MultElementsCD | MultElementsCDc | MultElementsCDd | MultElementsCc | MultElementsCd
      | MultElementsComplexCDd | MultElementsComplexEqCCDd), A => true
    | MultElementsComplexCCDd, (A | C) => true
    | _, _ => false
    end.
  Definition uses_real (k : codelet) : bool :=
    match k with
    | ExpElementsCDc | MultElementsAddCCD | MultElementsAddCCDd | MultElementsCCD | MultElementsCCDd | MultElementsCD
    | MultElementsCDc | MultElementsCDd | MultElementsComplexCCDd | MultElementsComplexCDd | MultElementsComplexEqCCDd
    | MultElementsCopyCCD | MultElementsCopyCCDd => true
    | _ => false
    end.
  Definition load (k : codelet) (m : mem) (c : call) (x : arg) (i : Z) : outcome dc :=
    if uses k x then elem m c x i else Ok (c0, c0).
  Definition load_real (k : codelet) (c : call) (i : Z) : outcome R := if uses_real k then rd (reals c) i else Ok c0.

  (** lines 25-31: one stride of [size] elements *)
  Definition loop (val : codelet -> dc -> dc -> dc -> R -> R -> dc -> dc) (k : codelet) (c : call) (size : Z) (m : mem) :
    outcome mem :=
    foldM (fun m i =>
      let* a := load k m c A i in
      let* b := load k m c B i in
      let* cc := load k m c C i in
      let* r := load_real k c i in
      store m (ptr c (target k)) i (val k a b cc r (d_arg c) (z_arg c))) (upto 0 size) m.
  Definition scalar_loop := loop scalar_val.
  Definition sse_loop (sse3 : bool) := loop (sse_val sse3).

  (** lines 20-23 with HAVE_AVX: _mm256_store_pd writes two elements and requires an address divisible by 32; [base p] is
      the address of vector p divided by the 16 bytes of an element *)
  Definition avx_store (base : Z -> Z) (m : mem) (p i : Z) (v : m256) : outcome mem :=
    if Z.even (base p + i) then let* m := store m p i (fst v) in store m p (i + 1) (snd v) else UB.
  Definition avx_loop (base : Z -> Z) (k : codelet) (c : call) (size : Z) (m : mem) : outcome mem :=
    foldM (fun m i =>
      let* a := load k m c A i in
      let* b := load k m c B i in
      let* cc := load k m c C i in
      let* r := load_real k c i in
      match avx_val k a b cc r (d_arg c) (z_arg c) with
      | Some v => avx_store base m (ptr c (target k)) i v
      | None => Throw
      end) (upto 0 size) m.
End Simd.
