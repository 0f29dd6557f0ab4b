(** Property C47: vectorised and scalar kernels agree. *)
From Coq Require Import List NArith ZArith Lia Bool.
From Verif Require Import Base Arrays Algebra Complex Model.Simd Spec.Simd Proofs.Simd.
Import ListNotations.
Open Scope Z_scope.

(** The full property: the SSE and AVX primitives agree with the scalar ones (AVX: in both halves), and so do the loops. *)
Definition C47_full : Prop := forall (R : cring) (cexp : Cx R -> Cx R),
  (forall (a : dc R), sse_imag R a = d_assign R (d_imag R a) /\ sse_imags R a = d_imag R a) /\
  (forall (a : m256 R) (r : R), avx_multimag R a r = (d_muld R (d_mulI R (fst a)) r, d_muld R (d_mulI R (snd a)) r)) /\
  (forall s k c size m, 0 <= size -> long R k m c size -> sse_loop R cexp s k c size m = scalar_loop R cexp k c size m) /\
  (forall base k c size m, 0 <= size -> long R k m c size -> avx_loop R base k c size m = scalar_loop R cexp k c size m).

(** The scalar loops carry out the documented vector operation, also when vectors coincide. *)
Theorem C47_scalar : forall (R : cring) (cexp : Cx R -> Cx R) k c size m, 0 <= size -> long R k m c size ->
  same_as_documented R cexp (scalar_loop R cexp k c size m) k c size m.
Proof. exact scalar_loop_ok. Qed.
Print Assumptions C47_scalar.

(** The SSE2 and SSE3 loops do the same, with the exception of the two codelets taking the imaginary part. *)
Theorem C47_sse_partial : forall (R : cring) (cexp : Cx R -> Cx R) sse3 k c size m, k <> Im -> k <> ImCC -> 0 <= size ->
  long R k m c size -> sse_loop R cexp sse3 k c size m = scalar_loop R cexp k c size m /\
  same_as_documented R cexp (sse_loop R cexp sse3 k c size m) k c size m.
Proof. exact sse_loop_ok. Qed.
Print Assumptions C47_sse_partial.

Theorem C47_sse_primitives : forall (R : cring) sse3 (a b : dc R) (r : R),
  sse_mul R sse3 a b = d_mul R a b /\ sse_add R a b = d_add R a b /\ sse_sub R a b = d_sub R a b /\
  sse_muld R a r = d_muld R a r /\ sse_conj R a = d_conj R a /\ sse_multimag R a r = d_muld R (d_mulI R a) r /\
  sse_real R a = d_assign R (d_real R a) /\ sse_reals R a = d_real R a.
Proof. exact sse_primitives. Qed.
Print Assumptions C47_sse_primitives.

(** AVX: each half is right, but MultImag's upper half is (re r, re r). *)
Theorem C47_avx_primitives : forall (R : cring) (a b : m256 R) (r : R),
  avx_mul R a b = (d_mul R (fst a) (fst b), d_mul R (snd a) (snd b)) /\
  avx_add R a b = (d_add R (fst a) (fst b), d_add R (snd a) (snd b)) /\
  avx_sub R a b = (d_sub R (fst a) (fst b), d_sub R (snd a) (snd b)) /\
  avx_muld R a r = (d_muld R (fst a) r, d_muld R (snd a) r) /\
  avx_conj R a = (d_conj R (fst a), d_conj R (snd a)) /\
  avx_real R a = (d_assign R (d_real R (fst a)), d_assign R (d_real R (snd a))) /\
  avx_multimag R a r = (d_muld R (d_mulI R (fst a)) r, (cmul (fst (snd a)) r, cmul (fst (snd a)) r)).
Proof. exact avx_primitives. Qed.
Print Assumptions C47_avx_primitives.

(** No AVX loop over at least one element ends normally: the codelet is ill formed, its second store is misaligned or it
    writes behind the vector. *)
Theorem C47_avx_broken : forall (R : cring) base k c size (m m' : mem R), 1 <= size ->
  zlen (m (ptr R c (destination k))) = size -> long R k m c size -> avx_loop R base k c size m <> Ok m'.
Proof. exact (fun R => avx_broken R (fun z => z)). Qed.
Print Assumptions C47_avx_broken.

Definition ex_mem : mem Zr := fun p => if p =? 1 then [(1, 2); (3, 4)] else if p =? 2 then [(5, -6); (-7, 8)] else [].
Definition ex_call : call Zr := mkCall Zr (fun x => match x with A => 1 | B => 2 | C => 1 end) [3; -2] 2 (0, 1).

Theorem C47_full_refuted : ~ C47_full.
Proof.
  exact (fun H => match H Zr (fun z => z) with conj P _ =>
    match P (1, 2) with conj E _ => ltac:(discriminate E) end end).
Qed.
Print Assumptions C47_full_refuted.

(** The single discrepancies *)
Theorem C47_imag_refuted : sse_imag Zr (1, 2) = (0, 2) /\ d_assign Zr (d_imag Zr (1, 2)) = (2, 0) /\
  (let* m := sse_loop Zr (fun z => z) true Im ex_call 2 ex_mem in Ok (m 1)) = Ok [(0, 2); (0, 4)] /\
  (let* m := scalar_loop Zr (fun z => z) Im ex_call 2 ex_mem in Ok (m 1)) = Ok [(2, 0); (4, 0)].
Proof. exact ltac:(repeat split). Qed.
Print Assumptions C47_imag_refuted.
Theorem C47_imags_refuted : sse_imags Zr (1, 2) = 1 /\ d_imag Zr (1, 2) = 2.
Proof. exact ltac:(repeat split). Qed.
Print Assumptions C47_imags_refuted.
Theorem C47_avx_multimag_refuted : avx_multimag Zr ((1, 2), (3, 4)) 5 = ((-10, 5), (15, 15)) /\
  d_muld Zr (d_mulI Zr (3, 4)) 5 = (-20, 15).
Proof. exact ltac:(repeat split). Qed.
Print Assumptions C47_avx_multimag_refuted.

Example C47_example : long Zr MultElementsConjugateCCd ex_mem ex_call 2 /\
  (let* m := sse_loop Zr (fun z => z) true MultElementsConjugateCCd ex_call 2 ex_mem in Ok (m 1, m 2)) =
    Ok ([(-14, -32); (22, 104)], [(5, -6); (-7, 8)]) /\
  sse_loop Zr (fun z => z) false MultElementsComplexCCDd ex_call 2 ex_mem <> UB /\
  avx_loop Zr (fun _ => 0) MultElementsConjugateCCd ex_call 2 ex_mem = UB.
Proof.
  split; [|vm_compute; split; [reflexivity|split; [discriminate|reflexivity]]].
  split; [intros [] _; vm_compute; discriminate|discriminate].
Qed.
