(** Signed frequency of an FFT bin. *)
From Coq Require Import ZArith.
Open Scope Z_scope.

(** bin i of N carries frequency k: congruent to i, taken from [-N/2, N/2) *)
Definition fft_bin (N i k : Z) : Prop := k mod N = i /\ - N <= 2 * k < N.

(** a representative of least absolute value *)
Definition least_rep (N i k : Z) : Prop := k mod N = i /\ forall k', k' mod N = i -> Z.abs k <= Z.abs k'.
