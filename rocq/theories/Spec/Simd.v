(** What the kernels are supposed to compute: the operation named in the comment of each codelet, over the ring of complex
    numbers. *)
From Coq Require Import List ZArith.
From Verif Require Import Base Arrays Algebra Complex Model.Simd.
Import ListNotations.

Section S.
  Variable R : cring.
  Variable cexp : Cx R -> Cx R.
  Open Scope cr_scope.
  (** the line "Vector Operation: ..." *)
  Definition documented (k : codelet) (a b c : Cx R) (r d : R) (z : Cx R) : Cx R :=
    let r := cx_of r in let d := cx_of d in
    match k with
    | AddElementsCC => a + b
    | AddElementsCCc => a + b * z
    | AddElementsCCd => a + b * d
    | AddElementsEqCCC => a + b
    | ExpElements => cexp (b * z)
    | ExpElementsCDc => cexp (r * z)
    | Im => cx_of (snd a)
    | ImCC => cx_of (snd b)
    | MultElementsAddCCD => a + b * r
    | MultElementsAddCCDd => a + b * r * d
    | MultElementsAddCCc => a + b * z
    | MultElementsAddCCd => a + b * d
    | MultElementsCC => a * b
    | MultElementsCCD => b * r
    | MultElementsCCDd => b * r * d
    | MultElementsCCd => a * b * d
    | MultElementsCD => a * r
    | MultElementsCDc => a * r * z
    | MultElementsCDd => a * r * d
    | MultElementsCc => a * z
    | MultElementsCd => a * d
    | MultElementsComplexCCDd => c * a * cx_i * r * d
    | MultElementsComplexCCd => (a * cx_i) * b * d
    | MultElementsComplexCDd => a * cx_i * r * d
    | MultElementsComplexEqCCDd => a * (r * cx_i) * d
    | MultElementsConjugateCCCd => cx_conj a * b * d
    | MultElementsConjugateCCd => cx_conj a * b * d
    | MultElementsCopyCCC => a * b
    | MultElementsCopyCCCd => a * b * d
    | MultElementsCopyCCD => b * r
    | MultElementsCopyCCDd => b * r * d
    | MultElementsCopyCCc => b * z
    | MultElementsCopyCCd => b * d
    | Re => cx_of (fst a)
    | ReCC => cx_of (fst b)
    end.

  (** the left hand side of that line: the vector called a, except for the codelets that fill a third vector c from others *)
  Definition destination (k : codelet) : arg :=
    match k with
    | AddElementsEqCCC | MultElementsCopyCCC | MultElementsCopyCCCd | MultElementsConjugateCCCd => C
    | MultElementsComplexCCDd | MultElementsComplexEqCCDd => C
    | AddElementsCC | AddElementsCCc | AddElementsCCd | ExpElements | ExpElementsCDc | Im | ImCC | Re | ReCC
    | MultElementsAddCCD | MultElementsAddCCDd | MultElementsAddCCc | MultElementsAddCCd | MultElementsCC | MultElementsCCD
    | MultElementsCCDd | MultElementsCCd | MultElementsCD | MultElementsCDc | MultElementsCDd | MultElementsCc | MultElementsCd
    | MultElementsComplexCCd | MultElementsComplexCDd | MultElementsConjugateCCd | MultElementsCopyCCD | MultElementsCopyCCDd
    | MultElementsCopyCCc | MultElementsCopyCCd => A
    end.

  Open Scope Z_scope.
  (** every vector involved has at least size elements *)
  Definition long (k : codelet) (m : mem R) (c : call R) (size : Z) : Prop :=
    (forall x, uses k x = true \/ x = destination k -> size <= zlen (m (ptr R c x))) /\ (uses_real k = true -> size <= zlen (reals R c)).

  (** the vector operation is carried out on the first size elements of the target, with the operands' values before the
      call; nothing else changes *)
  Definition same_as_documented (run : outcome (mem R)) (k : codelet) (c : call R) (size : Z) (m : mem R) : Prop :=
    exists m', run = Ok m' /\
      (forall p, zlen (m' p) = zlen (m p)) /\
      (forall p i, p <> ptr R c (destination k) \/ ~ (0 <= i < size) -> rd (m' p) i = rd (m p) i) /\
      (forall i a b cc r, 0 <= i < size ->
         (uses k A = true -> rd (m (ptr R c A)) i = Ok a) -> (uses k B = true -> rd (m (ptr R c B)) i = Ok b) ->
         (uses k C = true -> rd (m (ptr R c C)) i = Ok cc) -> (uses_real k = true -> rd (reals R c) i = Ok r) ->
         rd (m' (ptr R c (destination k))) i = Ok (documented k a b cc r (d_arg R c) (z_arg R c))).
End S.
