(** The kinetic energy with absorbing layers, written without the code. *)
From Coq Require Import List ZArith Bool Arith.
From Verif Require Import Base Algebra Ordered.
Import ListNotations.

Section Spec.
  Variable F : ofld.
  Variable M : cmodule F.
  Open Scope cr_scope.
  (** sum over l *)
  Definition msum (l : list M) : M := fold_right madd m0 l.
  (** a mass 0 leaves the dimension out (Handbook.tex:903) *)
  Definition left_out (m : F) : bool := match ocmp m 0 with inleft (right _) => true | _ => false end.
  (** - 1/2 sum 1/m_i P_i d_i P_i d_i *)
  Definition layered (D P : Z -> M -> M) (masses : list F) (psi : M) : M :=
    msum (map (fun im : nat * F => let (i, m) := im in
      if left_out m then m0 else P (Z.of_nat i) (mscale (- (1 / ((1 + 1) * m))) (D (Z.of_nat i) (P (Z.of_nat i) (D (Z.of_nat i) psi))))) (combine (seq 0 (length masses)) masses)).
  (** kinetic energy of the momenta k *)
  Fixpoint energy (masses ks : list F) : F :=
    match masses, ks with m :: ms, k :: ks => k * k / ((1 + 1) * m) + energy ms ks | _, _ => 0 end.
  Definition linear (f : M -> M) : Prop := (forall x y, f (madd x y) = madd (f x) (f y)) /\ forall a x, f (mscale a x) = mscale a (f x).
End Spec.
Arguments msum {F M}. Arguments left_out {F}. Arguments layered {F M}. Arguments energy {F}. Arguments linear {F M}.
