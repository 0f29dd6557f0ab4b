(** Exact arithmetic used in place of floating point: commutative rings, fields, modules.  The numeric models are
    parametric in these structures. *)
From Coq Require Import List ZArith Lia Bool Ring Field InitialRing QArith Qcanon.
Import ListNotations.

(** ** Commutative rings *)
Record cring := mkRing {
  cr :> Type;
  c0 : cr; c1 : cr;
  cadd : cr -> cr -> cr; cmul : cr -> cr -> cr; csub : cr -> cr -> cr; copp : cr -> cr;
  cr_th : ring_theory c0 c1 cadd cmul csub copp eq }.
Arguments c0 {_}. Arguments c1 {_}. Arguments cadd {_}. Arguments cmul {_}. Arguments csub {_}. Arguments copp {_}.
Declare Scope cr_scope.
Delimit Scope cr_scope with cr.
Notation "0" := c0 : cr_scope.
Notation "1" := c1 : cr_scope.
Infix "+" := cadd : cr_scope.
Infix "*" := cmul : cr_scope.
Infix "-" := csub : cr_scope.
Notation "- x" := (copp x) : cr_scope.

Section RingFacts.
  Variable R : cring.
  Add Ring RR : (cr_th R).
  Open Scope cr_scope.

  (** the integers in the ring *)
  Definition ofZ (z : Z) : R := gen_phiZ c0 c1 cadd cmul copp z.
  Lemma ofZ_morph : ring_morph c0 c1 (@cadd R) cmul csub copp eq 0%Z 1%Z Z.add Z.mul Z.sub Z.opp Zeq_bool ofZ.
  Proof. apply gen_phiZ_morph; [apply Eqsth|apply Eq_ext|apply cr_th]. Qed.
  Lemma ofZ_0 : ofZ 0 = 0. Proof. exact (morph0 ofZ_morph). Qed.
  Lemma ofZ_1 : ofZ 1 = 1. Proof. exact (morph1 ofZ_morph). Qed.
  Lemma ofZ_add a b : ofZ (a + b) = ofZ a + ofZ b. Proof. exact (morph_add ofZ_morph a b). Qed.
  Lemma ofZ_mul a b : ofZ (a * b) = ofZ a * ofZ b. Proof. exact (morph_mul ofZ_morph a b). Qed.
  Lemma ofZ_sub a b : ofZ (a - b) = ofZ a - ofZ b. Proof. exact (morph_sub ofZ_morph a b). Qed.
  Lemma ofZ_opp a : ofZ (- a) = - ofZ a. Proof. exact (morph_opp ofZ_morph a). Qed.

  Lemma ofZ_m1 : ofZ (-1) = - (1). Proof. reflexivity. Qed.

  (** sums over lists *)
  Fixpoint lsum {A} (f : A -> R) (l : list A) : R := match l with [] => 0 | a :: t => f a + lsum f t end.
  Lemma lsum_app {A} (f : A -> R) l1 l2 : lsum f (l1 ++ l2) = lsum f l1 + lsum f l2.
  Proof. induction l1 as [|a t IH]; cbn; [ring|]. rewrite IH. ring. Qed.
  Lemma lsum_ext {A} (f g : A -> R) l : (forall a, In a l -> f a = g a) -> lsum f l = lsum g l.
  Proof.
    induction l as [|a t IH]; intros H; [reflexivity|]. cbn. rewrite (H a) by (left; reflexivity).
    rewrite IH; [reflexivity|]. intros b Hb. apply H. right; exact Hb.
  Qed.
  Lemma lsum_add {A} (f g : A -> R) l : lsum (fun a => f a + g a) l = lsum f l + lsum g l.
  Proof. induction l as [|a t IH]; cbn; [ring|]. rewrite IH. ring. Qed.
  Lemma lsum_mul {A} c (f : A -> R) l : lsum (fun a => c * f a) l = c * lsum f l.
  Proof. induction l as [|a t IH]; cbn; [ring|]. rewrite IH. ring. Qed.
  Lemma lsum_zero {A} (f : A -> R) l : (forall a, In a l -> f a = 0) -> lsum f l = 0.
  Proof.
    induction l as [|a t IH]; intros H; [reflexivity|]. cbn. rewrite (H a) by (left; reflexivity).
    rewrite IH; [ring|]. intros b Hb. apply H. right; exact Hb.
  Qed.
  Lemma lsum_swap {A B} (f : A -> B -> R) l1 l2 :
    lsum (fun a => lsum (f a) l2) l1 = lsum (fun b => lsum (fun a => f a b) l1) l2.
  Proof.
    induction l1 as [|a t IH]; cbn; [symmetry; apply lsum_zero; reflexivity|]. rewrite IH, <- lsum_add. reflexivity.
  Qed.
  Lemma lsum_map {A B} (g : A -> B) (f : B -> R) l : lsum f (map g l) = lsum (fun a => f (g a)) l.
  Proof. induction l as [|a t IH]; cbn; [reflexivity|]. rewrite IH. reflexivity. Qed.
  Lemma lsum_fold {A} (f : A -> R) l a : fold_left (fun acc x => acc + f x) l a = a + lsum f l.
  Proof. revert a; induction l as [|x t IH]; intros a; cbn; [ring|]. rewrite IH. ring. Qed.
End RingFacts.
Arguments ofZ {_} _%Z. Arguments lsum {_ _}.

(** ** Fields *)
Record fld := mkField {
  f_ring :> cring;
  finv : f_ring -> f_ring; fdiv : f_ring -> f_ring -> f_ring;
  f_th : field_theory c0 c1 cadd cmul csub copp fdiv finv eq }.
Arguments finv {_}. Arguments fdiv {_}.
Infix "/" := fdiv : cr_scope.
Notation "/ x" := (finv x) : cr_scope.

(** ** Modules over a ring *)
Record cmodule (R : cring) := mkMod {
  md :> Type;
  m0 : md; madd : md -> md -> md; mopp : md -> md; mscale : R -> md -> md;
  madd_comm : forall x y, madd x y = madd y x;
  madd_assoc : forall x y z, madd x (madd y z) = madd (madd x y) z;
  madd_0 : forall x, madd m0 x = x;
  madd_opp : forall x, madd x (mopp x) = m0;
  mscale_add_l : forall a b x, mscale (cadd a b) x = madd (mscale a x) (mscale b x);
  mscale_add_r : forall a x y, mscale a (madd x y) = madd (mscale a x) (mscale a y);
  mscale_mul : forall a b x, mscale (cmul a b) x = mscale a (mscale b x);
  mscale_1 : forall x, mscale c1 x = x }.
Arguments m0 {_ _}. Arguments madd {_ _}. Arguments mopp {_ _}. Arguments mscale {_ _}.

(** ** Instances for examples *)
Lemma Z_ring_th : ring_theory 0%Z 1%Z Z.add Z.mul Z.sub Z.opp eq.
Proof. constructor; intros; ring. Qed.
Definition Zr : cring := mkRing Z 0%Z 1%Z Z.add Z.mul Z.sub Z.opp Z_ring_th.

Lemma Qc_ring_th : ring_theory 0%Qc 1%Qc Qcplus Qcmult Qcminus Qcopp eq.
Proof. exact Qcrt. Qed.
Definition Qcr : cring := mkRing Qc 0%Qc 1%Qc Qcplus Qcmult Qcminus Qcopp Qc_ring_th.
Definition Qcf : fld := mkField Qcr Qcinv Qcdiv Qcft.
