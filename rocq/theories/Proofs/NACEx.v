(** Two small grids for the examples of C95: two points with an antisymmetric derivative, and numbers a + b e with e^2 = 0 and the
    derivative e d/de, which obeys the product rule. *)
From Coq Require Import QArith Qcanon.
From Coq Require Import Ascii String List ZArith Lia Bool Ring Field.
From Verif Require Import Base Arrays Algebra Ordered Model.NAC Spec.NAC Proofs.NAC.
Import ListNotations.
Open Scope Z_scope.

Section Abs.
  Variable F : ofld.
  Add Ring NEr : (cr_th F).
  Lemma abs_ge (a : F) : ole a (oabs a) /\ ole (copp a) (oabs a).
  Proof.
    unfold oabs. destruct (ocmp a c0) as [[L| ->]|L].
    - split; [|right; reflexivity]. left. apply (olt_tr F _ c0); [exact L|apply opp_pos; exact L].
    - split; right; ring.
    - split; [right; reflexivity|]. left. apply (olt_tr F _ c0); [apply opp_neg; exact L|exact L].
  Qed.
  Lemma abs_tri (a b : F) : ole (oabs (cadd a b)) (cadd (oabs a) (oabs b)).
  Proof.
    destruct (abs_ge a) as [A A'], (abs_ge b) as [B B']. unfold oabs at 1. destruct (ocmp (cadd a b) c0) as [[L|L]|L].
    - replace (copp (cadd a b)) with (cadd (copp a) (copp b)) by ring. apply ole_add; assumption.
    - apply ole_add; assumption.
    - apply ole_add; assumption.
  Qed.
  Lemma abs_mul (a b : F) : oabs (cmul a b) = cmul (oabs a) (oabs b).
  Proof.
    assert (P : forall x : F, {ole c0 x} + {ole c0 (copp x)}).
    { intros x. destruct (ocmp x c0) as [[L| ->]|L]; [right; left; apply opp_pos; exact L|left; right; reflexivity|left; left; exact L]. }
    assert (O : forall x : F, ole c0 (copp x) -> oabs x = copp x).
    { intros x H. replace x with (copp (copp x)) at 1 by ring. apply oabs_opp. exact H. }
    destruct (P a) as [A|A], (P b) as [B|B].
    - rewrite !oabs_pos; [reflexivity|exact B|exact A|apply ole_0mul; assumption].
    - rewrite (oabs_pos F a A), (O b B). rewrite O; [ring|]. replace (copp (cmul a b)) with (cmul a (copp b)) by ring. apply ole_0mul; assumption.
    - rewrite (oabs_pos F b B), (O a A). rewrite O; [ring|]. replace (copp (cmul a b)) with (cmul (copp a) b) by ring. apply ole_0mul; assumption.
    - rewrite (O a A), (O b B). replace (cmul a b) with (cmul (copp a) (copp b)) by ring. rewrite oabs_pos; [reflexivity|apply ole_0mul; assumption].
  Qed.
  Lemma abs_opp (a : F) : oabs (copp a) = oabs a.
  Proof. replace (copp a) with (cmul (copp c1) a) by ring. rewrite abs_mul, (oabs_opp F c1) by (left; apply one_pos). ring. Qed.
End Abs.

(** pairs of rational numbers *)
Definition P2 : Type := (Qc * Qc)%type.
Definition padd (x y : P2) : P2 := (fst x + fst y, snd x + snd y)%Qc.
Definition popp (x : P2) : P2 := (- fst x, - snd x)%Qc.
Definition pscale (a : Qc) (x : P2) : P2 := (a * fst x, a * snd x)%Qc.
Definition M2 : cmodule Qco.
Proof.
  apply (mkMod Qco P2 (0, 0)%Qc padd popp pscale); repeat (intros [? ?] || intro); unfold padd, popp, pscale; cbn; f_equal; ring.
Defined.
Definition M1 : cmodule Qco.
Proof. apply (mkMod Qco Qc 0%Qc Qcplus Qcopp Qcmult); intros; cbn; ring. Defined.
(** two points: multiplication point by point, antisymmetric derivative *)
Definition mul2 (f : P2) (x : M2) : M2 := (fst f * fst x, snd f * snd x)%Qc.
Definition D2 (_ : Z) (x : M2) : M2 := (- snd x, fst x)%Qc.
Definition ip2 (x y : M2) : M1 := (fst x * fst y + snd x * snd y)%Qc.
Lemma ip2_ok : scalar_product Qco M2 P2 mul2 D2 M1 ip2.
Proof.
  unfold scalar_product. repeat split; intros; unfold ip2, mul2, D2; cbn; ring.
Qed.
Definition nrm2 (x : M2) : Qco := (@oabs Qco (fst x) + @oabs Qco (snd x))%Qc.
Lemma qole_add (a b c d : Qco) : ole a b -> ole c d -> @ole Qco (a + c)%Qc (b + d)%Qc.
Proof. apply (ole_add Qco). Qed.
Lemma nrm2_ok : norm_like Qco M2 nrm2.
Proof.
  split; [|split; [|split]].
  - intros x. unfold nrm2. replace (c0 : Qco) with (0 + 0 : Qc)%Qc by reflexivity. apply qole_add; apply abs_nonneg.
  - intros x y. unfold nrm2. cbn [madd M2 md padd fst snd cadd]. 
    apply (ole_trans Qco) with ((@oabs Qco (fst x) + @oabs Qco (fst y)) + (@oabs Qco (snd x) + @oabs Qco (snd y)))%Qc; [apply qole_add; apply abs_tri|].
    right. change (((@oabs Qco (fst x) + @oabs Qco (fst y)) + (@oabs Qco (snd x) + @oabs Qco (snd y)))%Qc = ((@oabs Qco (fst x) + @oabs Qco (snd x)) + (@oabs Qco (fst y) + @oabs Qco (snd y)))%Qc). ring.
  - intros a x. unfold nrm2. change (fst (mscale a x)) with (@cmul Qco a (fst x)). change (snd (mscale a x)) with (@cmul Qco a (snd x)). rewrite !abs_mul.
    change ((@oabs Qco a * @oabs Qco (fst x) + @oabs Qco a * @oabs Qco (snd x))%Qc = (@oabs Qco a * (@oabs Qco (fst x) + @oabs Qco (snd x)))%Qc). ring.
  - reflexivity.
Qed.
Lemma mul2_linear f : linear Qco M2 (mul2 f).
Proof. split; intros; unfold mul2; cbn; unfold padd, pscale; cbn; f_equal; ring. Qed.
Lemma D2_norm j x : ole (nrm2 (D2 j x)) (cmul (fdiv c1 c1) (nrm2 x)).
Proof.
  right. unfold nrm2, D2. cbn [fst snd].
  pose proof (abs_opp Qco (snd x)) as E. change (@copp Qco (snd x)) with (- snd x)%Qc in E.
  rewrite E. change ((@oabs Qco (snd x) + @oabs Qco (fst x))%Qc = ((1 / 1) * (@oabs Qco (fst x) + @oabs Qco (snd x)))%Qc). field. discriminate.
Qed.
Definition max2 (f : P2) : Qco := if Qclt_le_dec (fst f) (snd f) then snd f else fst f.
Definition min2 (f : P2) : Qco := if Qclt_le_dec (fst f) (snd f) then fst f else snd f.
(** numbers a + b e *)
Definition mulE (f : P2) (x : M2) : M2 := (fst f * fst x, fst f * snd x + snd f * fst x)%Qc.
Definition DE (_ : Z) (x : M2) : M2 := (0, snd x)%Qc.
Definition dE (_ : Z) (f : P2) : P2 := (0, snd f)%Qc.
Lemma mulE_linear f : linear Qco M2 (mulE f).
Proof. split; intros; unfold mulE; cbn; unfold padd, pscale; cbn; f_equal; ring. Qed.
Lemma rule_E : product_rule Qco M2 P2 mulE DE dE.
Proof. intros j [f0 f1] [a b]. unfold mulE, DE, dE. cbn. unfold padd. cbn. f_equal; ring. Qed.
