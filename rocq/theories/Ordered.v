(** Ordered fields: exact numbers with comparisons, in place of double. *)
From Coq Require Import Ring Field QArith Qcanon.
From Verif Require Import Algebra.

Record ofld := mkOrd {
  o_f :> fld;
  olt : o_f -> o_f -> Prop;
  ocmp : forall a b : o_f, {olt a b} + {a = b} + {olt b a};
  olt_irr : forall a, ~ olt a a;
  olt_tr : forall a b c, olt a b -> olt b c -> olt a c;
  olt_add : forall a b c, olt a b -> olt (cadd a c) (cadd b c);
  olt_mul : forall a b, olt c0 a -> olt c0 b -> olt c0 (cmul a b) }.
Arguments olt {_}. Arguments ocmp {_}.

Section Facts.
  Variable F : ofld.
  Add Ring OFr : (cr_th F).
  Add Field OFf : (f_th F).
  Open Scope cr_scope.
  Definition ole (a b : F) : Prop := olt a b \/ a = b.
  Definition oabs (a : F) : F := match ocmp a c0 with inleft (left _) => - a | _ => a end.

  Lemma opp_pos (a : F) : olt a 0 -> olt 0 (- a).
  Proof. intros H. apply (olt_add F _ _ (- a)) in H. replace (a + - a) with (0 : F) in H by ring. replace (0 + - a) with (- a) in H by ring. exact H. Qed.
  Lemma opp_neg (a : F) : olt 0 a -> olt (- a) 0.
  Proof. intros H. apply (olt_add F _ _ (- a)) in H. replace (a + - a) with (0 : F) in H by ring. replace (0 + - a) with (- a) in H by ring. exact H. Qed.
  Lemma sq_pos (a : F) : a <> 0 -> olt 0 (a * a).
  Proof.
    intros N. destruct (ocmp a 0) as [[H|H]|H]; [|contradiction|apply olt_mul; assumption].
    replace (a * a) with (- a * - a) by ring. apply olt_mul; apply opp_pos; exact H.
  Qed.
  Lemma one_pos : olt (0 : F) 1.
  Proof. replace (1 : F) with (1 * 1 : F) by ring. apply sq_pos. exact (F_1_neq_0 (f_th F)). Qed.
  Lemma add_pos (a b : F) : olt 0 a -> olt 0 b -> olt 0 (a + b).
  Proof. intros Ha Hb. apply (olt_tr F 0 b); [exact Hb|]. apply (olt_add F _ _ b) in Ha. replace (0 + b) with b in Ha by ring. exact Ha. Qed.
  Lemma add_pos_le (a b : F) : ole 0 a -> olt 0 b -> olt 0 (a + b).
  Proof. intros [Ha|<-] Hb; [apply add_pos; assumption|]. replace (0 + b) with b by ring. exact Hb. Qed.
  Lemma sq_nonneg (a : F) : ole 0 (a * a).
  Proof. destruct (ocmp a 0) as [[H|H]|H]; [left|right; rewrite H; ring|left]; apply sq_pos; intros ->; exact (olt_irr F _ H). Qed.
  Lemma pos_neq (a : F) : olt 0 a -> a <> 0.
  Proof. intros H ->. exact (olt_irr F _ H). Qed.
  Lemma neg_neq (a : F) : olt a 0 -> a <> 0.
  Proof. intros H ->. exact (olt_irr F _ H). Qed.
  Lemma two_pos : olt (0 : F) (1 + 1).
  Proof. apply add_pos; apply one_pos. Qed.
  Lemma two_neq : (1 + 1 : F) <> 0.
  Proof. apply pos_neq, two_pos. Qed.
  Lemma mul_eq0 (a b : F) : a * b = 0 -> a = 0 \/ b = 0.
  Proof.
    intros H. destruct (ocmp a 0) as [[N|N]|N]; [|left; exact N|]; right;
      (assert (Na : a <> 0) by (intros ->; exact (olt_irr F _ N)); replace b with (a * b / a) by (field; exact Na); rewrite H; field; exact Na).
  Qed.
  (** square roots are unique *)
  Lemma sqrt_unique (a b : F) : ole 0 a -> ole 0 b -> a * a = b * b -> a = b.
  Proof.
    intros Ha Hb H. assert (E : (a - b) * (a + b) = 0) by (replace ((a - b) * (a + b)) with (a * a - b * b) by ring; rewrite H; ring).
    apply mul_eq0 in E. destruct E as [E|E]; [replace a with (a - b + b) by ring; rewrite E; ring|].
    destruct Ha as [Ha|<-]; [|destruct Hb as [Hb|Hb]; [|exact Hb]].
    - exfalso. destruct Hb as [Hb|<-].
      + pose proof (add_pos _ _ Ha Hb) as X. rewrite E in X. exact (olt_irr F _ X).
      + replace (a + 0) with a in E by ring. rewrite E in Ha. exact (olt_irr F _ Ha).
    - replace b with (0 + b) by ring. rewrite E. reflexivity.
  Qed.
  Lemma abs_nonneg (a : F) : ole 0 (oabs a).
  Proof. unfold oabs. destruct (ocmp a 0) as [[H|H]|H]; [left; apply opp_pos, H|right; symmetry; exact H|left; exact H]. Qed.
  Lemma inv_pos (a : F) : olt 0 a -> olt 0 (1 / a).
  Proof.
    intros H. pose proof (pos_neq _ H) as N. destruct (ocmp (1 / a) 0) as [[X|X]|X]; [| |exact X].
    - exfalso. apply opp_pos in X. pose proof (olt_mul F _ _ H X) as Y. replace (a * - (1 / a)) with (- (1) : F) in Y by (field; exact N).
      pose proof (add_pos _ _ Y one_pos) as W. replace (- (1) + 1) with (0 : F) in W by ring. exact (olt_irr F _ W).
    - exfalso. assert (E : (1 : F) = 0) by (transitivity (a * (1 / a)); [field; exact N|rewrite X; ring]). exact (F_1_neq_0 (f_th F) E).
  Qed.
  Lemma mul_pos_neg (a b : F) : olt 0 a -> olt b 0 -> olt (a * b) 0.
  Proof. intros Ha Hb. apply opp_pos in Hb. pose proof (olt_mul F _ _ Ha Hb) as X. apply opp_neg in X. replace (- (a * - b)) with (a * b) in X by ring. exact X. Qed.
  Lemma mul_neg_neg (a b : F) : olt a 0 -> olt b 0 -> olt 0 (a * b).
  Proof. intros Ha Hb. apply opp_pos in Ha, Hb. pose proof (olt_mul F _ _ Ha Hb) as X. replace (- a * - b) with (a * b) in X by ring. exact X. Qed.
  Lemma sub_pos (a b : F) : olt a b -> olt 0 (b - a).
  Proof. intros H. apply (olt_add F _ _ (- a)) in H. replace (a + - a) with (0 : F) in H by ring. replace (b + - a) with (b - a) in H by ring. exact H. Qed.
  Lemma asym (a b : F) : olt a b -> olt b a -> False.
  Proof. intros H H'. exact (olt_irr F _ (olt_tr F _ _ _ H H')). Qed.
End Facts.
Arguments ole {F}. Arguments oabs {F}.

(** the rational numbers *)
Definition Qc_cmp (a b : Qc) : {(a < b)%Qc} + {a = b} + {(b < a)%Qc} :=
  match Qc_dec a b with inleft (left H) => inleft (left H) | inleft (right H) => inright H | inright H => inleft (right H) end.
Lemma Qc_irr (a : Qc) : ~ (a < a)%Qc.
Proof. intros H. apply Qclt_not_eq in H. apply H. reflexivity. Qed.
Lemma Qc_add (a b c : Qc) : (a < b)%Qc -> (a + c < b + c)%Qc.
Proof. intros H. apply Qclt_minus_iff in H. apply Qclt_minus_iff. replace (b + c + - (a + c))%Qc with (b + - a)%Qc by ring. exact H. Qed.
Lemma Qc_mul (a b : Qc) : (0 < a)%Qc -> (0 < b)%Qc -> (0 < a * b)%Qc.
Proof. intros Ha Hb. replace 0%Qc with (0 * b)%Qc by ring. apply Qcmult_lt_compat_r; assumption. Qed.
Definition Qco : ofld := mkOrd Qcf Qclt Qc_cmp Qc_irr Qclt_trans Qc_add Qc_mul.
