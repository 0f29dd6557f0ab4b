(** Proofs about the non-adiabatic coupling operator *)
From Coq Require Import Ascii String List ZArith Lia Bool Ring Field.
From Verif Require Import Base Arrays Algebra Ordered Model.NAC Spec.NAC.
Import ListNotations.
Open Scope Z_scope.

Section P.
  Variable F : ofld.
  Variable M : cmodule F.
  Variable V : Type.
  Variable mul : V -> M -> M.
  Variable D : Z -> M -> M.
  Add Ring NFr : (cr_th F).
  Add Field NFf : (f_th F).
  Notation linear := (linear F M).
  Notation over := (over F M V).
  Notation half := (half F).

  Lemma madd_0r (x : M) : madd x m0 = x.
  Proof. rewrite (madd_comm F M). apply madd_0. Qed.
  Lemma half_ok : cadd half half = (c1 : F).
  Proof. unfold Model.NAC.half. field. apply two_neq. Qed.
  Lemma madd_swap (a b c d : M) : madd (madd a b) (madd c d) = madd (madd a c) (madd b d).
  Proof. rewrite <- !(madd_assoc F M). f_equal. rewrite !(madd_assoc F M). f_equal. apply madd_comm. Qed.

  Lemma over_ext t t' k l : (forall j f, In f l -> t j f = t' j f) -> over t k l = over t' k l.
  Proof. revert k. induction l as [|f l IH]; intros k H; [reflexivity|]. cbn [Spec.NAC.over]. rewrite (H k f) by (left; reflexivity). f_equal. apply IH. intros j g G. apply H. right; exact G. Qed.
  Lemma rd_mid {A} (a : list A) f b : rd (a ++ f :: b) (zlen a) = Ok f.
  Proof. clear. unfold rd, zlen. rewrite (proj2 (Z.leb_le 0 _)) by lia. rewrite Nat2Z.id, nth_error_app2 by lia. rewrite Nat.sub_diag. reflexivity. Qed.
  Lemma zlen_app1 {A} (a : list A) f : zlen (a ++ [f]) = zlen a + 1.
  Proof. clear. unfold zlen. rewrite app_length. cbn [length]. lia. Qed.
  Lemma zlen_pos {A} (a : list A) f b : zlen a < zlen (a ++ f :: b).
  Proof. clear. unfold zlen. rewrite app_length. cbn [length]. lia. Qed.
  Lemma zlen_nonneg {A} (a : list A) : 0 <= zlen a.
  Proof. clear. unfold zlen. lia. Qed.

  Section Apply.
    Variable o : nac F V.
    Variable psi : M.
    Notation c := (pre F V o).
    Definition term (j : Z) (f : V) : M := madd (mul f (mscale c (D j psi))) (mscale c (D j (mul f psi))).
    Lemma steps a l dest : n_f o = (a ++ l)%list -> 0 < zlen a ->
      foldM (nac_step F M V mul D o psi) (upto (zlen a) (zlen (n_f o))) dest = Ok (madd dest (over term (zlen a) l)).
    Proof.
      revert a dest. induction l as [|f l IH]; intros a dest E P.
      - rewrite E, app_nil_r, upto_nil by lia. cbn [foldM Spec.NAC.over]. rewrite madd_0r. reflexivity.
      - pose proof (zlen_pos a f l) as L. rewrite upto_cons by (rewrite E; exact L). cbn [foldM]. unfold nac_step at 1. rewrite E at 1. rewrite rd_mid. cbn [bind].
        rewrite (proj2 (Z.eqb_neq (zlen a) 0)) by lia.
        rewrite <- (zlen_app1 a f). rewrite (IH (a ++ [f])%list); [|rewrite <- app_assoc; exact E|rewrite zlen_app1; lia].
        cbn [Spec.NAC.over]. rewrite (zlen_app1 a f). unfold term at 2. rewrite !(madd_assoc F M). reflexivity.
    Qed.
    Lemma apply_terms dest : n_buf o = true -> n_f o <> [] -> nac_apply F M V mul D o dest psi = Ok (over term 0 (n_f o)).
    Proof.
      intros B N. unfold nac_apply. rewrite B. destruct (n_f o) as [|f l] eqn:E; [congruence|].
      pose proof (zlen_pos [] f l) as L. change (0 < zlen (f :: l)) in L. rewrite upto_cons by exact L. cbn [foldM]. unfold nac_step at 1. rewrite E. change 0 with (zlen (@nil V)) at 1. change (f :: l) with ([] ++ f :: l)%list at 1. rewrite rd_mid. cbn [bind].
      change (0 =? 0) with true. cbv iota. pose proof (steps [f] l) as S. rewrite E in S. change (zlen [f]) with 1 in S. rewrite (S _ eq_refl) by lia. reflexivity.
    Qed.
  End Apply.
  Lemma apply_symmetric (o : nac F V) dest psi : n_buf o = true -> n_f o <> [] -> n_mass o <> c0 -> (forall f, In f (n_f o) -> linear (mul f)) ->
    nac_apply F M V mul D o dest psi = Ok (symmetric F M V mul D (fdiv (n_sign o) (n_mass o)) (n_f o) psi).
  Proof.
    intros B N Ms L. rewrite apply_terms by assumption. f_equal. apply over_ext. intros j f I. unfold term. rewrite (proj2 (L f I)), <- (mscale_add_r F M).
    f_equal. unfold pre. field. exact Ms.
  Qed.
  Lemma symmetric_handbook dv a l psi : product_rule F M V mul D dv -> symmetric F M V mul D a l psi = handbook F M V mul D dv a l psi.
  Proof.
    intros P. apply over_ext. intros j f _. rewrite P. set (x := mul f (D j psi)). set (y := mul (dv j f) psi).
    rewrite !(mscale_add_r F M). rewrite <- (mscale_mul F M a half y). rewrite (madd_assoc F M), (madd_comm F M (mscale (cmul half a) x)), <- (madd_assoc F M), <- (mscale_add_l F M), (madd_comm F M).
    f_equal; f_equal; [|ring]. replace (cadd (cmul half a) (cmul half a)) with (cmul (cadd half half) a) by ring. rewrite half_ok. ring.
  Qed.

  (** ** adjoints *)
  Lemma over_ip (C : cmodule F) (ip : M -> M -> C) t k l x : (forall x y z, ip x (madd y z) = madd (ip x y) (ip x z)) -> ip x m0 = m0 ->
    ip x (over t k l) = Spec.NAC.over F C V (fun j f => ip x (t j f)) k l.
  Proof. intros A Z. revert k. induction l as [|f l IH]; intros k; cbn [Spec.NAC.over]; [exact Z|]. rewrite A, IH. reflexivity. Qed.
End P.

Section Adj.
  Variable F : ofld.
  Variable M C : cmodule F.
  Variable V : Type.
  Variable mul : V -> M -> M.
  Variable D : Z -> M -> M.
  Variable ip : M -> M -> C.
  Hypothesis IP : scalar_product F M V mul D C ip.
  Add Ring NAr : (cr_th F).
  Lemma opp_unique (x y : C) : madd x y = m0 -> y = mopp x.
  Proof.
    intros H. rewrite <- (madd_0 F C y), <- (madd_opp F C x), (madd_comm F C x (mopp x)), <- (madd_assoc F C), H. apply madd_0r.
  Qed.
  Lemma add_self0 (x : C) : madd x x = x -> x = m0.
  Proof. intros H. rewrite <- (madd_opp F C x). rewrite <- H at 2. rewrite <- (madd_assoc F C), (madd_opp F C). rewrite madd_0r. reflexivity. Qed.
  Lemma opp_opp (x : C) : mopp (mopp x) = x.
  Proof. symmetry. apply opp_unique. rewrite (madd_comm F C). apply madd_opp. Qed.
  Lemma opp_add (x y : C) : mopp (madd x y) = madd (mopp x) (mopp y).
  Proof. symmetry. apply opp_unique. rewrite madd_swap, !(madd_opp F C). apply madd_0. Qed.
  Lemma opp_0 : mopp (m0 : C) = m0.
  Proof. symmetry. apply opp_unique. apply madd_0. Qed.
  Lemma scale_0 a : mscale a (m0 : C) = m0.
  Proof. apply add_self0. rewrite <- (mscale_add_r F C), (madd_0 F C). reflexivity. Qed.
  Lemma scale_opp a (x : C) : mscale a (mopp x) = mopp (mscale a x).
  Proof. apply opp_unique. rewrite <- (mscale_add_r F C), (madd_opp F C). apply scale_0. Qed.
  Lemma neg_scale (x : C) : mscale (copp c1) x = mopp x.
  Proof.
    apply opp_unique. rewrite <- (mscale_1 F C x) at 1. rewrite <- (mscale_add_l F C). replace (cadd c1 (copp c1)) with (c0 : F) by ring.
    apply add_self0. rewrite <- (mscale_add_l F C). f_equal. ring.
  Qed.
  Lemma ip_0r x : ip x m0 = m0.
  Proof. destruct IP as (_ & A & _). apply add_self0. rewrite <- A, (madd_0 F M). reflexivity. Qed.
  Lemma ip_0l x : ip m0 x = m0.
  Proof. destruct IP as (A & _). apply add_self0. rewrite <- A, (madd_0 F M). reflexivity. Qed.
  Lemma sym_adjoint a k l x y : ip x (over F M V (fun j f => mscale a (madd (mul f (D j y)) (D j (mul f y)))) k l) =
    mopp (ip (over F M V (fun j f => mscale a (madd (mul f (D j x)) (D j (mul f x)))) k l) y).
  Proof.
    destruct IP as (A1 & A2 & S1 & S2 & Mu & De). revert k. induction l as [|f l IH]; intros k; cbn [over].
    - rewrite ip_0r, ip_0l, opp_0. reflexivity.
    - rewrite A1, A2, IH, opp_add. f_equal. rewrite S1, S2, A1, A2, <- scale_opp. f_equal. rewrite opp_add, (madd_comm F C). f_equal.
      + rewrite De, <- Mu. reflexivity.
      + rewrite Mu, De. reflexivity.
  Qed.
End Adj.

Section Num.
  Variable F : ofld.
  Add Ring NNr : (cr_th F).
  Add Field NNf : (f_th F).
  Lemma mul_0 (a : F) : cmul c0 a = c0.
  Proof. ring. Qed.
  Lemma scalar_neg (a m : F) : m <> c0 -> cmul (half F) (fdiv (copp a) m) = cmul (copp c1) (cmul (half F) (fdiv a m)).
  Proof. intros H. field. exact H. Qed.
End Num.
(** ** bounds *)
Section Bound.
  Variable F : ofld.
  Variable M : cmodule F.
  Variable V : Type.
  Variable mul : V -> M -> M.
  Variable D : Z -> M -> M.
  Add Ring NBr : (cr_th F).
  Add Field NBf : (f_th F).
  Lemma ole_trans (a b c : F) : ole a b -> ole b c -> ole a c.
  Proof. intros [H| ->] [K| <-]; [left; exact (olt_tr F a b c H K)|left; exact H|left; exact K|right; reflexivity]. Qed.
  Lemma ole_add (a b c d : F) : ole a b -> ole c d -> ole (cadd a c) (cadd b d).
  Proof.
    intros H K. apply ole_trans with (cadd b c).
    - destruct H as [H| ->]; [left; apply olt_add; exact H|right; reflexivity].
    - destruct K as [K| ->]; [left|right; reflexivity]. replace (cadd b c) with (cadd c b) by ring. replace (cadd b d) with (cadd d b) by ring. apply olt_add. exact K.
  Qed.
  Lemma ole_mul (a b c : F) : ole c0 c -> ole a b -> ole (cmul c a) (cmul c b).
  Proof.
    intros [C| <-] H; [|right; ring]. destruct H as [H| ->]; [|right; reflexivity]. left.
    apply sub_pos in H. pose proof (olt_mul F _ _ C H) as X. apply (olt_add F _ _ (cmul c a)) in X. replace (cadd c0 (cmul c a)) with (cmul c a) in X by ring.
    replace (cadd (cmul c (csub b a)) (cmul c a)) with (cmul c b) in X by ring. exact X.
  Qed.
  Lemma ole_0mul (a b : F) : ole c0 a -> ole c0 b -> ole c0 (cmul a b).
  Proof. intros A B. apply (ole_mul c0 b a A) in B. replace (cmul a c0) with (c0 : F) in B by ring. exact B. Qed.
  Variable nrm : M -> F.
  Hypothesis N : norm_like F M nrm.
  Variable vmax : V -> F.
  Lemma fold_max l a : fold_left (fun m f => cadd m (vmax f)) l a = cadd a (lsum vmax l).
  Proof. apply lsum_fold. Qed.
  Lemma oabs_pos (a : F) : ole c0 a -> oabs a = a.
  Proof. unfold oabs. intros H. destruct (ocmp a c0) as [[L| ->]|L]; [|reflexivity|reflexivity]. destruct H as [H| <-]; exfalso; [exact (asym F _ _ H L)|exact (olt_irr F _ L)]. Qed.
  Lemma oabs_opp (a : F) : ole c0 a -> oabs (copp a) = a.
  Proof.
    intros [H| <-].
    - unfold oabs. pose proof (opp_neg F a H) as L. destruct (ocmp (copp a) c0) as [[X|X]|X]; [ring| |exfalso; exact (asym F _ _ X L)].
      exfalso. rewrite X in L. exact (olt_irr F _ L).
    - replace (copp c0) with (c0 : F) by ring. apply oabs_pos. right; reflexivity.
  Qed.
  Lemma over_bound t k l (b : F) : (forall j f, In f l -> ole (nrm (t j f)) (cmul b (vmax f))) -> ole (nrm (over F M V t k l)) (cmul b (lsum vmax l)).
  Proof.
    destruct N as (_ & T & _ & Z). revert k. induction l as [|f l IH]; intros k H; cbn [over lsum]; [rewrite Z; right; ring|].
    replace (cmul b (cadd (vmax f) (lsum vmax l))) with (cadd (cmul b (vmax f)) (cmul b (lsum vmax l))) by ring.
    apply ole_trans with (cadd (nrm (t k f)) (nrm (over F M V t (k + 1) l))); [apply T|]. apply ole_add; [apply H; left; reflexivity|]. apply IH. intros j g G. apply H. right; exact G.
  Qed.
  Lemma nac_bound (o : nac F V) dest psi r pi dx : n_f o <> [] -> (forall f, In f (n_f o) -> linear F M (mul f)) ->
    (n_sign o = c1 \/ n_sign o = copp c1) -> olt c0 (n_mass o) -> olt c0 dx -> ole c0 pi ->
    (forall f, In f (n_f o) -> ole c0 (vmax f) /\ forall x, ole (nrm (mul f x)) (cmul (vmax f) (nrm x))) ->
    (forall j x, ole (nrm (D j x)) (cmul (fdiv pi dx) (nrm x))) ->
    nac_apply F M V mul D o dest psi = Ok r -> ole (nrm r) (cmul (nac_emax F V vmax pi o dx) (nrm psi)).
  Proof.
    intros Ne L S Ms Dx Pi Mu De E. assert (B : n_buf o = true) by (unfold nac_apply in E; destruct (n_buf o); [reflexivity|discriminate]).
    rewrite (apply_symmetric F M V mul D o dest psi B Ne (pos_neq F _ Ms) L) in E. injection E as <-.
    pose proof N as (P0 & T & Sc & _).
    assert (A : oabs (cmul (half F) (fdiv (n_sign o) (n_mass o))) = fdiv (half F) (n_mass o)).
    { assert (X : olt c0 (fdiv (half F) (n_mass o))).
      { unfold half. replace (fdiv (fdiv c1 (cadd c1 c1)) (n_mass o)) with (cmul (fdiv c1 (cadd c1 c1)) (fdiv c1 (n_mass o)) : F) by (field; repeat split; first [apply two_neq|apply pos_neq; assumption]).
        apply olt_mul; apply inv_pos; [apply two_pos|exact Ms]. }
      destruct S as [-> | ->].
      - replace (cmul (half F) (fdiv c1 (n_mass o))) with (fdiv (half F) (n_mass o)) by (field; apply pos_neq; exact Ms). apply oabs_pos. left; exact X.
      - replace (cmul (half F) (fdiv (copp c1) (n_mass o))) with (copp (fdiv (half F) (n_mass o))) by (field; apply pos_neq; exact Ms). apply oabs_opp. left; exact X. }
    unfold symmetric. eapply ole_trans; [apply (over_bound _ 0 (n_f o) (cmul (fdiv (fdiv pi (n_mass o)) dx) (nrm psi)))|].
    2: { right. unfold nac_emax. rewrite fold_max. ring. }
    intros j f I. destruct (Mu f I) as [M0 Mx]. rewrite Sc, A.
    assert (K : ole c0 (fdiv pi dx)). { replace (fdiv pi dx) with (cmul pi (fdiv c1 dx)) by (field; apply pos_neq; exact Dx). apply ole_0mul; [exact Pi|left; apply inv_pos; exact Dx]. }
    assert (H : ole c0 (fdiv (half F) (n_mass o))) by (rewrite <- A; apply abs_nonneg).
    apply ole_trans with (cmul (fdiv (half F) (n_mass o)) (cadd (cmul (vmax f) (cmul (fdiv pi dx) (nrm psi))) (cmul (fdiv pi dx) (cmul (vmax f) (nrm psi))))).
    - apply ole_mul; [exact H|]. eapply ole_trans; [apply T|]. apply ole_add.
      + eapply ole_trans; [apply Mx|]. apply ole_mul; [exact M0|apply De].
      + eapply ole_trans; [apply De|]. apply ole_mul; [exact K|apply Mx].
    - right. unfold half. field. repeat split; first [apply two_neq|apply pos_neq; assumption].
  Qed.
End Bound.

(** ** reading the coupling *)
Section Init.
  Variable F : ofld.
  Variable V : Type.
  Variable files : str -> outcome V.
  Lemma load_list (name : Z -> str) l : forall acc,
    match foldM (fun l i => let* v := files (name i) in Ok (l ++ [v])%list) l acc with
    | Ok r => exists t, r = (acc ++ t)%list /\ map files (map name l) = map Ok t
    | Throw => exists i, In i l /\ files (name i) = Throw
    | UB => exists i, In i l /\ files (name i) = UB
    end.
  Proof.
    induction l as [|i l IH]; intros acc; cbn [foldM map].
    - exists []. rewrite app_nil_r. split; reflexivity.
    - destruct (files (name i)) as [v| |] eqn:E; cbn [bind].
      + specialize (IH (acc ++ [v])%list). destruct (foldM _ l _) as [r| |].
        * destruct IH as (t & -> & T). exists (v :: t). rewrite <- app_assoc. cbn [map]. rewrite T. split; reflexivity.
        * destruct IH as (k & I & X). exists k. split; [right; exact I|exact X].
        * destruct IH as (k & I & X). exists k. split; [right; exact I|exact X].
      + exists i. split; [left; reflexivity|exact E].
      + exists i. split; [left; reflexivity|exact E].
  Qed.
End Init.
