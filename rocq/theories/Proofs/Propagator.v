(** Proofs about propagators. *)
From Coq Require Import List ZArith Lia Bool.
From Verif Require Import Base Arrays Algebra Complex Model.Propagator Spec.Propagator.
Import ListNotations.
Open Scope Z_scope.

Section S.
  Variable R : cring.
  Add Ring RR : (cr_th R).
  Lemma exponent_ok p h : phist R p h -> p_dt R p = h_dt R h /\ p_fwd R p = h_fwd R h /\ p_imag R p = h_imag R h /\ forall dt, h_dt R h = Some dt -> p_c0 R p = wanted R h dt.
  Proof.
    assert (FB : forall b p p' h, (p_dt R p = h_dt R h /\ p_fwd R p = h_fwd R h /\ p_imag R p = h_imag R h /\ forall dt, h_dt R h = Some dt -> p_c0 R p = wanted R h dt) ->
      p_conj R p b = Ok p' -> p_dt R p' = h_dt R (chosen R h (PConj R b)) /\ p_fwd R p' = h_fwd R (chosen R h (PConj R b)) /\ p_imag R p' = h_imag R (chosen R h (PConj R b)) /\
        forall dt, h_dt R (chosen R h (PConj R b)) = Some dt -> p_c0 R p' = wanted R (chosen R h (PConj R b)) dt).
    { intros b q q' g (A & B & C & D) E. unfold p_conj, p_backward, p_forward in E. rewrite A in E. destruct (h_dt R g) as [dt|] eqn:Ed; [|destruct b; discriminate].
      destruct b; injection E as <-; cbn [chosen]; rewrite Ed; cbn; split; [reflexivity| |reflexivity|]; split; try reflexivity; split; try assumption;
      intros dt' [= <-]; rewrite C; unfold wanted; cbn; destruct (h_imag R g); apply cx_eq; cbn; ring. }
    assert (TH : forall b p h, p_dt R p = h_dt R h -> p_conj R p b = Throw -> chosen R h (PConj R b) = h).
    { intros b q g A E. unfold p_conj, p_backward, p_forward in E. rewrite A in E. destruct g as [[dt|] f m]; cbn in *; [destruct b; discriminate|destruct b; reflexivity]. }
    induction 1 as [|p h c p' H IH E|p h c H IH E].
    - cbn. repeat (split; [reflexivity|]). intros dt; discriminate.
    - destruct c as [dt| | | | |b|]; cbn [pstep] in E.
      + injection E as <-. destruct IH as (A & B & C & D). cbn. split; [reflexivity|]. split; [exact B|]. split; [exact C|]. intros dt' [= <-]. rewrite B, C. unfold wanted. cbn.
        destruct (h_fwd R h), (h_imag R h); apply cx_eq; cbn; ring.
      + exact (FB false p p' h IH E).
      + exact (FB true p p' h IH E).
      + destruct IH as (A & B & C & D). unfold p_imaginary in E. rewrite A in E. destruct (h_dt R h) as [dt|] eqn:Ed; [|discriminate]. injection E as <-. cbn. split; [symmetry; exact Ed|]. split; [exact B|]. split; [reflexivity|].
        rewrite Ed. intros dt' [= <-]. rewrite B. unfold wanted. cbn. destruct (h_fwd R h); apply cx_eq; cbn; ring.
      + destruct IH as (A & B & C & D). unfold p_real in E. rewrite A in E. destruct (h_dt R h) as [dt|] eqn:Ed; [|discriminate]. injection E as <-. cbn. split; [symmetry; exact Ed|]. split; [exact B|]. split; [reflexivity|].
        rewrite Ed. intros dt' [= <-]. rewrite B. unfold wanted. cbn. destruct (h_fwd R h); apply cx_eq; cbn; ring.
      + exact (FB b p p' h IH E).
      + injection E as <-. exact IH.
    - destruct c as [dt| | | | |b|]; cbn [pstep] in E; try discriminate.
      + change (chosen R h (PForward R)) with (chosen R h (PConj R false)). rewrite (TH false p h (proj1 IH) E). exact IH.
      + change (chosen R h (PBackward R)) with (chosen R h (PConj R true)). rewrite (TH true p h (proj1 IH) E). exact IH.
      + unfold p_imaginary in E. destruct (p_dt R p); discriminate.
      + unfold p_real in E. destruct (p_dt R p); discriminate.
      + rewrite (TH b p h (proj1 IH) E). exact IH.
  Qed.
End S.

Lemma rd_nth_error {A} (v : list A) i o : rd v i = Ok o -> nth_error v (Z.to_nat i) = Some o.
Proof. unfold rd. destruct (0 <=? i); [|discriminate]. destruct (nth_error v (Z.to_nat i)); [intros [= <-]; reflexivity|discriminate]. Qed.

Section G.
  Variable K : cring.
  Add Ring KR : (cr_th K).
  Variable X : Type.
  Variable xeqb : X -> X -> bool.
  Variable half : X -> X.
  Notation gop := (gop K X).
  Notation gspo := (gspo K X).

  Lemma fresh_len ops step c : zlen (fresh K X half ops step c) = zlen ops.
  Proof. unfold fresh, zlen. rewrite map_length, upto_length. unfold zlen. lia. Qed.
  Lemma fresh_rd ops step c i o : rd ops i = Ok o -> rd (fresh K X half ops step c) i = Ok (one_exp K X o step (if i =? 0 then c else half c)).
  Proof.
    intros E. pose proof (rd_bounds _ _ _ E) as B. unfold fresh. rewrite rd_map, rd_upto by lia. cbn [bind]. rewrite Z.add_0_l.
    rewrite (rd_nth_error _ _ _ E). reflexivity.
  Qed.
  Definition known (ops : list gop) (s : gspo) : Prop :=
    zlen (s_exp K X s) = zlen ops /\ (s_step K X s = -1 \/ s_exp K X s = fresh K X half ops (s_step K X s) (s_last K X s)).
  Hypothesis xeq : forall a b, xeqb a b = true -> a = b.
  Lemma one_exp_honest o a b c : honest K X o -> g_timedep K X o = false -> one_exp K X o a c = one_exp K X o b c.
  Proof. intros H T. unfold one_exp. rewrite (H T a b c). reflexivity. Qed.
  Lemma init_exp_ok ops s step c : Forall (honest K X) ops -> known ops s -> init_exp K X xeqb half ops s step c = Ok (mkGspo K X (fresh K X half ops step c) step c).
  Proof.
    intros Hh (L & Kn). unfold init_exp.
    match goal with |- bind (foldM ?f _ _) _ = _ => destruct (foldM_upto f (fun k e => zlen e = zlen ops /\ (forall i, 0 <= i < k -> rd e i = rd (fresh K X half ops step c) i) /\ (forall i, k <= i -> rd e i = rd (s_exp K X s) i))
      0 (zlen ops) (s_exp K X s)) as (e & -> & Le & Pe & _) end.
    - unfold zlen. lia.
    - split; [exact L|]. split; [intros; lia|reflexivity].
    - intros i e Hi (Le & Pe & Qe). destruct (proj1 (rd_ok ops i) Hi) as [o Eo]. rewrite Eo. cbn [bind].
      assert (Ho : honest K X o). { rewrite Forall_forall in Hh. apply Hh. eapply nth_error_In, rd_nth_error, Eo. }
      destruct ((g_timedep K X o && negb (s_step K X s =? step)) || (s_step K X s =? -1) || negb (xeqb (s_last K X s) c)) eqn:Q.
      + exists (upd e (Z.to_nat i) (one_exp K X o step (if i =? 0 then c else half c))). split; [apply wr_ok; lia|]. split; [rewrite zlen_upd; exact Le|]. split.
        * intros j Hj. rewrite rd_upd by lia. destruct (Z.eqb_spec j i) as [->|Nj]; [rewrite (fresh_rd ops step c i o Eo); reflexivity|]. apply Pe. lia.
        * intros j Hj. rewrite rd_upd by lia. destruct (Z.eqb_spec j i); [lia|]. apply Qe. lia.
      + exists e. split; [reflexivity|]. split; [exact Le|]. split; [|intros j Hj; apply Qe; lia]. intros j Hj. destruct (Z.eq_dec j i) as [->|Nj]; [|apply Pe; lia].
        rewrite Qe by lia. apply orb_false_iff in Q. destruct Q as [Q Q3]. apply orb_false_iff in Q. destruct Q as [Q1 Q2]. apply negb_false_iff in Q3. apply xeq in Q3.
        apply Z.eqb_neq in Q2. destruct Kn as [Kn|Kn]; [congruence|]. rewrite Kn. rewrite !(fresh_rd ops _ _ i o Eo). f_equal. rewrite Q3.
        apply andb_false_iff in Q1. destruct Q1 as [Q1|Q1]; [apply one_exp_honest; assumption|]. apply negb_false_iff, Z.eqb_eq in Q1. rewrite Q1. reflexivity.
    - cbn [bind]. f_equal. f_equal. apply rd_ext; [rewrite fresh_len; exact Le|]. intros i Hi. apply Pe. lia.
  Qed.
  Lemma known_after ops step c : known ops (mkGspo K X (fresh K X half ops step c) step c).
  Proof. split; [apply fresh_len|right; reflexivity]. Qed.
  Lemma ghist_known ops s : Forall (honest K X) ops -> ghist K X xeqb half ops s -> known ops s.
  Proof.
    intros Hh. induction 1 as [junk zero L|s junk zero H IH L|s step c psi s' psi' H IH E]; [split; [exact L|left; reflexivity]|split; [exact L|left; reflexivity]|].
    unfold gspo_apply in E. rewrite (init_exp_ok ops s step c Hh IH) in E. cbn [bind] in E.
    match type of E with bind ?f _ = _ => destruct f as [p1| |]; cbn [bind] in E; try discriminate end.
    match type of E with bind ?f _ = _ => destruct f as [p2| |]; cbn [bind] in E; try discriminate end.
    injection E as <- _. apply known_after.
  Qed.

  (** the whole step *)
  Definition stages (ops : list gop) (step : Z) (c : X) (l : list Z) (psi : list K) : list K :=
    fold_left (fun psi i => match nth_error ops (Z.to_nat i) with Some o => stage K X o (one_exp K X o step (if i =? 0 then c else half c)) psi | None => psi end) l psi.
  Lemma run_stages ops step c l : (forall i, In i l -> 0 <= i < zlen ops) -> forall psi,
    foldM (fun psi i => let* o := rd ops i in let* e := rd (fresh K X half ops step c) i in Ok (stage K X o e psi)) l psi = Ok (stages ops step c l psi).
  Proof.
    induction l as [|i l IH]; intros Hl psi; [reflexivity|]. cbn [foldM]. destruct (proj1 (rd_ok ops i) (Hl i (or_introl eq_refl))) as [o Eo]. rewrite Eo. cbn [bind]. rewrite (fresh_rd ops step c i o Eo). cbn [bind].
    rewrite IH by (intros j Hj; apply Hl; right; exact Hj). unfold stages. cbn [fold_left]. f_equal. f_equal.
    rewrite (rd_nth_error _ _ _ Eo). reflexivity.
  Qed.
  Definition order (n : Z) : list Z := downto (n - 1) 1 ++ upto 0 n.
  Lemma apply_ok ops s step c psi : Forall (honest K X) ops -> known ops s ->
    gspo_apply K X xeqb half ops s step c psi = Ok (mkGspo K X (fresh K X half ops step c) step c, stages ops step c (order (zlen ops)) psi).
  Proof.
    intros Hh Kn. unfold gspo_apply. rewrite (init_exp_ok ops s step c Hh Kn). cbn [bind s_exp]. rewrite run_stages; [|intros i Hi; unfold downto in Hi; apply in_rev in Hi; apply in_upto in Hi; lia]. cbn [bind].
    rewrite run_stages; [|intros i Hi; apply in_upto in Hi; lia]. cbn [bind]. unfold order, stages. rewrite fold_left_app. reflexivity.
  Qed.

  (** reversal *)
  Lemma vmul_comm_assoc (a b d : list K) : vmul K (vmul K a b) d = vmul K a (vmul K b d).
  Proof. revert b d. induction a as [|x a IH]; intros [|y b] [|z d]; try reflexivity. unfold vmul in *. cbn. f_equal; [ring|apply IH]. Qed.
  Lemma vmul_ones a n : zlen a = n -> vmul K a (repeat c1 (Z.to_nat n)) = a.
  Proof.
    intros <-. unfold zlen. rewrite Nat2Z.id. induction a as [|x a IH]; [reflexivity|]. unfold vmul in *. cbn. f_equal; [ring|exact IH].
  Qed.
  Lemma vmul_len a b n : zlen a = n -> zlen b = n -> zlen (vmul K a b) = n.
  Proof. unfold zlen, vmul. rewrite map_length, combine_length. lia. Qed.
  Lemma vmul_scale_l k a b : vmul K (vscale K k a) b = vscale K k (vmul K a b).
  Proof. revert b. induction a as [|x a IH]; intros [|y b]; try reflexivity. unfold vmul, vscale in *. cbn. f_equal; [ring|apply IH]. Qed.
  Lemma vmul_scale_r k a b : vmul K a (vscale K k b) = vscale K k (vmul K a b).
  Proof. revert b. induction a as [|x a IH]; intros [|y b]; try reflexivity. unfold vmul, vscale in *. cbn. f_equal; [ring|apply IH]. Qed.
  Lemma vscale_mul k l a : vscale K k (vscale K l a) = vscale K (cmul k l) a.
  Proof. unfold vscale. rewrite map_map. apply map_ext. intros x. ring. Qed.
  Lemma vscale_1 a : vscale K c1 a = a.
  Proof. unfold vscale. rewrite <- (map_id a) at 2. apply map_ext. intros x. ring. Qed.
  Lemma vscale_len k a : zlen (vscale K k a) = zlen a.
  Proof. unfold vscale. apply zlen_map. Qed.

  Variable neg : X -> X.
  Lemma stage_len n o step c psi : reversible K X n o neg -> zlen psi = n -> zlen (stage K X o (one_exp K X o step c) psi) = n.
  Proof.
    intros (L & _ & T) Lp. unfold stage, one_exp. destruct (g_tr K X o) as [t|].
    - destruct T as (TL & _ & _). apply TL. apply vmul_len; [apply TL; exact Lp|]. rewrite vscale_len. apply L.
    - apply vmul_len; [exact Lp|apply L].
  Qed.
  Lemma stage_inverse n o step c psi : reversible K X n o neg -> zlen psi = n ->
    stage K X o (one_exp K X o step (neg c)) (stage K X o (one_exp K X o step c) psi) = psi.
  Proof.
    intros (L & V & T) Lp. unfold stage, one_exp. destruct (g_tr K X o) as [t|].
    - destruct T as (TL & TS & N & HN & FB & BF).
      set (e := g_exp K X o step c) in *. set (e' := g_exp K X o step (neg c)) in *.
      assert (L1 : zlen (t_fwd K t psi) = n) by (apply TL; exact Lp).
      assert (Le : zlen e = n) by apply L. assert (Le' : zlen e' = n) by apply L.
      rewrite FB; [|apply vmul_len; [exact L1|rewrite vscale_len; exact Le]].
      repeat first [rewrite vmul_scale_r|rewrite vmul_scale_l|rewrite vscale_mul]; rewrite vmul_comm_assoc. unfold e, e'. rewrite V, (vmul_ones _ n L1).
      rewrite TS by exact L1. rewrite BF by exact Lp. rewrite vscale_mul.
      match goal with |- vscale K ?k psi = psi => replace k with (@c1 K); [apply vscale_1|] end.
      transitivity (cmul (cmul (t_norm K t) N) (cmul (t_norm K t) N)); [rewrite HN; ring|ring].
    - rewrite vmul_comm_assoc, V. apply vmul_ones. exact Lp.
  Qed.
  Hypothesis neg_half : forall c, half (neg c) = neg (half c).
  Lemma stages_inverse n ops step c l : Forall (fun o => reversible K X n o neg) ops -> forall psi, zlen psi = n ->
    stages ops step (neg c) (rev l) (stages ops step c l psi) = psi /\ zlen (stages ops step c l psi) = n.
  Proof.
    intros Hr. induction l as [|i l IH]; intros psi Lp; [split; [reflexivity|exact Lp]|].
    unfold stages in *. cbn [rev fold_left]. rewrite fold_left_app. cbn [fold_left].
    destruct (nth_error ops (Z.to_nat i)) as [o|] eqn:Eo; [|apply IH; exact Lp].
    assert (Ho : reversible K X n o neg). { rewrite Forall_forall in Hr. apply Hr. eapply nth_error_In. exact Eo. }
    destruct (IH (stage K X o (one_exp K X o step (if i =? 0 then c else half c)) psi) (stage_len n o step _ psi Ho Lp)) as [I1 I2].
    split; [|exact I2]. rewrite I1. replace (if i =? 0 then neg c else half (neg c)) with (neg (if i =? 0 then c else half c)) by (destruct (i =? 0); [reflexivity|symmetry; apply neg_half]).
    apply (stage_inverse n); assumption.
  Qed.
  Lemma order_rev n : rev (order n) = order n.
  Proof.
    unfold order, downto. replace (n - 1 + 1) with n by lia. rewrite rev_app_distr, rev_involutive. destruct (Z.ltb_spec 0 n) as [L|L].
    - rewrite (upto_cons 0 n) by lia. cbn [rev]. rewrite <- app_assoc. reflexivity.
    - rewrite !upto_nil by lia. reflexivity.
  Qed.
  Lemma reverse_ok n ops s step c psi : Forall (honest K X) ops -> Forall (fun o => reversible K X n o neg) ops -> known ops s -> zlen psi = n ->
    exists s1 psi1 s2, gspo_apply K X xeqb half ops s step c psi = Ok (s1, psi1) /\ gspo_apply K X xeqb half ops s1 step (neg c) psi1 = Ok (s2, psi).
  Proof.
    intros Hh Hr Kn Lp. eexists. eexists. eexists. split; [apply apply_ok; assumption|]. rewrite apply_ok by (try assumption; apply known_after). f_equal. f_equal.
    rewrite <- (order_rev (zlen ops)) at 1. apply (stages_inverse n ops step c (order (zlen ops)) Hr psi Lp).
  Qed.
End G.
