(** Proofs about eigenfunctions from the auto correlation. *)
From Coq Require Import List ZArith Lia Bool QArith Qcanon Ring Field.
From Verif Require Import Base Arrays Algebra Complex Model.Operators Spec.Operators Proofs.Operators Proofs.OMultistate Spec.Projection Proofs.Projection Proofs.Eigen Model.AutoCorr Spec.AutoCorr.
Import ListNotations.
Open Scope Z_scope.

Lemma qz_add a b : qz (a + b) = (qz a + qz b)%Qc.
Proof. unfold qz. apply Qc_is_canon. cbn [this Q2Qc]. unfold Qcplus, Q2Qc. cbn [this]. rewrite !Qred_correct. rewrite <- inject_Z_plus. reflexivity. Qed.
Lemma qz_mul a b : qz (a * b) = (qz a * qz b)%Qc.
Proof. unfold qz. apply Qc_is_canon. unfold Qcmult, Q2Qc. cbn [this]. rewrite !Qred_correct. rewrite <- inject_Z_mult. reflexivity. Qed.
Lemma qz_0 z : qz z = Q2Qc 0 -> z = 0.
Proof. intros E. apply (f_equal this) in E. unfold qz, Q2Qc in E. cbn [this] in E. assert (G : (inject_Z z == 0)%Q) by (rewrite <- (Qred_correct (inject_Z z)), E; reflexivity). unfold Qeq in G. cbn in G. lia. Qed.

Section S.
  Variable D : cring.
  Variable M : cmodule (Cx D).
  Variable dot : M -> M -> Cx D.
  Variable cis : Qc -> Cx D.
  Add Ring DD : (cr_th D).
  Add Ring CD : (cr_th (Cx D)).
  Notation "a *: x" := (mscale a x) (at level 40, left associativity).
  Infix "+:" := madd (at level 50, left associativity).
  Notation msum := (msum (Cx D) M).

  Lemma of_one (e : D) : fst (cmul (cx_of e : Cx D) c1) = e.
  Proof. clear. cbn. ring. Qed.
  Lemma cmul_swap (a b : Cx D) : cmul a b = cmul b a.
  Proof. clear. ring. Qed.
  Lemma msum_app' (a b : list M) : msum (a ++ b) = msum a +: msum b.
  Proof. clear. induction a as [|x a IH]; cbn [app Spec.Operators.msum]; [symmetry; apply (madd_0 (Cx D) M)|]. rewrite IH, (madd_assoc (Cx D) M). reflexivity. Qed.
  Lemma add4 (a b c d : M) : a +: b +: (c +: d) = a +: c +: (b +: d).
  Proof. clear. rewrite <- !(madd_assoc (Cx D) M). f_equal. rewrite !(madd_assoc (Cx D) M). f_equal. apply (madd_comm (Cx D) M). Qed.
  Lemma msum_mix {A B} (f : A -> Cx D) (g : B -> A -> Cx D) (x : B -> M) (S : list A) (a : list B) :
    msum (map (fun s => f s *: msum (map (fun c => g c s *: x c) a)) S) = msum (map (fun c => lsum (fun s => cmul (f s) (g c s)) S *: x c) a).
  Proof.
    clear. induction S as [|s S IH]; cbn [map Spec.Operators.msum lsum].
    - induction a as [|c a IHa]; cbn [map Spec.Operators.msum]; [reflexivity|]. rewrite <- IHa, (mscale_0 (Cx D) M). symmetry. apply (madd_0 (Cx D) M).
    - rewrite IH. clear IH. induction a as [|c a IHa]; cbn [map Spec.Operators.msum].
      + rewrite (mscale_m0 (Cx D) M). apply (madd_0 (Cx D) M).
      + rewrite <- IHa, (mscale_add_l (Cx D) M), (mscale_add_r (Cx D) M), <- (mscale_mul (Cx D) M). apply add4.
  Qed.
  (** sums of roots of unity *)
  Section Roots.
    Variable n : Z.
    Hypothesis Hn : 0 < n.
    Hypothesis Ph : phases D cis n.
    Hypothesis Dm : domain D.
    Notation e k := (cis (qz k / qz n)%Qc).
    Lemma e_0 : e 0 = c1.
    Proof. apply (proj2 Ph). apply Z.mod_0_l. lia. Qed.
    Lemma geometric k m : 0 <= m -> cmul (lsum (fun s => e (k * s)) (upto 0 m)) (csub (e k) c1) = csub (e (k * m)) c1.
    Proof.
      intros Hm. pattern m. apply natlike_ind; [| |exact Hm].
      - rewrite upto_nil by lia. cbn [lsum]. rewrite Z.mul_0_r, e_0. ring.
      - intros j Hj IH. replace (Z.succ j) with (j + 1) by lia. rewrite upto_snoc, lsum_app by lia. cbn [lsum].
        replace (k * (j + 1)) with (k * j + k) by ring. rewrite (proj1 Ph). transitivity (cadd (cmul (lsum (fun s => e (k * s)) (upto 0 j)) (csub (e k) c1)) (cmul (e (k * j)) (csub (e k) c1))); [ring|]. rewrite IH. ring.
    Qed.
    Lemma lsum_one (l : list Z) : lsum (fun _ => c1 : Cx D) l = ofZ (zlen l).
    Proof. clear. induction l as [|x l IH]; [reflexivity|]. cbn [lsum]. rewrite IH. unfold zlen. cbn [length]. rewrite Nat2Z.inj_succ, <- Z.add_1_l, ofZ_add, ofZ_1. reflexivity. Qed.
    Lemma roots k : lsum (fun s => e (k * s)) (upto 0 n) = if k mod n =? 0 then ofZ n else c0.
    Proof.
      destruct (Z.eqb_spec (k mod n) 0) as [E|E].
      - rewrite (lsum_ext _ _ (fun _ => c1)); [rewrite lsum_one; f_equal; unfold zlen; rewrite upto_length; lia|]. intros s _. apply (proj2 Ph). rewrite Z.mul_mod, E by lia. rewrite Z.mul_0_l. apply Z.mod_0_l. lia.
      - pose proof (geometric k n ltac:(lia)) as G. rewrite (proj2 (proj2 Ph (k * n))) in G by (apply Z.mod_mul; lia).
        assert (G0 : csub (c1 : Cx D) c1 = c0) by ring. destruct (Dm _ _ (eq_trans G G0)) as [G1|G1]; [exact G1|]. exfalso. apply E. apply (proj2 Ph). transitivity (cadd (csub (e k) c1) c1); [ring|]. rewrite G1. ring.
    Qed.
    (** the Fourier component of a series *)
    Notation fourier := (dft D M cis n).
    Lemma find_none_scale (a : list (Z * M)) j : (forall c, In c a -> fst c mod n <> j mod n) -> msum (map (fun c => (if (j - fst c) mod n =? 0 then ofZ n else c0) *: snd c) a) = m0.
    Proof.
      clear - Hn. intros H. induction a as [|c a IH]; [reflexivity|]. cbn [map Spec.Operators.msum]. rewrite IH by (intros d Hd; apply H; right; exact Hd). rewrite (madd_0r (Cx D) M).
      destruct (Z.eqb_spec ((j - fst c) mod n) 0) as [E|E]; [|apply (mscale_0 (Cx D) M)]. exfalso. apply (H c (or_introl eq_refl)).
      rewrite Z.mod_divide in E by lia. destruct E as [q Eq]. replace j with (fst c + q * n) by lia. symmetry. apply Z.mod_add. lia.
    Qed.
    Lemma component_sum (a : list (Z * M)) j : distinct D M n a -> msum (map (fun c => (if (j - fst c) mod n =? 0 then ofZ n else c0) *: snd c) a) = ofZ n *: component D M n a j.
    Proof.
      clear - Hn. unfold distinct, component. induction a as [|c a IH]; intros Nd; cbn [map Spec.Operators.msum find]; [symmetry; apply (mscale_m0 (Cx D) M)|]. cbn [map] in Nd. inversion Nd as [|u v Nc Na]. subst u v.
      destruct (Z.eqb_spec (fst c mod n) (j mod n)) as [E|E].
      - rewrite find_none_scale.
        + rewrite (madd_0r (Cx D) M). rewrite (proj2 (Z.eqb_eq ((j - fst c) mod n) 0)); [reflexivity|]. rewrite Zminus_mod, E, Z.sub_diag. apply Z.mod_0_l. lia.
        + intros d Hd C. apply Nc. apply in_map_iff. exists d. split; [congruence|exact Hd].
      - rewrite (IH Na). rewrite (proj2 (Z.eqb_neq ((j - fst c) mod n) 0)); [rewrite (mscale_0 (Cx D) M); apply (madd_0 (Cx D) M)|].
        intros C. apply E. rewrite Z.mod_divide in C by lia. destruct C as [q Eq]. replace j with (fst c + q * n) by lia. symmetry. apply Z.mod_add. lia.
    Qed.
    Lemma fourier_series a ws j : series D M cis n a ws -> distinct D M n a -> fourier ws j = ofZ n *: component D M n a j.
    Proof.
      intros [Hl Hs] Nd. unfold dft. rewrite <- (component_sum a j Nd).
      transitivity (msum (map (fun s => e (j * s) *: msum (map (fun c => e (- (fst c * s)) *: snd c) a)) (upto 0 n))).
      - f_equal. apply map_ext_in. intros s Hi. apply in_upto in Hi. f_equal. specialize (Hs s Hi). rewrite (rd_nth ws s m0) in Hs by lia. injection Hs as Hs. exact Hs.
      - rewrite (msum_mix (fun s => e (j * s)) (fun c s => e (- (fst c * s))) (fun c => snd c)). f_equal. apply map_ext. intros c. f_equal. rewrite <- roots. apply lsum_ext. intros s _. rewrite <- (proj1 Ph). do 2 f_equal. f_equal. ring.
    Qed.
    Lemma fourier_shift ws j m : fourier ws (j + m * n) = fourier ws j.
    Proof.
      unfold dft. f_equal. apply map_ext. intros s. f_equal. replace ((j + m * n) * s) with (j * s + (m * s) * n) by ring. rewrite (proj1 Ph), (proj2 (proj2 Ph (m * s * n))) by (apply Z.mod_mul; lia). ring.
    Qed.
    (** the integration with a frequency of the grid *)
    Lemma integrate_ok ws dt w j : zlen ws = n -> (forall s, (w * qz s * dt = qz (j * s) / qz n)%Qc) -> integrate D M cis ws dt w = Ok (fourier ws j).
    Proof.
      intros Hl Hw. unfold integrate. rewrite (rd_nth ws 0 m0) by lia. cbn [bind].
      destruct (foldM_upto (fun psi s => let* x := rd ws s in Ok (psi +: cis (w * qz s * dt)%Qc *: x)) (fun k psi => psi = msum (map (fun s => e (j * s) *: nth (Z.to_nat s) ws m0) (upto 0 k))) 1 (zlen ws) (nth (Z.to_nat 0) ws m0)) as (r & Er & Hr).
      - lia.
      - change (upto 0 1) with [0]. cbn [map Spec.Operators.msum]. rewrite Z.mul_0_r, e_0, (mscale_1 (Cx D) M), (madd_0r (Cx D) M). reflexivity.
      - intros k psi Hk ->. rewrite (rd_nth ws k m0) by lia. cbn [bind]. eexists. split; [reflexivity|]. rewrite upto_snoc, map_app, msum_app' by lia. cbn [map Spec.Operators.msum]. rewrite (madd_0r (Cx D) M), Hw. reflexivity.
      - rewrite Er, Hr, Hl. reflexivity.
    Qed.
  End Roots.
  Lemma frequency_grid n cdt csteps dt idx : 0 < n -> (cdt * qz csteps = dt * qz n)%Qc -> dt <> Q2Qc 0 -> exists m, forall s, (frequency n cdt csteps idx * qz s * dt = qz ((idx + m * n) * s) / qz n)%Qc.
  Proof.
    clear. intros Hn E Hd. assert (Hq : qz n <> Q2Qc 0) by (intros C; apply qz_0 in C; lia). unfold frequency. rewrite E.
    exists (if idx <? Z.quot n 2 then 0 else -1). intros s. destruct (idx <? Z.quot n 2).
    - replace ((idx + 0 * n) * s) with (idx * s) by ring. rewrite qz_mul. field. split; assumption.
    - replace ((idx + -1 * n) * s) with ((idx - n) * s) by ring. rewrite qz_mul. field. split; assumption.
  Qed.
  Variable U : Z -> M -> M.
  Lemma propagate_length n clk psi : length (propagate D M U n clk psi) = n.
  Proof. clear dot cis. revert clk psi. induction n as [|n IH]; intros clk psi; cbn; [reflexivity|]. rewrite IH. reflexivity. Qed.
  Lemma foldM_map_snoc {A B} (f : A -> outcome B) (g : A -> B) l acc : (forall x, In x l -> f x = Ok (g x)) -> foldM (fun r x => let* y := f x in Ok (r ++ [y])) l acc = Ok (acc ++ map g l).
  Proof. clear. revert acc. induction l as [|x l IH]; intros acc Hf; cbn [foldM map]; [rewrite app_nil_r; reflexivity|]. rewrite (Hf x (or_introl eq_refl)). cbn [bind]. rewrite IH by (intros z Hz; apply Hf; right; exact Hz). rewrite <- app_assoc. reflexivity. Qed.
  Variable H : M -> M.
  Variable norm : M -> option M.
  Variable peaks : list (Cx D) -> list Z.
  Definition finish (x : M) : option (M * D) := match norm x with Some p => Some (p, fst (dot p (H p))) | None => None end.
  Lemma extract_grid ws n dt cdt csteps : 0 < n -> phases D cis n -> zlen ws = n -> (cdt * qz csteps = dt * qz n)%Qc -> dt <> Q2Qc 0 ->
    extract D M dot H norm cis peaks ws dt cdt csteps = Ok (map (fun idx => finish (dft D M cis n ws idx)) (peaks (autocorr D M dot ws))).
  Proof.
    clear U. intros Hn Ph Hl E Hd. unfold extract.
    rewrite (foldM_ext _ (fun l idx => let* y := (let* psi := integrate D M cis ws dt (frequency (zlen ws) cdt csteps idx) in Ok (finish psi)) in Ok (l ++ [y]))).
    - rewrite (foldM_map_snoc _ (fun idx => finish (dft D M cis n ws idx))); [reflexivity|]. intros idx _. destruct (frequency_grid n cdt csteps dt idx Hn E Hd) as [m Hm]. rewrite Hl.
      rewrite (integrate_ok n Hn Ph ws dt _ (idx + m * n) Hl Hm). cbn [bind]. rewrite (fourier_shift n Hn Ph). reflexivity.
    - intros idx l _. destruct (integrate D M cis ws dt (frequency (zlen ws) cdt csteps idx)) as [psi| |]; reflexivity.
  Qed.
End S.
