From Coq Require Import List ZArith Lia Bool Ring Field.
From Verif Require Import Base Arrays Algebra Complex Ordered Model.Stokes Spec.Stokes.
Import ListNotations.
Open Scope Z_scope.

Section Proofs.
  Variable F : ofld.
  Notation C := (Cx F).
  Notation wf := (Z -> C).
  Add Ring FrS : (cr_th F).
  Add Field FfS : (f_th F).
  Add Ring CrS : (cr_th (Cx F)).
  Lemma one_neq : (c1 : F) <> c0.
  Proof. apply pos_neq, one_pos. Qed.
  Lemma div1 (a : F) : fdiv a c1 = a.
  Proof. field. exact one_neq. Qed.
  Lemma root1 sq : root F sq c1 -> sq c1 = c1.
  Proof.
    intros [H0 H1]. apply (sqrt_unique F); [exact H0|left; apply one_pos|]. rewrite H1. ring.
  Qed.
  Section One.
    Variable n : Z.
    Variables (dv pi : F) (sq : F -> F).
    Variables X P T : wf -> wf.
    Lemma ip_conj a b : inner F n dv a b = cx_conj (inner F n dv b a).
    Proof.
      clear. unfold inner. rewrite (conj_mul F), (conj_lsum F). f_equal; [apply cx_eq; cbn; ring|]. apply lsum_ext. intros k _. rewrite (conj_mul F), (conj_conj F). ring.
    Qed.
    Lemma real_of (z : C) : z = cx_conj z -> snd z = c0.
    Proof.
      clear. intros H. assert (E : cmul (cadd c1 c1) (snd z) = (c0 : F)).
      { apply (f_equal snd) in H. cbn in H. transitivity (cadd (snd z) (snd z)); [ring|]. rewrite H at 1. ring. }
      destruct (mul_eq0 F _ _ E) as [E2|E2]; [exfalso; exact (two_neq F E2)|exact E2].
    Qed.
    Lemma inner_real w : inner F n dv w w = (fst (inner F n dv w w), c0).
    Proof. apply cx_eq; [reflexivity|]. cbn [snd]. apply real_of. apply ip_conj. Qed.
    Lemma mean_real A w : hermitian F n dv A -> inner F n dv w (A w) = (fst (inner F n dv w (A w)), c0).
    Proof. intros H. apply cx_eq; [reflexivity|]. cbn [snd]. apply real_of. apply H. Qed.
    Lemma vel w : hermitian F n dv X -> hermitian F n dv T ->
      fst (cmul cx_i (csub (inner F n dv w (T (X w))) (inner F n dv w (X (T w))))) = cmul (two F) (snd (inner F n dv w (X (T w)))).
    Proof.
      clear. intros HX HT. rewrite (HT w (X w)). rewrite (HX w (T w)). rewrite (ip_conj (T w) (X w)). rewrite (conj_conj F).
      destruct (inner F n dv (X w) (T w)) as [a b]. cbn. unfold two. ring.
    Qed.
    Lemma albrecht e R w s k : alb_init F pi (Some e) (Some R) = Ok (al_eta s) -> hermitian F n dv X -> hermitian F n dv T ->
      fst (inner F n dv w w) = c1 -> root F sq c1 ->
      snd (alb_apply F n dv sq X T true s w) k = drag F n dv (cmul (cmul (cmul (six_of F) pi) e) R) T X w k.
    Proof.
      intros E HX HT N Hr. injection E as E. unfold alb_apply, drag, velocity, mean. cbn [snd al_xe al_ve al_eta]. unfold norm.
      change (ip F n dv w w) with (inner F n dv w w). change (ip F n dv w (X w)) with (inner F n dv w (X w)). change (ip F n dv w (X (T w))) with (inner F n dv w (X (T w))).
      rewrite N, (root1 sq Hr), !div1, (vel w HX HT), <- E. unfold six, six_of, two. apply cx_eq; cbn; ring.
    Qed.
    Lemma inner_comb w (a b : C) (f g : wf) : inner F n dv w (fun k => cadd (cmul a (f k)) (cmul b (g k))) = cadd (cmul a (inner F n dv w f)) (cmul b (inner F n dv w g)).
    Proof.
      clear. unfold inner. transitivity (cmul (cx_of dv) (cadd (cmul a (lsum (fun k => cmul (cx_conj (w k)) (f k)) (upto 0 n))) (cmul b (lsum (fun k => cmul (cx_conj (w k)) (g k)) (upto 0 n))))); [|ring].
      f_equal. rewrite <- !lsum_mul. rewrite <- lsum_add. apply lsum_ext. intros k _. ring.
    Qed.
    Lemma inner_ext w f g : (forall k, 0 <= k < n -> f k = g k) -> inner F n dv w f = inner F n dv w g.
    Proof. clear. intros H. unfold inner. f_equal. apply lsum_ext. intros k Hk. apply in_upto in Hk. rewrite H by lia. reflexivity. Qed.
    Lemma inner_ext2 w w' f g : (forall k, 0 <= k < n -> w k = w' k) -> (forall k, 0 <= k < n -> f k = g k) -> inner F n dv w f = inner F n dv w' g.
    Proof. clear. intros H H'. unfold inner. f_equal. apply lsum_ext. intros k Hk. apply in_upto in Hk. rewrite H, H' by lia. reflexivity. Qed.
    Lemma balanced e w s : hermitian F n dv X -> fst (inner F n dv w w) = c1 -> root F sq c1 -> al_eta s = e ->
      inner F n dv w (snd (alb_apply F n dv sq X T true s w)) = c0.
    Proof.
      intros HX N Hr _. unfold alb_apply. cbn [snd al_xe al_ve al_eta]. unfold norm.
      change (ip F n dv w w) with (inner F n dv w w). change (ip F n dv w (X w)) with (inner F n dv w (X w)). rewrite N, (root1 sq Hr), div1.
      set (v := cmul (al_eta s) _). set (m := fst (inner F n dv w (X w))).
      transitivity (inner F n dv w (fun k => cadd (cmul (cmul (cx_of (copp m)) (cx_of v)) (w k)) (cmul (cx_of v) (X w k)))).
      { apply inner_ext. intros k _. ring. }
      rewrite inner_comb, inner_real, (mean_real X w HX), N. fold m. apply cx_eq; cbn; ring.
    Qed.
    Lemma kept s (a b : C) f g k : linear F n X -> 0 <= k < n -> fst (alb_apply F n dv sq X T false s f) = s /\
      snd (alb_apply F n dv sq X T false s (fun k => cadd (cmul a (f k)) (cmul b (g k)))) k =
      cadd (cmul a (snd (alb_apply F n dv sq X T false s f) k)) (cmul b (snd (alb_apply F n dv sq X T false s g) k)) /\
      snd (alb_apply F n dv sq X T false s f) k = cmul (cx_of (cmul (al_eta s) (al_ve s))) (csub (X f k) (cmul (cx_of (al_xe s)) (f k))).
    Proof.
      intros HL Hk. unfold alb_apply. cbn [fst snd]. split; [reflexivity|]. split; [rewrite (HL a b f g k Hk); ring|].
      replace (cx_of (copp (al_xe s)) : C) with (copp (cx_of (al_xe s) : C)) by (apply cx_eq; cbn; ring). ring.
    Qed.

    Variables sgm sgmi : F -> F -> Z -> F.
    Notation gam s := (cmul (cmul (cmul (fdiv (st_eta s) (st_mass s)) (st_R s)) (six_of F)) pi).
    Lemma fst_conj (z : C) : fst (cx_conj z) = fst z.
    Proof. clear. reflexivity. Qed.
    Lemma stokes_exact mem xmin dx s w k : st_slope s = c0 -> local F n X -> local F n P -> fst (inner F n dv w w) = c1 -> root F sq c1 -> 0 <= k < n ->
      snd (stokes_apply F n dv pi sq X P true (stokes_shape F sgm sgmi mem xmin dx s) w) k =
      cmul (cx_of (gam s)) (cadd
        (cmul (cx_of (st_c s)) (csub (cmul (cx_of (fdiv c1 (cadd c1 c1))) (cadd (X (P w) k) (P (X w) k))) (cmul (cx_of (mean F n dv X w)) (P w k))))
        (cmul (cx_of (cmul (csub c1 (st_c s)) (mean F n dv P w))) (cmul (cx_of (cadd (mem k) (mean F n dv X w))) (w k)))).
    Proof.
      intros HS LX LP N Hr Hk. unfold stokes_shape. rewrite HS. destruct (ocmp (c0 : F) c0) as [[L|_]|L]; try (exfalso; exact (olt_irr F _ L)).
      unfold stokes_apply. cbn [st_sig st_int st_c st_xe st_pe st_mass st_eta st_R snd fst]. set (psi := by_vec F w (fun _ => c1)).
      assert (EP : forall f j, 0 <= j < n -> by_vec F f (fun _ => c1) j = f j) by (intros f j _; unfold by_vec; apply cx_eq; cbn; ring).
      assert (Ex : fdiv (fst (ip F n dv (X psi) psi)) (norm F n dv sq psi) = mean F n dv X w).
      { unfold norm, mean. change (ip F n dv (X psi) psi) with (inner F n dv (X psi) psi). change (ip F n dv psi psi) with (inner F n dv psi psi).
        rewrite (inner_ext2 psi w psi w (EP w) (EP w)). rewrite N, (root1 sq Hr), !div1. rewrite (inner_ext2 (X psi) (X w) psi w (LX _ _ (EP w)) (EP w)).
        rewrite (ip_conj (X w) w), fst_conj. reflexivity. }
      assert (Ep : fdiv (fst (ip F n dv (P psi) psi)) (norm F n dv sq psi) = mean F n dv P w).
      { unfold norm, mean. change (ip F n dv (P psi) psi) with (inner F n dv (P psi) psi). change (ip F n dv psi psi) with (inner F n dv psi psi).
        rewrite (inner_ext2 psi w psi w (EP w) (EP w)). rewrite N, (root1 sq Hr), !div1. rewrite (inner_ext2 (P psi) (P w) psi w (LP _ _ (EP w)) (EP w)).
        rewrite (ip_conj (P w) w), fst_conj. reflexivity. }
      rewrite Ex, Ep. set (x := mean F n dv X w). set (p := mean F n dv P w).
      pose proof (LX _ _ (EP (P w)) k Hk) as E1. pose proof (LP _ _ (LX _ _ (EP w)) k Hk) as E2. pose proof (LP _ _ (EP w) k Hk) as E3. pose proof (EP (P w) k Hk) as E4.
      fold psi in E2, E3. unfold six, six_of, two. generalize (fdiv (st_eta s) (st_mass s)). intros g0.
      destruct (ocmp (st_c s) c0) as [[L|E]|L].
      - unfold scal, plus, minus. rewrite E1, E2, E3, E4. unfold by_vec, half, two. apply cx_eq; cbn; field; exact (two_neq F).
      - unfold scal, plus, minus, by_vec. rewrite E. apply cx_eq; cbn; ring.
      - unfold scal, plus, minus. rewrite E1, E2, E3, E4. unfold by_vec, half, two. apply cx_eq; cbn; field; exact (two_neq F).
    Qed.
    Lemma stokes_one mem xmin dx s w k : st_slope s = c0 -> st_c s = c1 -> local F n X -> local F n P -> fst (inner F n dv w w) = c1 -> root F sq c1 -> 0 <= k < n ->
      snd (stokes_apply F n dv pi sq X P true (stokes_shape F sgm sgmi mem xmin dx s) w) k = friction F n dv (gam s) (st_c s) X P w k.
    Proof.
      intros HS HC LX LP N Hr Hk. rewrite stokes_exact by assumption. unfold friction. rewrite HC. f_equal. f_equal.
      transitivity (c0 : C); [|symmetry]; (replace (cx_of (cmul (csub c1 c1) (mean F n dv P w)) : C) with (c0 : C) by (apply cx_eq; cbn; ring)); ring.
    Qed.
  End One.
  Lemma stokes_init_exact (mass eta R c x0 slope : option F) :
    stokes_init F mass eta R c x0 slope = Throw <-> mass = None \/ eta = None \/ R = None \/ exists v, c = Some v /\ (olt v c0 \/ olt c1 v).
  Proof.
    unfold stokes_init. destruct mass as [m|]; [|split; auto]. destruct eta as [e|]; [|split; auto]. destruct R as [r|]; [|split; auto].
    destruct c as [v|].
    - destruct (ocmp v c0) as [[L|E]|L].
      + split; [|reflexivity]. intros _. right; right; right. exists v. auto.
      + destruct (ocmp v c1) as [[L'|E']|L']; (split; [try discriminate|]); try reflexivity.
        * intros [H|[H|[H|(v' & H & [H'|H'])]]]; try discriminate; injection H as <-; [subst v; exfalso; exact (olt_irr F _ H')|exfalso; exact (asym F _ _ L' H')].
        * intros [H|[H|[H|(v' & H & [H'|H'])]]]; try discriminate; injection H as <-; [subst v; exfalso; exact (olt_irr F _ H')|rewrite E' in H'; exfalso; exact (olt_irr F _ H')].
        * intros _. right; right; right. exists v. auto.
      + destruct (ocmp v c1) as [[L'|E']|L']; (split; [try discriminate|]); try reflexivity.
        * intros [H|[H|[H|(v' & H & [H'|H'])]]]; try discriminate; injection H as <-; [exfalso; exact (asym F _ _ L H')|exfalso; exact (asym F _ _ L' H')].
        * intros [H|[H|[H|(v' & H & [H'|H'])]]]; try discriminate; injection H as <-; [exfalso; exact (asym F _ _ L H')|rewrite E' in H'; exfalso; exact (olt_irr F _ H')].
        * intros _. right; right; right. exists v. auto.
    - split; [discriminate|]. intros [H|[H|[H|(v & H & _)]]]; discriminate.
  Qed.

  (** * OGridGStokes *)
  Variable pi : F.
  Variable cexp : C -> C.
  Notation run := (gs_run F pi cexp).
  Lemma psis_ok m dt d f : exists f', gs_psis F m dt d d f = Ok f'.
  Proof. clear. revert f. induction m as [|m IH]; intros f; [eexists; reflexivity|]. cbn [gs_psis]. unfold gs_psi. rewrite Z.ltb_irrefl. cbn [bind]. apply IH. Qed.
  Lemma dims_ok max eta R d : 0 <= d <= max -> gs_init F pi max (Some eta) (Some R) (Some d) = Ok (cmul (cmul (cmul (copp (six F)) pi) eta) R, d).
  Proof. clear. intros H. unfold gs_init. destruct (Z.ltb_spec max d); [lia|]. destruct (Z.ltb_spec d 0); [lia|]. reflexivity. Qed.
  Lemma apply_ok f d G p q src : 0 <= d ->
    gs_apply F cexp f d d G p q src = Ok (fun k => cmul (cexp (cmul (cx_of (gs_exponent F f d G p q k)) cx_i)) (src k)).
  Proof. clear. intros H. unfold gs_apply. destruct (Z.ltb_spec (2 * d) d); [lia|]. rewrite Z.ltb_irrefl. reflexivity. Qed.
  Lemma kick_one max eta R dt d G p q src : 0 <= d <= max -> exists w, run max (Some eta) (Some R) (Some d) 1 dt d G p q src = Ok w /\
    forall k, w k = cmul (cexp (cmul (cx_of (lsum (fun i => cmul (slowed F pi eta R dt d G p i k) (q i k)) (upto 0 d))) cx_i)) (src k).
  Proof.
    intros H. unfold gs_run. rewrite dims_ok by exact H. cbn [bind fst snd gs_psis]. unfold gs_psi. rewrite Z.ltb_irrefl. cbn [bind]. rewrite apply_ok by lia.
    eexists. split; [reflexivity|]. intros k. cbn beta. do 4 f_equal. unfold gs_exponent. apply lsum_ext. intros i _. f_equal. unfold slowed.
    rewrite (lsum_ext _ _ (fun j => cmul (copp (cmul (cmul (cmul (cmul (six_of F) pi) eta) R) dt)) (cmul (G i j k) (p j)))).
    - rewrite lsum_mul. ring.
    - intros j _. unfold six, six_of, two. ring.
  Qed.
  Lemma density max eta R m dt d G p q src : 0 <= d <= max -> (forall x : F, cmul (cx_conj (cexp (cmul (cx_of x) cx_i))) (cexp (cmul (cx_of x) cx_i)) = (c1 : C)) ->
    exists w, run max (Some eta) (Some R) (Some d) m dt d G p q src = Ok w /\ forall k, cmul (cx_conj (w k)) (w k) = cmul (cx_conj (src k)) (src k).
  Proof.
    intros H H1. unfold gs_run. rewrite dims_ok by exact H. cbn [bind fst snd]. destruct (psis_ok m dt d (cmul (cmul (cmul (copp (six F)) pi) eta) R)) as (f & ->). cbn [bind].
    rewrite apply_ok by lia. eexists. split; [reflexivity|]. intros k. cbn beta. rewrite (conj_mul F). set (x := gs_exponent F f d G p q k).
    transitivity (cmul (cmul (cx_conj (cexp (cmul (cx_of x) cx_i))) (cexp (cmul (cx_of x) cx_i))) (cmul (cx_conj (src k)) (src k))); [ring|]. rewrite H1. ring.
  Qed.
  Lemma twice max eta R dt d G p q src : 0 <= d <= max -> exists w, run max (Some eta) (Some R) (Some d) 2 dt d G p q src = Ok w /\
    run max (Some eta) (Some R) (Some d) 1 (cmul dt dt) d G p q src = Ok w.
  Proof.
    intros H. unfold gs_run. rewrite dims_ok by exact H. cbn [bind fst snd gs_psis]. unfold gs_psi. rewrite !Z.ltb_irrefl. cbn [bind].
    replace (cmul (cmul (cmul (cmul (copp (six F)) pi) eta) R) (cmul dt dt)) with (cmul (cmul (cmul (cmul (cmul (copp (six F)) pi) eta) R) dt) dt) by ring.
    rewrite !apply_ok by lia. eexists. split; reflexivity.
  Qed.
  Lemma outside max eta R dims m dt d G p q src : 0 <= dims <= max -> (0 < m)%nat ->
    (d < dims -> run max (Some eta) (Some R) (Some dims) m dt d G p q src = Throw) /\
    (2 * dims < d -> run max (Some eta) (Some R) (Some dims) m dt d G p q src = Throw) /\
    (dims < d <= 2 * dims -> run max (Some eta) (Some R) (Some dims) m dt d G p q src = UB).
  Proof.
    intros H Hm. unfold gs_run. rewrite dims_ok by exact H. cbn [bind fst snd]. split; [|split].
    - intros L. destruct m; [lia|]. cbn [gs_psis]. unfold gs_psi. destruct (Z.ltb_spec d dims); [reflexivity|lia].
    - intros L. assert (E : exists f, gs_psis F m dt dims d (cmul (cmul (cmul (copp (six F)) pi) eta) R) = Ok f).
      { generalize (cmul (cmul (cmul (copp (six F)) pi) eta) R). clear Hm. induction m as [|m IH]; intros f; [eexists; reflexivity|]. cbn [gs_psis]. unfold gs_psi.
        destruct (Z.ltb_spec d dims); [lia|]. cbn [bind]. apply IH. }
      destruct E as (f & ->). cbn [bind]. unfold gs_apply. destruct (Z.ltb_spec (2 * dims) d); [reflexivity|lia].
    - intros L. assert (E : exists f, gs_psis F m dt dims d (cmul (cmul (cmul (copp (six F)) pi) eta) R) = Ok f).
      { generalize (cmul (cmul (cmul (copp (six F)) pi) eta) R). clear Hm. induction m as [|m IH]; intros f; [eexists; reflexivity|]. cbn [gs_psis]. unfold gs_psi.
        destruct (Z.ltb_spec d dims); [lia|]. cbn [bind]. apply IH. }
      destruct E as (f & ->). cbn [bind]. unfold gs_apply. destruct (Z.ltb_spec (2 * dims) d); [lia|]. destruct (Z.ltb_spec dims d); [reflexivity|lia].
  Qed.
  Lemma one_dim max eta R m dt d G p q src : 1 <= max -> run max eta R None m dt d G p q src = run max eta R (Some 1) m dt d G p q src.
  Proof. clear. intros H. unfold gs_run, gs_init. destruct eta as [e|]; [|reflexivity]. destruct R as [r|]; [|reflexivity]. destruct (Z.ltb_spec max 1); [lia|]. reflexivity. Qed.
  Lemma gs_refused max eta R par m dt d G p q src : eta = None \/ R = None \/ (exists k, par = Some k /\ (k < 0 \/ max < k)) ->
    run max eta R par m dt d G p q src = Throw.
  Proof.
    intros H. unfold gs_run, gs_init. destruct eta as [e|]; [|reflexivity]. destruct R as [r|]; [|reflexivity]. destruct H as [H|[H|(k & -> & H)]]; try discriminate.
    destruct (Z.ltb_spec max k); [reflexivity|]. destruct (Z.ltb_spec k 0); [reflexivity|]. lia.
  Qed.
End Proofs.
