(** Proofs for Model/Spectral.v. *)
From Coq Require Import List ZArith Lia Bool Arith Field.
From Verif Require Import Base Arrays Algebra Complex Model.Grid Model.Repr Model.Derive Model.Spectral Spec.Repr Spec.Spectral Proofs.Repr.
Import ListNotations.
Open Scope Z_scope.

Section Proofs.
  Variable A : Type.
  Variable trans : bool -> list Z -> option nat -> list A -> list A.
  Notation srun := (s_run A trans).

  (** *** wave functions *)
  Notation dest := (on_grid A).
  Lemma live_set (s : state A) i r : r_ret A r = false -> live A (sset A s i r) i = Some r.
  Proof. intros R. unfold live, sset. rewrite fupd_same, R. reflexivity. Qed.
  Lemma live_other (s : state A) i j r : j <> i -> live A (sset A s i r) j = live A s j.
  Proof. intros R. unfold live, sset. rewrite fupd_other by exact R. reflexivity. Qed.
  Lemma live_ret (s : state A) i r : live A s i = Some r -> r_ret A r = false.
  Proof. unfold live. destruct (s i) as [q|]; [|discriminate]. destruct (r_ret A q) eqn:E; [discriminate|]. intros [= <-]. exact E. Qed.

  Lemma dim_ok_of r ds od : r_dims A r = ds -> od_ok ds od -> dim_ok A r od = true.
  Proof. intros <-. unfold od_ok, dim_ok. destruct od as [d|]; [|reflexivity]. intros H. apply Nat.ltb_lt. exact H. Qed.
  Lemma dim_ok_mk ds p m k t q od : od_ok ds od -> dim_ok A (mkR A ds p m k t q) od = true.
  Proof. apply dim_ok_of. reflexivity. Qed.

  Lemma out_of_place_run od g d i s ds x : od_ok ds od -> shows A s i ds x -> dest s d ds ->
    exists s', srun s (out_of_place A od g d i) = Some s' /\
      shows A s' d ds (trans false ds od (g (trans true ds od x))) /\
      (d <> i -> shows A s' i ds x) /\ (forall j, j <> d -> j <> i -> s' j = s j).
  Proof.
    intros O (r & L & D & K & P) (q & Lq & Dq). pose proof (live_ret _ _ _ L) as R. pose proof (live_ret _ _ _ Lq) as Rq.
    unfold out_of_place. cbn [s_run s_step]. rewrite L, (dim_ok_of _ _ _ D O).
    unfold s_trans. rewrite P, D. cbn [option_map].
    destruct (Nat.eq_dec d i) as [->|N].
    - rewrite L in Lq. injection Lq as <-.
      rewrite live_set by exact R. cbn [s_run s_step]. rewrite live_set by reflexivity.
      rewrite Z.eqb_refl. cbn [s_run s_step]. unfold set_active, active. cbn [r_k r_mom option_map r_dims r_pos r_ret r_made].
      rewrite live_set by reflexivity. cbn [s_run s_step r_dims r_pos r_mom r_made].
      rewrite live_set by reflexivity. cbn [r_dims r_pos r_mom r_made r_k r_ret]. rewrite dim_ok_mk by exact O.
      eexists. split; [reflexivity|]. split; [|split; [congruence|]].
      + eexists. split; [apply live_set; reflexivity|]. repeat split.
      + intros j Nj _. unfold sset. rewrite !fupd_other by exact Nj. reflexivity.
    - rewrite live_other by exact N. rewrite Lq. cbn [s_run s_step].
      rewrite live_set by reflexivity. rewrite live_other by (intros X; apply N; symmetry; exact X).
      rewrite live_set by exact R. cbn [r_dims]. rewrite Dq, Z.eqb_refl. cbn [s_run s_step].
      unfold set_active, active. cbn [r_k r_mom option_map r_dims r_pos r_ret r_made].
      rewrite !(live_other _ d i) by (intros X; apply N; symmetry; exact X). rewrite live_set by exact R.
      cbn [s_run s_step r_dims r_pos r_mom r_made]. rewrite (live_other _ i d) by exact N. rewrite live_set by reflexivity.
      cbn [r_dims r_pos r_mom r_made r_k r_ret]. rewrite dim_ok_mk by exact O. cbn [option_map].
      eexists. split; [reflexivity|]. split; [|split].
      + eexists. split; [apply live_set; reflexivity|]. repeat split.
      + intros _. eexists. rewrite live_other by (intros X; apply N; symmetry; exact X). rewrite live_set by reflexivity.
        split; [reflexivity|]. repeat split.
      + intros j Nj Ni. unfold sset. rewrite !(fupd_other _ d) by exact Nj. rewrite !(fupd_other _ i) by exact Ni.
        rewrite !(fupd_other _ d) by exact Nj. rewrite !(fupd_other _ i) by exact Ni. reflexivity.
  Qed.

  Lemma in_place_run od g i s ds x : od_ok ds od -> shows A s i ds x ->
    exists s', srun s (in_place A od g i) = Some s' /\
      shows A s' i ds (trans false ds od (g (trans true ds od x))) /\ (forall j, j <> i -> s' j = s j).
  Proof.
    intros O (r & L & D & K & P). pose proof (live_ret _ _ _ L) as R.
    unfold in_place. cbn [s_run s_step]. rewrite L, (dim_ok_of _ _ _ D O). unfold s_trans. rewrite P, D. cbn [option_map].
    rewrite live_set by exact R. rewrite Z.eqb_refl. cbn [s_run s_step]. unfold set_active, active.
    cbn [r_k r_mom option_map r_dims r_pos r_ret r_made]. rewrite live_set by exact R.
    rewrite dim_ok_mk by exact O. eexists. split; [reflexivity|]. split.
    - eexists. split; [apply live_set; exact R|]. repeat split.
    - intros j Nj. unfold sset. rewrite !fupd_other by exact Nj. reflexivity.
  Qed.

  (** *** careful use *)
  Fixpoint p_run (p : prepared) (s : state A) (cs : list (cmd A)) : prepared :=
    match cs with
    | [] => p
    | c :: t => match s_step A trans s c with Some s' => p_run (p_step A p s c) s' t | None => p end
    end.
  Lemma careful_app cs cs2 : forall p s s1, careful_run A trans p s cs -> srun s cs = Some s1 ->
    careful_run A trans (p_run p s cs) s1 cs2 -> careful_run A trans p s (cs ++ cs2).
  Proof.
    induction cs as [|c t IH]; intros p s s1 C E C2; cbn [careful_run s_run p_run app] in *; [injection E as <-; exact C2|].
    destruct C as [Cc C]. split; [exact Cc|]. destruct (s_step A trans s c) as [s'|]; [|discriminate]. exact (IH _ _ _ C E C2).
  Qed.
  Lemma run_app cs cs2 : forall s s1, srun s cs = Some s1 -> srun s (cs ++ cs2) = srun s1 cs2.
  Proof.
    induction cs as [|c t IH]; intros s s1 E; cbn [s_run app] in *; [injection E as <-; reflexivity|].
    destruct (s_step A trans s c) as [s'|]; [|discriminate]. exact (IH _ _ E).
  Qed.
  Lemma p_step_mono p s c es oe : p es oe = true -> p_step A p s c es oe = true.
  Proof. intros H. unfold p_step. destruct c; try exact H; destruct (live A s i); try exact H; unfold padd; rewrite ?H, ?orb_true_r; reflexivity. Qed.
  Lemma p_run_mono cs : forall p s es oe, p es oe = true -> p_run p s cs es oe = true.
  Proof.
    induction cs as [|c t IH]; intros p s es oe H; cbn [p_run]; [exact H|]. destruct (s_step A trans s c); [|exact H].
    apply IH, p_step_mono, H.
  Qed.
  Lemma dims_eqb_refl ds : dims_eqb ds ds = true.
  Proof. unfold dims_eqb. destruct (list_eq_dec Z.eq_dec ds ds); congruence. Qed.
  Lemma od_eqb_refl od : od_eqb od od = true.
  Proof. destruct od; [apply Nat.eqb_refl|reflexivity]. Qed.
  Lemma padd_self p ds od : padd p ds od ds od = true.
  Proof. unfold padd. rewrite dims_eqb_refl, od_eqb_refl. reflexivity. Qed.
  Lemma padd_mono p ds od es oe : p es oe = true -> padd p ds od es oe = true.
  Proof. intros H. unfold padd. rewrite H. apply orb_true_r. Qed.

  Notation free_of := (free_of A).
  Lemma careful_fw p s i r ds od : live A s i = Some r -> r_dims A r = ds -> r_k A r = false -> free_of p s i ds od ->
    careful A p s (CTrans A true i od) = true.
  Proof.
    intros L D K Fr. cbn [careful]. rewrite L, D, K. destruct od as [d|]; [|destruct (r_made A r); reflexivity].
    destruct Fr as [H|H]; [rewrite H; destruct (r_made A r); reflexivity|]. specialize (H r L).
    destruct (r_made A r) as [[|]|]; [congruence| |]; apply orb_true_r.
  Qed.
  Lemma careful_prep (p : prepared) s fw i od : (forall r, live A s i = Some r -> p (r_dims A r) None = true /\ p (r_dims A r) od = true) ->
    careful A p s (CTrans A fw i od) = true.
  Proof.
    intros H. cbn [careful]. destruct (live A s i) as [r|]; [|reflexivity]. destruct (H r eq_refl) as [H1 H2].
    rewrite H1. destruct od as [d|]; [rewrite H2|]; destruct (r_made A r), fw; reflexivity.
  Qed.

  Lemma careful_cons p s c t : careful A p s c = true ->
    (forall s', s_step A trans s c = Some s' -> careful_run A trans (p_step A p s c) s' t) -> careful_run A trans p s (c :: t).
  Proof. intros C H. split; [exact C|]. destruct (s_step A trans s c) as [s'|]; [exact (H s' eq_refl)|exact I]. Qed.
  Lemma out_of_place_careful p od g d i s ds x : od_ok ds od -> shows A s i ds x -> dest s d ds -> free_of p s i ds od ->
    careful_run A trans p s (out_of_place A od g d i).
  Proof.
    intros O (r & L & D & K & P) (q & Lq & Dq) Fr. pose proof (live_ret _ _ _ L) as R. pose proof (live_ret _ _ _ Lq) as Rq.
    unfold out_of_place. apply careful_cons; [exact (careful_fw p s i r ds od L D K Fr)|]. intros s1 S1.
    assert (Pp : forall es, es = ds -> p_step A p s (CTrans A true i od) es None = true /\ p_step A p s (CTrans A true i od) es od = true).
    { intros es ->. cbn [p_step]. rewrite L, D. split; [apply padd_mono|]; apply padd_self. }
    remember (p_step A p s (CTrans A true i od)) as p1 eqn:E1. clear E1.
    apply careful_cons; [reflexivity|]. intros s2 S2. apply careful_cons; [reflexivity|]. intros s3 S3.
    apply careful_cons; [reflexivity|]. intros s4 S4. apply careful_cons; [|intros; exact I].
    cbn [p_step]. apply careful_prep. intros r4 L4. apply Pp.
    cbn [s_step] in S1, S2, S3, S4. rewrite L, (dim_ok_of _ _ _ D O) in S1. injection S1 as <-. destruct (Nat.eq_dec d i) as [->|N].
    - rewrite live_set in S2 by exact R. injection S2 as <-. rewrite live_set, Z.eqb_refl in S3 by reflexivity. injection S3 as <-.
      rewrite live_set in S4 by reflexivity. injection S4 as <-. rewrite live_set in L4 by reflexivity. injection L4 as <-. exact D.
    - assert (N' : i <> d) by (intros X; apply N; symmetry; exact X).
      rewrite live_other, Lq in S2 by exact N. injection S2 as <-. rewrite live_set, live_other, live_set in S3 by (assumption || reflexivity).
      cbn [r_dims s_trans] in S3. rewrite D, Dq, Z.eqb_refl in S3. injection S3 as <-.
      rewrite !(live_other _ d i) in S4 by exact N'. rewrite live_set in S4 by exact R. injection S4 as <-.
      rewrite live_other, live_set in L4 by (assumption || reflexivity). injection L4 as <-. reflexivity.
  Qed.
  Lemma in_place_careful p od g i s ds x rest : od_ok ds od -> shows A s i ds x -> free_of p s i ds od ->
    (forall p s, careful_run A trans p s rest) -> careful_run A trans p s (in_place A od g i ++ rest).
  Proof.
    intros O (r & L & D & K & P) Fr Rest. pose proof (live_ret _ _ _ L) as R.
    unfold in_place. cbn [app]. apply careful_cons; [exact (careful_fw p s i r ds od L D K Fr)|]. intros s1 S1.
    assert (Pp : p_step A p s (CTrans A true i od) ds None = true /\ p_step A p s (CTrans A true i od) ds od = true).
    { cbn [p_step]. rewrite L, D. split; [apply padd_mono|]; apply padd_self. }
    remember (p_step A p s (CTrans A true i od)) as p1 eqn:E1. clear E1.
    apply careful_cons; [reflexivity|]. intros s2 S2. apply careful_cons; [|intros; apply Rest].
    cbn [p_step]. apply careful_prep. intros r2 L2. cbn [s_step] in S1, S2. rewrite L, (dim_ok_of _ _ _ D O) in S1. injection S1 as <-.
    rewrite live_set, Z.eqb_refl in S2 by exact R. injection S2 as <-.
    rewrite live_set in L2 by exact R. injection L2 as <-. cbn [s_trans set_active r_k r_dims]. rewrite D. exact Pp.
  Qed.

  (** *** on the model *)
  Lemma on_model junk flag wis prep cs0 cs s s' : before A trans junk flag wis prep cs0 s ->
    Forall (keeps A) cs -> careful_run A trans (p_run prep (nothing A) cs0) s cs -> srun s cs = Some s' ->
    exists w', run A trans junk flag (start A wis) (cs0 ++ cs) = Ok w' /\ seen A w' s'.
  Proof.
    intros (Htr & Hj & Hp & K0 & C0 & E0) K C E.
    apply (repr_careful A trans junk flag Htr Hj wis prep); [exact Hp|apply Forall_app; split; assumption| |].
    - exact (careful_app _ _ _ _ _ C0 E0 C).
    - rewrite (run_app _ _ _ _ E0). exact E.
  Qed.
  Lemma seen_looks w s i ds x : seen A w s -> shows A s i ds x -> looks A w i ds x.
  Proof.
    intros S (r & L & D & K & P). destruct (S i r L) as (o & l & G & Od & Ok & Rv & _ & X). exists o. rewrite Od, Ok.
    rewrite (X x) in Rv by (unfold active; rewrite K; exact P). repeat split; assumption.
  Qed.
  Lemma free_later prep s0 cs0 s i ds od : free_of prep s i ds od -> free_of (p_run prep s0 cs0) s i ds od.
  Proof. unfold Spec.Spectral.free_of. destruct od; [|trivial]. intros [H|H]; [left; apply p_run_mono; exact H|right; exact H]. Qed.
  Lemma shows_keep (s s' : state A) j es x : s' j = s j -> shows A s j es x -> shows A s' j es x.
  Proof. intros E (r & L & H). exists r. unfold live in *. rewrite E. split; assumption. Qed.

  Lemma apply_out junk flag wis prep cs0 s od g d i ds x : before A trans junk flag wis prep cs0 s -> od_ok ds od ->
    (forall y, zlen (g y) = zlen y) -> shows A s i ds x -> dest s d ds -> free_of prep s i ds od ->
    exists w', run A trans junk flag (start A wis) (cs0 ++ out_of_place A od g d i) = Ok w' /\
      looks A w' d ds (trans false ds od (g (trans true ds od x))) /\ (d <> i -> looks A w' i ds x) /\
      (forall j es v, j <> d -> j <> i -> shows A s j es v -> looks A w' j es v).
  Proof.
    intros B O Kg Si Sd Fr. destruct (out_of_place_run od g d i s ds x O Si Sd) as (s' & E & Hd & Hi & Ho).
    destruct (on_model junk flag wis prep cs0 (out_of_place A od g d i) s s' B) as (w' & R & S).
    - repeat constructor; cbn; try exact I. exact Kg.
    - apply (out_of_place_careful _ od g d i s ds x); [exact O|exact Si|exact Sd|apply free_later; exact Fr].
    - exact E.
    - exists w'. split; [exact R|]. split; [exact (seen_looks _ _ _ _ _ S Hd)|]. split; [intros N; exact (seen_looks _ _ _ _ _ S (Hi N))|].
      intros j es v Nd Ni Sj. exact (seen_looks _ _ _ _ _ S (shows_keep _ _ _ _ _ (Ho j Nd Ni) Sj)).
  Qed.
  Lemma apply_in junk flag wis prep cs0 s od g i ds x : before A trans junk flag wis prep cs0 s -> od_ok ds od ->
    (forall y, zlen (g y) = zlen y) -> shows A s i ds x -> free_of prep s i ds od ->
    exists w', run A trans junk flag (start A wis) (cs0 ++ in_place A od g i) = Ok w' /\
      looks A w' i ds (trans false ds od (g (trans true ds od x))) /\
      (forall j es v, j <> i -> shows A s j es v -> looks A w' j es v).
  Proof.
    intros B O Kg Si Fr. destruct (in_place_run od g i s ds x O Si) as (s' & E & Hi & Ho).
    destruct (on_model junk flag wis prep cs0 (in_place A od g i) s s' B) as (w' & R & S).
    - repeat constructor; cbn; try exact I. exact Kg.
    - rewrite <- (app_nil_r (in_place A od g i)). apply (in_place_careful _ od g i s ds x); [exact O|exact Si|apply free_later; exact Fr|intros; exact I].
    - exact E.
    - exists w'. split; [exact R|]. split; [exact (seen_looks _ _ _ _ _ S Hi)|].
      intros j es v Ni Sj. exact (seen_looks _ _ _ _ _ S (shows_keep _ _ _ _ _ (Ho j Ni) Sj)).
  Qed.
  Lemma apply_add junk flag wis prep cs0 s od g h i o ds x v0 : before A trans junk flag wis prep cs0 s -> od_ok ds od ->
    (forall y, zlen (g y) = zlen y) -> (forall x y, zlen x = zlen y -> zlen (h x y) = zlen x) ->
    shows A s i ds x -> shows A s o ds v0 -> o <> i -> free_of prep s i ds od ->
    exists w', run A trans junk flag (start A wis) (cs0 ++ (in_place A od g i ++ [COp A o i h])) = Ok w' /\
      looks A w' o ds (h v0 (trans false ds od (g (trans true ds od x)))) /\
      looks A w' i ds (trans false ds od (g (trans true ds od x))) /\
      (forall j es v, j <> i -> j <> o -> shows A s j es v -> looks A w' j es v).
  Proof.
    intros B O Kg Kh Si So N Fr. destruct (in_place_run od g i s ds x O Si) as (s1 & E & Hi & Ho).
    pose proof (shows_keep _ _ _ _ _ (Ho o N) So) as (q & Lq & Dq & Kq & Pq). destruct Hi as (r & Lr & Dr & Kr & Pr).
    pose proof (live_ret _ _ _ Lq) as Rq.
    assert (E2 : srun s (in_place A od g i ++ [COp A o i h]) = Some (sset A s1 o (set_active A q (lift2 A h (active A q) (active A r))))).
    { rewrite (run_app _ _ _ _ E). cbn [s_run s_step]. rewrite Lq, Lr, Dq, Dr, Z.eqb_refl. reflexivity. }
    edestruct (on_model junk flag wis prep cs0 (in_place A od g i ++ [COp A o i h]) s) as (w' & R & S); [exact B| | |exact E2|].
    - apply Forall_app. split; [repeat constructor; cbn; try exact I; exact Kg|]. repeat constructor. exact Kh.
    - apply (in_place_careful _ od g i s ds x); [exact O|exact Si|apply free_later; exact Fr|].
      intros p t. apply careful_cons; [reflexivity|]. intros; exact I.
    - exists w'. split; [exact R|]. split; [|split].
      + apply (seen_looks _ _ _ _ _ S). unfold active, set_active. rewrite Kq, Kr, Pq, Pr. cbn [lift2].
        eexists. split; [apply live_set; exact Rq|]. repeat split. exact Dq.
      + apply (seen_looks _ _ _ _ _ S). exists r. rewrite live_other by (intros X; apply N; symmetry; exact X). repeat split; assumption.
      + intros j es v Ni No Sj. apply (seen_looks _ _ _ _ _ S). apply (shows_keep s); [|exact Sj].
        unfold sset. rewrite fupd_other by exact No. exact (Ho j Ni).
  Qed.

  (** *** mixed derivatives *)
  Lemma dxdy_run junk flag wis prep cs0 s g d1 d2 o i ds x : before A trans junk flag wis prep cs0 s -> (d1 < length ds)%nat -> (d2 < length ds)%nat ->
    (forall y, zlen (g y) = zlen y) -> shows A s i ds x -> (exists r, live A s o = Some r /\ r_dims A r = ds /\ r_k A r = false) ->
    prep ds None = true -> prep ds (Some d1) = true -> prep ds (Some d2) = true ->
    exists w', run A trans junk flag (start A wis) (cs0 ++ [CMap A o i (fun y => y); CTrans A true o (Some d1); CTrans A true o (Some d2); CMap A o o g;
        CTrans A false o (Some d2); CTrans A false o (Some d1)]) = Ok w' /\
      looks A w' o ds (trans false ds (Some d1) (g (trans true ds (Some d2) x))) /\
      (forall j es v, j <> o -> shows A s j es v -> looks A w' j es v).
  Proof.
    intros B O1 O2 Kg (r & L & D & K & P) (q & Lq & Dq & Kq) P0 P1 P2. pose proof (live_ret _ _ _ Lq) as Rq. apply (proj2 (Nat.ltb_lt _ _)) in O1, O2.
    set (cs := [CMap A o i (fun y => y); CTrans A true o (Some d1); CTrans A true o (Some d2); CMap A o o g; CTrans A false o (Some d2); CTrans A false o (Some d1)]).
    assert (E : exists s', srun s cs = Some s' /\ shows A s' o ds (trans false ds (Some d1) (g (trans true ds (Some d2) x))) /\ forall j, j <> o -> s' j = s j).
    { unfold cs. cbn [s_run s_step]. rewrite Lq, L, Dq, D, Z.eqb_refl. unfold active, set_active. rewrite K, Kq, P. cbn [option_map].
      cbn [s_run s_step]. rewrite live_set by exact Rq. cbn [r_dims dim_ok]. rewrite Dq, O1. unfold s_trans. cbn [r_dims r_pos r_ret r_made r_mom option_map].
      cbn [s_run s_step]. rewrite live_set by exact Rq. cbn [r_dims dim_ok]. rewrite O2. cbn [r_dims r_pos r_ret r_made r_mom option_map].
      cbn [s_run s_step]. rewrite live_set by exact Rq. rewrite Z.eqb_refl. unfold active, set_active. cbn [r_k r_dims r_pos r_ret r_made r_mom option_map].
      cbn [s_run s_step]. rewrite live_set by exact Rq. cbn [r_dims dim_ok]. rewrite O2. cbn [r_dims r_pos r_ret r_made r_mom option_map].
      cbn [s_run s_step]. rewrite live_set by exact Rq. cbn [r_dims dim_ok]. rewrite O1. cbn [r_dims r_pos r_ret r_made r_mom option_map].
      eexists. split; [reflexivity|]. split; [eexists; split; [apply live_set; exact Rq|repeat split]|].
      intros j Nj. unfold sset. rewrite !fupd_other by exact Nj. reflexivity. }
    destruct E as (s' & E & So & Ho). destruct (on_model junk flag wis prep cs0 cs s s' B) as (w' & R & S).
    - unfold cs. repeat (apply Forall_cons; [cbn; first [exact I|exact Kg|intros; reflexivity]|]). constructor.
    - assert (Q : forall od, prep ds od = true -> p_run prep (nothing A) cs0 ds od = true) by (intros od H; apply p_run_mono, H).
      remember (p_run prep (nothing A) cs0) as p eqn:Ep. clear Ep.
      assert (Hd : forall t c t', (exists q', live A t o = Some q' /\ r_dims A q' = ds) ->
        s_step A trans t c = Some t' -> (match c with CTrans _ _ o' _ => o' = o | CMap _ o' _ _ => o' = o | _ => False end) -> exists q', live A t' o = Some q' /\ r_dims A q' = ds).
      { intros t c t' (q' & L' & D') Es Hc. destruct c; try contradiction; subst; cbn [s_step] in Es; rewrite L' in Es.
        - destruct (live A t j) as [qj|]; [|discriminate]. destruct (_ =? _); [|discriminate]. injection Es as <-.
          pose proof (live_ret _ _ _ L') as Rt. eexists. rewrite live_set; [split; [reflexivity|]|]; unfold set_active; destruct (r_k A q'); first [exact Rt|exact D'].
        - destruct (dim_ok A q' od); [|discriminate]. injection Es as <-. pose proof (live_ret _ _ _ L') as Rt.
          eexists. rewrite live_set; [split; [reflexivity|]|]; unfold s_trans; destruct fw; first [exact Rt|exact D']. }
      assert (Hs : exists q', live A s o = Some q' /\ r_dims A q' = ds) by (exists q; split; assumption).
      assert (Hc : forall p' t fw od, (forall oe, prep ds oe = true -> p' ds oe = true) -> prep ds od = true ->
        (exists q', live A t o = Some q' /\ r_dims A q' = ds) -> careful A p' t (CTrans A fw o od) = true).
      { intros p' t fw od Hp Ho' (q' & L' & D'). apply careful_prep. intros r' L''. rewrite L' in L''. injection L'' as <-. rewrite D'.
        split; apply Hp; assumption. }
      unfold cs. apply careful_cons; [reflexivity|]. intros s1 S1. pose proof (Hd _ _ _ Hs S1 eq_refl) as H1.
      apply careful_cons; [apply Hc; [intros oe H; apply p_step_mono, Q, H|exact P1|exact H1]|]. intros s2 S2. pose proof (Hd _ _ _ H1 S2 eq_refl) as H2.
      apply careful_cons; [apply Hc; [intros oe H; repeat apply p_step_mono; apply Q, H|exact P2|exact H2]|]. intros s3 S3. pose proof (Hd _ _ _ H2 S3 eq_refl) as H3.
      apply careful_cons; [reflexivity|]. intros s4 S4. pose proof (Hd _ _ _ H3 S4 eq_refl) as H4.
      apply careful_cons; [apply Hc; [intros oe H; repeat apply p_step_mono; apply Q, H|exact P2|exact H4]|]. intros s5 S5. pose proof (Hd _ _ _ H4 S5 eq_refl) as H5.
      apply careful_cons; [apply Hc; [intros oe H; repeat apply p_step_mono; apply Q, H|exact P1|exact H5]|]. intros; exact I.
    - exact E.
    - exists w'. split; [exact R|]. split; [exact (seen_looks _ _ _ _ _ S So)|].
      intros j es v Nj Sj. exact (seen_looks _ _ _ _ _ S (shows_keep _ _ _ _ _ (Ho j Nj) Sj)).
  Qed.
End Proofs.

Section Codelets.
  Variable F : fld.
  Notation A := (cr (Cx F)).
  Add Ring Fr : (cr_th F).
  Add Field Ff : (f_th F).
  Add Ring Cr : (cr_th (Cx F)).

  (** *** the codelets *)
  Lemma one_mul (a : A) : (cx_of (ofZ 1) * a = a)%cr.
  Proof. rewrite ofZ_1. apply cx_eq; cbn; ring. Qed.
  Lemma two_sum (a b : A) : (a + b + (a - b) = cx_of (ofZ 2) * a)%cr.
  Proof. change (@ofZ F 2) with (c1 + c1 : F)%cr. apply cx_eq; cbn; ring. Qed.
  Lemma two_diff (a b : A) : (a + b - (a - b) = cx_of (ofZ 2) * b)%cr.
  Proof. change (@ofZ F 2) with (c1 + c1 : F)%cr. apply cx_eq; cbn; ring. Qed.
  Lemma mult_with_len f t x : zlen (mult_with F f t x) = zlen x.
  Proof.
    unfold zlen. f_equal. revert t. induction x as [|a x IH]; intros [|b t]; cbn; try reflexivity. f_equal. apply IH.
  Qed.
  Lemma mult_with_times (f : A -> F -> A) (n : F) (sym : F -> A) :
    (forall a k, f (cx_of n * a)%cr k = (a * sym k)%cr) ->
    forall y t, zlen t = zlen y -> times F y (map sym t) (mult_with F f t (map (fun a => (cx_of n * a)%cr) y)).
  Proof.
    intros H y. induction y as [|a y IH]; intros [|b t] L; unfold zlen in L; cbn [length] in L; try lia; cbn [mult_with map]; [constructor|].
    rewrite H. constructor. apply IH. unfold zlen. lia.
  Qed.
  Lemma times_len a b c : times F a b c -> zlen c = zlen a.
  Proof. unfold zlen. intros H. f_equal. induction H; cbn; [reflexivity|]. f_equal. assumption. Qed.

  Lemma real_sym (c n k : F) (a : A) : n <> c0 -> (cx_of n * a * cx_of k * cx_of (c / n) = a * cx_of (k * c))%cr.
  Proof. intros N. apply cx_eq; cbn; field; exact N. Qed.
  Lemma imag_sym (c n k : F) (a : A) : n <> c0 -> (cx_of n * a * cx_i * cx_of k * cx_of (c / n) = a * (cx_i * cx_of (k * c)))%cr.
  Proof. intros N. apply cx_eq; cbn; field; exact N. Qed.
  Lemma imag_eq_sym (c n k : F) (a : A) : n <> c0 -> (cx_of n * a * (cx_of k * cx_i) * cx_of (c / n) = a * (cx_i * cx_of (k * c)))%cr.
  Proof. intros N. apply cx_eq; cbn; field; exact N. Qed.


  Variable trans : bool -> list Z -> option nat -> list A -> list A.
  Lemma symbol_out junk flag wis prep cs0 s od (f : A -> F -> A) (sym : F -> A) n k d i ds y :
    before A trans junk flag wis prep cs0 s -> od_ok ds od -> inverse F trans ds od n ->
    (n <> c0 -> forall a k, f (cx_of n * a)%cr k = (a * sym k)%cr) ->
    zlen k = grid_size ds -> zlen y = grid_size ds -> shows A s i ds (trans false ds od y) -> on_grid A s d ds -> free_of A prep s i ds od ->
    exists w' z, run A trans junk flag (start A wis) (cs0 ++ out_of_place A od (mult_with F f k) d i) = Ok w' /\
      times F y (map sym k) z /\ looks A w' d ds (trans false ds od z) /\ (d <> i -> looks A w' i ds (trans false ds od y)) /\
      (forall j es v, j <> d -> j <> i -> shows A s j es v -> looks A w' j es v).
  Proof.
    intros B O [N Inv] H Lk Ly Si Sd Fr.
    destruct (apply_out A trans junk flag wis prep cs0 s od (mult_with F f k) d i ds _ B O (mult_with_len f k) Si Sd Fr) as (w' & R & Hd & Hi & Ho).
    exists w', (mult_with F f k (map (fun a => (cx_of n * a)%cr) y)). rewrite (Inv y Ly) in Hd.
    repeat split; try assumption. apply mult_with_times; [exact (H N)|congruence].
  Qed.
  Lemma symbol_in junk flag wis prep cs0 s od (f : A -> F -> A) (sym : F -> A) n k i ds y :
    before A trans junk flag wis prep cs0 s -> od_ok ds od -> inverse F trans ds od n ->
    (n <> c0 -> forall a k, f (cx_of n * a)%cr k = (a * sym k)%cr) ->
    zlen k = grid_size ds -> zlen y = grid_size ds -> shows A s i ds (trans false ds od y) -> free_of A prep s i ds od ->
    exists w' z, run A trans junk flag (start A wis) (cs0 ++ in_place A od (mult_with F f k) i) = Ok w' /\
      times F y (map sym k) z /\ looks A w' i ds (trans false ds od z) /\
      (forall j es v, j <> i -> shows A s j es v -> looks A w' j es v).
  Proof.
    intros B O [N Inv] H Lk Ly Si Fr.
    destruct (apply_in A trans junk flag wis prep cs0 s od (mult_with F f k) i ds _ B O (mult_with_len f k) Si Fr) as (w' & R & Hi & Ho).
    exists w', (mult_with F f k (map (fun a => (cx_of n * a)%cr) y)). rewrite (Inv y Ly) in Hi.
    repeat split; try assumption. apply mult_with_times; [exact (H N)|congruence].
  Qed.
  Lemma add_vec_len (x y : list A) : zlen x = zlen y -> zlen (add_vec F x y) = zlen x.
  Proof. unfold add_vec, zlen. intros H. rewrite map_length, combine_length. lia. Qed.
  Lemma symbol_add junk flag wis prep cs0 s od (f : A -> F -> A) (sym : F -> A) n k o i ds y v0 :
    before A trans junk flag wis prep cs0 s -> od_ok ds od -> inverse F trans ds od n ->
    (n <> c0 -> forall a k, f (cx_of n * a)%cr k = (a * sym k)%cr) ->
    zlen k = grid_size ds -> zlen y = grid_size ds -> shows A s i ds (trans false ds od y) -> shows A s o ds v0 -> o <> i -> free_of A prep s i ds od ->
    exists w' z, run A trans junk flag (start A wis) (cs0 ++ (in_place A od (mult_with F f k) i ++ [COp A o i (add_vec F)])) = Ok w' /\
      times F y (map sym k) z /\ looks A w' o ds (add_vec F v0 (trans false ds od z)) /\ looks A w' i ds (trans false ds od z) /\
      (forall j es v, j <> i -> j <> o -> shows A s j es v -> looks A w' j es v).
  Proof.
    intros B O [N Inv] H Lk Ly Si So No Fr.
    destruct (apply_add A trans junk flag wis prep cs0 s od (mult_with F f k) (add_vec F) i o ds _ _ B O (mult_with_len f k) add_vec_len Si So No Fr) as (w' & R & Ho & Hi & Hx).
    exists w', (mult_with F f k (map (fun a => (cx_of n * a)%cr) y)). rewrite (Inv y Ly) in Hi, Ho.
    repeat split; try assumption. apply mult_with_times; [exact (H N)|congruence].
  Qed.

  Lemma nabla_sym_real (c : bool) (fac n k : F) (a : A) : n <> c0 ->
    (cx_of n * a * cx_of k * cx_of (sgn F c * fac / n) = a * nabla_symbol F c true fac k)%cr.
  Proof. intros N. rewrite (real_sym (sgn F c * fac)%cr n k a N). unfold nabla_symbol, sgn. destruct c; apply cx_eq; cbn; ring. Qed.
  Lemma nabla_sym_imag_eq (c : bool) (fac n k : F) (a : A) : n <> c0 ->
    (cx_of n * a * (cx_of k * cx_i) * cx_of (sgn F c * fac / n) = a * nabla_symbol F c false fac k)%cr.
  Proof. intros N. rewrite (imag_eq_sym (sgn F c * fac)%cr n k a N). unfold nabla_symbol, sgn. destruct c; apply cx_eq; cbn; ring. Qed.
  Lemma nabla_sym_imag (c : bool) (fac n k : F) (a : A) : n <> c0 ->
    (cx_of n * a * cx_i * cx_of k * cx_of (sgn F c * fac / n) = a * nabla_symbol F c false fac k)%cr.
  Proof. intros N. rewrite (imag_sym (sgn F c * fac)%cr n k a N). unfold nabla_symbol, sgn. destruct c; apply cx_eq; cbn; ring. Qed.

  Lemma nabla_grad (c m : bool) (fac k : F) : nabla_symbol F c m fac k = (if m && c then (- grad_symbol F c m fac k)%cr else grad_symbol F c m fac k).
  Proof. unfold nabla_symbol, grad_symbol. destruct m, c; apply cx_eq; cbn; ring. Qed.
  Lemma nabla_out junk flag wis prep cs0 s conj momentum fac n k d i ds y :
    before A trans junk flag wis prep cs0 s -> inverse F trans ds None n ->
    zlen k = grid_size ds -> zlen y = grid_size ds -> shows A s i ds (trans false ds None y) -> on_grid A s d ds ->
    exists w' z, run A trans junk flag (start A wis) (cs0 ++ nabla_apply F conj momentum fac n k d i) = Ok w' /\
      times F y (map (nabla_symbol F conj momentum fac) k) z /\ looks A w' d ds (trans false ds None z) /\
      (d <> i -> looks A w' i ds (trans false ds None y)) /\ (forall j es v, j <> d -> j <> i -> shows A s j es v -> looks A w' j es v).
  Proof.
    intros B Inv Lk Ly Si Sd. unfold nabla_apply. destruct momentum.
    - apply (symbol_out junk flag wis prep cs0 s None _ _ n); try assumption; try exact I. intros N a b. apply nabla_sym_real, N.
    - apply (symbol_out junk flag wis prep cs0 s None _ _ n); try assumption; try exact I. intros N a b. apply nabla_sym_imag_eq, N.
  Qed.
  Lemma nabla_in junk flag wis prep cs0 s conj momentum fac n k i ds y :
    before A trans junk flag wis prep cs0 s -> inverse F trans ds None n ->
    zlen k = grid_size ds -> zlen y = grid_size ds -> shows A s i ds (trans false ds None y) ->
    exists w' z, run A trans junk flag (start A wis) (cs0 ++ nabla_apply_in F conj momentum fac n k i) = Ok w' /\
      times F y (map (nabla_symbol F conj momentum fac) k) z /\ looks A w' i ds (trans false ds None z) /\
      (forall j es v, j <> i -> shows A s j es v -> looks A w' j es v).
  Proof.
    intros B Inv Lk Ly Si. unfold nabla_apply_in. destruct momentum.
    - apply (symbol_in junk flag wis prep cs0 s None _ _ n); try assumption; try exact I. intros N a b. apply nabla_sym_real, N.
    - apply (symbol_in junk flag wis prep cs0 s None _ _ n); try assumption; try exact I. intros N a b. apply nabla_sym_imag, N.
  Qed.
  Lemma dndxn_out junk flag wis prep cs0 s dd n k d i ds y :
    before A trans junk flag wis prep cs0 s -> inverse F trans ds None n ->
    zlen k = grid_size ds -> zlen y = grid_size ds -> shows A s i ds (trans false ds None y) -> on_grid A s d ds ->
    exists w' z, run A trans junk flag (start A wis) (cs0 ++ dndxn F dd n k d i) = Ok w' /\
      times F y (map (fun k => cx_of (k * dd)%cr) k) z /\ looks A w' d ds (trans false ds None z) /\
      (d <> i -> looks A w' i ds (trans false ds None y)) /\ (forall j es v, j <> d -> j <> i -> shows A s j es v -> looks A w' j es v).
  Proof.
    intros B Inv Lk Ly Si Sd. unfold dndxn.
    apply (symbol_out junk flag wis prep cs0 s None _ _ n); try assumption; try exact I. intros N a b. apply real_sym, N.
  Qed.
  Lemma rem_odd deriv : 0 <= deriv -> (Z.rem deriv 2 =? 1) = Z.odd deriv.
  Proof.
    intros H. rewrite Zodd_mod, Z.rem_mod_nonneg by lia. unfold Zeq_bool. destruct (Z.eqb_spec (deriv mod 2) 1) as [->|N]; [reflexivity|].
    destruct (Z.compare_spec (deriv mod 2) 1); congruence.
  Qed.
  Lemma dim_out junk flag wis prep cs0 s deriv dd n k dim d i ds y :
    before A trans junk flag wis prep cs0 s -> 0 <= deriv -> (dim < length ds)%nat -> inverse F trans ds (Some dim) n ->
    zlen k = grid_size ds -> zlen y = grid_size ds -> shows A s i ds (trans false ds (Some dim) y) -> on_grid A s d ds ->
    free_of A prep s i ds (Some dim) ->
    exists w' z, run A trans junk flag (start A wis) (cs0 ++ dndxn_dim F deriv dd n k dim d i) = Ok w' /\
      times F y (map (dim_symbol F deriv dd) k) z /\ looks A w' d ds (trans false ds (Some dim) z) /\
      (d <> i -> looks A w' i ds (trans false ds (Some dim) y)) /\ (forall j es v, j <> d -> j <> i -> shows A s j es v -> looks A w' j es v).
  Proof.
    intros B Hd O Inv Lk Ly Si Sd Fr. unfold dndxn_dim, dim_symbol. rewrite rem_odd by exact Hd. destruct (Z.odd deriv).
    - apply (symbol_out junk flag wis prep cs0 s (Some dim) _ _ n); try assumption. intros N a b. apply imag_eq_sym, N.
    - apply (symbol_out junk flag wis prep cs0 s (Some dim) _ _ n); try assumption. intros N a b. apply real_sym, N.
  Qed.
  Lemma dim_add junk flag wis prep cs0 s deriv dd n k dim o i ds y v0 :
    before A trans junk flag wis prep cs0 s -> 0 <= deriv -> (dim < length ds)%nat -> inverse F trans ds (Some dim) n ->
    zlen k = grid_size ds -> zlen y = grid_size ds -> shows A s i ds (trans false ds (Some dim) y) -> shows A s o ds v0 -> o <> i ->
    free_of A prep s i ds (Some dim) ->
    exists w' z, run A trans junk flag (start A wis) (cs0 ++ dndxn_add F deriv dd n k dim o i) = Ok w' /\
      times F y (map (dim_symbol F deriv dd) k) z /\ looks A w' o ds (add_vec F v0 (trans false ds (Some dim) z)) /\
      looks A w' i ds (trans false ds (Some dim) z) /\ (forall j es v, j <> i -> j <> o -> shows A s j es v -> looks A w' j es v).
  Proof.
    intros B Hd O Inv Lk Ly Si So No Fr. unfold dndxn_add, dim_symbol. rewrite rem_odd by exact Hd. destruct (Z.odd deriv).
    - apply (symbol_add junk flag wis prep cs0 s (Some dim) _ _ n); try assumption. intros N a b. apply imag_sym, N.
    - apply (symbol_add junk flag wis prep cs0 s (Some dim) _ _ n); try assumption. intros N a b. apply real_sym, N.
  Qed.
  Lemma mixed_code junk flag wis prep cs0 s deriv dd n1 n2 k d1 d2 o i ds x : before A trans junk flag wis prep cs0 s ->
    (d1 < length ds)%nat -> (d2 < length ds)%nat -> shows A s i ds x -> (exists r, live A s o = Some r /\ r_dims A r = ds /\ r_k A r = false) ->
    prep ds None = true -> prep ds (Some d1) = true -> prep ds (Some d2) = true ->
    exists w', run A trans junk flag (start A wis) (cs0 ++ dxdy F deriv dd n1 n2 k d1 d2 o i) = Ok w' /\
      looks A w' o ds (trans false ds (Some d1) ((if Z.rem deriv 2 =? 1 then mult_imag F k (dd / (n1 * n2))%cr else mult_real F k (dd / (n1 * n2))%cr)
        (trans true ds (Some d2) x))) /\
      (forall j es v, j <> o -> shows A s j es v -> looks A w' j es v).
  Proof.
    intros B O1 O2 Si So P0 P1 P2. unfold dxdy. apply (dxdy_run A trans junk flag wis prep cs0 s); try assumption.
    intros y. destruct (Z.rem deriv 2 =? 1); apply mult_with_len.
  Qed.
End Codelets.
