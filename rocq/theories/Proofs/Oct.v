(** The buffers, the propagations and the loops of the optimal control program. *)
From Coq Require Import List ZArith QArith Qabs Lia Bool Ring Field.
From Verif Require Import Base Algebra Complex Arrays Model.Oct Spec.Oct.
Import ListNotations.
Open Scope Z_scope.

Lemma mapM_ok {A B} (f : A -> outcome B) (g : A -> B) l : (forall a, In a l -> f a = Ok (g a)) -> mapM f l = Ok (map g l).
Proof.
  induction l as [|a t IH]; intros H; [reflexivity|]. cbn. rewrite (H a) by (left; reflexivity). cbn.
  rewrite IH by (intros b Hb; apply H; right; exact Hb). reflexivity.
Qed.
Lemma mapM_ext {A B} (f g : A -> outcome B) l : (forall a, In a l -> f a = g a) -> mapM f l = mapM g l.
Proof.
  induction l as [|a t IH]; intros H; [reflexivity|]. cbn. rewrite (H a) by (left; reflexivity).
  rewrite IH by (intros b Hb; apply H; right; exact Hb). reflexivity.
Qed.
Lemma mapM_length {A B} (f : A -> outcome B) l r : mapM f l = Ok r -> length r = length l.
Proof.
  revert r; induction l as [|a t IH]; intros r H; cbn in H; [injection H as <-; reflexivity|].
  destruct (f a); try discriminate. cbn in H. destruct (mapM f t); try discriminate. injection H as <-. cbn. f_equal. auto.
Qed.
(** reading all entries of a list gives the list *)
Lemma mapM_rd {A} (l : list A) (n : Z) : zlen l = n -> mapM (fun t => rd l t) (upto 0 n) = Ok l.
Proof.
  intros <-. destruct l as [|a0 l0] eqn:El; [reflexivity|]. rewrite <- El in *.
  rewrite (mapM_ok _ (fun t => nth (Z.to_nat t) l a0)).
  - f_equal. apply rd_ext.
    + rewrite zlen_map. unfold zlen at 1. rewrite upto_length. unfold zlen. lia.
    + intros i Hi. rewrite zlen_map in Hi. unfold zlen at 1 in Hi. rewrite upto_length in Hi.
      rewrite rd_map, rd_upto by lia. cbn. rewrite (rd_nth l i a0) by lia. f_equal. 
  - intros t Ht. apply in_upto in Ht. apply rd_nth. exact Ht.
Qed.

Lemma mapM_index {A B} (g : Z -> A -> B) (ws : list A) :
  mapM (fun t => let* w := rd ws t in Ok (g t w)) (upto 0 (zlen ws)) =
  Ok (map (fun p => g (Z.of_nat (fst p)) (snd p)) (combine (seq 0 (length ws)) ws)).
Proof.
  destruct ws as [|w0 ws0] eqn:E; [reflexivity|]. rewrite <- E. clear E ws0.
  rewrite (mapM_ok _ (fun t => g t (nth (Z.to_nat t) ws w0))).
  - f_equal. unfold upto. rewrite Z.sub_0_r. unfold zlen. rewrite Nat2Z.id, map_map.
    apply nth_ext with (d := g 0 w0) (d' := g (Z.of_nat (fst (0%nat, w0))) (snd (0%nat, w0))).
    + rewrite !map_length, combine_length, !seq_length. lia.
    + intros n Hn. rewrite map_length, seq_length in Hn.
      rewrite (map_nth (fun p => g (Z.of_nat (fst p)) (snd p)) (combine (seq 0 (length ws)) ws) (0%nat, w0)).
      rewrite combine_nth by (rewrite seq_length; reflexivity). rewrite seq_nth by exact Hn. cbn [fst snd].
      rewrite nth_indep with (d' := (fun x => g (0 + Z.of_nat x) (nth (Z.to_nat (0 + Z.of_nat x)) ws w0)) 0%nat) by (rewrite map_length, seq_length; exact Hn).
      rewrite (map_nth (fun x => g (0 + Z.of_nat x) (nth (Z.to_nat (0 + Z.of_nat x)) ws w0))).
      rewrite seq_nth by exact Hn. replace (Z.to_nat (0 + Z.of_nat (0 + n))) with n by lia. f_equal.
  - intros t Ht. apply in_upto in Ht. rewrite (rd_nth ws t w0) by exact Ht. reflexivity.
Qed.

Section P.
  Variable F : fld.
  Add Ring FR : (cr_th F).
  Variable W : Type.
  Variable U : bool -> Z -> list F -> W -> W.
  Variable gobbler : option (W -> W).
  Variable mu : W -> W.
  Variable dot : W -> W -> Cx F.
  Variable target : Z -> W -> W.
  Variables pass stop : list F -> list F.
  Variable shape : list F.
  Variable alpha : F.
  Variable phase : bool.
  Variables ntargets steps : Z.
  Variables PsiI PsiT : list W.
  Hypothesis Hsteps : 0 < steps.
  Hypothesis Hnt : 0 < ntargets.
  Hypothesis Hshape : steps <= zlen shape.

  Notation ST := (st F W).
  Notation save := (save F W ntargets).
  Notation fetch := (fetch F W ntargets).
  Notation drive := (drive F W U gobbler).
  Notation step := (fun d k e w => tidy W gobbler (U d k e w)).
  Notation fwd := (fwd F W step).
  Notation bwd := (bwd F W step steps).
  Notation at_time := (at_time F W step).
  Notation back_at := (back_at F W step steps).

  (** ** The buffers *)
  Definition mem_ok (m : list (list (option W))) : Prop :=
    zlen m = ntargets /\ forall t r, rd m t = Ok r -> zlen r = steps + 1.
  Definition look (m : list (list (option W))) (t j : Z) : outcome (option W) := let* r := rd m t in rd r j.

  Lemma save_spec (s : ST) i ws : mem_ok (s_mem _ _ s) -> 0 <= i <= steps -> zlen ws = ntargets ->
    exists m, save s i ws = Ok (with_mem _ _ s m) /\ mem_ok m /\
      (forall t j, 0 <= t < ntargets -> look m t j = if j =? i then (let* w := rd ws t in Ok (Some w)) else look (s_mem _ _ s) t j).
  Proof.
    intros [M1 M2] Hi Hw. unfold Oct.save.
    destruct (foldM_upto (fun s t =>
      let* w := rd ws t in
      let* m := rd (s_mem _ _ s) t in
      let* m := wr m i (Some w) in
      let* ms := wr (s_mem _ _ s) t m in
      Ok (with_mem _ _ s ms))
      (fun k s1 => exists m, s1 = with_mem _ _ s m /\ mem_ok m /\
        forall t j, 0 <= t < ntargets -> look m t j = if (t <? k) && (j =? i) then (let* w := rd ws t in Ok (Some w)) else look (s_mem _ _ s) t j)
      0 ntargets s) as (s' & E & m & -> & K1 & K2).
    - lia.
    - exists (s_mem _ _ s). split; [destruct s; reflexivity|]. split; [split; assumption|].
      intros t j Ht. rewrite (proj2 (Z.ltb_ge t 0)) by lia. reflexivity.
    - intros k s1 Hk (m & -> & [K1 K2] & K3).
      destruct (proj1 (rd_ok ws k)) as [w Ew]; [lia|].
      destruct (proj1 (rd_ok m k)) as [r Er]; [lia|]. cbn [s_mem with_mem].
      rewrite Ew. cbn [bind]. rewrite Er. cbn [bind]. rewrite wr_ok by (rewrite (K2 _ _ Er); lia). cbn [bind].
      rewrite wr_ok by lia. cbn [bind]. eexists. split; [reflexivity|].
      exists (upd m (Z.to_nat k) (upd r (Z.to_nat i) (Some w))). split; [reflexivity|]. split.
      + split; [rewrite zlen_upd; exact K1|]. intros t r' Er'. rewrite rd_upd in Er' by lia.
        destruct (t =? k); [|eapply K2; eassumption]. injection Er' as <-. rewrite zlen_upd. eapply K2; eassumption.
      + intros t j Ht. unfold look at 1. rewrite rd_upd by lia. destruct (Z.eqb_spec t k) as [->|N].
        * cbn [bind]. rewrite rd_upd by (rewrite (K2 _ _ Er); lia).
          rewrite (proj2 (Z.ltb_lt k (k + 1))) by lia. cbn [andb]. rewrite Ew. cbn [bind].
          destruct (j =? i); [reflexivity|]. specialize (K3 k j Ht). unfold look at 1 in K3. rewrite Er in K3. cbn [bind] in K3.
          rewrite K3. rewrite (proj2 (Z.ltb_ge k k)) by lia. reflexivity.
        * specialize (K3 t j Ht). unfold look at 1 in K3. rewrite K3.
          destruct (Z.ltb_spec t k), (Z.ltb_spec t (k + 1)); try lia; reflexivity.
    - exists m. split; [exact E|]. split; [exact K1|]. intros t j Ht. rewrite K2 by exact Ht.
      rewrite (proj2 (Z.ltb_lt t ntargets)) by lia. reflexivity.
  Qed.
  Lemma fetch_look (s : ST) i : fetch s i =
    mapM (fun t => let* w := look (s_mem _ _ s) t i in match w with Some w => Ok w | None => UB end) (upto 0 ntargets).
  Proof. unfold Oct.fetch, look. apply mapM_ext. intros t _. destruct (rd (s_mem _ _ s) t); reflexivity. Qed.
  (** saving one time, fetching any *)
  Lemma save_fetch (s : ST) i ws : mem_ok (s_mem _ _ s) -> 0 <= i <= steps -> zlen ws = ntargets ->
    exists m, save s i ws = Ok (with_mem _ _ s m) /\ mem_ok m /\
      forall (s' : ST), s_mem _ _ s' = m ->
        fetch s' i = Ok ws /\ forall (s0 : ST) j, s_mem _ _ s0 = s_mem _ _ s -> j <> i -> fetch s' j = fetch s0 j.
  Proof.
    intros H1 H2 H3. destruct (save_spec s i ws H1 H2 H3) as (m & E & K1 & K2). exists m. split; [exact E|]. split; [exact K1|].
    intros s' <-. split.
    - rewrite fetch_look. rewrite <- (mapM_rd ws ntargets H3). apply mapM_ext. intros t Ht. apply in_upto in Ht.
      rewrite K2 by exact Ht. rewrite Z.eqb_refl. destruct (rd ws t); reflexivity.
    - intros s0 j E0 N. rewrite !fetch_look. apply mapM_ext. intros t Ht. apply in_upto in Ht.
      rewrite K2 by exact Ht. rewrite (proj2 (Z.eqb_neq j i)) by exact N. rewrite E0. reflexivity.
  Qed.
  Lemma fetch_mem (s s' : ST) i : s_mem _ _ s = s_mem _ _ s' -> fetch s i = fetch s' i.
  Proof. intros E. rewrite !fetch_look, E. reflexivity. Qed.

  (** ** One step *)
  Lemma drive_spec d (s : ST) ws : long_enough F steps (s_f _ _ s) -> 0 <= s_clk _ _ s < steps ->
    drive d s ws = Ok (map (step d (s_clk _ _ s) (values F (s_f _ _ s) (s_clk _ _ s))) ws).
  Proof.
    intros L C. unfold Oct.drive. rewrite (mapM_ok _ (fun l => nth (Z.to_nat (s_clk _ _ s)) l c0)).
    - reflexivity.
    - intros l Hl. apply rd_nth. unfold long_enough in L. rewrite Forall_forall in L. specialize (L l Hl).
      unfold zlen. lia.
  Qed.
  Lemma step_map_fwd ls ws k : 0 <= k -> map (step true k (values F ls k)) (at_time ls ws k) = at_time ls ws (k + 1).
  Proof.
    intros Hk. unfold Spec.Oct.at_time. rewrite map_map. apply map_ext. intros w.
    replace (Z.to_nat (k + 1)) with (S (Z.to_nat k)) by lia. cbn [Spec.Oct.fwd]. rewrite Z2Nat.id by lia. reflexivity.
  Qed.
  Lemma at_time_0 ls ws : at_time ls ws 0 = ws.
  Proof. unfold Spec.Oct.at_time. cbn. apply map_id. Qed.
  Lemma step_map_bwd ls ws k : 0 <= k < steps -> map (step false k (values F ls k)) (back_at ls ws (k + 1)) = back_at ls ws k.
  Proof.
    intros Hk. unfold Spec.Oct.back_at. rewrite map_map. apply map_ext. intros w.
    replace (Z.to_nat (steps - k)) with (S (Z.to_nat (steps - (k + 1)))) by lia. cbn [Spec.Oct.bwd].
    replace (steps - Z.of_nat (S (Z.to_nat (steps - (k + 1))))) with k by lia. reflexivity.
  Qed.
  Lemma back_at_T ls ws : back_at ls ws steps = ws.
  Proof. unfold Spec.Oct.back_at. rewrite Z.sub_diag. cbn. apply map_id. Qed.
  Lemma at_time_len ls ws k : zlen (at_time ls ws k) = zlen ws. Proof. apply zlen_map. Qed.
  Lemma back_at_len ls ws k : zlen (back_at ls ws k) = zlen ws. Proof. apply zlen_map. Qed.

  (** ** Swapping the lasers *)
  Definition paired (f b : list (list F)) : Prop := Forall2 (fun x y => length x = length y) f b.
  Lemma swap_spec (s : ST) : paired (s_f _ _ s) (s_b _ _ s) ->
    swap F W s = mkSt _ _ (s_b _ _ s) (s_f _ _ s) (s_mem _ _ s) (s_clk _ _ s) (s_gam _ _ s).
  Proof.
    intros P. unfold swap. destruct s as [f b m c g]; cbn in *.
    assert (E : map (swap1 F) (combine f b) = combine b f /\ map fst (combine b f) = b /\ map snd (combine b f) = f).
    { induction P as [|x y f b H P IH]; [auto|]. cbn. destruct IH as (-> & -> & ->). unfold swap1, zlen; cbn. rewrite H, Z.eqb_refl. auto. }
    destruct E as (E1 & E2 & E3). rewrite E1, E2, E3. reflexivity.
  Qed.
  Lemma paired_sym f b : paired f b -> paired b f.
  Proof. induction 1; constructor; auto. Qed.
  Lemma paired_long f b : paired f b -> long_enough F steps f -> long_enough F steps b.
  Proof.
    unfold long_enough. intros P L. revert L. induction P as [|x y f b H P IH]; intros L; [exact L|]. inversion L; subst.
    constructor; [lia|apply IH; assumption].
  Qed.

  (** ** The propagations *)
  Notation propagate_forward := (propagate_forward F W U gobbler ntargets steps).
  Notation propagate_backward := (propagate_backward F W U gobbler ntargets steps).

  Lemma forward_spec (s : ST) ws : mem_ok (s_mem _ _ s) -> long_enough F steps (s_f _ _ s) -> zlen ws = ntargets ->
    exists m, propagate_forward s ws =
        Ok (mkSt _ _ (s_f _ _ s) (s_b _ _ s) m steps (s_gam _ _ s), at_time (s_f _ _ s) ws steps) /\ mem_ok m /\
      forall (s' : ST) j, s_mem _ _ s' = m -> 0 <= j <= steps -> fetch s' j = Ok (at_time (s_f _ _ s) ws j).
  Proof.
    intros M L Hw. unfold Oct.propagate_forward.
    destruct (save_fetch s 0 ws) as (m & E & M1 & S1); [exact M|lia|exact Hw|]. rewrite E. cbn [bind].
    destruct (foldM_upto (forward_step F W U gobbler ntargets)
      (fun k x => exists m, x = (mkSt _ _ (s_f _ _ s) (s_b _ _ s) m k (s_gam _ _ s), at_time (s_f _ _ s) ws k) /\ mem_ok m /\
        forall (s' : ST) j, s_mem _ _ s' = m -> 0 <= j <= k -> fetch s' j = Ok (at_time (s_f _ _ s) ws j))
      0 steps (with_clk _ _ (with_mem _ _ s m) 0, ws)) as (x & Ex & m2 & -> & K1 & K2).
    - lia.
    - exists m. rewrite at_time_0. split; [reflexivity|]. split; [exact M1|]. intros s' j Es Hj.
      replace j with 0 by lia. rewrite at_time_0. exact (proj1 (S1 s' Es)).
    - intros k x Hk (m1 & -> & K1 & K2). unfold forward_step. cbn [fst snd].
      rewrite drive_spec by (cbn; [exact L|lia] || (cbn; lia) || exact L). cbn [s_f s_clk bind].
      rewrite step_map_fwd by lia.
      destruct (save_fetch (mkSt _ _ (s_f _ _ s) (s_b _ _ s) m1 k (s_gam _ _ s)) (k + 1) (at_time (s_f _ _ s) ws (k + 1)))
        as (m2 & E2 & N1 & N2); [exact K1|lia|rewrite at_time_len; exact Hw|].
      rewrite E2. cbn [bind]. eexists. split; [reflexivity|]. exists m2. split; [reflexivity|]. split; [exact N1|].
      intros s' j Es Hj. destruct (N2 s' Es) as [A B]. destruct (Z.eq_dec j (k + 1)) as [->|N]; [exact A|].
      rewrite (B (mkSt _ _ (s_f _ _ s) (s_b _ _ s) m1 k (s_gam _ _ s)) j eq_refl N). apply K2; [reflexivity|lia].
    - exists m2. split; [exact Ex|]. split; [exact K1|]. exact K2.
  Qed.

  Lemma backward_spec (s : ST) ws : mem_ok (s_mem _ _ s) -> long_enough F steps (s_f _ _ s) -> paired (s_f _ _ s) (s_b _ _ s) -> zlen ws = ntargets ->
    exists m, propagate_backward s ws =
        Ok (mkSt _ _ (s_f _ _ s) (s_b _ _ s) m (-1) (s_gam _ _ s), back_at (s_b _ _ s) ws 0) /\ mem_ok m /\
      forall (s' : ST) j, s_mem _ _ s' = m -> 0 <= j <= steps -> fetch s' j = Ok (back_at (s_b _ _ s) ws j).
  Proof.
    intros M L P Hw. unfold Oct.propagate_backward.
    assert (Lb : long_enough F steps (s_b _ _ s)) by (eapply paired_long; eassumption).
    rewrite (swap_spec (with_clk F W s (steps - 1))) by exact P. cbn [s_clk s_f s_b s_mem s_gam with_clk]. replace (steps - 1 + 1) with steps by lia.
    set (s1 := mkSt F W (s_b _ _ s) (s_f _ _ s) (s_mem _ _ s) (steps - 1) (s_gam _ _ s)).
    destruct (save_fetch s1 steps ws) as (m & E & M1 & S1); [exact M|lia|exact Hw|]. rewrite E. cbn [bind].
    replace (s_clk F W (with_mem F W s1 m)) with (steps - 1) by reflexivity.
    rewrite (downto_map (steps - 1)) by lia. rewrite foldM_map.
    replace (steps - 1 - (steps - 1)) with 0 by lia. replace (steps - 1 - 0 + 1) with steps by lia.
    destruct (foldM_upto (fun x n => backward_step F W U gobbler ntargets x (steps - 1 - n))
      (fun n x => exists m, x = (mkSt _ _ (s_b _ _ s) (s_f _ _ s) m (steps - 1 - n) (s_gam _ _ s), back_at (s_b _ _ s) ws (steps - n)) /\ mem_ok m /\
        forall (s' : ST) j, s_mem _ _ s' = m -> steps - n <= j <= steps -> fetch s' j = Ok (back_at (s_b _ _ s) ws j))
      0 steps (with_mem _ _ s1 m, ws)) as (x & Ex & m2 & -> & K1 & K2).
    - lia.
    - exists m. rewrite !Z.sub_0_r, back_at_T. split; [reflexivity|]. split; [exact M1|]. intros s' j Es Hj.
      replace j with steps by lia. rewrite back_at_T. exact (proj1 (S1 s' Es)).
    - intros n x Hn (m1 & -> & K1 & K2). unfold backward_step. cbn [fst snd].
      rewrite drive_spec by (cbn; [exact Lb|lia] || (cbn; lia) || exact Lb). cbn [s_f s_clk bind].
      replace (steps - n) with (steps - 1 - n + 1) by lia. rewrite step_map_bwd by lia.
      destruct (save_fetch (mkSt _ _ (s_b _ _ s) (s_f _ _ s) m1 (steps - 1 - n) (s_gam _ _ s)) (steps - 1 - n) (back_at (s_b _ _ s) ws (steps - 1 - n)))
        as (m2 & E2 & N1 & N2); [exact K1|lia|rewrite back_at_len; exact Hw|].
      rewrite E2. cbn [bind]. eexists. split; [reflexivity|]. exists m2.
      replace (steps - (n + 1)) with (steps - 1 - n) by lia. split; [|split; [exact N1|]].
      + f_equal. unfold with_clk, with_mem; cbn. f_equal. lia.
      + intros s' j Es Hj. destruct (N2 s' Es) as [A B]. destruct (Z.eq_dec j (steps - 1 - n)) as [->|N]; [exact A|].
        rewrite (B (mkSt _ _ (s_b _ _ s) (s_f _ _ s) m1 (steps - 1 - n) (s_gam _ _ s)) j eq_refl N). apply K2; [reflexivity|lia].
    - rewrite Ex. cbn [bind]. rewrite swap_spec by (cbn; apply paired_sym; exact P). cbn [s_clk s_f s_b s_mem s_gam].
      exists m2. replace (steps - steps) with 0 by lia. split; [do 2 f_equal; f_equal; lia|]. split; [exact K1|].
      intros s' j Es Hj. apply K2; [exact Es|lia].
  Qed.

  (** ** The new field *)
  Notation imag_sum := (imag_sum F W mu dot phase).
  Notation field_eq := (field_eq F W step mu dot shape alpha phase steps).

  Lemma calc_corr_spec wi wt : calc_corr F W mu dot phase wi wt = imag_sum wi wt.
  Proof.
    unfold calc_corr, Spec.Oct.imag_sum. rewrite (lsum_fold F (fun p => corr_term F W mu dot phase (fst p) (snd p))).
    transitivity (lsum (fun p => corr_term F W mu dot phase (fst p) (snd p)) (combine wi wt)); [ring|].
    apply lsum_ext. intros [a b] _. unfold corr_term, imag_term, cx_mul. cbn [fst snd]. destruct phase; reflexivity.
  Qed.

  (** the trajectory up to k depends on the lasers before k only *)
  Lemma fwd_ext ls ls' psi k : (forall j, 0 <= j < Z.of_nat k -> values F ls j = values F ls' j) -> fwd ls psi k = fwd ls' psi k.
  Proof.
    induction k as [|k IH]; intros H; [reflexivity|]. cbn [Spec.Oct.fwd]. rewrite (H (Z.of_nat k)) by lia.
    rewrite IH by (intros j Hj; apply H; lia). reflexivity.
  Qed.
  Lemma at_time_ext ls ls' ws k : (forall j, 0 <= j < k -> values F ls j = values F ls' j) -> at_time ls ws k = at_time ls' ws k.
  Proof. intros H. unfold Spec.Oct.at_time. apply map_ext. intros w. apply fwd_ext. intros j Hj. apply H. lia. Qed.

  Lemma nth_upd (l : list F) n x m : (n < length l)%nat -> nth m (upd l n x) c0 = if (m =? n)%nat then x else nth m l c0.
  Proof.
    revert n m; induction l as [|y t IH]; intros [|n] [|m] H; cbn in *; try lia; try reflexivity. apply IH. lia.
  Qed.
  Definition set_list (ls : list (list F)) (k : Z) (x : F) := map (fun l => upd l (Z.to_nat k) x) ls.
  Lemma set_all_spec ls k x : long_enough F steps ls -> 0 <= k < steps -> set_all F ls k x = Ok (set_list ls k x).
  Proof.
    intros L Hk. unfold set_all. apply mapM_ok. intros l Hl. apply wr_ok. unfold long_enough in L. rewrite Forall_forall in L.
    specialize (L l Hl). unfold zlen. lia.
  Qed.
  Lemma set_list_values ls k x j : long_enough F steps ls -> 0 <= k < steps -> 0 <= j -> j <> k -> values F (set_list ls k x) j = values F ls j.
  Proof.
    intros L Hk Hj N. unfold values, set_list. rewrite map_map. apply map_ext_in. intros l Hl.
    unfold long_enough in L. rewrite Forall_forall in L. specialize (L l Hl). rewrite nth_upd by lia.
    destruct (Nat.eqb_spec (Z.to_nat j) (Z.to_nat k)); [lia|reflexivity].
  Qed.
  Lemma set_list_long ls k x : long_enough F steps ls -> long_enough F steps (set_list ls k x).
  Proof.
    unfold long_enough, set_list. intros L. apply Forall_forall. intros l Hl. apply in_map_iff in Hl. destruct Hl as (r & <- & Hr).
    rewrite Forall_forall in L. rewrite upd_length. apply L. exact Hr.
  Qed.
  Lemma same_refl ls : same_lasers F steps ls ls.
  Proof. unfold same_lasers. induction ls; constructor; [split; auto|assumption]. Qed.
  Lemma same_trans a b c : same_lasers F steps a b -> same_lasers F steps b c -> same_lasers F steps a c.
  Proof.
    unfold same_lasers. intros H; revert c. induction H as [|x y a b [H1 H2] H IH]; intros c G; inversion G as [|? z ? c' [G1 G2] G']; subst; constructor.
    - split; [congruence|]. intros k Hk. rewrite H2, G2 by exact Hk. reflexivity.
    - apply IH. assumption.
  Qed.
  Lemma same_sym a b : same_lasers F steps a b -> same_lasers F steps b a.
  Proof. unfold same_lasers. induction 1 as [|x y a b [H1 H2] H IH]; constructor; [split; [auto|]|exact IH]. intros k Hk. symmetry. auto. Qed.
  Lemma same_set ls k x : long_enough F steps ls -> 0 <= k < steps -> same_lasers F steps (set_list ls k x) ls.
  Proof.
    intros L Hk. unfold same_lasers, set_list. unfold long_enough in L.
    induction L as [|l t Hl L IH]; [constructor|]. cbn. constructor; [|exact IH]. split; [apply upd_length|].
    intros j Hj. rewrite nth_upd by lia. destruct (Nat.eqb_spec (Z.to_nat j) (Z.to_nat k)); [lia|reflexivity].
  Qed.
  Lemma same_long a b : same_lasers F steps a b -> long_enough F steps b -> long_enough F steps a.
  Proof.
    unfold same_lasers, long_enough. induction 1 as [|x y a b [H1 H2] H IH]; intros L; [constructor|]. inversion L; subst.
    constructor; [rewrite H1; assumption|auto].
  Qed.
  Lemma same_paired a b : same_lasers F steps a b -> paired a b.
  Proof. unfold same_lasers, paired. induction 1 as [|x y a b [H1 H2] H IH]; constructor; assumption. Qed.

  (** what calc_field returns: base - S / (alpha n) (sum + gamma) *)
  Definition base (m : method) (b : list (list F)) (k : Z) : F :=
    match m with Krotov | Freq => nth (Z.to_nat k) (hd [] b) c0 | _ => c0 end.
  Definition extra (m : method) (g : list F) (k : Z) : F :=
    match m with Freq => nth (Z.to_nat k) g c0 | _ => c0 end.
  Open Scope cr_scope.
  Lemma calc_field_spec m (s : ST) wi wt : s_b _ _ s <> [] -> long_enough F steps (s_b _ _ s) -> (0 <= s_clk _ _ s < steps)%Z ->
    (m = Freq -> (steps <= zlen (s_gam _ _ s))%Z) ->
    calc_field F W mu dot shape alpha phase ntargets m s wi wt =
    Ok (base m (s_b _ _ s) (s_clk _ _ s) - nth (Z.to_nat (s_clk _ _ s)) shape 0 / (alpha * ofZ ntargets) *
        (imag_sum wi wt + extra m (s_gam _ _ s) (s_clk _ _ s))).
  Proof.
    intros N L C G. unfold calc_field. rewrite calc_corr_spec. rewrite (rd_nth shape _ 0) by lia. cbn [bind].
    assert (Hb : exists b0 bt, s_b _ _ s = b0 :: bt /\ rd b0 (s_clk _ _ s) = Ok (nth (Z.to_nat (s_clk _ _ s)) b0 0)).
    { destruct (s_b _ _ s) as [|b0 bt]; [congruence|]. exists b0, bt. split; [reflexivity|]. apply rd_nth. inversion L; subst. unfold zlen. lia. }
    destruct Hb as (b0 & bt & Eb & Er). destruct m; cbn [base extra].
    - rewrite Eb. cbn [rd]. replace (rd (b0 :: bt) 0) with (Ok b0) by reflexivity. cbn [bind hd]. rewrite Er. cbn [bind]. f_equal. ring.
    - f_equal. rewrite !(Fdiv_def (f_th F)). ring.
    - f_equal. rewrite !(Fdiv_def (f_th F)). ring.
    - rewrite Eb. replace (rd (b0 :: bt) 0) with (Ok b0) by reflexivity. cbn [bind hd]. rewrite Er. cbn [bind].
      rewrite (rd_nth (s_gam _ _ s) _ 0) by (specialize (G eq_refl); lia). reflexivity.
  Qed.

  (** the update loop: the field it leaves satisfies the field equation *)
  Lemma update_spec m (s : ST) (chi : Z -> list W) : s_b _ _ s <> [] -> long_enough F steps (s_f _ _ s) -> long_enough F steps (s_b _ _ s) ->
    (m = Freq -> (steps <= zlen (s_gam _ _ s))%Z) -> zlen PsiI = ntargets ->
    (forall (s' : ST) j, s_mem _ _ s' = s_mem _ _ s -> (0 <= j < steps)%Z -> fetch s' j = Ok (chi j)) ->
    exists f, foldM (update_step F W U gobbler mu dot shape alpha phase ntargets m) (upto 0%Z steps) (with_clk _ _ s 0%Z, PsiI) =
        Ok (mkSt _ _ f (s_b _ _ s) (s_mem _ _ s) steps (s_gam _ _ s), at_time f PsiI steps) /\ same_lasers F steps f (s_f _ _ s) /\
      field_eq (base m (s_b _ _ s)) (extra m (s_gam _ _ s)) PsiI chi f.
  Proof.
    intros N Lf Lb G HI Hchi.
    pose (E := fun (ls : list (list F)) k => base m (s_b _ _ s) k - nth (Z.to_nat k) shape 0 / (alpha * ofZ ntargets) *
        (imag_sum (at_time ls PsiI k) (chi k) + extra m (s_gam _ _ s) k)).
    destruct (foldM_upto (update_step F W U gobbler mu dot shape alpha phase ntargets m)
      (fun k x => exists f, x = (mkSt _ _ f (s_b _ _ s) (s_mem _ _ s) k (s_gam _ _ s), at_time f PsiI k) /\ same_lasers F steps f (s_f _ _ s) /\ forall j l, (0 <= j < k)%Z -> In l f -> nth (Z.to_nat j) l 0 = E f j)
      0%Z steps (with_clk _ _ s 0%Z, PsiI)) as (x & Ex & f & -> & K1 & K2).
    - lia.
    - exists (s_f _ _ s). rewrite at_time_0. split; [reflexivity|]. split; [apply same_refl|]. intros j l Hj. lia.
    - intros k x Hk (f & -> & K1 & K2). unfold update_step. cbn [fst snd].
      rewrite (Hchi _ k) by (reflexivity || lia). cbn [bind].
      rewrite calc_field_spec by (cbn; auto; lia). cbn [bind s_b s_clk s_gam s_f].
      assert (Lk : long_enough F steps f) by (eapply same_long; eassumption).
      fold (E f k). rewrite set_all_spec by (assumption || lia). cbn [bind].
      rewrite drive_spec by (cbn; (apply set_list_long; assumption) || lia). cbn [bind s_clk s_f with_f].
      set (f' := set_list f k (E f k)).
      assert (Et : forall j, (0 <= j <= k)%Z -> at_time f' PsiI j = at_time f PsiI j).
      { intros j Hj. apply at_time_ext. intros i Hi. apply set_list_values; (assumption || lia). }
      rewrite <- (Et k) by lia. rewrite step_map_fwd by lia. eexists. split; [reflexivity|].
      exists f'. split; [reflexivity|]. split; [eapply same_trans; [apply same_set; (assumption||lia)|exact K1]|].
      intros j l Hj Hl. assert (EE : E f' j = E f j) by (unfold E; rewrite Et by lia; reflexivity). rewrite EE.
      apply in_map_iff in Hl. destruct Hl as (r & <- & Hr). pose proof Lk as Lk'. unfold long_enough in Lk'. rewrite Forall_forall in Lk'.
      specialize (Lk' r Hr). rewrite nth_upd by lia. destruct (Nat.eqb_spec (Z.to_nat j) (Z.to_nat k)).
      + replace j with k by lia. reflexivity.
      + apply K2; [lia|assumption].
    - exists f. split; [exact Ex|]. split; [exact K1|]. intros k l Hk Hl. rewrite (K2 k l Hk Hl). unfold E.
      replace (Z.of_nat (length PsiI)) with ntargets by (symmetry; exact HI). reflexivity.
  Qed.

  (** the field equation determines the field *)
  Lemma field_eq_unique bs g chi f f' : length f = length f' -> field_eq bs g PsiI chi f -> field_eq bs g PsiI chi f' ->
    forall k, (0 <= k < steps)%Z -> values F f k = values F f' k.
  Proof.
    intros L H H' k Hk.
    assert (A : forall n, (Z.of_nat n <= steps)%Z -> forall j, (0 <= j < Z.of_nat n)%Z -> values F f j = values F f' j).
    { induction n as [|n IH]; intros Hn j Hj; [lia|].
      destruct (Z.eq_dec j (Z.of_nat n)) as [->|Nj]; [|apply IH; lia].
      set (v := bs (Z.of_nat n) - nth (Z.to_nat (Z.of_nat n)) shape 0 / (alpha * ofZ (Z.of_nat (length PsiI))) *
               (imag_sum (at_time f PsiI (Z.of_nat n)) (chi (Z.of_nat n)) + g (Z.of_nat n))).
      assert (V : values F f (Z.of_nat n) = repeat v (length f)).
      { unfold values. rewrite <- (map_length (fun l => nth (Z.to_nat (Z.of_nat n)) l 0) f). apply Forall_eq_repeat.
        apply Forall_forall. intros x Hx. apply in_map_iff in Hx. destruct Hx as (l & <- & Hl). symmetry. apply H; [lia|exact Hl]. }
      assert (V' : values F f' (Z.of_nat n) = repeat v (length f')).
      { unfold values. rewrite <- (map_length (fun l => nth (Z.to_nat (Z.of_nat n)) l 0) f'). apply Forall_eq_repeat.
        apply Forall_forall. intros x Hx. apply in_map_iff in Hx. destruct Hx as (l & <- & Hl). symmetry. unfold v.
        rewrite (at_time_ext f f' PsiI (Z.of_nat n)) by (intros; apply IH; lia). apply H'; [lia|exact Hl]. }
      rewrite V, V', L. reflexivity. }
    apply (A (Z.to_nat steps)); lia.
  Qed.

  Hypothesis HI : zlen PsiI = ntargets.
  Hypothesis HT : zlen PsiT = ntargets.
  Open Scope Z_scope.
  Notation op_targets := (op_targets F W step target steps).
  Notation same := (same_lasers F steps).
  Notation long := (long_enough F steps).

  Definition targets (tt : ttype) (old : list (list F)) : list W :=
    match tt with Overlap => PsiT | Oper => op_targets old PsiI end.
  Lemma apply_targets_spec ws : zlen ws = ntargets ->
    apply_targets W target ntargets ws = Ok (map (fun p => target (Z.of_nat (fst p)) (snd p)) (combine (seq 0 (length ws)) ws)).
  Proof. intros <-. apply mapM_index. Qed.
  Lemma op_targets_eq old ls : old = at_time ls PsiI steps ->
    map (fun p => target (Z.of_nat (fst p)) (snd p)) (combine (seq 0 (length old)) old) = op_targets ls PsiI.
  Proof.
    intros ->. unfold Spec.Oct.op_targets. do 2 f_equal. unfold Spec.Oct.at_time at 1. rewrite map_length. reflexivity.
  Qed.
  Lemma op_targets_len ls : zlen (op_targets ls PsiI) = ntargets.
  Proof.
    rewrite <- HI. unfold Spec.Oct.op_targets. rewrite zlen_map. unfold zlen, Spec.Oct.at_time.
    rewrite combine_length, seq_length, map_length. f_equal. lia.
  Qed.
  Lemma targets_len tt ls : zlen (targets tt ls) = ntargets.
  Proof. destruct tt; [exact HT|apply op_targets_len]. Qed.

  Lemma sync_spec tt (s : ST) : mem_ok (s_mem _ _ s) -> long (s_f _ _ s) -> paired (s_f _ _ s) (s_b _ _ s) ->
    exists m, sync F W U gobbler target ntargets steps tt false s (initial_phit W PsiI PsiT tt) =
        Ok (mkSt _ _ (s_f _ _ s) (s_b _ _ s) m (-1) (s_gam _ _ s), back_at (s_b _ _ s) (targets tt (s_b _ _ s)) 0) /\ mem_ok m /\
      forall (s' : ST) j, s_mem _ _ s' = m -> 0 <= j <= steps -> fetch s' j = Ok (back_at (s_b _ _ s) (targets tt (s_b _ _ s)) j).
  Proof.
    intros M L P. destruct tt; cbn [sync initial_phit targets].
    - unfold sync_overlap. apply backward_spec; assumption.
    - unfold sync_operator. rewrite swap_spec by exact P.
      assert (Lb : long (s_b _ _ s)) by (eapply paired_long; eassumption).
      destruct (forward_spec (mkSt _ _ (s_b _ _ s) (s_f _ _ s) (s_mem _ _ s) (s_clk _ _ s) (s_gam _ _ s)) PsiI)
        as (m1 & E1 & M1 & _); [exact M|exact Lb|exact HI|]. rewrite E1. cbn [bind s_f s_b s_gam].
      rewrite swap_spec by (cbn; apply paired_sym; exact P). cbn [s_f s_b s_gam s_mem s_clk].
      rewrite apply_targets_spec by (rewrite at_time_len; exact HI). cbn [bind].
      rewrite (op_targets_eq _ (s_b _ _ s)) by reflexivity.
      apply (backward_spec (mkSt _ _ (s_f _ _ s) (s_b _ _ s) m1 steps (s_gam _ _ s)));
        [exact M1|exact L|exact P|apply op_targets_len].
  Qed.

  (** ** Krotov, Rabitz *)
  Lemma iterate_spec m tt (s : ST) : m <> Freq -> mem_ok (s_mem _ _ s) -> long (s_f _ _ s) -> paired (s_f _ _ s) (s_b _ _ s) -> s_b _ _ s <> [] ->
    exists f mem, iterate F W U gobbler mu dot target shape alpha phase ntargets steps PsiI m tt false s (initial_phit W PsiI PsiT tt) =
        Ok (mkSt _ _ f (s_b _ _ s) mem steps (s_gam _ _ s), (at_time f PsiI steps, targets tt (s_b _ _ s))) /\ mem_ok mem /\
      same f (s_f _ _ s) /\ field_eq (base m (s_b _ _ s)) (fun _ => c0) PsiI (back_at (s_b _ _ s) (targets tt (s_b _ _ s))) f.
  Proof.
    intros Nm M L P Nb. unfold iterate. destruct (sync_spec tt s M L P) as (m1 & E1 & M1 & F1). rewrite E1. cbn [bind].
    destruct (update_spec m
      (mkSt _ _ (s_f _ _ s) (s_b _ _ s) m1 (-1) (s_gam _ _ s)) (back_at (s_b _ _ s) (targets tt (s_b _ _ s))))
      as (f & Ef & S & Q); cbn [s_f s_b s_gam s_mem]; auto.
    - eapply paired_long; eassumption.
    - intros; congruence.
    - intros s' j Es Hj. apply F1; [exact Es|lia].
    - rewrite Ef. cbn [bind]. rewrite (F1 _ steps) by (reflexivity || lia). rewrite back_at_T. cbn [bind].
      exists f, m1. split; [reflexivity|]. split; [exact M1|]. split; [exact S|].
      intros k l Hk Hl. rewrite (Q k l Hk Hl). cbn [s_b s_gam]. destruct m; try reflexivity. congruence.
  Qed.

  (** a moving target: whatever the buffers hold *)
  Lemma iterate_mv_spec m (s : ST) chi phit : m <> Freq -> mem_ok (s_mem _ _ s) -> long (s_f _ _ s) -> paired (s_f _ _ s) (s_b _ _ s) -> s_b _ _ s <> [] ->
    (forall (s' : ST) j, s_mem _ _ s' = s_mem _ _ s -> 0 <= j <= steps -> fetch s' j = Ok (chi j)) ->
    exists f, iterate F W U gobbler mu dot target shape alpha phase ntargets steps PsiI m Overlap true s phit =
        Ok (mkSt _ _ f (s_b _ _ s) (s_mem _ _ s) steps (s_gam _ _ s), (at_time f PsiI steps, phit)) /\
      same f (s_f _ _ s) /\ field_eq (base m (s_b _ _ s)) (fun _ => c0) PsiI chi f.
  Proof.
    intros Nm M L P Nb H. unfold iterate. cbn [sync sync_overlap bind].
    destruct (update_spec m s chi)
      as (f & Ef & S & Q); auto.
    - eapply paired_long; eassumption.
    - intros; congruence.
    - intros s' j Es Hj. apply H; [exact Es|lia].
    - rewrite Ef. cbn [bind]. exists f. split; [reflexivity|]. split; [exact S|].
      intros k l Hk Hl. rewrite (Q k l Hk Hl). destruct m; try reflexivity. congruence.
  Qed.

  (** ** Krotov with a frequency filter *)
  Section FreqIteration.
  Hypothesis Hpass : forall l, length (pass l) = length l.
  Hypothesis Hstop : forall l, length (stop l) = length l.
  (** the filtered old lasers: all of them are the filtered first one *)
  Definition filtered (b : list (list F)) : list (list F) := repeat (pass (hd [] b)) (length b).
  (** the correction field *)
  Definition gammas (b : list (list F)) (chi0 : list W) : list F :=
    gamma_field F W step mu dot phase steps PsiI chi0 b.
  Lemma gammas_upto b chi0 : gammas b chi0 = map (fun k => imag_sum (at_time b PsiI k) (at_time b chi0 k)) (upto 0 steps).
  Proof. unfold upto. rewrite Z.sub_0_r, map_map. reflexivity. Qed.

  Lemma shape_lasers_spec (s : ST) n : s_b _ _ s <> [] -> paired (s_f _ _ s) (s_b _ _ s) -> Forall (fun l => length l = n) (s_b _ _ s) ->
    shape_lasers F W pass s = Ok (mkSt _ _ (filtered (s_b _ _ s)) (filtered (s_b _ _ s)) (s_mem _ _ s) (s_clk _ _ s) (s_gam _ _ s)).
  Proof.
    intros Nb P E. destruct s as [f b mem c g]; cbn [s_f s_b s_mem s_clk s_gam] in *. unfold shape_lasers; cbn [s_f s_b].
    inversion P as [|f0 b0 ft bt H0 P']; subst; [congruence|]. inversion E as [|? ? E0 Et]; subst.
    assert (X : forall r, Forall (fun l => length l = length b0) r -> mapM (fast_copy F (pass b0)) r = Ok (repeat (pass b0) (length r))).
    { induction r as [|x r IH]; intros Hr; [reflexivity|]. inversion Hr; subst. cbn [mapM length repeat].
      unfold fast_copy at 1. unfold zlen. rewrite Hpass.
      replace (length x) with (length b0) by auto. rewrite Z.eqb_refl. cbn [bind]. rewrite IH by assumption. reflexivity. }
    assert (Ef : Forall (fun l => length l = length b0) ft).
    { clear - P' Et. revert Et; induction P' as [|x y ft bt H P IH]; intros Et; [constructor|]. inversion Et; subst. constructor; [congruence|auto]. }
    unfold fast_copy at 1, zlen. rewrite <- H0, Z.eqb_refl. cbn [bind]. rewrite (X ft Ef). cbn [bind]. rewrite (X bt Et). cbn [bind].
    unfold filtered, with_b, with_f; cbn. replace (length ft) with (length bt) by (symmetry; clear - P'; induction P'; cbn; auto).
    reflexivity.
  Qed.

  Lemma gamma_spec (s : ST) phit : long (s_f _ _ s) -> zlen (s_gam _ _ s) = steps ->
    foldM (gamma_step F W U gobbler mu dot phase ntargets false) (upto 0 steps) (with_clk _ _ s 0, (PsiI, phit)) =
    Ok (mkSt _ _ (s_f _ _ s) (s_b _ _ s) (s_mem _ _ s) steps (gammas (s_f _ _ s) phit),
        (at_time (s_f _ _ s) PsiI steps, at_time (s_f _ _ s) phit steps)).
  Proof.
    intros L G. set (f := s_f _ _ s) in *.
    destruct (foldM_upto (gamma_step F W U gobbler mu dot phase ntargets false)
      (fun k x => exists g, x = (mkSt _ _ f (s_b _ _ s) (s_mem _ _ s) k g, (at_time f PsiI k, at_time f phit k)) /\ zlen g = steps /\
        forall j, 0 <= j < k -> rd g j = Ok (imag_sum (at_time f PsiI j) (at_time f phit j)))
      0 steps (with_clk _ _ s 0, (PsiI, phit))) as (x & Ex & g & -> & K1 & K2).
    - lia.
    - exists (s_gam _ _ s). rewrite !at_time_0. split; [reflexivity|]. split; [exact G|]. intros; lia.
    - intros k x Hk (g & -> & K1 & K2). unfold gamma_step. cbn [bind s_gam s_clk]. rewrite wr_ok by lia. cbn [bind].
      rewrite calc_corr_spec.
      rewrite drive_spec by (cbn; assumption || lia). cbn [bind s_f s_clk with_gam].
      rewrite drive_spec by (cbn; assumption || lia). cbn [bind s_f s_clk].
      rewrite !step_map_fwd by lia. eexists. split; [reflexivity|].
      exists (upd g (Z.to_nat k) (imag_sum (at_time f PsiI k) (at_time f phit k))). split; [reflexivity|].
      split; [rewrite zlen_upd; exact K1|]. intros j Hj. rewrite rd_upd by lia. destruct (Z.eqb_spec j k) as [->|N]; [reflexivity|].
      apply K2. lia.
    - rewrite Ex. replace (gammas f phit) with g; [reflexivity|]. apply rd_ext.
      + rewrite gammas_upto, zlen_map. unfold zlen at 2. rewrite upto_length. lia.
      + intros i Hi. rewrite K2 by lia. rewrite gammas_upto, rd_map, rd_upto by lia. reflexivity.
  Qed.

  Lemma filtered_long b : b <> [] -> long b -> long (filtered b).
  Proof.
    intros N L. unfold filtered. destruct b as [|b0 bt]; [congruence|]. inversion L; subst. unfold long_enough. apply Forall_forall.
    intros x Hx. apply repeat_spec in Hx. subst x. cbn [hd]. rewrite Hpass. assumption.
  Qed.
  Lemma gammas_len b c : zlen (gammas b c) = steps.
  Proof. rewrite gammas_upto, zlen_map. unfold zlen. rewrite upto_length. lia. Qed.

  Lemma iterate_freq_spec tt (s : ST) n : mem_ok (s_mem _ _ s) -> long (s_b _ _ s) -> paired (s_f _ _ s) (s_b _ _ s) -> s_b _ _ s <> [] ->
    Forall (fun l => length l = n) (s_b _ _ s) -> zlen (s_gam _ _ s) = steps ->
    let b := filtered (s_b _ _ s) in
    let chi := back_at b (targets tt b) in
    let g := stop (gammas b (chi 0)) in
    exists f mem, iterate_freq F W U gobbler mu dot target pass stop shape alpha phase ntargets steps PsiI tt false s PsiI (initial_phit W PsiI PsiT tt) =
        Ok (mkSt _ _ f b mem steps g, (at_time f PsiI steps, at_time b (chi 0) steps)) /\ mem_ok mem /\
      same f b /\ field_eq (fun k => nth (Z.to_nat k) (pass (hd [] (s_b _ _ s))) c0) (fun k => nth (Z.to_nat k) g c0) PsiI chi f.
  Proof.
    intros M L P Nb E G b chi g. unfold iterate_freq. rewrite (shape_lasers_spec s n Nb P E). cbn [bind]. fold b.
    assert (Lb : long b) by (apply filtered_long; assumption).
    assert (Pb : paired b b) by (clear; generalize b; intros c; induction c; constructor; auto).
    destruct (sync_spec tt (mkSt _ _ b b (s_mem _ _ s) (s_clk _ _ s) (s_gam _ _ s)) M Lb Pb) as (m1 & E1 & M1 & F1).
    rewrite E1. cbn [bind s_f s_b s_gam]. cbn [s_b] in F1. fold chi in F1. fold (chi 0).
    rewrite (gamma_spec (mkSt _ _ b b m1 (-1) (s_gam _ _ s)) (chi 0)) by (cbn; assumption). cbn [bind s_f s_b s_mem snd].
    unfold with_gam at 1; cbn [s_f s_b s_mem s_clk s_gam].
    fold g.
    assert (Nb' : b <> []).
    { unfold b, filtered. destruct (s_b _ _ s); [congruence|]. cbn. discriminate. }
    destruct (update_spec Freq
      (mkSt _ _ b b m1 steps g) chi) as (f & Ef & S & Q); cbn [s_f s_b s_gam s_mem]; auto.
    - intros _. unfold zlen, g. rewrite Hstop. fold (zlen (gammas b (chi 0))). rewrite gammas_len. lia.
    - intros s' j Es Hj. apply F1; [exact Es|lia].
    - rewrite Ef. cbn [bind]. exists f, m1. split; [reflexivity|]. split; [exact M1|]. split; [exact S|].
      intros k l Hk Hl. rewrite (Q k l Hk Hl). cbn [s_b s_gam base extra].
      replace (hd [] b) with (pass (hd [] (s_b _ _ s))); [reflexivity|]. unfold b, filtered. destruct (s_b _ _ s); [congruence|reflexivity].
  Qed.
  (** a moving target: whatever the buffers hold *)
  Definition gammas_mv (b : list (list F)) (chi : Z -> list W) : list F :=
    map (fun k => imag_sum (at_time b PsiI k) (chi k)) (upto 0 steps).
  Definition tidied (n : nat) (ws : list W) : list W := Nat.iter n (map (tidy W gobbler)) ws.
  Lemma gamma_mv_spec (s : ST) phit chi : long (s_f _ _ s) -> zlen (s_gam _ _ s) = steps ->
    (forall (s' : ST) j, s_mem _ _ s' = s_mem _ _ s -> 0 <= j <= steps -> fetch s' j = Ok (chi j)) ->
    foldM (gamma_step F W U gobbler mu dot phase ntargets true) (upto 0 steps) (with_clk _ _ s 0, (PsiI, phit)) =
    Ok (mkSt _ _ (s_f _ _ s) (s_b _ _ s) (s_mem _ _ s) steps (gammas_mv (s_f _ _ s) chi),
        (at_time (s_f _ _ s) PsiI steps, tidied (Z.to_nat steps) phit)).
  Proof.
    intros L G Hf. set (f := s_f _ _ s) in *.
    destruct (foldM_upto (gamma_step F W U gobbler mu dot phase ntargets true)
      (fun k x => exists g, x = (mkSt _ _ f (s_b _ _ s) (s_mem _ _ s) k g, (at_time f PsiI k, tidied (Z.to_nat k) phit)) /\ zlen g = steps /\
        forall j, 0 <= j < k -> rd g j = Ok (imag_sum (at_time f PsiI j) (chi j)))
      0 steps (with_clk _ _ s 0, (PsiI, phit))) as (x & Ex & g & -> & K1 & K2).
    - lia.
    - exists (s_gam _ _ s). rewrite !at_time_0. split; [reflexivity|]. split; [exact G|]. intros; lia.
    - intros k x Hk (g & -> & K1 & K2). unfold gamma_step. rewrite (Hf _ k) by (cbn; reflexivity || lia).
      cbn [bind s_gam s_clk]. rewrite wr_ok by lia. cbn [bind].
      rewrite calc_corr_spec.
      rewrite drive_spec by (cbn; assumption || lia). cbn [bind s_f s_clk with_gam].
      rewrite !step_map_fwd by lia. eexists. split; [reflexivity|].
      exists (upd g (Z.to_nat k) (imag_sum (at_time f PsiI k) (chi k))). split.
      { unfold with_clk, with_gam; cbn. repeat f_equal. unfold tidied.
        replace (Z.to_nat (k + 1)) with (S (Z.to_nat k)) by lia. reflexivity. }
      split; [rewrite zlen_upd; exact K1|]. intros j Hj. rewrite rd_upd by lia. destruct (Z.eqb_spec j k) as [->|N]; [reflexivity|].
      apply K2. lia.
    - rewrite Ex. replace (gammas_mv f chi) with g; [reflexivity|]. apply rd_ext.
      + unfold gammas_mv. rewrite zlen_map. unfold zlen at 2. rewrite upto_length. lia.
      + intros i Hi. rewrite K2 by lia. unfold gammas_mv. rewrite rd_map, rd_upto by lia. reflexivity.
  Qed.
  Lemma gammas_mv_len b c : zlen (gammas_mv b c) = steps.
  Proof. unfold gammas_mv. rewrite zlen_map. unfold zlen. rewrite upto_length. lia. Qed.

  Lemma iterate_freq_mv_spec (s : ST) chi phit n : mem_ok (s_mem _ _ s) -> long (s_b _ _ s) -> paired (s_f _ _ s) (s_b _ _ s) -> s_b _ _ s <> [] ->
    Forall (fun l => length l = n) (s_b _ _ s) -> zlen (s_gam _ _ s) = steps ->
    (forall (s' : ST) j, s_mem _ _ s' = s_mem _ _ s -> 0 <= j <= steps -> fetch s' j = Ok (chi j)) ->
    let b := filtered (s_b _ _ s) in
    let g := stop (gammas_mv b chi) in
    exists f, iterate_freq F W U gobbler mu dot target pass stop shape alpha phase ntargets steps PsiI Overlap true s PsiI phit =
        Ok (mkSt _ _ f b (s_mem _ _ s) steps g, (at_time f PsiI steps, tidied (Z.to_nat steps) phit)) /\
      same f b /\ field_eq (fun k => nth (Z.to_nat k) (pass (hd [] (s_b _ _ s))) c0) (fun k => nth (Z.to_nat k) g c0) PsiI chi f.
  Proof.
    intros M L P Nb E G Hf b g. unfold iterate_freq. rewrite (shape_lasers_spec s n Nb P E). cbn [bind]. fold b.
    assert (Lb : long b) by (apply filtered_long; assumption).
    assert (Pb : paired b b) by (clear; generalize b; intros c; induction c; constructor; auto).
    cbn [sync sync_overlap bind].
    rewrite (gamma_mv_spec (mkSt _ _ b b (s_mem _ _ s) (s_clk _ _ s) (s_gam _ _ s)) phit chi) by (cbn; assumption). cbn [bind s_f s_b s_mem snd].
    unfold with_gam at 1; cbn [s_f s_b s_mem s_clk s_gam].
    fold g.
    assert (Nb' : b <> []).
    { unfold b, filtered. destruct (s_b _ _ s); [congruence|]. cbn. discriminate. }
    destruct (update_spec Freq
      (mkSt _ _ b b (s_mem _ _ s) steps g) chi) as (f & Ef & S & Q); cbn [s_f s_b s_gam s_mem]; auto.
    - intros _. unfold zlen, g. rewrite Hstop. fold (zlen (gammas_mv b chi)). rewrite gammas_mv_len. lia.
    - intros s' j Es Hj. apply Hf; [exact Es|lia].
    - rewrite Ef. cbn [bind]. exists f. split; [reflexivity|]. split; [exact S|].
      intros k l Hk Hl. rewrite (Q k l Hk Hl). cbn [s_b s_gam base extra].
      replace (hd [] b) with (pass (hd [] (s_b _ _ s))); [reflexivity|]. unfold b, filtered. destruct (s_b _ _ s); [congruence|reflexivity].
  Qed.
  End FreqIteration.

  (** ** Rabitz with feedback *)
  (** the target states this method uses: the operators are applied to the initial states *)
  Definition fb_targets (tt : ttype) : list W :=
    match tt with Overlap => PsiT | Oper => map (fun p => target (Z.of_nat (fst p)) (snd p)) (combine (seq 0 (length PsiI)) PsiI) end.
  Lemma fb_targets_len tt : zlen (fb_targets tt) = ntargets.
  Proof.
    destruct tt; [exact HT|]. rewrite <- HI. unfold fb_targets. rewrite zlen_map. unfold zlen. rewrite combine_length, seq_length. f_equal. lia.
  Qed.
  Lemma fb_back_spec (s : ST) phit : mem_ok (s_mem _ _ s) -> long (s_f _ _ s) -> long (s_b _ _ s) -> s_b _ _ s <> [] -> zlen phit = ntargets ->
    (forall (s' : ST) j, s_mem _ _ s' = s_mem _ _ s -> 0 <= j <= steps -> exists ws, fetch s' j = Ok ws) ->
    exists b m, foldM (fb_back_step F W U gobbler mu dot shape alpha phase ntargets) (upto 0 steps) (with_clk _ _ s (steps - 1), phit) =
        Ok (mkSt _ _ (s_f _ _ s) b m (-1) (s_gam _ _ s), back_at (s_f _ _ s) phit 0) /\ mem_ok m /\ same b (s_b _ _ s) /\
      (forall (s' : ST) j, s_mem _ _ s' = m -> 0 < j <= steps -> fetch s' j = Ok (back_at (s_f _ _ s) phit j)).
  Proof.
    intros M Lf Lb Nb Hp Hf.
    destruct (foldM_upto (fb_back_step F W U gobbler mu dot shape alpha phase ntargets)
      (fun n x => exists b m, x = (mkSt _ _ (s_f _ _ s) b m (steps - 1 - n) (s_gam _ _ s), back_at (s_f _ _ s) phit (steps - n)) /\ mem_ok m /\
        same b (s_b _ _ s) /\
        (forall (s' : ST) j, s_mem _ _ s' = m -> steps - n < j <= steps -> fetch s' j = Ok (back_at (s_f _ _ s) phit j)) /\
        (forall (s' : ST) j, s_mem _ _ s' = m -> 0 <= j <= steps -> exists ws, fetch s' j = Ok ws))
      0 steps (with_clk _ _ s (steps - 1), phit)) as (x & Ex & b & m & -> & K1 & K2 & K3 & K4).
    - lia.
    - exists (s_b _ _ s), (s_mem _ _ s). rewrite !Z.sub_0_r, back_at_T. split; [reflexivity|]. split; [exact M|]. split; [apply same_refl|].
      split; [intros; lia|exact Hf].
    - intros n x Hn (b & m & -> & K1 & K2 & K3 & K4). unfold fb_back_step. cbn [fst snd s_clk].
      destruct (K4 (mkSt _ _ (s_f _ _ s) b m (steps - 1 - n) (s_gam _ _ s)) (steps - 1 - n + 1) eq_refl) as [ws Ews]; [lia|].
      rewrite Ews. cbn [bind].
      assert (Lb' : long b) by (eapply same_long; eassumption).
      assert (Nb' : b <> []).
      { intros ->. apply Nb. destruct (s_b _ _ s); [reflexivity|]. inversion K2. }
      rewrite calc_field_spec; [|exact Nb'|exact Lb'|cbn; lia|discriminate]. cbn [bind s_b s_clk s_gam].
      match goal with |- context [set_all F b ?k ?x] => set (e := x) end.
      rewrite set_all_spec by (assumption || lia). cbn [bind].
      destruct (save_fetch (with_b _ _ (mkSt _ _ (s_f _ _ s) b m (steps - 1 - n) (s_gam _ _ s)) (set_list b (steps - 1 - n) e))
        (steps - 1 - n + 1) (back_at (s_f _ _ s) phit (steps - n))) as (m2 & E2 & N1 & N2); [exact K1|lia|rewrite back_at_len; exact Hp|].
      rewrite E2. cbn [bind]. rewrite drive_spec by (cbn; assumption || lia). cbn [bind with_mem with_b s_f s_clk].
      replace (steps - n) with (steps - 1 - n + 1) by lia. rewrite step_map_bwd by lia.
      eexists. split; [reflexivity|]. exists (set_list b (steps - 1 - n) e), m2.
      replace (steps - (n + 1)) with (steps - 1 - n) by lia. split; [|split; [exact N1|split]].
      + f_equal. unfold with_clk; cbn. f_equal. lia.
      + eapply same_trans; [apply same_set; (assumption || lia)|exact K2].
      + split; intros s' j Es Hj; destruct (N2 s' Es) as [A B]; (destruct (Z.eq_dec j (steps - 1 - n + 1)) as [->|N];
          [rewrite A; replace (steps - 1 - n + 1) with (steps - n) by lia; eauto|]).
        * rewrite (B (mkSt _ _ (s_f _ _ s) b m (steps - 1 - n) (s_gam _ _ s)) j eq_refl N). apply K3; [reflexivity|lia].
        * rewrite (B (mkSt _ _ (s_f _ _ s) b m (steps - 1 - n) (s_gam _ _ s)) j eq_refl N). apply K4; [reflexivity|lia].
    - exists b, m. rewrite Ex. replace (steps - steps) with 0 in * by lia. split; [do 2 f_equal; f_equal; lia|].
      split; [exact K1|]. split; [exact K2|]. exact K3.
  Qed.

  Lemma fb_fwd_spec (s : ST) (chi : Z -> list W) : mem_ok (s_mem _ _ s) -> s_b _ _ s <> [] -> long (s_f _ _ s) -> long (s_b _ _ s) ->
    (forall (s' : ST) j, s_mem _ _ s' = s_mem _ _ s -> 0 <= j <= steps -> fetch s' j = Ok (chi j)) ->
    exists f m, foldM (fb_fwd_step F W U gobbler mu dot shape alpha phase ntargets) (upto 0 steps) (with_clk _ _ s 0, PsiI) =
        Ok (mkSt _ _ f (s_b _ _ s) m steps (s_gam _ _ s), at_time f PsiI steps) /\ mem_ok m /\
      same f (s_f _ _ s) /\ field_eq (fun _ => c0) (fun _ => c0) PsiI chi f /\
      (forall (s' : ST) j, s_mem _ _ s' = m -> 0 <= j < steps -> fetch s' j = Ok (at_time f PsiI j)).
  Proof.
    intros M N Lf Lb Hchi.
    pose (E := fun (ls : list (list F)) k => (c0 - nth (Z.to_nat k) shape c0 / (alpha * ofZ ntargets) *
        (imag_sum (at_time ls PsiI k) (chi k) + c0))%cr).
    destruct (foldM_upto (fb_fwd_step F W U gobbler mu dot shape alpha phase ntargets)
      (fun k x => exists f m, x = (mkSt _ _ f (s_b _ _ s) m k (s_gam _ _ s), at_time f PsiI k) /\ mem_ok m /\
        same f (s_f _ _ s) /\ (forall j l, 0 <= j < k -> In l f -> nth (Z.to_nat j) l c0 = E f j) /\
        (forall (s' : ST) j, s_mem _ _ s' = m -> 0 <= j <= steps -> fetch s' j = Ok (if j <? k then at_time f PsiI j else chi j)))
      0 steps (with_clk _ _ s 0, PsiI)) as (x & Ex & f & m & -> & K0 & K1 & K2 & K3).
    - lia.
    - exists (s_f _ _ s), (s_mem _ _ s). rewrite at_time_0. split; [reflexivity|]. split; [exact M|]. split; [apply same_refl|].
      split; [intros; lia|]. intros s' j Es Hj. rewrite (proj2 (Z.ltb_ge j 0)) by lia. apply Hchi; assumption.
    - intros k x Hk (f & m & -> & K0 & K1 & K2 & K3). unfold fb_fwd_step. cbn [fst snd s_clk].
      rewrite (K3 _ k) by (reflexivity || lia). rewrite (proj2 (Z.ltb_ge k k)) by lia. cbn [bind].
      rewrite calc_field_spec; [|exact N|exact Lb|cbn; lia|discriminate]. cbn [bind s_b s_clk s_gam s_f base extra].
      assert (Lk : long f) by (eapply same_long; eassumption).
      fold (E f k). rewrite set_all_spec by (assumption || lia). cbn [bind].
      set (f' := set_list f k (E f k)).
      destruct (save_fetch (with_f _ _ (mkSt _ _ f (s_b _ _ s) m k (s_gam _ _ s)) f') k (at_time f PsiI k))
        as (m2 & E2 & N1 & N2); [exact K0|lia|rewrite at_time_len; exact HI|].
      rewrite E2. cbn [bind].
      assert (L' : long f') by (apply set_list_long; assumption).
      rewrite drive_spec by (cbn; assumption || lia). cbn [bind s_clk s_f with_f with_mem].
      assert (Et : forall j, 0 <= j <= k -> at_time f' PsiI j = at_time f PsiI j).
      { intros j Hj. apply at_time_ext. intros i Hi. apply set_list_values; (assumption || lia). }
      rewrite <- (Et k) by lia. rewrite step_map_fwd by lia. eexists. split; [reflexivity|].
      exists f', m2. split; [reflexivity|]. split; [exact N1|].
      split; [eapply same_trans; [apply same_set; (assumption||lia)|exact K1]|]. split.
      + intros j l Hj Hl. assert (EE : E f' j = E f j) by (unfold E; rewrite Et by lia; reflexivity). rewrite EE.
        apply in_map_iff in Hl. destruct Hl as (r & <- & Hr). pose proof Lk as Lk'. unfold long_enough in Lk'. rewrite Forall_forall in Lk'.
        specialize (Lk' r Hr). rewrite nth_upd by lia. destruct (Nat.eqb_spec (Z.to_nat j) (Z.to_nat k)).
        * replace j with k by lia. reflexivity.
        * apply K2; [lia|assumption].
      + intros s' j Es Hj. destruct (N2 s' Es) as [A B]. destruct (Z.eq_dec j k) as [->|Nj].
        * rewrite A. rewrite (proj2 (Z.ltb_lt k (k + 1))) by lia. rewrite Et by lia. reflexivity.
        * rewrite (B (mkSt _ _ f (s_b _ _ s) m k (s_gam _ _ s)) j eq_refl Nj). rewrite (K3 _ j) by (reflexivity || lia).
          destruct (Z.ltb_spec j k), (Z.ltb_spec j (k + 1)); try lia; [rewrite Et by lia|]; reflexivity.
    - exists f, m. split; [exact Ex|]. split; [exact K0|]. split; [exact K1|]. split.
      + intros k l Hk Hl. rewrite (K2 k l Hk Hl). unfold E. replace (Z.of_nat (length PsiI)) with ntargets by (symmetry; exact HI). reflexivity.
      + intros s' j Es Hj. rewrite (K3 s' j Es) by lia. rewrite (proj2 (Z.ltb_lt j steps)) by lia. reflexivity.
  Qed.

  (** the state of the buffers when an iteration begins: at the first one anything, later a trajectory that starts with PsiI *)
  Definition fb_ready (i : Z) (mem : list (list (option W))) (phit : list W) (tt : ttype) : Prop :=
    (i <> 1 -> forall (s' : ST), s_mem _ _ s' = mem -> fetch s' 0 = Ok PsiI /\ forall j, 0 <= j <= steps -> exists ws, fetch s' j = Ok ws) /\
    (tt = Overlap -> phit = PsiT).

  Lemma iterate_fb_spec tt (s : ST) phii phit i : mem_ok (s_mem _ _ s) -> long (s_f _ _ s) -> paired (s_f _ _ s) (s_b _ _ s) -> s_b _ _ s <> [] ->
    (i = 1 -> phii = PsiI) -> fb_ready i (s_mem _ _ s) phit tt ->
    exists f m, iterate_fb F W U gobbler mu dot target shape alpha phase ntargets steps tt s phii phit i =
        Ok (mkSt _ _ f (s_b _ _ s) m steps (s_gam _ _ s), (at_time f PsiI steps, fb_targets tt)) /\ mem_ok m /\
      paired f (s_f _ _ s) /\ same f (s_f _ _ s) /\ field_eq (fun _ => c0) (fun _ => c0) PsiI (back_at (s_b _ _ s) (fb_targets tt)) f /\
      (forall (s' : ST) j, s_mem _ _ s' = m -> 0 <= j <= steps -> fetch s' j = Ok (at_time f PsiI j)).
  Proof.
    intros M L P Nb Hphi [R1 R2]. unfold iterate_fb.
    assert (A : exists m c phii', (if i =? 1 then propagate_forward s phii else Ok (s, phii)) =
        Ok (mkSt _ _ (s_f _ _ s) (s_b _ _ s) m c (s_gam _ _ s), phii') /\ mem_ok m /\
        (forall (s' : ST), s_mem _ _ s' = m -> fetch s' 0 = Ok PsiI /\ forall j, 0 <= j <= steps -> exists ws, fetch s' j = Ok ws)).
    { destruct (Z.eqb_spec i 1) as [->|Ni].
      - rewrite (Hphi eq_refl). destruct (forward_spec s PsiI M L HI) as (m & E & M1 & F1). exists m. eexists. eexists. split; [exact E|].
        split; [exact M1|]. intros s' Es. split; [rewrite (F1 s' 0 Es) by lia; rewrite at_time_0; reflexivity|].
        intros j Hj. rewrite (F1 s' j Es Hj). eauto.
      - exists (s_mem _ _ s), (s_clk _ _ s), phii. split; [destruct s; reflexivity|]. split; [exact M|]. exact (R1 Ni). }
    destruct A as (m1 & c & ph & -> & M1 & F1). cbn [bind].
    rewrite (proj1 (F1 (mkSt _ _ (s_f _ _ s) (s_b _ _ s) m1 c (s_gam _ _ s)) eq_refl)). cbn [bind].
    assert (B : match tt with Oper => apply_targets W target ntargets PsiI | Overlap => Ok phit end = Ok (fb_targets tt)).
    { destruct tt; cbn [fb_targets]; [rewrite (R2 eq_refl); reflexivity|]. rewrite apply_targets_spec by exact HI. reflexivity. }
    rewrite B. cbn [bind]. rewrite swap_spec by (cbn; exact P). cbn [s_f s_b s_mem s_clk s_gam with_clk].
    assert (Lb : long (s_b _ _ s)) by (eapply paired_long; eassumption).
    assert (Nf : s_f _ _ s <> []) by (intros Ef; rewrite Ef in P; inversion P; congruence).
    destruct (fb_back_spec (mkSt _ _ (s_b _ _ s) (s_f _ _ s) m1 (steps - 1) (s_gam _ _ s)) (fb_targets tt)) as (b' & m2 & E2 & M2 & S2 & F2);
      [exact M1|exact Lb|exact L|exact Nf|apply fb_targets_len| |].
    { intros s' j Es Hj. exact (proj2 (F1 s' Es) j Hj). }
    unfold with_clk in E2; cbn [s_f s_b s_mem s_clk s_gam] in E2, S2, F2. rewrite E2. cbn [bind].
    destruct (save_fetch (mkSt _ _ (s_b _ _ s) b' m2 (-1) (s_gam _ _ s)) 0 (back_at (s_b _ _ s) (fb_targets tt) 0)) as (m3 & E3 & M3 & F3);
      [exact M2|lia|rewrite back_at_len; apply fb_targets_len|].
    rewrite E3. cbn [bind].
    assert (Pb : paired (s_b _ _ s) b').
    { apply same_paired in S2. clear - S2 P. apply paired_sym in S2. revert S2. generalize b'. induction P as [|x y f b H P IH]; intros bb S.
      - inversion S; subst. constructor.
      - inversion S; subst. constructor; [congruence|apply IH; assumption]. }
    rewrite swap_spec by (cbn; exact Pb). cbn [s_f s_b s_mem s_clk s_gam with_mem].
    assert (F4 : forall (s' : ST) j, s_mem _ _ s' = m3 -> 0 <= j <= steps -> fetch s' j = Ok (back_at (s_b _ _ s) (fb_targets tt) j)).
    { intros s' j Es Hj. destruct (F3 s' Es) as [A' B']. destruct (Z.eq_dec j 0) as [->|Nj]; [exact A'|].
      rewrite (B' (mkSt _ _ (s_b _ _ s) b' m2 (-1) (s_gam _ _ s)) j eq_refl Nj). apply F2; [reflexivity|lia]. }
    rewrite (F4 _ steps) by (reflexivity || lia). rewrite back_at_T. cbn [bind].
    assert (Lb' : long b') by (eapply same_long; eassumption).
    destruct (fb_fwd_spec (mkSt _ _ b' (s_b _ _ s) m3 (-1) (s_gam _ _ s)) (back_at (s_b _ _ s) (fb_targets tt))) as (f & m4 & E4 & M4 & S4 & Q4 & F5);
      [exact M3|exact Nb|exact Lb'|exact Lb|exact F4|].
    cbn [s_f s_b s_mem s_clk s_gam] in E4, S4. rewrite E4. cbn [bind].
    destruct (save_fetch (mkSt _ _ f (s_b _ _ s) m4 steps (s_gam _ _ s)) steps (at_time f PsiI steps)) as (m5 & E5 & M5 & F6);
      [exact M4|lia|rewrite at_time_len; exact HI|].
    rewrite E5. cbn [bind]. exists f, m5. split; [reflexivity|]. split; [exact M5|].
    assert (Sf : same f (s_f _ _ s)) by (eapply same_trans; eassumption).
    split; [apply same_paired; exact Sf|]. split; [exact Sf|]. split; [exact Q4|].
    intros s' j Es Hj. destruct (F6 s' Es) as [A' B']. destruct (Z.eq_dec j steps) as [->|Nj]; [exact A'|].
    rewrite (B' (mkSt _ _ f (s_b _ _ s) m4 steps (s_gam _ _ s)) j eq_refl Nj). apply F5; [reflexivity|lia].
  Qed.

  (** ** The iteration loop *)
  Variable report : list W -> list W -> Q.
  Variable iterations : Z.
  Variable convergence : Q.
  Variable series : Z -> Z -> W.
  Notation LST := (loop_st F W).
  Notation iteration_step := (iteration_step F W U gobbler mu dot target pass stop shape alpha phase ntargets steps PsiI PsiT).
  Notation iterations_loop := (iterations_loop F W U gobbler mu dot target pass stop shape alpha phase ntargets steps PsiI PsiT report iterations convergence).
  Notation run := (run F W U gobbler mu dot target pass stop shape alpha phase ntargets steps PsiI PsiT report iterations convergence series).
  Notation course := (course F steps).

  (** the yield of the lasers e j; the report on the guess gets PsiT *)
  Definition yield (tg : list (list F) -> list W) (e : nat -> list (list F)) (j : nat) : Q :=
    yields (fun ls => at_time ls PsiI steps) report PsiT tg e j.

  Section Loop.
    Variables (m : method) (tt : ttype) (mv : bool).
    Variable Inv : Z -> ST -> list W -> Prop.
    Variable lasers : list (list F).
    Variable rel : list (list F) -> list (list F) -> Prop.
    Variable tg : list (list F) -> list W.
    Hypothesis Hit : forall x : LST, Inv (l_i _ _ x) (l_s _ _ x) (l_phit _ _ x) ->
      same (s_f _ _ (l_s _ _ x)) lasers -> same (s_b _ _ (l_s _ _ x)) lasers ->
      exists f b mem c g, iteration_step m tt mv x = Ok (mkSt _ _ f b mem c g, (at_time f PsiI steps, tg (s_b _ _ (l_s _ _ x)))) /\
        same f lasers /\ same b lasers /\ rel (s_b _ _ (l_s _ _ x)) f /\
        Inv (l_i _ _ x + 1) (mkSt _ _ b f mem c g) (tg (s_b _ _ (l_s _ _ x))).

    Definition ends (K : nat) (e : nat -> list (list F)) (x : LST) : Prop :=
      course rel lasers K e /\ s_b _ _ (l_s _ _ x) = e K /\ l_i _ _ x = Z.of_nat K + 1 /\
      l_rep _ _ x = rev (map (yield tg e) (seq 0 (S K))) /\ (Z.of_nat K <= iterations)%Z /\
      (forall j, (j < K)%nat -> (convergence < padded_change (yield tg e) j)%Q).
    Definition at_loop (j : nat) (e : nat -> list (list F)) (x : LST) : Prop :=
      ends j e x /\ Inv (l_i _ _ x) (l_s _ _ x) (l_phit _ _ x) /\ same (s_f _ _ (l_s _ _ x)) lasers /\ same (s_b _ _ (l_s _ _ x)) lasers /\
      l_d _ _ x = (Qabs (padded (yield tg e) (j - 2)), Qabs (padded (yield tg e) (j - 1)), Qabs (padded (yield tg e) j)) /\
      l_delta _ _ x = padded_change (yield tg e) j.

    Lemma loop_spec fuel : forall j e x, at_loop j e x -> (iterations < Z.of_nat j + Z.of_nat fuel)%Z ->
      exists K e' x', iterations_loop fuel m tt mv x = Some (Ok x') /\ ends K e' x' /\
        ((Z.of_nat K < iterations)%Z -> (padded_change (yield tg e') K <= convergence)%Q).
    Proof.
      induction fuel as [|fuel IH]; intros j e x [(C & Eb & Ei & Er & Hj & Hc) (I & Sf & Sb & Ed & Edl)] Hf; [lia|].
      cbn [Oct.iterations_loop]. rewrite Ei, Edl.
      destruct (Z.leb_spec (Z.of_nat j + 1) iterations) as [Hle|Hgt]; cbn [andb].
      2:{ exists j, e, x. split; [reflexivity|]. split; [exact (conj C (conj Eb (conj Ei (conj Er (conj Hj Hc)))))|]. intros; lia. }
      destruct (Qle_bool (padded_change (yield tg e) j) convergence) eqn:Eq; cbn [negb].
      { exists j, e, x. split; [reflexivity|]. split; [exact (conj C (conj Eb (conj Ei (conj Er (conj Hj Hc)))))|]. intros _. apply Qle_bool_iff. exact Eq. }
      assert (Hgt : (convergence < padded_change (yield tg e) j)%Q).
      { apply Qnot_le_lt. intros Hle'. apply Qle_bool_iff in Hle'. congruence. }
      destruct (Hit x I Sf Sb) as (f & b & mem & c & g & E & S1 & S2 & R & I').
      unfold one_iteration. rewrite E. cbn [bind fst snd]. rewrite Ed.
      rewrite swap_spec by (cbn; apply same_paired; eapply same_trans; [exact S1|apply same_sym; exact S2]). cbn [s_f s_b s_mem s_clk s_gam].
      set (e' := fun n => if (n <=? j)%nat then e n else f).
      assert (E1 : forall n, (n <= j)%nat -> e' n = e n) by (intros n Hn; unfold e'; rewrite (proj2 (Nat.leb_le n j)) by lia; reflexivity).
      assert (E2 : e' (S j) = f) by (unfold e'; rewrite (proj2 (Nat.leb_gt (S j) j)) by lia; reflexivity).
      assert (Y1 : forall n, (n <= j)%nat -> yield tg e' n = yield tg e n).
      { intros [|n] Hn; unfold yield, yields; [rewrite E1 by lia; reflexivity|]. rewrite !E1 by lia. reflexivity. }
      assert (P1 : forall n, (n <= j)%nat -> padded (yield tg e') n = padded (yield tg e) n).
      { intros [|n] Hn; [reflexivity|]. apply Y1. exact Hn. }
      assert (Y2 : yield tg e' (S j) = report (at_time f PsiI steps) (tg (s_b _ _ (l_s _ _ x)))).
      { unfold yield, yields. rewrite E2, E1, Eb by lia. reflexivity. }
      apply (IH (S j) e').
      - split; [|split; [exact I'|split; [exact S2|split; [exact S1|split]]]].
        + split; [|split; [cbn; symmetry; exact E2|split; [cbn; rewrite Ei; lia|split; [|split; [lia|]]]]].
          * split; [rewrite E1 by lia; exact (proj1 C)|]. intros n Hn. destruct (Nat.eq_dec n j) as [->|Nn].
            -- rewrite E2, E1, <- Eb by lia. split; [exact R|exact S1].
            -- rewrite !E1 by lia. apply (proj2 C). lia.
          * cbn [l_rep]. rewrite Er, <- Y2. replace (seq 0 (S (S j))) with (seq 0 (S j) ++ [S j]) by (rewrite <- seq_S; reflexivity).
            rewrite map_app, rev_app_distr. cbn [map rev app]. f_equal. f_equal. apply map_ext_in. intros n Hn. apply in_seq in Hn.
            symmetry. apply Y1. lia.
          * intros n Hn. destruct n as [|n]; [destruct j; [exact Hgt|apply (Hc 0%nat); lia]|].
            cbn [padded_change]. rewrite !P1 by lia. destruct (Nat.eq_dec (S n) j) as [Enj|Nn].
            -- rewrite <- Enj in Hgt. cbn [padded_change] in Hgt. exact Hgt.
            -- apply (Hc (S n)). lia.
        + cbn [l_d]. replace (S j - 2)%nat with (j - 1)%nat by lia. replace (S j - 1)%nat with j by lia.
          rewrite !P1 by lia. cbn [padded]. rewrite Y2. reflexivity.
        + cbn [l_delta padded_change]. replace (S j - 2)%nat with (j - 1)%nat by lia. replace (S j - 1)%nat with j by lia.
          rewrite !P1 by lia. cbn [padded]. rewrite Y2. reflexivity.
      - lia.
    Qed.
  End Loop.

  Lemma rd_repeat {A} (x : A) n i y : rd (repeat x n) i = Ok y -> y = x.
  Proof.
    intros H. unfold rd in H. destruct (0 <=? i)%Z; [|discriminate]. destruct (nth_error (repeat x n) (Z.to_nat i)) eqn:E; [|discriminate].
    injection H as <-. apply nth_error_In in E. apply repeat_spec in E. exact E.
  Qed.
  Lemma fresh_ok : mem_ok (fresh_buffers W ntargets steps).
  Proof.
    unfold fresh_buffers. split; [unfold zlen; rewrite repeat_length; lia|]. intros t r H. apply rd_repeat in H. subst r.
    unfold zlen. rewrite repeat_length. lia.
  Qed.
  Lemma load_spec (s : ST) : mem_ok (s_mem _ _ s) -> exists m, load_series F W ntargets steps series s = Ok (with_mem _ _ s m) /\ mem_ok m.
  Proof.
    intros M. unfold load_series.
    destruct (foldM_upto (fun s k => save s k (map (fun t => series t k) (upto 0 ntargets)))
      (fun _ s1 => exists m, s1 = with_mem _ _ s m /\ mem_ok m) 0 (steps + 1) s) as (x & Ex & m & -> & K).
    - lia.
    - exists (s_mem _ _ s). split; [destruct s; reflexivity|exact M].
    - intros k s1 Hk (m & -> & K). destruct (save_fetch (with_mem _ _ s m) k (map (fun t => series t k) (upto 0 ntargets))) as (m2 & E & M2 & _).
      + exact K.
      + lia.
      + rewrite zlen_map. unfold zlen. rewrite upto_length. lia.
      + rewrite E. eexists. split; [reflexivity|]. exists m2. split; [reflexivity|exact M2].
    - exists m. split; [exact Ex|exact K].
  Qed.
  (** the guess propagation overwrites the buffers, also those of a moving target *)
  Lemma start_spec (tt : ttype) (mv : bool) (lasers : list (list F)) : long lasers ->
    exists m, (let s := mkSt _ _ lasers lasers (fresh_buffers W ntargets steps) 0 (repeat c0 (Z.to_nat steps)) in
      let* s := match tt, mv with Overlap, true => load_series F W ntargets steps series s | _, _ => Ok s end in
      let* (s, phii) := propagate_forward s PsiI in
      Ok (mkLoop _ _ s 1 (1%Q, 1%Q, 1%Q) 1%Q phii phii [report phii PsiT])) =
      Ok (mkLoop _ _ (mkSt _ _ lasers lasers m steps (repeat c0 (Z.to_nat steps))) 1 (1%Q, 1%Q, 1%Q) 1%Q
            (at_time lasers PsiI steps) (at_time lasers PsiI steps) [report (at_time lasers PsiI steps) PsiT]) /\
      mem_ok m /\ forall (s' : ST) j, s_mem _ _ s' = m -> 0 <= j <= steps -> fetch s' j = Ok (at_time lasers PsiI j).
  Proof.
    intros L. cbn zeta.
    assert (A : exists m, match tt, mv with Overlap, true => load_series F W ntargets steps series
        (mkSt _ _ lasers lasers (fresh_buffers W ntargets steps) 0 (repeat c0 (Z.to_nat steps)))
        | _, _ => Ok (mkSt _ _ lasers lasers (fresh_buffers W ntargets steps) 0 (repeat c0 (Z.to_nat steps))) end =
        Ok (mkSt _ _ lasers lasers m 0 (repeat c0 (Z.to_nat steps))) /\ mem_ok m).
    { destruct tt, mv; try (exists (fresh_buffers W ntargets steps); split; [reflexivity|apply fresh_ok]).
      destruct (load_spec (mkSt _ _ lasers lasers (fresh_buffers W ntargets steps) 0 (repeat c0 (Z.to_nat steps)))) as (m & E & K); [apply fresh_ok|].
      exists m. split; [exact E|exact K]. }
    destruct A as (m0 & -> & M0). cbn [bind].
    destruct (forward_spec (mkSt _ _ lasers lasers m0 0 (repeat c0 (Z.to_nat steps))) PsiI M0 L HI) as (m & E & M & K).
    rewrite E. cbn [bind s_f s_b s_gam]. exists m. split; [reflexivity|]. split; [exact M|exact K].
  Qed.

  Hypothesis Hiter : 0 <= iterations.
  Lemma run_spec m tt mv (Inv : Z -> ST -> list W -> Prop) lasers rel tg :
    lasers <> [] -> long lasers ->
    (forall x : LST, Inv (l_i _ _ x) (l_s _ _ x) (l_phit _ _ x) ->
      same (s_f _ _ (l_s _ _ x)) lasers -> same (s_b _ _ (l_s _ _ x)) lasers ->
      exists f b mem c g, iteration_step m tt mv x = Ok (mkSt _ _ f b mem c g, (at_time f PsiI steps, tg (s_b _ _ (l_s _ _ x)))) /\
        same f lasers /\ same b lasers /\ rel (s_b _ _ (l_s _ _ x)) f /\
        Inv (l_i _ _ x + 1) (mkSt _ _ b f mem c g) (tg (s_b _ _ (l_s _ _ x)))) ->
    (forall mem c, mem_ok mem -> (forall (s' : ST) j, s_mem _ _ s' = mem -> 0 <= j <= steps -> fetch s' j = Ok (at_time lasers PsiI j)) ->
      Inv 1 (mkSt _ _ lasers lasers mem c (repeat c0 (Z.to_nat steps))) (at_time lasers PsiI steps)) ->
    exists K e x, run m tt mv lasers = Some (Ok (x, hd [] (e K))) /\ course rel lasers K e /\
      l_rep _ _ x = rev (map (yield tg e) (seq 0 (S K))) /\ Z.of_nat K <= iterations /\
      (forall j, (j < K)%nat -> (convergence < padded_change (yield tg e) j)%Q) /\
      (Z.of_nat K < iterations -> (padded_change (yield tg e) K <= convergence)%Q).
  Proof.
    intros Nl L Hit H1. unfold Oct.run. destruct (start_spec tt mv lasers L) as (mem & E & M & K). cbn zeta in E. cbn zeta. rewrite E. clear E.
    match goal with |- context [mkLoop ?a ?b ?c ?d ?e ?f ?g ?h ?i] => set (x0 := mkLoop a b c d e f g h i) end.
    destruct (loop_spec m tt mv Inv lasers rel tg Hit (S (Z.to_nat iterations)) 0%nat (fun _ => lasers) x0) as (Kn & e & x & Ex & (C & Eb & Ei & Er & Hj & Hc) & Hs).
    - split; [|split; [|split; [|split; [|split]]]].
      + split; [|split; [reflexivity|split; [reflexivity|split; [reflexivity|split; [lia|]]]]].
        * split; [reflexivity|]. intros j Hj. lia.
        * intros j Hj. lia.
      + apply H1; assumption.
      + apply same_refl.
      + apply same_refl.
      + reflexivity.
      + reflexivity.
    - lia.
    - rewrite Ex. exists Kn, e, x. split; [|split; [exact C|split; [exact Er|split; [exact Hj|split; [exact Hc|exact Hs]]]]].
      rewrite Eb. assert (Ne : e Kn <> []).
      { destruct C as [C0 C1]. destruct Kn as [|n]; [rewrite C0; exact Nl|]. intros Ee. destruct (C1 n) as [_ S]; [lia|].
        rewrite Ee in S. inversion S. congruence. }
      destruct (e Kn) as [|b bt]; [congruence|]. reflexivity.
  Qed.

  (** *** The methods *)
  Lemma same_nonempty a b : same a b -> b <> [] -> a <> [].
  Proof. intros S N ->. inversion S. congruence. Qed.

  (** Krotov, Rabitz: e (j+1) solves the field equation of e j *)
  Definition updates (m : method) (tt : ttype) (old new : list (list F)) : Prop :=
    field_eq (base m old) (fun _ => c0) PsiI (back_at old (targets tt old)) new.
  Lemma run_plain m tt lasers : m = Krotov \/ m = Rabitz -> lasers <> [] -> long lasers ->
    exists K e x, run m tt false lasers = Some (Ok (x, hd [] (e K))) /\ course (updates m tt) lasers K e /\
      l_rep _ _ x = rev (map (yield (targets tt) e) (seq 0 (S K))) /\ Z.of_nat K <= iterations /\
      (forall j, (j < K)%nat -> (convergence < padded_change (yield (targets tt) e) j)%Q) /\
      (Z.of_nat K < iterations -> (padded_change (yield (targets tt) e) K <= convergence)%Q).
  Proof.
    intros Hm Nl L. apply (run_spec m tt false (fun _ s _ => mem_ok (s_mem _ _ s))); try assumption.
    - intros x I Sf Sb. destruct (iterate_spec m tt (l_s _ _ x)) as (f & mem & E & M & S & Q).
      + destruct Hm as [-> | ->]; discriminate.
      + exact I.
      + eapply same_long; eassumption.
      + apply same_paired. eapply same_trans; [exact Sf|apply same_sym; exact Sb].
      + eapply same_nonempty; eassumption.
      + exists f, (s_b _ _ (l_s _ _ x)), mem. eexists. eexists. split.
        { unfold Oct.iteration_step. destruct Hm as [-> | ->]; exact E. }
        split; [eapply same_trans; eassumption|]. split; [exact Sb|]. split; [exact Q|exact M].
    - intros mem c M _. exact M.
  Qed.

  (** a moving target: the "targets" are the trajectory of the guess *)
  Definition updates_mv (m : method) (lasers old new : list (list F)) : Prop :=
    field_eq (base m old) (fun _ => c0) PsiI (at_time lasers PsiI) new.
  Lemma run_moving m lasers : m = Krotov \/ m = Rabitz -> lasers <> [] -> long lasers ->
    exists K e x, run m Overlap true lasers = Some (Ok (x, hd [] (e K))) /\ course (updates_mv m lasers) lasers K e /\
      l_rep _ _ x = rev (map (yield (fun _ => PsiT) e) (seq 0 (S K))) /\ Z.of_nat K <= iterations /\
      (forall j, (j < K)%nat -> (convergence < padded_change (yield (fun _ => PsiT) e) j)%Q) /\
      (Z.of_nat K < iterations -> (padded_change (yield (fun _ => PsiT) e) K <= convergence)%Q).
  Proof.
    intros Hm Nl L. apply (run_spec m Overlap true (fun _ s _ => mem_ok (s_mem _ _ s) /\
      forall (s' : ST) j, s_mem _ _ s' = s_mem _ _ s -> 0 <= j <= steps -> fetch s' j = Ok (at_time lasers PsiI j))); try assumption.
    - intros x [I1 I2] Sf Sb. destruct (iterate_mv_spec m (l_s _ _ x) (at_time lasers PsiI) PsiT) as (f & E & S & Q).
      + destruct Hm as [-> | ->]; discriminate.
      + exact I1.
      + eapply same_long; eassumption.
      + apply same_paired. eapply same_trans; [exact Sf|apply same_sym; exact Sb].
      + eapply same_nonempty; eassumption.
      + exact I2.
      + exists f, (s_b _ _ (l_s _ _ x)), (s_mem _ _ (l_s _ _ x)). eexists. eexists. split.
        { unfold Oct.iteration_step. destruct Hm as [-> | ->]; exact E. }
        split; [eapply same_trans; eassumption|]. split; [exact Sb|]. split; [exact Q|]. split; [exact I1|exact I2].
    - intros mem c M K. split; [exact M|exact K].
  Qed.

  (** Rabitz with feedback *)
  Definition updates_fb (tt : ttype) (old new : list (list F)) : Prop :=
    field_eq (fun _ => c0) (fun _ => c0) PsiI (back_at old (fb_targets tt)) new.
  Lemma run_feedback tt mv lasers : lasers <> [] -> long lasers ->
    exists K e x, run RabitzFB tt mv lasers = Some (Ok (x, hd [] (e K))) /\ course (updates_fb tt) lasers K e /\
      l_rep _ _ x = rev (map (yield (fun _ => fb_targets tt) e) (seq 0 (S K))) /\ Z.of_nat K <= iterations /\
      (forall j, (j < K)%nat -> (convergence < padded_change (yield (fun _ => fb_targets tt) e) j)%Q) /\
      (Z.of_nat K < iterations -> (padded_change (yield (fun _ => fb_targets tt) e) K <= convergence)%Q).
  Proof.
    intros Nl L. apply (run_spec RabitzFB tt mv (fun i s phit => 1 <= i /\ mem_ok (s_mem _ _ s) /\ (i <> 1 -> fb_ready i (s_mem _ _ s) phit tt))); try assumption.
    - intros x (I0 & I1 & I2) Sf Sb. unfold Oct.iteration_step.
      set (phii := if (l_i _ _ x =? 1)%Z then PsiI else l_phii _ _ x). set (phit := if (l_i _ _ x =? 1)%Z then initial_phit W PsiI PsiT tt else l_phit _ _ x).
      destruct (iterate_fb_spec tt (l_s _ _ x) phii phit (l_i _ _ x)) as (f & mem & E & M & P & S & Q & Hf).
      + exact I1.
      + eapply same_long; eassumption.
      + apply same_paired. eapply same_trans; [exact Sf|apply same_sym; exact Sb].
      + eapply same_nonempty; eassumption.
      + intros Ei. unfold phii. rewrite Ei. reflexivity.
      + destruct (Z.eq_dec (l_i _ _ x) 1) as [Ei|Ni].
        * split; [congruence|]. intros ->. unfold phit. rewrite Ei. reflexivity.
        * unfold phit. rewrite (proj2 (Z.eqb_neq _ _) Ni). exact (I2 Ni).
      + exists f, (s_b _ _ (l_s _ _ x)), mem. eexists. eexists. split; [exact E|].
        split; [eapply same_trans; eassumption|]. split; [exact Sb|]. split; [exact Q|]. split; [lia|]. split; [exact M|].
        intros _. split.
        * intros _ s' Es. cbn [s_mem] in Es. split; [rewrite (Hf s' 0 Es) by lia; rewrite at_time_0; reflexivity|].
          intros j Hj. rewrite (Hf s' j Es Hj). eauto.
        * intros ->. reflexivity.
    - intros mem c M _. split; [lia|]. split; [exact M|]. intros Ne. congruence.
  Qed.

  (** Krotov with a frequency filter; the lasers have exactly as many entries as there are steps *)
  Definition updates_freq (tt : ttype) (old new : list (list F)) : Prop :=
    let b := filtered old in
    let chi := back_at b (targets tt b) in
    field_eq (fun k => nth (Z.to_nat k) (pass (hd [] old)) c0) (fun k => nth (Z.to_nat k) (stop (gammas b (chi 0))) c0) PsiI chi new.
  Definition freq_targets (tt : ttype) (old : list (list F)) : list W :=
    at_time (filtered old) (back_at (filtered old) (targets tt (filtered old)) 0) steps.
  Section FreqRun.
  Hypothesis Hpass : forall l, length (pass l) = length l.
  Hypothesis Hstop : forall l, length (stop l) = length l.
  Lemma same_filtered a lasers : Forall (fun l => Z.of_nat (length l) = steps) lasers -> lasers <> [] -> same a lasers -> same (filtered a) lasers.
  Proof.
    intros E N S. pose proof (same_nonempty _ _ S N) as Na. unfold filtered. destruct a as [|a0 at_]; [congruence|].
    inversion S as [|? l0 ? lt [S0 _] St]; subst. cbn [hd length]. pose proof (Forall_inv E) as E0.
    pose proof (Forall_inv_tail E) as Et. cbn beta in E0.
    assert (A : forall r lt, same r lt -> Forall (fun l => Z.of_nat (length l) = steps) lt -> same (repeat (pass a0) (length r)) lt).
    { clear - S0 E0 Hpass. induction 1 as [|x y r lt [H1 H2] H IH]; intros Hl; [constructor|].
      pose proof (Forall_inv Hl) as Hl0. pose proof (Forall_inv_tail Hl) as Hl1. cbn beta in Hl0. cbn. constructor; [|apply IH; assumption].
      split; [rewrite Hpass; lia|]. intros k Hk. rewrite !nth_overflow; [reflexivity|lia|rewrite Hpass; lia]. }
    cbn [repeat]. apply (A (a0 :: at_) (l0 :: lt)); assumption.
  Qed.
  Lemma same_lens a lasers : Forall (fun l => Z.of_nat (length l) = steps) lasers -> same a lasers -> Forall (fun l => length l = Z.to_nat steps) a.
  Proof.
    intros E S. induction S as [|x y a l [H1 H2] H IH]; [constructor|].
    pose proof (Forall_inv E) as E0. pose proof (Forall_inv_tail E) as E1. cbn beta in E0. constructor; [lia|auto].
  Qed.
  Lemma run_freq tt lasers : lasers <> [] -> Forall (fun l => Z.of_nat (length l) = steps) lasers ->
    exists K e x, run Freq tt false lasers = Some (Ok (x, hd [] (e K))) /\ course (updates_freq tt) lasers K e /\
      l_rep _ _ x = rev (map (yield (freq_targets tt) e) (seq 0 (S K))) /\ Z.of_nat K <= iterations /\
      (forall j, (j < K)%nat -> (convergence < padded_change (yield (freq_targets tt) e) j)%Q) /\
      (Z.of_nat K < iterations -> (padded_change (yield (freq_targets tt) e) K <= convergence)%Q).
  Proof.
    intros Nl El. assert (L : long lasers).
    { unfold long_enough. eapply Forall_impl; [|exact El]. cbn. intros; lia. }
    apply (run_spec Freq tt false (fun _ s _ => mem_ok (s_mem _ _ s) /\ zlen (s_gam _ _ s) = steps)); try assumption.
    - intros x [I1 I2] Sf Sb. destruct (iterate_freq_spec Hpass Hstop tt (l_s _ _ x) (Z.to_nat steps)) as (f & mem & E & M & S & Q).
      + exact I1.
      + eapply same_long; eassumption.
      + apply same_paired. eapply same_trans; [exact Sf|apply same_sym; exact Sb].
      + eapply same_nonempty; eassumption.
      + eapply same_lens; eassumption.
      + exact I2.
      + assert (Sb' : same (filtered (s_b _ _ (l_s _ _ x))) lasers) by (apply same_filtered; assumption).
        eexists. eexists. eexists. eexists. eexists. split; [exact E|].
        split; [eapply same_trans; eassumption|]. split; [exact Sb'|]. split; [exact Q|]. split; [exact M|]. cbn [s_gam].
        unfold zlen. rewrite Hstop. apply gammas_len; assumption.
    - intros mem c M _. split; [exact M|]. cbn. unfold zlen. rewrite repeat_length. lia.
  Qed.
  (** with moving targets: the trajectory of the guess in place of the targets *)
  Definition updates_freq_mv (lasers old new : list (list F)) : Prop :=
    let b := filtered old in
    let chi := at_time lasers PsiI in
    field_eq (fun k => nth (Z.to_nat k) (pass (hd [] old)) c0) (fun k => nth (Z.to_nat k) (stop (gammas_mv b chi)) c0) PsiI chi new.
  Lemma run_freq_moving lasers : lasers <> [] -> Forall (fun l => Z.of_nat (length l) = steps) lasers ->
    exists K e x, run Freq Overlap true lasers = Some (Ok (x, hd [] (e K))) /\ course (updates_freq_mv lasers) lasers K e /\
      l_rep _ _ x = rev (map (yield (fun _ => tidied (Z.to_nat steps) PsiT) e) (seq 0 (S K))) /\ Z.of_nat K <= iterations /\
      (forall j, (j < K)%nat -> (convergence < padded_change (yield (fun _ => tidied (Z.to_nat steps) PsiT) e) j)%Q) /\
      (Z.of_nat K < iterations -> (padded_change (yield (fun _ => tidied (Z.to_nat steps) PsiT) e) K <= convergence)%Q).
  Proof.
    intros Nl El. assert (L : long lasers).
    { unfold long_enough. eapply Forall_impl; [|exact El]. cbn. intros; lia. }
    apply (run_spec Freq Overlap true (fun _ s _ => (mem_ok (s_mem _ _ s) /\ zlen (s_gam _ _ s) = steps) /\
      forall (s' : ST) j, s_mem _ _ s' = s_mem _ _ s -> 0 <= j <= steps -> fetch s' j = Ok (at_time lasers PsiI j))); try assumption.
    - intros x [[I1 I2] I3] Sf Sb. destruct (iterate_freq_mv_spec Hpass Hstop (l_s _ _ x) (at_time lasers PsiI) PsiT (Z.to_nat steps)) as (f & E & S & Q).
      + exact I1.
      + eapply same_long; eassumption.
      + apply same_paired. eapply same_trans; [exact Sf|apply same_sym; exact Sb].
      + eapply same_nonempty; eassumption.
      + eapply same_lens; eassumption.
      + exact I2.
      + exact I3.
      + assert (Sb' : same (filtered (s_b _ _ (l_s _ _ x))) lasers) by (apply same_filtered; assumption).
        eexists. eexists. eexists. eexists. eexists. split; [exact E|].
        split; [eapply same_trans; eassumption|]. split; [exact Sb'|]. split; [exact Q|].
        split; [split; [exact I1|]|exact I3]. cbn [s_gam].
        unfold zlen. rewrite Hstop. apply gammas_mv_len; assumption.
    - intros mem c M K. split; [split; [exact M|]|exact K]. cbn. unfold zlen. rewrite repeat_length. lia.
  Qed.
  End FreqRun.
End P.
