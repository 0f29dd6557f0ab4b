(** Proofs about correlation functions. *)
From Coq Require Import Ascii String List NArith ZArith Lia Bool Arith.
From Verif Require Import Base Arrays Model.Params Spec.Params Proofs.Params Model.Cfun Spec.Cfun.
Import ListNotations.
Open Scope Z_scope.

Section P.
  Variables (V K : Type) (ip : V -> V -> K) (zero : K) (U : Z -> V -> V).
  Notation evolve := (evolve V U). Notation acting := (acting V).
  Notation ops := (list (Z -> V -> V)).
  Lemma evolve_refl a v : evolve a a v = v.
  Proof. unfold evolve. rewrite upto_nil by lia. reflexivity. Qed.
  Lemma evolve_snoc a b v : a <= b -> evolve a (b + 1) v = U b (evolve a b v).
  Proof. intros H. unfold evolve. rewrite upto_snoc, fold_left_app by exact H. reflexivity. Qed.
  Lemma evolve_cons a b v : a < b -> evolve a b v = evolve (a + 1) b (U a v).
  Proof. intros H. unfold evolve. rewrite upto_cons by exact H. reflexivity. Qed.
  Lemma evolve_app a b c v : a <= b -> b <= c -> evolve b c (evolve a b v) = evolve a c v.
  Proof. intros H1 H2. unfold evolve. rewrite (upto_app a b c), fold_left_app by assumption. reflexivity. Qed.
  Lemma steps_evolve n : forall clk v, steps_u V U n clk v = evolve clk (clk + Z.of_nat n) v.
  Proof.
    induction n as [|n IH]; intros clk v; [cbn [steps_u]; rewrite Z.add_0_r, evolve_refl; reflexivity|].
    cbn [steps_u]. rewrite IH, (evolve_cons clk) by lia. f_equal. lia.
  Qed.
  Lemma steps_evolve_w w clk v : 0 <= w -> steps_u V U (Z.to_nat w) clk v = evolve clk (clk + w) v.
  Proof. intros H. rewrite steps_evolve. f_equal. lia. Qed.
  Lemma apply_acting t (l : ops) r v : apply_ops V t (map Some l ++ None :: r) v = acting t l v.
  Proof. revert v; induction l as [|o l IH]; intros v; [reflexivity|]. cbn. apply IH. Qed.
  Lemma apply_acting_end t (l : ops) v : apply_ops V t (map Some l) v = acting t l v.
  Proof. revert v; induction l as [|o l IH]; intros v; [reflexivity|]. cbn. apply IH. Qed.

  (** * the series of wave functions *)
  Definition series (w m : Z) (k0 : V) : list V := map (fun j => evolve 0 (j * w) k0) (upto 0 m).
  Lemma fill_spec n : forall w i k0, 1 <= w -> 1 <= i ->
    fill V U n w i (i - 1) (evolve 0 (i - 1) k0) (series w ((i - 1) / w + 1) k0) = Ok (series w ((i - 1 + Z.of_nat n) / w + 1) k0).
  Proof.
    induction n as [|n IH]; intros w i k0 Hw Hi; cbn [fill]; [rewrite Z.add_0_r; reflexivity|].
    replace (w =? 0) with false by (symmetry; apply Z.eqb_neq; lia).
    replace (U (i - 1) (evolve 0 (i - 1) k0)) with (evolve 0 (i + 1 - 1) k0) by (replace (i + 1 - 1) with (i - 1 + 1) by lia; apply evolve_snoc; lia).
    replace (i - 1 + 1) with (i + 1 - 1) by lia.
    assert (E : (if Z.rem i w =? 0 then series w ((i - 1) / w + 1) k0 ++ [evolve 0 (i + 1 - 1) k0] else series w ((i - 1) / w + 1) k0) = series w ((i + 1 - 1) / w + 1) k0).
    { replace (i + 1 - 1) with i by lia. rewrite Z.rem_mod_nonneg by lia. pose proof (Z.div_mod i w ltac:(lia)) as D. pose proof (Z.mod_pos_bound i w ltac:(lia)) as B.
      destruct (Z.eqb_spec (i mod w) 0) as [M|M].
      - assert (Q : (i - 1) / w = i / w - 1) by (symmetry; apply (Z.div_unique _ _ _ (w - 1)); lia).
        assert (1 <= i / w) by nia. rewrite Q. unfold series. replace (i / w - 1 + 1) with (i / w) by lia. rewrite upto_snoc, map_app by lia. cbn [map]. repeat f_equal. lia.
      - assert (Q : (i - 1) / w = i / w) by (symmetry; apply (Z.div_unique _ _ _ (i mod w - 1)); lia). rewrite Q. reflexivity. }
    rewrite E, (IH w (i + 1) k0) by lia. replace (i + 1 - 1 + Z.of_nat n) with (i - 1 + Z.of_nat (S n)) by lia. reflexivity.
  Qed.
  Lemma fill_all steps w k0 : 1 <= w -> 1 <= steps -> fill V U (Z.to_nat (steps - 1)) w 1 0 k0 [k0] = Ok (series w ((steps - 1) / w + 1) k0).
  Proof.
    intros Hw Hs. pose proof (fill_spec (Z.to_nat (steps - 1)) w 1 k0 Hw ltac:(lia)) as H. change (1 - 1) with 0 in H. rewrite evolve_refl in H.
    assert (E : series w (0 / w + 1) k0 = [k0]) by (rewrite Z.div_0_l by lia; unfold series; change (upto 0 (0 + 1)) with [0]; cbn [map]; rewrite Z.mul_0_l, evolve_refl; reflexivity).
    rewrite E in H. rewrite H. rewrite Z2Nat.id, Z.add_0_l by lia. reflexivity.
  Qed.
  Lemma get_series w m k0 t : 0 <= t < m -> get V (series w m k0) t = Ok (evolve 0 (t * w) k0).
  Proof.
    intros H. unfold get, series. rewrite nth_error_map. unfold upto. rewrite nth_error_map.
    rewrite (nth_error_nth' _ 0%nat) by (rewrite seq_length; lia). rewrite seq_nth by lia. cbn [option_map]. replace (0 + Z.of_nat (0 + Z.to_nat t)) with t by lia. reflexivity.
  Qed.
  Lemma enough steps w : 1 <= w -> 1 <= steps -> steps / w <= (steps - 1) / w + 1.
  Proof.
    intros Hw Hs. pose proof (Z.div_mod steps w ltac:(lia)). pose proof (Z.mod_pos_bound steps w ltac:(lia)).
    pose proof (Z.div_mod (steps - 1) w ltac:(lia)). pose proof (Z.mod_pos_bound (steps - 1) w ltac:(lia)). nia.
  Qed.
  Lemma points_pos steps w : 1 <= w -> 0 <= steps -> points steps w = Ok (steps / w).
  Proof.
    intros Hw Hs. unfold points. replace (w =? 0) with false by (symmetry; apply Z.eqb_neq; lia). rewrite Z.quot_div_nonneg by lia.
    assert (0 <= steps / w) by (apply Z.div_pos; lia). replace (steps / w <? 0) with false by (symmetry; apply Z.ltb_ge; lia). reflexivity.
  Qed.

  (** * one time *)
  Lemma rd_repeat (n : nat) (t : Z) (x : K) : 0 <= t < Z.of_nat n -> rd (repeat x n) t = Ok x.
  Proof.
    intros H. rewrite (rd_nth _ _ x) by (unfold zlen; rewrite repeat_length; lia). f_equal. clear H. generalize (Z.to_nat t). induction n as [|n IH]; intros [|k]; cbn; auto.
  Qed.
  Lemma c1_run n : forall t w ket k0 m bra cfun f b0, 1 <= w -> 0 <= t -> t + Z.of_nat n <= m -> zlen cfun = t + Z.of_nat n ->
    match bra with None => forall j, f j = ip (evolve 0 (j * w) k0) (apply_ops V (j * w) (skipn (first_op V ket) ket) (evolve 0 (j * w) k0))
    | Some b => b = evolve 0 (t * w) b0 /\ forall j, f j = ip (evolve 0 ((j + 1) * w) b0) (apply_ops V (j * w) (skipn (first_op V ket) ket) (evolve 0 (j * w) k0)) end ->
    exists l, c1_loop V K ip U n t w ket (series w m k0) bra cfun = Ok l /\ zlen l = zlen cfun /\ (forall j, t <= j < t + Z.of_nat n -> rd l j = Ok (f j)) /\ (forall j, j < t -> rd l j = rd cfun j).
  Proof.
    induction n as [|n IH]; intros t w ket k0 m bra cfun f b0 Hw Ht Hm Hl HB; cbn [c1_loop].
    - exists cfun. split; [reflexivity|]. split; [reflexivity|]. split; [intros j Hj; lia|reflexivity].
    - rewrite get_series by lia. cbn [bind]. destruct bra as [b|].
      + destruct HB as [Hb Hf]. rewrite steps_evolve_w by lia. rewrite wr_ok by lia. cbn [bind].
        destruct (IH (t + 1) w ket k0 m (Some (evolve (t * w) (t * w + w) b)) (upd cfun (Z.to_nat t) (ip (evolve (t * w) (t * w + w) b) (apply_ops V (t * w) (skipn (first_op V ket) ket) (evolve 0 (t * w) k0)))) f b0) as (l & E & L & A & B); [lia|lia|lia|rewrite zlen_upd; lia| |].
        { split; [|exact Hf]. rewrite Hb, evolve_app by nia. f_equal. lia. }
        exists l. split; [exact E|]. split; [rewrite L, zlen_upd; reflexivity|]. split.
        * intros j Hj. destruct (Z.eq_dec j t) as [->|Nj]; [|apply A; lia]. rewrite B by lia. rewrite rd_upd by lia. rewrite Z.eqb_refl, Hf. do 2 f_equal.
          rewrite Hb, evolve_app by nia. f_equal. lia.
        * intros j Hj. rewrite B by lia. rewrite rd_upd by lia. replace (j =? t) with false by (symmetry; apply Z.eqb_neq; lia). reflexivity.
      + rewrite wr_ok by lia. cbn [bind].
        destruct (IH (t + 1) w ket k0 m None (upd cfun (Z.to_nat t) (ip (evolve 0 (t * w) k0) (apply_ops V (t * w) (skipn (first_op V ket) ket) (evolve 0 (t * w) k0)))) f b0) as (l & E & L & A & B); [lia|lia|lia|rewrite zlen_upd; lia|exact HB|].
        exists l. split; [exact E|]. split; [rewrite L, zlen_upd; reflexivity|]. split.
        * intros j Hj. destruct (Z.eq_dec j t) as [->|Nj]; [|apply A; lia]. rewrite B by lia. rewrite rd_upd by lia. rewrite Z.eqb_refl, HB. reflexivity.
        * intros j Hj. rewrite B by lia. rewrite rd_upd by lia. replace (j =? t) with false by (symmetry; apply Z.eqb_neq; lia). reflexivity.
  Qed.

  Lemma count_map (l : ops) r : count_u V (map Some l ++ r) = count_u V r.
  Proof. induction l as [|o l IH]; [reflexivity|]. cbn. exact IH. Qed.
  Lemma count_map_end (l : ops) : count_u V (map Some l) = O.
  Proof. rewrite <- (app_nil_r (map Some l)). apply count_map. Qed.
  Lemma rev_last (l : ops) (r : def V) : l <> [] -> exists o t, rev (r ++ map Some l) = Some o :: t.
  Proof. intros H. destruct (exists_last H) as (l' & o & ->). rewrite map_app, rev_app_distr. cbn [map]. rewrite rev_app_distr. cbn. eauto. Qed.
  Lemma first_skip (k0 s : ops) : s <> [] -> let ket := map Some k0 ++ None :: map Some s in
    forall t v, apply_ops V t (skipn (first_op V ket) ket) v = acting t (match k0 with [] => s | _ => k0 end) v.
  Proof.
    intros Hs ket t v. subst ket. destruct k0 as [|o k0].
    - destruct s as [|o s]; [congruence|]. cbn [map app first_op skipn]. apply (apply_acting_end t (o :: s)).
    - cbn [map app first_op skipn]. apply (apply_acting t (o :: k0)).
  Qed.
  (** the part of [run] in front of the loops *)
  Lemma run_start steps w si psi0 (ket bra : def V) (s : ops) r : 1 <= w -> 1 <= steps -> s <> [] -> ket = r ++ map Some s ->
    (bra = [] \/ exists b0, bra = b0 ++ [None]) ->
    run_wf V K ip zero U steps w si psi0 ket bra =
      let buf := series w ((steps - 1) / w + 1) (apply_ops V 0 ket psi0) in
      match (count_u V ket + match bra with [] => 1 | _ => count_u V bra end)%nat with
      | 2%nat => run_c1 V K ip zero U steps w (steps - 1) psi0 ket bra buf
      | 3%nat => run_c2 V K ip zero U steps w si (steps - 1) psi0 ket bra buf
      | _ => Throw
      end.
  Proof.
    intros Hw Hs S Ek Eb. unfold run_wf, run. assert (M : match rev bra with Some _ :: _ => False | _ => True end) by (destruct Eb as [->|(b0 & ->)]; [exact I|rewrite rev_app_distr; exact I]).
    assert (R0 : exists o t, rev ket = Some o :: t) by (rewrite Ek; exact (rev_last s r S)). destruct R0 as (o & t & R). rewrite R. cbn [length Nat.ltb Nat.leb bind]. rewrite fill_all by assumption. cbn [bind].
    rewrite Z.max_r by lia. destruct (rev bra) as [|[x|] l]; [reflexivity|destruct M|reflexivity].
  Qed.

  Definition bra_of (B : option ops) : def V := match B with Some b0 => map Some b0 ++ [None] | None => [] end.
  Lemma bra_count B : match bra_of B with [] => 1 | _ => count_u V (bra_of B) end%nat = 1%nat.
  Proof. destruct B as [[|b b0]|]; [reflexivity| |reflexivity]. cbn [bra_of map app count_u]. rewrite count_map. reflexivity. Qed.
  Lemma bra_start B t psi0 : match bra_of B with [] => None | _ => Some (apply_ops V t (bra_of B) psi0) end = match B with Some b0 => Some (acting t b0 psi0) | None => None end.
  Proof. destruct B as [[|b b0]|]; [reflexivity| |reflexivity]. cbn [bra_of map app]. f_equal. exact (apply_acting t (b :: b0) [] psi0). Qed.
  Lemma one_time_code steps w si psi0 (k0 s : ops) (B : option ops) : 1 <= w -> 1 <= steps -> s <> [] ->
    exists l, run_wf V K ip zero U steps w si psi0 (map Some k0 ++ None :: map Some s) (bra_of B) = Ok l /\ zlen l = steps / w /\
      forall t, 0 <= t < steps / w -> rd l t = Ok (ip match B with Some b0 => evolve 0 ((t + 1) * w) (acting (steps - 1) b0 psi0) | None => evolve 0 (t * w) (acting 0 k0 psi0) end
                                                      (acting (t * w) (match k0 with [] => s | _ => k0 end) (evolve 0 (t * w) (acting 0 k0 psi0)))).
  Proof.
    intros Hw Hs S. set (ket := map Some k0 ++ None :: map Some s).
    rewrite (run_start steps w si psi0 ket (bra_of B) s (map Some k0 ++ [None])); [|exact Hw|exact Hs|exact S|unfold ket; rewrite <- app_assoc; reflexivity|destruct B as [b0|]; [right; eexists; reflexivity|left; reflexivity]].
    cbv zeta. rewrite bra_count. assert (C : count_u V ket = 1%nat) by (unfold ket; rewrite count_map; cbn [count_u]; rewrite count_map_end; reflexivity).
    rewrite C. cbn [Nat.add]. unfold run_c1. rewrite points_pos by lia. cbn [bind]. pose proof (enough steps w Hw Hs) as Q.
    assert (P : 0 <= steps / w) by (apply Z.div_pos; lia). assert (P' : 0 <= (steps - 1) / w) by (apply Z.div_pos; lia).
    rewrite get_series by lia. cbn [bind]. rewrite bra_start.
    assert (E0 : apply_ops V 0 ket psi0 = acting 0 k0 psi0) by apply apply_acting.
    set (f := fun t => ip match B with Some b0 => evolve 0 ((t + 1) * w) (acting (steps - 1) b0 psi0) | None => evolve 0 (t * w) (acting 0 k0 psi0) end
                                                      (acting (t * w) (match k0 with [] => s | _ => k0 end) (evolve 0 (t * w) (acting 0 k0 psi0)))).
    destruct (c1_run (Z.to_nat (steps / w)) 0 w ket (apply_ops V 0 ket psi0) ((steps - 1) / w + 1) (match B with Some b0 => Some (acting (steps - 1) b0 psi0) | None => None end)
      (repeat zero (Z.to_nat (steps / w))) f (match B with Some b0 => acting (steps - 1) b0 psi0 | None => psi0 end)) as (l & E & L & A & _).
    - exact Hw.
    - lia.
    - lia.
    - unfold zlen. rewrite repeat_length. lia.
    - rewrite E0. unfold f. destruct B as [b0|].
      + split; [rewrite evolve_refl; reflexivity|]. intros j. unfold ket. rewrite (first_skip k0 s S). reflexivity.
      + intros j. unfold ket. rewrite (first_skip k0 s S). reflexivity.
    - exists l. split; [exact E|]. split; [rewrite L; unfold zlen; rewrite repeat_length; lia|]. intros t Ht. apply A. lia.
  Qed.

  (** * two times *)
  Definition window (si t1 t2 : Z) : Prop := si <= 0 \/ t2 - t1 <= si + 1.
  Definition addr (lhs : bool) (Nt t1 t2 : Z) : Z := if lhs then t1 * Nt + t2 else t2 * Nt + t1.
  Lemma addr_bound lhs Nt t1 t2 : 0 <= t1 < Nt -> 0 <= t2 < Nt -> 0 <= addr lhs Nt t1 t2 < Nt * Nt.
  Proof. intros H1 H2. unfold addr. destruct lhs; nia. Qed.
  Lemma addr_inj lhs Nt t1 t2 s1 s2 : 0 <= t1 < Nt -> 0 <= t2 < Nt -> 0 <= s1 < Nt -> 0 <= s2 < Nt -> addr lhs Nt t1 t2 = addr lhs Nt s1 s2 -> t1 = s1 /\ t2 = s2.
  Proof.
    intros H1 H2 H3 H4. assert (G : forall a b c d, 0 <= b < Nt -> 0 <= d < Nt -> a * Nt + b = c * Nt + d -> a = c /\ b = d).
    { intros a b c d Hb Hd E. assert (a = c); [|nia]. destruct (Z.lt_trichotomy a c) as [L|[L|L]]; [nia|exact L|nia]. }
    unfold addr. destruct lhs; intros E; apply G in E; tauto || lia.
  Qed.
  Definition value (w : Z) (lhs hasbra : bool) (sig : nat) (ket : def V) (k0 : V) (kk bb : V) (t1 t2 : Z) : K :=
    ip (if hasbra then evolve (t1 * w) (t2 * w) bb else evolve 0 (t2 * w) k0)
       (apply_ops V (t2 * w) (skipn sig ket) (if lhs then evolve (t1 * w) (t2 * w) kk else evolve 0 (t2 * w) k0)).
  Lemma inner_spec n : forall t1 t2 Nt w si lhs hasbra sig ket k0 m kk bb k b cfun, 1 <= w -> 0 <= t1 -> t1 <= t2 -> Z.of_nat n = Nt - t2 -> Nt <= m -> zlen cfun = Nt * Nt -> window si t1 t2 ->
    (lhs = true -> k = evolve (t1 * w) (t2 * w) kk) -> (hasbra = true -> b = evolve (t1 * w) (t2 * w) bb) ->
    exists l, c2_inner V K ip U n t1 t2 Nt w si lhs hasbra sig ket (series w m k0) (t2 * w) k b cfun = Ok l /\ zlen l = zlen cfun /\
      (forall t, t2 <= t < Nt -> window si t1 t -> rd l (addr lhs Nt t1 t) = Ok (value w lhs hasbra sig ket k0 kk bb t1 t)) /\
      (forall i, (forall t, t2 <= t < Nt -> window si t1 t -> i <> addr lhs Nt t1 t) -> rd l i = rd cfun i).
  Proof.
    induction n as [|n IH]; intros t1 t2 Nt w si lhs hasbra sig ket k0 m kk bb k b cfun Hw H1 H12 Hn Hm Hl Win Hk Hb; cbn [c2_inner].
    - exists cfun. split; [reflexivity|]. split; [reflexivity|]. split; [intros t Ht; lia|reflexivity].
    - assert (Gb : (if hasbra then Ok b else get V (series w m k0) t2) = Ok (if hasbra then evolve (t1 * w) (t2 * w) bb else evolve 0 (t2 * w) k0))
        by (destruct hasbra; [rewrite Hb by reflexivity; reflexivity|apply get_series; lia]).
      assert (Gk : (if lhs then Ok k else get V (series w m k0) t2) = Ok (if lhs then evolve (t1 * w) (t2 * w) kk else evolve 0 (t2 * w) k0))
        by (destruct lhs; [rewrite Hk by reflexivity; reflexivity|apply get_series; lia]).
      rewrite Gb. cbn [bind]. rewrite Gk. cbn [bind]. change (if lhs then t1 * Nt + t2 else t2 * Nt + t1) with (addr lhs Nt t1 t2).
      pose proof (addr_bound lhs Nt t1 t2 ltac:(lia) ltac:(lia)) as AB. rewrite wr_ok by lia. cbn [bind].
      change (ip (if hasbra then evolve (t1 * w) (t2 * w) bb else evolve 0 (t2 * w) k0) (apply_ops V (t2 * w) (skipn sig ket) (if lhs then evolve (t1 * w) (t2 * w) kk else evolve 0 (t2 * w) k0)))
        with (value w lhs hasbra sig ket k0 kk bb t1 t2). set (cfun1 := upd cfun (Z.to_nat (addr lhs Nt t1 t2)) (value w lhs hasbra sig ket k0 kk bb t1 t2)).
      assert (L1 : zlen cfun1 = zlen cfun) by apply zlen_upd.
      assert (R1 : forall i, rd cfun1 i = if i =? addr lhs Nt t1 t2 then Ok (value w lhs hasbra sig ket k0 kk bb t1 t2) else rd cfun i) by (intros i; apply rd_upd; lia).
      destruct ((si <? t2 - t1) && (0 <? si)) eqn:Brk.
      + apply andb_true_iff in Brk. destruct Brk as [B1 B2]. apply Z.ltb_lt in B1, B2. exists cfun1. split; [reflexivity|]. split; [exact L1|]. split.
        * intros t Ht Wt. destruct (Z.eq_dec t t2) as [->|N]; [rewrite R1, Z.eqb_refl; reflexivity|]. destruct Wt; lia.
        * intros i Hi. rewrite R1. specialize (Hi t2 ltac:(lia) Win). apply Z.eqb_neq in Hi. rewrite Hi. reflexivity.
      + assert (Win' : window si t1 (t2 + 1)) by (unfold window in *; apply andb_false_iff in Brk; destruct Brk as [B|B]; apply Z.ltb_ge in B; lia).
        rewrite Z2Nat.id by lia. replace (t2 * w + w) with ((t2 + 1) * w) by lia.
        assert (EV : forall x, steps_u V U (Z.to_nat w) (t2 * w) (evolve (t1 * w) (t2 * w) x) = evolve (t1 * w) ((t2 + 1) * w) x)
          by (intros x; rewrite steps_evolve_w by lia; rewrite evolve_app by nia; f_equal; lia).
        destruct (IH t1 (t2 + 1) Nt w si lhs hasbra sig ket k0 m kk bb
          (if lhs then steps_u V U (Z.to_nat w) (t2 * w) (if lhs then evolve (t1 * w) (t2 * w) kk else evolve 0 (t2 * w) k0) else (if lhs then evolve (t1 * w) (t2 * w) kk else evolve 0 (t2 * w) k0))
          (if hasbra then steps_u V U (Z.to_nat w) (t2 * w) (if hasbra then evolve (t1 * w) (t2 * w) bb else evolve 0 (t2 * w) k0) else (if hasbra then evolve (t1 * w) (t2 * w) bb else evolve 0 (t2 * w) k0)) cfun1)
          as (l & E & L & A & B); [exact Hw|lia|lia|lia|lia|lia|exact Win'|intros ->; apply EV|intros ->; apply EV|].
        exists l. split; [exact E|]. split; [lia|]. split.
        * intros t Ht Wt. destruct (Z.eq_dec t t2) as [->|N]; [|apply A; [lia|exact Wt]]. rewrite B.
          -- rewrite R1, Z.eqb_refl. reflexivity.
          -- intros t Ht' _ Ea. apply addr_inj in Ea; lia.
        * intros i Hi. rewrite B; [|intros t Ht' Wt; apply Hi; [lia|exact Wt]]. rewrite R1. specialize (Hi t2 ltac:(lia) Win). apply Z.eqb_neq in Hi. rewrite Hi. reflexivity.
  Qed.
  Definition ket_at (w : Z) (fk : nat) (ket : def V) (k0 : V) (t1 : Z) : V := apply_ops V (t1 * w) (skipn fk ket) (evolve 0 (t1 * w) k0).
  Definition bra_at (w : Z) (lhs : bool) (fb : nat) (bra : def V) (b0 : V) (t1 : Z) : V :=
    if lhs then evolve 0 ((t1 + 1) * w) b0 else apply_ops V (t1 * w) (skipn fb bra) (evolve 0 ((t1 + 1) * w) b0).
  Definition has (b : option V) : bool := match b with Some _ => true | None => false end.
  Lemma outer_spec n : forall t1 Nt w si lhs fk fb ket bra k0 m b b0 junk cfun, 1 <= w -> 0 <= t1 -> Z.of_nat n = Nt - t1 -> Nt <= m -> zlen cfun = Nt * Nt ->
    (forall v, b = Some v -> v = evolve 0 (t1 * w) b0) ->
    exists l, c2_outer V K ip U n t1 Nt w si lhs fk fb ket bra (series w m k0) b junk cfun = Ok l /\ zlen l = zlen cfun /\
      (forall s1 s2, t1 <= s1 -> s1 <= s2 < Nt -> window si s1 s2 ->
         rd l (addr lhs Nt s1 s2) = Ok (value w lhs (has b) (if lhs then fk + 2 else fk) ket k0 (ket_at w fk ket k0 s1) (bra_at w lhs fb bra b0 s1) s1 s2)) /\
      (forall i, (forall s1 s2, t1 <= s1 -> s1 <= s2 < Nt -> window si s1 s2 -> i <> addr lhs Nt s1 s2) -> rd l i = rd cfun i).
  Proof.
    induction n as [|n IH]; intros t1 Nt w si lhs fk fb ket bra k0 m b b0 junk cfun Hw H1 Hn Hm Hl Hb; cbn [c2_outer].
    - exists cfun. split; [reflexivity|]. split; [reflexivity|]. split; [intros s1 s2 A B; lia|reflexivity].
    - assert (Gk : (if lhs then let* v := get V (series w m k0) t1 in Ok (apply_ops V (t1 * w) (skipn fk ket) v) else Ok junk) = Ok (if lhs then ket_at w fk ket k0 t1 else junk))
        by (destruct lhs; [rewrite get_series by lia; reflexivity|reflexivity]).
      rewrite Gk. cbn [bind].
      set (b' := match b with Some v => Some (steps_u V U (Z.to_nat w) (t1 * w) v) | None => None end).
      assert (Hb' : forall v, b' = Some v -> v = evolve 0 ((t1 + 1) * w) b0).
      { intros v E. unfold b' in E. destruct b as [x|]; [|discriminate]. injection E as <-. rewrite (Hb x eq_refl), steps_evolve_w by lia. rewrite evolve_app by nia. f_equal. lia. }
      assert (Eh : has b' = has b) by (unfold b'; destruct b; reflexivity).
      set (pb := match b' with Some v => if lhs then v else apply_ops V (t1 * w) (skipn fb bra) v | None => junk end).
      destruct (inner_spec (Z.to_nat (Nt - t1)) t1 t1 Nt w si lhs (has b') (if lhs then fk + 2 else fk)%nat ket k0 m (ket_at w fk ket k0 t1) (bra_at w lhs fb bra b0 t1)
        (if lhs then ket_at w fk ket k0 t1 else junk) pb cfun) as (l1 & E1 & L1 & A1 & B1); [exact Hw|lia|lia|lia|exact Hm|exact Hl|unfold window; lia| | |].
      { intros ->. rewrite evolve_refl. reflexivity. }
      { unfold pb. destruct b' as [x|]; [|discriminate]. intros _. rewrite (Hb' x eq_refl), evolve_refl. unfold bra_at. destruct lhs; reflexivity. }
      unfold has in E1 at 1. rewrite E1. cbn [bind].
      destruct (IH (t1 + 1) Nt w si lhs fk fb ket bra k0 m b' b0 junk l1) as (l & E & L & A & B); [exact Hw|lia|lia|exact Hm|lia|exact Hb'|].
      exists l. split; [exact E|]. split; [lia|]. rewrite Eh in A, A1. split.
      + intros s1 s2 H2 H3 Ws. destruct (Z.eq_dec s1 t1) as [->|N]; [|apply A; [lia|exact H3|exact Ws]]. rewrite B.
        * apply A1; [lia|exact Ws].
        * intros r1 r2 G1 G2 _ Ea. apply addr_inj in Ea; lia.
      + intros i Hi. rewrite B; [|intros s1 s2 G1 G2 Gw; apply Hi; [lia|lia|exact Gw]]. apply B1. intros t Ht Wt. apply Hi; [lia|lia|exact Wt].
  Qed.
  Lemma scan_map (l : ops) : forall r i nu f, scan V (map Some l ++ r) i nu f = scan V r (i + length l) nu (if (nu =? 1)%nat then match l with [] => f | _ => i + length l - 1 end else f)%nat.
  Proof.
    induction l as [|o l IH]; intros r i nu f; cbn [map app scan length]; [rewrite Nat.add_0_r; destruct (nu =? 1)%nat; reflexivity|].
    rewrite IH. f_equal; [lia|]. destruct (nu =? 1)%nat; [|reflexivity]. destruct l; cbn [length]; lia.
  Qed.
  (** a run for two times with the variant given *)
  Lemma run_two steps w si psi0 (ket bra : def V) (s : ops) r (lhs : bool) fk fb b0 : 1 <= w -> 1 <= steps -> s <> [] -> ket = r ++ map Some s -> (bra = [] \/ exists b0, bra = b0 ++ [None]) ->
    (count_u V ket + match bra with [] => 1 | _ => count_u V bra end)%nat = 3%nat -> (steps / w) * (steps / w) <= int_max ->
    scan V ket 0 0 0 = ((if lhs then 2 else 1)%nat, fk) -> (exists nb, scan V bra 0 0 0 = (nb, fb) /\ if lhs then (nb <= 1)%nat else nb = 2%nat) ->
    (bra <> [] -> b0 = apply_ops V (steps - 1) bra psi0) ->
    exists l, run_wf V K ip zero U steps w si psi0 ket bra = Ok l /\ zlen l = (steps / w) * (steps / w) /\
      let Nt := steps / w in let k0 := apply_ops V 0 ket psi0 in
      (forall s1 s2, 0 <= s1 -> s1 <= s2 < Nt -> window si s1 s2 ->
         rd l (addr lhs Nt s1 s2) = Ok (value w lhs (match bra with [] => false | _ => true end) (if lhs then fk + 2 else fk) ket k0 (ket_at w fk ket k0 s1) (bra_at w lhs fb bra b0 s1) s1 s2)) /\
      (forall s1 s2, 0 <= s1 < Nt -> 0 <= s2 < Nt -> (s2 < s1 \/ ~ window si s1 s2) -> rd l (addr lhs Nt s1 s2) = Ok zero).
  Proof.
    intros Hw Hs S Ek Eb C M Sk (nb & Sb & Nb) Hb0.
    rewrite (run_start steps w si psi0 ket bra s r Hw Hs S Ek Eb). cbv zeta. rewrite C. unfold run_c2. rewrite points_pos by lia. cbn [bind].
    replace (int_max <? steps / w * (steps / w)) with false by (symmetry; apply Z.ltb_ge; exact M).
    assert (P : 0 <= steps / w) by (apply Z.div_pos; lia). assert (P' : 0 <= (steps - 1) / w) by (apply Z.div_pos; lia). pose proof (enough steps w Hw Hs) as Q.
    rewrite get_series by lia. cbn [bind]. rewrite Sk, Sb.
    assert (EL : (if ((if lhs then 2 else 1) =? 2)%nat && (nb <=? 1)%nat then Ok true else if ((if lhs then 2 else 1) =? 1)%nat && (nb =? 2)%nat then Ok false else Throw) = Ok lhs).
    { destruct lhs; cbn [Nat.eqb andb]; [rewrite (proj2 (Nat.leb_le nb 1)) by exact Nb; reflexivity|rewrite Nb; reflexivity]. }
    rewrite EL. cbn [bind].
    set (b := match bra with [] => None | _ => Some (apply_ops V (steps - 1) bra psi0) end).
    destruct (outer_spec (Z.to_nat (steps / w)) 0 (steps / w) w si lhs fk fb ket bra (apply_ops V 0 ket psi0) ((steps - 1) / w + 1) b b0 (evolve 0 (0 * w) (apply_ops V 0 ket psi0))
      (repeat zero (Z.to_nat (steps / w * (steps / w))))) as (l & E & L & A & B); [exact Hw|lia|lia|lia|unfold zlen; rewrite repeat_length; nia| |].
    { intros v Ev. unfold b in Ev. rewrite Z.mul_0_l, evolve_refl. destruct bra; [discriminate|]. injection Ev as <-. symmetry. apply Hb0. discriminate. }
    exists l. split; [exact E|]. split; [rewrite L; unfold zlen; rewrite repeat_length; nia|]. split.
    - intros s1 s2 G1 G2 Gw. rewrite (A s1 s2 G1 G2 Gw). do 3 f_equal. unfold b. destruct bra; reflexivity.
    - intros s1 s2 G1 G2 Gw. rewrite B.
      + apply rd_repeat. pose proof (addr_bound lhs (steps / w) s1 s2 G1 G2). lia.
      + intros r1 r2 R1 R2 Rw Ea. apply addr_inj in Ea; [|lia|lia|lia|lia]. destruct Ea as [-> ->]. destruct Gw as [Gw|Gw]; [lia|exact (Gw Rw)].
  Qed.
  Lemma skipn_pre {A} (p q : list A) n : n = length p -> skipn n (p ++ q) = q.
  Proof. intros ->. induction p as [|x p IH]; [reflexivity|exact IH]. Qed.
  Lemma app_one_length {A} (l : list A) x : match l ++ [x] with [] => 0 | _ => S (length l) end%nat = S (length l).
  Proof. destruct l; reflexivity. Qed.
  Lemma scan_u r i nu f : scan V (None :: r) i nu f = scan V r (S i) (S nu) f.
  Proof. reflexivity. Qed.
  Lemma scan_end (l : ops) i nu f : scan V (map Some l) i nu f = (nu, if (nu =? 1)%nat then match l with [] => f | _ => i + length l - 1 end else f)%nat.
  Proof. rewrite <- (app_nil_r (map Some l)), scan_map. reflexivity. Qed.
  (** the last operator in front of a propagator, behind another one *)
  Lemma scan_two (k0 a' s : ops) a : scan V (map Some k0 ++ None :: map Some (a' ++ [a]) ++ None :: map Some s) 0 0 0 = (2, length k0 + length a' + 1)%nat.
  Proof.
    rewrite scan_map, scan_u, scan_map, scan_u, scan_end. cbn [Nat.eqb Nat.add]. f_equal. rewrite app_length. cbn [length]. destruct a'; cbn [app length]; lia.
  Qed.
  Lemma scan_one (k0 s' : ops) s : scan V (map Some k0 ++ None :: map Some (s' ++ [s])) 0 0 0 = (1, length k0 + length s' + 1)%nat.
  Proof. rewrite scan_map, scan_u, scan_end. cbn [Nat.eqb Nat.add]. f_equal. rewrite app_length. cbn [length]. destruct s'; cbn [app length]; lia. Qed.
  Lemma skip_two (k0 a' : ops) a (r : def V) : skipn (length k0 + length a' + 1) (map Some k0 ++ None :: map Some (a' ++ [a]) ++ r) = Some a :: r.
  Proof.
    replace (map Some k0 ++ None :: map Some (a' ++ [a]) ++ r) with ((map Some k0 ++ None :: map Some a') ++ Some a :: r)
      by (rewrite map_app; cbn [map]; rewrite <- (app_assoc (map Some a')), <- (app_assoc (map Some k0)); reflexivity).
    apply skipn_pre. rewrite app_length, map_length. cbn [length]. rewrite map_length. lia.
  Qed.
  Lemma skipn_add {A} n m (l : list A) : skipn (n + m) l = skipn m (skipn n l).
  Proof. revert l; induction n as [|n IH]; intros l; [reflexivity|]. destruct l; [cbn; rewrite skipn_nil; reflexivity|exact (IH l)]. Qed.
  Lemma scan_bra B : exists nb fb, scan V (bra_of B) 0 0 0 = (nb, fb) /\ (nb <= 1)%nat.
  Proof. destruct B as [b0|]; cbn [bra_of]; [rewrite scan_map, scan_u|]; eexists _, _; (split; [reflexivity|cbn; lia]). Qed.

  Lemma two_ket_code steps w si psi0 (k0 a' s : ops) a (B : option ops) : 1 <= w -> 1 <= steps -> s <> [] -> (steps / w) * (steps / w) <= int_max ->
    exists l, run_wf V K ip zero U steps w si psi0 (map Some k0 ++ None :: map Some (a' ++ [a]) ++ None :: map Some s) (bra_of B) = Ok l /\ zlen l = (steps / w) * (steps / w) /\
      (forall t1 t2, 0 <= t1 -> t1 <= t2 < steps / w -> window si t1 t2 ->
         rd l (t1 * (steps / w) + t2) =
           Ok (ip match B with Some b0 => evolve (t1 * w) (t2 * w) (evolve 0 ((t1 + 1) * w) (acting (steps - 1) b0 psi0)) | None => evolve 0 (t2 * w) (acting 0 k0 psi0) end
                  (acting (t2 * w) s (evolve (t1 * w) (t2 * w) (acting (t1 * w) [a] (evolve 0 (t1 * w) (acting 0 k0 psi0))))))) /\
      (forall t1 t2, 0 <= t1 < steps / w -> 0 <= t2 < steps / w -> (t2 < t1 \/ ~ window si t1 t2) -> rd l (t1 * (steps / w) + t2) = Ok zero).
  Proof.
    intros Hw Hs S M. set (ket := map Some k0 ++ None :: map Some (a' ++ [a]) ++ None :: map Some s).
    destruct (scan_bra B) as (nb & fb & Sb & Nb).
    destruct (run_two steps w si psi0 ket (bra_of B) s (map Some k0 ++ None :: map Some (a' ++ [a]) ++ [None]) true (length k0 + length a' + 1)%nat fb
      (match B with Some b0 => acting (steps - 1) b0 psi0 | None => psi0 end)) as (l & E & L & A & Zr); [exact Hw|exact Hs|exact S| | | |exact M|apply scan_two|exists nb; split; [exact Sb|exact Nb]| |].
    { unfold ket. rewrite <- app_assoc. cbn [app]. rewrite <- app_assoc. reflexivity. }
    { destruct B as [b0|]; [right; eexists; reflexivity|left; reflexivity]. }
    { rewrite bra_count. unfold ket. rewrite count_map. cbn [count_u]. rewrite count_map. cbn [count_u]. rewrite count_map_end. reflexivity. }
    { intros N. pose proof (bra_start B (steps - 1) psi0) as G. destruct (bra_of B) as [|x y]; [congruence|]. destruct B; [injection G as <-; reflexivity|discriminate]. }
    exists l. split; [exact E|]. split; [exact L|]. split; [|exact Zr]. intros t1 t2 H1 H2 Wn. refine (eq_trans (A t1 t2 H1 H2 Wn) _). f_equal. unfold value. f_equal.
    - destruct B as [[|b b0]|]; [reflexivity|reflexivity|]. cbn [bra_of]. f_equal. apply apply_acting.
    - rewrite skipn_add. unfold ket at 1. rewrite skip_two. cbn [skipn]. rewrite apply_acting_end. unfold ket_at. unfold ket at 1. rewrite skip_two. cbn [apply_ops].
      assert (Ek : apply_ops V 0 ket psi0 = acting 0 k0 psi0) by apply apply_acting. rewrite Ek. reflexivity.
  Qed.
  Lemma two_bra_code steps w si psi0 (k0 s' b0 a' : ops) s a : 1 <= w -> 1 <= steps -> (steps / w) * (steps / w) <= int_max ->
    exists l, run_wf V K ip zero U steps w si psi0 (map Some k0 ++ None :: map Some (s' ++ [s])) (map Some b0 ++ None :: map Some (a' ++ [a]) ++ [None]) = Ok l /\ zlen l = (steps / w) * (steps / w) /\
      (forall t1 t2, 0 <= t1 -> t1 <= t2 < steps / w -> window si t1 t2 ->
         rd l (t2 * (steps / w) + t1) =
           Ok (ip (evolve (t1 * w) (t2 * w) (acting (t1 * w) [a] (evolve 0 ((t1 + 1) * w) (acting (steps - 1) b0 psi0))))
                  (acting (t2 * w) [s] (evolve 0 (t2 * w) (acting 0 k0 psi0))))) /\
      (forall t1 t2, 0 <= t1 < steps / w -> 0 <= t2 < steps / w -> (t2 < t1 \/ ~ window si t1 t2) -> rd l (t2 * (steps / w) + t1) = Ok zero).
  Proof.
    intros Hw Hs M. set (ket := map Some k0 ++ None :: map Some (s' ++ [s])). set (bra := map Some b0 ++ None :: map Some (a' ++ [a]) ++ [None]).
    assert (NE : bra <> []) by (unfold bra; destruct b0; discriminate).
    destruct (run_two steps w si psi0 ket bra (s' ++ [s]) (map Some k0 ++ [None]) false (length k0 + length s' + 1)%nat (length b0 + length a' + 1)%nat
      (acting (steps - 1) b0 psi0)) as (l & E & L & A & Zr); [exact Hw|exact Hs|destruct s'; discriminate| | | |exact M|apply scan_one|exists 2%nat; split; [exact (scan_two b0 a' [] a)|reflexivity]| |].
    { unfold ket. rewrite <- app_assoc. reflexivity. }
    { right. exists (map Some b0 ++ None :: map Some (a' ++ [a])). unfold bra. rewrite <- app_assoc. reflexivity. }
    { destruct bra as [|x y] eqn:Eb; [congruence|]. rewrite <- Eb. unfold bra, ket. rewrite !count_map. cbn [count_u]. rewrite count_map, count_map_end. reflexivity. }
    { intros _. symmetry. apply apply_acting. }
    exists l. split; [exact E|]. split; [exact L|]. split; [|exact Zr]. intros t1 t2 H1 H2 Wn. refine (eq_trans (A t1 t2 H1 H2 Wn) _). f_equal. unfold value. f_equal.
    - destruct bra as [|x y] eqn:Eb; [congruence|]. rewrite <- Eb. unfold bra_at. unfold bra at 1. rewrite skip_two. reflexivity.
    - replace ket with (map Some k0 ++ None :: map Some (s' ++ [s]) ++ []) at 1 by (rewrite app_nil_r; reflexivity). rewrite skip_two. cbn [apply_ops].
      assert (Ek : apply_ops V 0 ket psi0 = acting 0 k0 psi0) by apply apply_acting. rewrite Ek. reflexivity.
  Qed.

  (** * other shapes *)
  Lemma fill_ok n : forall w i clk psi buf, 1 <= w -> exists b, fill V U n w i clk psi buf = Ok b.
  Proof.
    induction n as [|n IH]; intros w i clk psi buf Hw; [eexists; reflexivity|]. cbn [fill]. destruct (Z.eqb_spec w 0) as [E|_]; [lia|]. apply IH, Hw.
  Qed.
  Lemma count_filter (l : def V) : count_u V l = length (filter (fun x => match x with None => true | Some _ => false end) l).
  Proof. induction l as [|[o|] l IH]; [reflexivity|exact IH|]. cbn. f_equal. exact IH. Qed.
  Lemma shapes steps w si psi0 (ket bra : def V) : 1 <= w ->
    ((exists o b, bra = b ++ [Some o]) -> run_wf V K ip zero U steps w si psi0 ket bra = Throw) /\
    ((bra = [] \/ exists b, bra = b ++ [None]) -> (exists k, ket = k ++ [None]) -> run_wf V K ip zero U steps w si psi0 ket bra = Throw) /\
    ((bra = [] \/ exists b, bra = b ++ [None]) -> (exists k o, ket = k ++ [Some o]) ->
       let n := length (filter (fun x => match x with None => true | Some _ => false end) (ket ++ match bra with [] => [None] | _ => bra end)) in
       n <> 2%nat -> n <> 3%nat -> run_wf V K ip zero U steps w si psi0 ket bra = Throw).
  Proof.
    intros Hw. split; [|split].
    - intros (o & b & ->). unfold run_wf, run. rewrite rev_unit. reflexivity.
    - intros Hb (k & ->). unfold run_wf, run. rewrite rev_unit. destruct Hb as [->|(b & ->)]; [reflexivity|]. rewrite rev_unit. reflexivity.
    - intros Hb (k & o & E) n N2 N3. assert (R : rev ket = Some o :: rev k) by (rewrite E; apply rev_unit).
      assert (N : (count_u V ket + match bra with [] => 1 | _ => count_u V bra end)%nat = n).
      { unfold n. rewrite filter_app, app_length, !count_filter. destruct bra; reflexivity. }
      unfold run_wf, run. cbv zeta. rewrite N, R. destruct (fill_ok (Z.to_nat (steps - 1)) w 1 0 (apply_ops V 0 ket psi0) [apply_ops V 0 ket psi0] Hw) as (q & ->).
      cbn [length Nat.ltb Nat.leb bind]. destruct Hb as [->|(b & ->)]; [|rewrite rev_unit]; cbn [rev];
        (destruct n as [|[|[|[|m]]]]; [reflexivity|reflexivity|congruence|congruence|reflexivity]).
  Qed.
End P.
Lemma meta_values steps w c : int32 steps -> int32 w ->
  get_int (series_meta steps w c) (lit "Nt") 0 = Ok (true, steps) /\ get_int (series_meta steps w c) (lit "Wcycle") 0 = Ok (true, w) /\
  get_value (series_meta steps w c) (lit "CLASS") = Some (lit "Propagation") /\ get_value (series_meta steps w c) (lit "WFBaseName") = Some (lit "WF").
Proof.
  intros Hs Hw. split; [|split; [|split]].
  - rewrite <- (int_roundtrip c (lit "Nt") steps 0 Hs). unfold get_int, series_meta, set_int. rewrite !get_value_set. reflexivity.
  - unfold series_meta. apply int_roundtrip, Hw.
  - unfold series_meta, set_int. rewrite !get_value_set. reflexivity.
  - unfold series_meta, set_int. rewrite !get_value_set. reflexivity.
Qed.
