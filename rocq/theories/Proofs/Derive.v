From Coq Require Import List ZArith Lia Bool Arith QArith Qcanon Ring Field.
From Verif Require Import Base Arrays Algebra Complex Model.Grid Model.Frequency Spec.Grid Spec.Frequency
  Proofs.Grid Proofs.Frequency Model.Derive Spec.Derive.
Import ListNotations.
Open Scope Z_scope.

Lemma wavek_bin N i : 0 <= i < N -> fft_bin N i (wavek N i).
Proof.
  intros H. unfold wavek. destruct (Z.ltb_spec (2 * i) N); [apply bin_low|apply bin_high]; lia.
Qed.
Lemma wavek_eq N i k : 0 <= i < N -> fft_bin N i k -> k = wavek N i.
Proof. intros H K. apply (bin_unique N i); [lia|exact K|apply wavek_bin; exact H]. Qed.

Lemma box_nth ds cs d : in_box ds cs -> (d < length ds)%nat -> 0 <= nth d cs 0 < nth d ds 0.
Proof.
  intros B; revert d; induction B as [|n c ds cs Hc B IH]; intros d Hd; cbn in *; [lia|]. destruct d; [exact Hc|]. apply IH. lia.
Qed.

Section DeriveProofs.
  Variable F : fld.
  Variable u : F.
  Add Field FF2 : (f_th F).
  Variable ds : list Z.
  Variable dk : nat -> F.
  Hypothesis Pos : Forall (fun d => 0 < d) ds.
  Hypothesis NE : ds <> [].
  Notation table := (table F ds).
  Notation kat := (kat F ds dk).

  Lemma size_pos d : (d < length ds)%nat -> 0 <= size_of ds d.
  Proof. intros H. pose proof (nth_pos ds d Pos H). lia. Qed.

  Lemma table_ext t f g : table t f -> (forall cs, in_box ds cs -> f cs = g cs) -> table t g.
  Proof. intros [A B] H. split; [exact A|]. intros cs Hc. rewrite <- (H cs Hc). apply B. exact Hc. Qed.

  Lemma table_const x : table (repeat x (Z.to_nat (points ds))) (fun _ => x).
  Proof.
    assert (P : 0 < points ds) by (apply points_pos; exact Pos). split.
    - unfold zlen. rewrite repeat_length. lia.
    - intros cs B. pose proof (flat_bound _ _ B) as Hb.
      destruct (proj1 (rd_ok (repeat x (Z.to_nat (points ds))) (flat ds cs))) as [y Ey].
      { unfold zlen. rewrite repeat_length. lia. }
      rewrite Ey. f_equal. unfold rd in Ey. destruct (0 <=? _); [|discriminate]. destruct (nth_error _ _) eqn:E; [|discriminate].
      injection Ey as ->. apply nth_error_In in E. apply repeat_spec in E. exact E.
  Qed.

  Lemma axis_table (op : F -> F -> F) d vec t t' f (g : Z -> F) : (d < length ds)%nat ->
    (forall i, 0 <= i < nth d ds 0 -> rd vec i = Ok (g i)) -> table t f -> axis_result op ds d vec t t' ->
    table t' (fun cs => op (f cs) (g (nth d cs 0))).
  Proof.
    intros Hd Hv [A B] [C E]. split; [congruence|]. intros cs Hc. apply E; auto. apply Hv. apply box_nth; assumption.
  Qed.

  Lemma view_step (op : F -> F -> F) seen a (v : vview F) d vec : vinv ds seen a v -> (d < length ds)%nat ->
    (forall e, In e seen -> exists p, a = Some p) -> (In d seen -> a = Some d) -> zlen vec = nth d ds 0 ->
    exists v', (let* v := view_active v d in view_op op v vec) = Ok v' /\ vinv ds (d :: seen) (Some d) v' /\
      axis_result op ds d vec (v_data v) (v_data v').
  Proof.
    intros I Hd SA St L. destruct (view_act_ok ds seen a d v Pos Hd I SA) as (v1 & E1 & I1 & D1).
    { intros Hs p ->. specialize (St Hs). congruence. }
    rewrite E1. cbn [bind]. destruct (view_op_ok ds (d :: seen) d v1 op vec Pos I1 L) as (v2 & E2 & I2 & A2).
    exists v2. rewrite <- D1. auto.
  Qed.

  Lemma ddx_table d pf : (d < length ds)%nat -> exists k, Init1Dddx F (dk d) (size_of ds d) pf = Ok k /\
    zlen k = nth d ds 0 /\ forall i, 0 <= i < nth d ds 0 -> rd k i = Ok (pf * (ofZ (wavek (nth d ds 0%Z) i) * dk d))%cr.
  Proof.
    intros Hd. destruct (ddx_spec F (dk d) pf (size_of ds d) (size_pos d Hd)) as (k & E & L & K). exists k.
    split; [exact E|]. split; [exact L|]. intros i Hi. destruct (K i Hi) as (w & Hw & Ew). rewrite Ew.
    rewrite (wavek_eq _ _ _ Hi Hw). unfold size_of. f_equal. ring.
  Qed.
  Lemma d2_table d pf : (d < length ds)%nat -> exists k, Init1Dd2dx2 F (dk d) (size_of ds d) pf = Ok k /\
    zlen k = nth d ds 0 /\ forall i, 0 <= i < nth d ds 0 ->
      rd k i = Ok (- (pf * ((ofZ (wavek (nth d ds 0%Z) i) * dk d) * (ofZ (wavek (nth d ds 0%Z) i) * dk d))))%cr.
  Proof.
    intros Hd. destruct (d2dx2_spec F (dk d) pf (size_of ds d) (size_pos d Hd)) as (k & E & L & K). exists k.
    split; [exact E|]. split; [exact L|]. intros i Hi. destruct (K i Hi) as (w & Hw & Ew). rewrite Ew.
    rewrite (wavek_eq _ _ _ Hi Hw). reflexivity.
  Qed.
  Lemma single_table deriv (pf : nat -> F) d : (d < length ds)%nat ->
    exists k, (if deriv =? 1 then Init1Dddx F (dk d) (size_of ds d) (pf d) else Init1Dd2dx2 F (dk d) (size_of ds d) (pf d)) = Ok k /\
    zlen k = nth d ds 0 /\ exists g, (forall i, 0 <= i < nth d ds 0 -> rd k i = Ok (g i)) /\
      forall cs, g (nth d cs 0) = single_value F ds dk deriv pf d cs.
  Proof.
    intros Hd. unfold single_value. destruct (deriv =? 1).
    - destruct (ddx_table d (pf d) Hd) as (k & E & L & K). exists k. split; [exact E|]. split; [exact L|].
      eexists. split; [exact K|]. intros cs. reflexivity.
    - destruct (d2_table d (pf d) Hd) as (k & E & L & K). exists k. split; [exact E|]. split; [exact L|].
      eexists. split; [exact K|]. intros cs. reflexivity.
  Qed.

  Definition fits (t : list F) : Prop := zlen t = 0 \/ zlen t = points ds.
  Lemma sized_len t : fits t -> zlen (sized F u ds t) = points ds.
  Proof.
    assert (P : 0 < points ds) by (apply points_pos; exact Pos). intros H. unfold sized. destruct (Z.eqb_spec (zlen t) 0).
    - unfold zlen. rewrite repeat_length, grid_size_spec by exact NE. lia.
    - destruct H; [contradiction|assumption].
  Qed.
  Lemma const_len n (x : F) : Z.of_nat n = points ds -> repeat x n = repeat x (Z.to_nat (points ds)).
  Proof. intros <-. rewrite Nat2Z.id. reflexivity. Qed.

  (** nothing but the tables changes *)
  Definition same (D D' : diff F) : Prop :=
    f_deriv D' = f_deriv D /\ f_dim D' = f_dim D /\ f_mixed D' = f_mixed D /\ f_single D' = f_single D /\
    f_coll D' = f_coll D /\ f_pfac D' = f_pfac D.

  Lemma init_single_ok D i : (i < length ds)%nat -> fits (f_k1 D i) ->
    exists D', init_single F u ds dk D i = Ok D' /\ same D D' /\ f_mix D' = f_mix D /\ f_ks D' = f_ks D /\
      (forall d, d <> i -> f_k1 D' d = f_k1 D d) /\ table (f_k1 D' i) (single_value F ds dk (f_deriv D) (f_pfac D) i).
  Proof.
    intros Hi Ht. unfold init_single. destruct (single_table (f_deriv D) (f_pfac D) i Hi) as (k & -> & L & g & G1 & G2).
    cbn [bind]. pose proof (sized_len _ Ht) as Ls. unfold view_set.
    rewrite (const_len _ c1 Ls). pose proof (table_const c1) as T1.
    destruct (view_step (fun _ y => y) [] None (new_view (repeat c1 (Z.to_nat (points ds))) ds) i k) as (v' & E & I' & A).
    { apply new_vinv. apply T1. } { exact Hi. } { intros e []. } { intros []. } { exact L. }
    rewrite E. cbn [bind]. eexists. split; [reflexivity|]. cbn. unfold set1. split; [unfold same; cbn; auto 10|].
    split; [reflexivity|]. split; [reflexivity|]. split.
    - intros d Hd. apply Nat.eqb_neq in Hd. rewrite Hd. reflexivity.
    - rewrite Nat.eqb_refl. apply (axis_table _ i k _ _ (fun _ => c1) g Hi G1 T1) in A. cbn in A.
      apply (table_ext _ _ _ A). intros cs _. apply G2.
  Qed.

  Lemma init_singles_ok D : (forall d, (d < length ds)%nat -> fits (f_k1 D d)) ->
    exists D', foldM (init_single F u ds dk) (seq 0 (length ds)) D = Ok D' /\ same D D' /\ f_mix D' = f_mix D /\ f_ks D' = f_ks D /\
      forall d, (d < length ds)%nat -> table (f_k1 D' d) (single_value F ds dk (f_deriv D) (f_pfac D) d).
  Proof.
    intros Hf. destruct (foldM_inv (init_single F u ds dk) (fun done D' => same D D' /\ f_mix D' = f_mix D /\ f_ks D' = f_ks D /\
       (forall d, ~ In d done -> f_k1 D' d = f_k1 D d) /\
       (forall d, In d done -> table (f_k1 D' d) (single_value F ds dk (f_deriv D) (f_pfac D) d))) (seq 0 (length ds)) D)
      as (D' & E & S1 & S2 & S3 & S4 & S5).
    - split; [unfold same; auto 10|]. split; [reflexivity|]. split; [reflexivity|]. split; [reflexivity|]. intros d [].
    - intros done x rest D1 El (S1 & S2 & S3 & S4 & S5).
      assert (Nd : ~ In x done).
      { pose proof (seq_NoDup (length ds) 0) as ND. rewrite El in ND. apply NoDup_remove_2 in ND. intros H. apply ND. apply in_or_app. auto. }
      assert (Hx : (x < length ds)%nat). { assert (Hx : In x (seq 0 (length ds))) by (rewrite El; apply in_or_app; cbn; auto). apply in_seq in Hx. lia. }
      destruct (init_single_ok D1 x Hx) as (D2 & E2 & T1 & T2 & T3 & T4 & T5).
      { rewrite (S4 x Nd). apply Hf. exact Hx. }
      exists D2. split; [exact E2|]. destruct S1 as (Q1 & Q2 & Q3 & Q4 & Q5 & Q6). destruct T1 as (R1 & R2 & R3 & R4 & R5 & R6).
      split; [unfold same; repeat split; congruence|]. split; [congruence|]. split; [congruence|]. split.
      + intros d Hd. rewrite T4, S4; [reflexivity| |].
        * intros H. apply Hd. apply in_or_app. auto.
        * intros ->. apply Hd. apply in_or_app. cbn. auto.
      + intros d Hd. destruct (Nat.eq_dec d x) as [->|Nx].
        * rewrite <- Q1, <- Q6. exact T5.
        * rewrite T4 by exact Nx. apply S5. apply in_app_or in Hd. destruct Hd as [|[<-|[]]]; [assumption|contradiction].
    - exists D'. split; [exact E|]. split; [exact S1|]. split; [exact S2|]. split; [exact S3|]. intros d Hd. apply S5. apply in_seq. lia.
  Qed.

  Definition mix_value (pf : nat -> F) (i j : nat) (cs : list Z) : F := (pf i * kat cs j)%cr.

  Lemma init_mixed_ok D i j : (i < length ds)%nat -> (j < length ds)%nat -> fits (f_mix D i j) ->
    exists D', init_mixed F u ds dk D (i, j) = Ok D' /\ same D D' /\ f_k1 D' = f_k1 D /\ f_ks D' = f_ks D /\
      (forall a b, (a, b) <> (i, j) -> f_mix D' a b = f_mix D a b) /\ table (f_mix D' i j) (mix_value (f_pfac D) i j).
  Proof.
    intros Hi Hj Ht. unfold init_mixed. destruct (ddx_table i (f_pfac D i) Hi) as (k & -> & L & K). cbn [bind].
    destruct (ddx_table j (f_pfac D i) Hj) as (k' & Ek' & L' & K').
    pose proof (sized_len _ Ht) as Ls. unfold view_set.
    destruct (view_step (fun _ y => y) [] None (new_view (sized F u ds (f_mix D i j)) ds) i k) as (v1 & E1 & I1 & A1).
    { apply new_vinv. exact Ls. } { exact Hi. } { intros e []. } { intros []. } { exact L. }
    rewrite E1. cbn [bind]. rewrite Ek'. cbn [bind].
    destruct (view_step (fun _ y => y) [i] (Some i) v1 j k') as (v2 & E2 & I2 & A2).
    { exact I1. } { exact Hj. } { intros e _. eauto. } { intros [->|[]]; reflexivity. } { exact L'. }
    rewrite E2. cbn [bind]. eexists. split; [reflexivity|]. cbn. unfold set1. split; [unfold same; cbn; auto 10|].
    split; [reflexivity|]. split; [reflexivity|]. split.
    - intros a b Hab. destruct (Nat.eqb_spec a i) as [->|]; [|reflexivity]. destruct (Nat.eqb_spec b j) as [->|]; [contradiction|reflexivity].
    - rewrite !Nat.eqb_refl. split; [apply (vi_len _ _ _ _ I2)|]. intros cs Hc.
      pose proof (flat_bound _ _ Hc) as Hb. rewrite <- (vi_len _ _ _ _ I1) in Hb.
      destruct (proj1 (rd_ok (v_data v1) (flat ds cs)) Hb) as [x Ex].
      destruct A2 as [_ A2]. rewrite (A2 cs x _ Hc Ex (K' _ (box_nth _ _ _ Hc Hj))). reflexivity.
  Qed.

  Lemma in_mixed i j : In (i, j) (mixed_range ds) <-> (i < length ds)%nat /\ (j <= i)%nat.
  Proof.
    unfold mixed_range. rewrite in_flat_map. split.
    - intros (a & Ha & H). apply in_map_iff in H. destruct H as (b & [= <- <-] & Hb). apply in_seq in Ha, Hb. lia.
    - intros [H1 H2]. exists i. split; [apply in_seq; lia|]. apply in_map_iff. exists j. split; [reflexivity|]. apply in_seq. lia.
  Qed.
  Lemma nodup_flat {A B} (f : A -> list B) l : NoDup l -> (forall a, In a l -> NoDup (f a)) ->
    (forall a a' b, In b (f a) -> In b (f a') -> a = a') -> NoDup (flat_map f l).
  Proof.
    intros N H1 H2. induction N as [|a l Ha N IH]; cbn; [constructor|]. 
    assert (G : forall l1 l2 : list B, NoDup l1 -> NoDup l2 -> (forall b, In b l1 -> ~ In b l2) -> NoDup (l1 ++ l2)).
    { clear. induction l1 as [|b l1 IH]; intros l2 N1 N2 H; cbn; [exact N2|]. inversion N1; subst. constructor.
      - intros K. apply in_app_or in K. destruct K; [contradiction|]. apply (H b); cbn; auto.
      - apply IH; auto. intros x Hx. apply H. cbn. auto. }
    apply G.
    - apply H1. left; reflexivity.
    - apply IH. intros x Hx. apply H1. right; exact Hx.
    - intros b Hb K. apply in_flat_map in K. destruct K as (a' & Ha' & K). rewrite (H2 a a' b Hb K) in Ha. contradiction.
  Qed.
  Lemma nodup_mixed : NoDup (mixed_range ds).
  Proof.
    apply nodup_flat.
    - apply seq_NoDup.
    - intros a _. apply FinFun.Injective_map_NoDup; [|apply seq_NoDup]. intros x y [= H]. exact H.
    - intros a a' [x y] H H'. apply in_map_iff in H, H'. destruct H as (b & E & _). destruct H' as (b' & E' & _). congruence.
  Qed.

  Lemma init_mixeds_ok D : (forall i j, (i < length ds)%nat -> (j <= i)%nat -> fits (f_mix D i j)) ->
    exists D', foldM (init_mixed F u ds dk) (mixed_range ds) D = Ok D' /\ same D D' /\ f_k1 D' = f_k1 D /\ f_ks D' = f_ks D /\
      forall i j, (i < length ds)%nat -> (j <= i)%nat -> table (f_mix D' i j) (mix_value (f_pfac D) i j).
  Proof.
    intros Hf. destruct (foldM_inv (init_mixed F u ds dk) (fun done D' => same D D' /\ f_k1 D' = f_k1 D /\ f_ks D' = f_ks D /\
       (forall i j, ~ In (i, j) done -> f_mix D' i j = f_mix D i j) /\
       (forall i j, In (i, j) done -> table (f_mix D' i j) (mix_value (f_pfac D) i j))) (mixed_range ds) D)
      as (D' & E & S1 & S2 & S3 & S4 & S5).
    - split; [unfold same; auto 10|]. split; [reflexivity|]. split; [reflexivity|]. split; [reflexivity|]. intros i j [].
    - intros done [i j] rest D1 El (S1 & S2 & S3 & S4 & S5).
      assert (Nd : ~ In (i, j) done).
      { pose proof nodup_mixed as ND. rewrite El in ND. apply NoDup_remove_2 in ND. intros H. apply ND. apply in_or_app. auto. }
      assert (Hx : (i < length ds)%nat /\ (j <= i)%nat). { apply in_mixed. rewrite El. apply in_or_app. cbn. auto. }
      destruct Hx as [Hi Hj]. destruct (init_mixed_ok D1 i j Hi) as (D2 & E2 & T1 & T2 & T3 & T4 & T5).
      { lia. } { rewrite (S4 i j Nd). apply Hf; assumption. }
      exists D2. split; [exact E2|]. destruct S1 as (Q1 & Q2 & Q3 & Q4 & Q5 & Q6). destruct T1 as (R1 & R2 & R3 & R4 & R5 & R6).
      split; [unfold same; repeat split; congruence|]. split; [congruence|]. split; [congruence|]. split.
      + intros a b Hd. rewrite T4, S4; [reflexivity| |].
        * intros H. apply Hd. apply in_or_app. auto.
        * intros [= -> ->]. apply Hd. apply in_or_app. cbn. auto.
      + intros a b Hd. assert (Dc : (a, b) = (i, j) \/ (a, b) <> (i, j)) by (destruct (Nat.eq_dec a i), (Nat.eq_dec b j); [left|right|right|right]; congruence).
        destruct Dc as [[= -> ->]|Nx].
        * rewrite <- Q6. exact T5.
        * rewrite T4 by exact Nx. apply S5. apply in_app_or in Hd. destruct Hd as [|[Hd|[]]]; [assumption|congruence].
    - exists D'. split; [exact E|]. split; [exact S1|]. split; [exact S2|]. split; [exact S3|].
      intros i j Hi Hj. apply S5. apply in_mixed. auto.
  Qed.

  (** sums along several dimensions in a view *)
  Lemma sum_views (mk : nat -> outcome (list F)) (val : nat -> list Z -> F) l (v0 : vview F) f0 :
    (forall d, In d l -> (d < length ds)%nat /\ exists k, mk d = Ok k /\ zlen k = nth d ds 0 /\
        exists g, (forall i, 0 <= i < nth d ds 0 -> rd k i = Ok (g i)) /\ forall cs, g (nth d cs 0) = val d cs) ->
    NoDup l -> vinv ds [] None v0 -> table (v_data v0) f0 ->
    exists v', foldM (fun v i => let* k := mk i in view_add F v i k) l v0 = Ok v' /\
      table (v_data v') (fun cs => f0 cs + lsum (fun d => val d cs) l)%cr.
  Proof.
    intros Hm ND I0 T0.
    destruct (foldM_inv (fun v i => let* k := mk i in view_add F v i k)
      (fun done v => (exists a, vinv ds (rev done) a v /\ (forall e, In e done -> exists p, a = Some p)) /\
         table (v_data v) (fun cs => f0 cs + lsum (fun d => val d cs) done)%cr) l v0) as (v' & E & _ & T).
    - split; [exists None; split; [exact I0|intros e []]|]. apply (table_ext _ _ _ T0). intros cs _. cbn. ring.
    - intros done d rest v El ((a & I & SA) & T). destruct (Hm d) as (Hd & k & Ek & L & g & G1 & G2).
      { rewrite El. apply in_or_app. cbn. auto. }
      rewrite Ek. cbn [bind]. unfold view_add. rewrite El in ND. apply NoDup_remove_2 in ND.
      destruct (view_step cadd (rev done) a v d k I Hd) as (v1 & E1 & I1 & A1).
      { intros e He. apply (SA e). apply in_rev. exact He. }
      { intros Hin. exfalso. apply ND. apply in_or_app. left. apply in_rev. exact Hin. }
      { exact L. }
      exists v1. split; [exact E1|]. split.
      + exists (Some d). rewrite rev_app_distr. split; [exact I1|eauto].
      + apply (axis_table _ d k _ _ _ g Hd G1 T) in A1. apply (table_ext _ _ _ A1). intros cs _. rewrite G2, lsum_app. cbn. ring.
    - exists v'. auto.
  Qed.

  Lemma init_coll_ok D : exists D', init_coll F ds dk D = Ok D' /\ same D D' /\ f_k1 D' = f_k1 D /\ f_mix D' = f_mix D /\
    table (f_ks D') (coll_value F ds dk 2 (f_pfac D)).
  Proof.
    unfold init_coll. pose proof (table_const (c0 : F)) as T0. rewrite grid_size_spec by exact NE.
    destruct (sum_views (fun i => Init1Dd2dx2 F (dk i) (size_of ds i) (f_pfac D i)) (single_value F ds dk 2 (f_pfac D))
       (seq 0 (length ds)) (new_view (repeat c0 (Z.to_nat (points ds))) ds) (fun _ => c0)) as (v & E & T).
    - intros d Hd. apply in_seq in Hd. split; [lia|]. assert (Hd' : (d < length ds)%nat) by lia.
      exact (single_table 2 (f_pfac D) d Hd').
    - apply seq_NoDup.
    - apply new_vinv. apply T0.
    - exact T0.
    - rewrite E. cbn [bind]. eexists. split; [reflexivity|]. cbn. split; [unfold same; cbn; auto 10|]. split; [reflexivity|].
      split; [reflexivity|]. apply (table_ext _ _ _ T). intros cs _. unfold coll_value. ring.
  Qed.

  Lemma range_all D : f_dim D < 0 -> single_range F ds D = seq 0 (length ds).
  Proof. intros H. unfold single_range. destruct (Z.ltb_spec (-1) (f_dim D)); [lia|reflexivity]. Qed.
  Lemma range_one D : 0 <= f_dim D -> single_range F ds D = [].
  Proof. intros H. unfold single_range. destruct (Z.ltb_spec (-1) (f_dim D)); [|lia]. rewrite Nat.sub_diag. reflexivity. Qed.

  (** everything the construction of the tables does *)
  Lemma init_kspace_ok D :
    (f_single D = true -> f_dim D < 0 -> forall d, (d < length ds)%nat -> fits (f_k1 D d)) ->
    (f_mixed D = true -> forall i j, (i < length ds)%nat -> (j <= i)%nat -> fits (f_mix D i j)) ->
    exists D', init_kspace F u ds dk D = Ok D' /\ same D D' /\
      (if f_single D && (f_dim D <? 0) then
         forall d, (d < length ds)%nat -> table (f_k1 D' d) (single_value F ds dk (f_deriv D) (f_pfac D) d)
       else f_k1 D' = f_k1 D) /\
      (if f_mixed D then forall i j, (i < length ds)%nat -> (j <= i)%nat -> table (f_mix D' i j) (mix_value (f_pfac D) i j)
       else f_mix D' = f_mix D) /\
      (if f_coll D then table (f_ks D') (coll_value F ds dk 2 (f_pfac D)) else f_ks D' = f_ks D).
  Proof.
    intros H1 H2. unfold init_kspace.
    assert (P1 : exists D1, (if f_single D then foldM (init_single F u ds dk) (single_range F ds D) D else Ok D) = Ok D1 /\ same D D1 /\
       f_mix D1 = f_mix D /\ f_ks D1 = f_ks D /\ (if f_single D && (f_dim D <? 0) then
         forall d, (d < length ds)%nat -> table (f_k1 D1 d) (single_value F ds dk (f_deriv D) (f_pfac D) d) else f_k1 D1 = f_k1 D)).
    { destruct (f_single D); [|exists D; unfold same; cbn; repeat split]. cbn [andb]. destruct (Z.ltb_spec (f_dim D) 0) as [Hd|Hd].
      - rewrite (range_all D Hd). apply init_singles_ok. apply H1; auto.
      - rewrite (range_one D Hd). exists D. unfold same. repeat split. }
    destruct P1 as (D1 & -> & S1 & M1 & K1 & T1). cbn [bind]. pose proof S1 as (Q1 & Q2 & Q3 & Q4 & Q5 & Q6).
    assert (P2 : exists D2, (if f_mixed D1 then foldM (init_mixed F u ds dk) (mixed_range ds) D1 else Ok D1) = Ok D2 /\ same D1 D2 /\
       f_k1 D2 = f_k1 D1 /\ f_ks D2 = f_ks D1 /\ (if f_mixed D then forall i j, (i < length ds)%nat -> (j <= i)%nat -> table (f_mix D2 i j) (mix_value (f_pfac D) i j)
       else f_mix D2 = f_mix D)).
    { rewrite Q3. destruct (f_mixed D).
      - destruct (init_mixeds_ok D1) as (D2 & E & A & B & C & T); [rewrite M1; apply H2; reflexivity|].
        rewrite Q6 in T. exists D2. split; [exact E|]. split; [exact A|]. split; [exact B|]. split; [exact C|]. exact T.
      - exists D1. unfold same. repeat split. exact M1. }
    destruct P2 as (D2 & -> & S2 & M2 & K2 & T2). cbn [bind]. destruct S2 as (R1 & R2 & R3 & R4 & R5 & R6).
    rewrite R5, Q5. destruct (f_coll D) eqn:EC.
    - destruct (init_coll_ok D2) as (D3 & E & A & B & C & T). exists D3. split; [exact E|]. destruct A as (W1 & W2 & W3 & W4 & W5 & W6).
      split; [unfold same; repeat split; congruence|]. rewrite R6, Q6 in T. rewrite B, C, M2. split; [exact T1|]. split; [|exact T].
      exact T2.
    - exists D2. split; [reflexivity|]. split; [unfold same; repeat split; congruence|]. rewrite M2, K2, K1. split; [exact T1|]. split; [exact T2|reflexivity].
  Qed.

  (** ** OGridNabla *)
  Definition nabla_value (dim : Z) (cs : list Z) : F :=
    lsum (fun d => kat cs d) (filter (fun d => (dim <? 0) || (dim =? Z.of_nat d)) (seq 0 (length ds))).

  Lemma filter_all {A} (f : A -> bool) l : (forall a, In a l -> f a = true) -> filter f l = l.
  Proof. induction l as [|a l IH]; intros H; cbn; [reflexivity|]. rewrite (H a) by (left; reflexivity). f_equal. apply IH. intros; apply H; right; assumption. Qed.
  Lemma filter_none {A} (f : A -> bool) l : (forall a, In a l -> f a = false) -> filter f l = [].
  Proof. induction l as [|a l IH]; intros H; cbn; [reflexivity|]. rewrite (H a) by (left; reflexivity). apply IH. intros; apply H; right; assumption. Qed.
  Lemma filter_one n d : (d < n)%nat -> filter (fun e => Z.of_nat d =? Z.of_nat e) (seq 0 n) = [d].
  Proof.
    intros H. replace n with (d + (1 + (n - d - 1)))%nat by lia. rewrite seq_app, filter_app. cbn [Nat.add]. 
    replace (filter _ (seq 0 d)) with (@nil nat).
    2:{ symmetry. apply filter_none. intros e He. apply in_seq in He. apply Z.eqb_neq. lia. }
    cbn [seq filter app]. rewrite Z.eqb_refl. f_equal. apply filter_none. intros e He. apply in_seq in He. apply Z.eqb_neq. lia.
  Qed.

  Lemma nabla_table dim : dim < Z.of_nat (length ds) -> exists k, nabla_init F ds dk dim = Ok k /\ table k (nabla_value dim).
  Proof.
    intros Hd. unfold nabla_init. destruct (Z.ltb_spec (Z.of_nat (length ds)) (dim + 1)); [lia|].
    unfold nabla_kspace. rewrite grid_size_spec by exact NE. pose proof (table_const (c0 : F)) as T0.
    set (l := if dim <? 0 then seq 0 (length ds) else [Z.to_nat dim]).
    assert (El : filter (fun d => (dim <? 0) || (dim =? Z.of_nat d)) (seq 0 (length ds)) = l).
    { unfold l. destruct (Z.ltb_spec dim 0); cbn [orb].
      - apply filter_all. reflexivity.
      - rewrite <- (filter_one (length ds) (Z.to_nat dim)) by lia. rewrite Z2Nat.id by lia. reflexivity. }
    destruct (sum_views (fun i => Init1Dddx F (dk i) (size_of ds i) c1) (fun d cs => kat cs d)
       l (new_view (repeat c0 (Z.to_nat (points ds))) ds) (fun _ => c0)) as (v & E & T).
    - intros d Hdl. assert (Hd' : (d < length ds)%nat).
      { unfold l in Hdl. destruct (Z.ltb_spec dim 0); [apply in_seq in Hdl; lia|]. destruct Hdl as [<-|[]]. lia. }
      split; [exact Hd'|]. destruct (ddx_table d c1 Hd') as (k & Ek & L & K). exists k. split; [exact Ek|]. split; [exact L|].
      eexists. split; [exact K|]. intros cs. unfold Spec.Derive.kat. cbn. ring.
    - unfold l. destruct (dim <? 0); [apply seq_NoDup|]. constructor; [intros []|constructor].
    - apply new_vinv. apply T0.
    - exact T0.
    - exists (v_data v). split.
      + unfold l in E. destruct (dim <? 0).
        * unfold nabla_dim. rewrite E. reflexivity.
        * cbn [foldM] in E. unfold nabla_dim.
          match type of E with (let* s' := ?X in Ok s') = _ => destruct X; try discriminate end.
          cbn [bind] in E. injection E as ->. reflexivity.
      + apply (table_ext _ _ _ T). intros cs _. unfold nabla_value. rewrite El. ring.
  Qed.
End DeriveProofs.

(** ** the momentum operator's largest value *)
Lemma flat_zeros rest n c : flat (rest ++ [n]) (map (fun _ => 0) rest ++ [c]) = points rest * c.
Proof.
  induction rest as [|d rest IH]; cbn [app map flat]; [cbn [points fold_right]; ring|]. rewrite IH, points_cons. ring.
Qed.
Lemma box_zeros rest n c : Forall (fun d => 0 < d) rest -> 0 <= c < n -> in_box (rest ++ [n]) (map (fun _ => 0) rest ++ [c]).
Proof. intros H Hc. induction H as [|d rest Hd H IH]; cbn; [repeat constructor; lia|]. constructor; [lia|exact IH]. Qed.

Section Emax.
  Variable F : fld.
  Add Field FF3 : (f_th F).
  Lemma emax_value rest N (dk : nat -> F) dim k : Forall (fun d => 0 < d) rest -> 0 < N -> Z.rem N 2 = 0 ->
    dim < Z.of_nat (S (length rest)) -> nabla_init F (rest ++ [N]) dk dim = Ok k ->
    nabla_emax F (rest ++ [N]) k =
      Ok (if (dim <? 0) || (dim =? Z.of_nat (length rest)) then ofZ (- Z.quot N 2) * dk (length rest) else c0)%cr.
  Proof.
    intros P HN Ev Hd Ek. set (ds := rest ++ [N]) in *.
    assert (Pos : Forall (fun d => 0 < d) ds) by (apply Forall_app; auto).
    assert (NE : ds <> []) by (unfold ds; destruct rest; discriminate).
    assert (Hl : length ds = S (length rest)) by (unfold ds; rewrite app_length; cbn; lia).
    destruct (nabla_table F ds dk Pos NE dim) as (k' & Ek' & _ & T); [rewrite Hl; exact Hd|].
    assert (k' = k) by congruence. subst k'. unfold nabla_emax.
    assert (E2 : N = 2 * Z.quot N 2) by (pose proof (Z.quot_rem' N 2); lia).
    set (M := Z.quot N 2) in *. set (cs := map (fun _ => 0) rest ++ [M]).
    assert (Hc : in_box ds cs) by (apply box_zeros; [exact P|lia]).
    assert (Eq : Z.quot (grid_size ds) 2 = flat ds cs).
    { rewrite grid_size_spec by exact NE. unfold ds, cs. rewrite flat_zeros, points_app. cbn [points fold_right].
      replace (points rest * (N * 1)) with (points rest * M * 2) by (rewrite E2; ring). apply Z.quot_mul. lia. }
    rewrite Eq, (T cs Hc). f_equal. unfold nabla_value. rewrite Hl, seq_S, filter_app. cbn [filter Nat.add].
    assert (K0 : forall d, In d (filter (fun d => (dim <? 0) || (dim =? Z.of_nat d)) (seq 0 (length rest))) -> kat F ds dk cs d = c0).
    { intros d Hin. apply filter_In in Hin. destruct Hin as [Hin _]. apply in_seq in Hin. unfold kat.
      unfold cs. rewrite app_nth1 by (rewrite map_length; lia).
      replace (nth d (map (fun _ => 0) rest) 0) with 0.
      2:{ clear - Hin. destruct Hin as [_ Hin]. revert d Hin. induction rest as [|a l IH]; intros [|d] Hin; cbn in *; try reflexivity. apply IH. lia. }
      unfold ds. rewrite app_nth1 by lia. unfold wavek. 
      assert (0 < nth d rest 0) by (rewrite Forall_forall in P; apply P; apply nth_In; lia).
      destruct (Z.ltb_spec (2 * 0) (nth d rest 0)); [|lia]. rewrite ofZ_0. ring. }
    rewrite lsum_app. rewrite (lsum_zero F (fun d => kat F ds dk cs d) _ K0).
    destruct (_ || _); cbn [lsum map fold_right]; [|cbn; ring].
    unfold kat, cs, ds. rewrite !app_nth2 by (rewrite ?map_length; lia). rewrite map_length, !Nat.sub_diag. cbn [nth].
    unfold wavek. destruct (Z.ltb_spec (2 * M) N); [lia|]. replace (M - N) with (- M) by lia. cbn. ring.
  Qed.
End Emax.

(** ** kinetic energy: rational numbers *)
Section Energy.
  Open Scope Qc_scope.
  Lemma Qc_sq_nonneg (a : Qc) : 0 <= a * a.
  Proof.
    destruct (Qclt_le_dec a 0) as [H|H].
    - assert (K : 0 <= - a). { apply Qclt_le_weak in H. apply Qcopp_le_compat in H. exact H. }
      replace (a * a) with ((- a) * (- a)) by ring. replace 0 with (0 * (- a)) by ring. apply Qcmult_le_compat_r; exact K.
    - replace 0 with (0 * a) by ring. apply Qcmult_le_compat_r; exact H.
  Qed.
  Lemma Qc_mul_nonneg (a b : Qc) : 0 <= a -> 0 <= b -> 0 <= a * b.
  Proof. intros H K. replace 0 with (0 * b) by ring. apply Qcmult_le_compat_r; assumption. Qed.
  Lemma Qc_inv_nonneg (a : Qc) : 0 < a -> 0 <= / a.
  Proof.
    intros H. destruct (Qclt_le_dec (/ a) 0) as [K|K]; [|exact K]. exfalso.
    assert (N : a <> 0) by (intros ->; apply (Qclt_not_eq 0 0); [exact H|reflexivity]).
    assert (E : a * / a = 1) by (apply Qcmult_inv_r; exact N).
    assert (L : a * (- / a) >= 0). { apply Qc_mul_nonneg; [apply Qclt_le_weak; exact H|]. apply Qclt_le_weak in K. apply Qcopp_le_compat in K. exact K. }
    replace (a * - / a) with (- (1)) in L by (rewrite <- E; ring). vm_compute in L. apply L. reflexivity.
  Qed.
  Lemma Qc_add_le (a b c d : Qc) : a <= b -> c <= d -> a + c <= b + d.
  Proof. apply Qcplus_le_compat. Qed.
  Lemma Qc_diff (a b : Qc) : 0 <= b - a -> a <= b.
  Proof. intros H. apply Qcle_minus_iff. exact H. Qed.
  Lemma ofZ_nonneg z : (0 <= z)%Z -> 0 <= @ofZ Qcf z.
  Proof.
    revert z. apply natlike_ind.
    - rewrite ofZ_0. apply Qcle_refl.
    - intros x Hx IH. rewrite <- Z.add_1_r, (ofZ_add Qcf), ofZ_1. change (0 <= @ofZ Qcf x + 1). replace 0 with (0 + 0) by ring.
      apply Qcplus_le_compat; [exact IH|]. vm_compute. discriminate.
  Qed.
  Lemma ofZ_nonzero z : z <> 0%Z -> @ofZ Qcf z <> 0.
  Proof.
    intros H E. assert (K : forall p, (0 < p)%Z -> @ofZ Qcf p <> 0).
    { intros p Hp Ep. replace p with (p - 1 + 1)%Z in Ep by ring. rewrite (ofZ_add Qcf), ofZ_1 in Ep. change (@ofZ Qcf (p - 1) + 1 = 0) in Ep.
      assert (L : 0 <= @ofZ Qcf (p - 1)) by (apply ofZ_nonneg; lia). replace (@ofZ Qcf (p - 1)) with (- (1)) in L.
      - vm_compute in L. apply L. reflexivity.
      - replace (- (1)) with (0 - 1) by ring. rewrite <- Ep. ring. }
    destruct (Z_lt_le_dec 0 z) as [Hz|Hz]; [exact (K z Hz E)|]. apply (K (- z)%Z); [lia|]. rewrite (ofZ_opp Qcf), E. reflexivity.
  Qed.

  (** one dimension *)
  Lemma energy_term (pi dx m : Qc) N w : dx <> 0 -> 0 < m -> (0 < N)%Z -> (- N <= 2 * w <= N)%Z ->
    let k := @ofZ Qcf w * ((1 + 1) * pi / (@ofZ Qcf N * dx)) in
    let v := - (- (1) / (1 + 1) / m * (k * k)) in
    0 <= v /\ v <= 1 / (m * dx * dx) * (pi * pi / (1 + 1)).
  Proof.
    intros Hx Hm HN Hw k v. assert (Nm : m <> 0) by (intros ->; apply (Qclt_not_eq 0 0); [exact Hm|reflexivity]).
    assert (N2 : (1 + 1 : Qc) <> 0) by (intros E; vm_compute in E; discriminate).
    assert (P2 : 0 <= / (1 + 1)) by (vm_compute; discriminate).
    assert (NN : @ofZ Qcf N <> 0) by (apply ofZ_nonzero; lia). pose proof (Qc_inv_nonneg m Hm) as Im. split.
    - replace v with (/ (1 + 1) * / m * (k * k)) by (unfold v; field; split; assumption).
      apply Qc_mul_nonneg; [apply Qc_mul_nonneg; assumption|apply Qc_sq_nonneg].
    - apply Qc_diff. assert (L : 0 <= @ofZ Qcf (N * N - 4 * (w * w))) by (apply ofZ_nonneg; nia).
      replace (1 / (m * dx * dx) * (pi * pi / (1 + 1)) - v)
        with (/ (1 + 1) * / m * ((pi / dx / @ofZ Qcf N) * (pi / dx / @ofZ Qcf N)) * @ofZ Qcf (N * N - 4 * (w * w))).
      + apply Qc_mul_nonneg; [|exact L]. apply Qc_mul_nonneg; [apply Qc_mul_nonneg; assumption|apply Qc_sq_nonneg].
      + rewrite (ofZ_sub Qcf), !(ofZ_mul Qcf).
        replace (@ofZ Qcf 4) with ((1 + 1) * (1 + 1)) by (apply Qc_is_canon; vm_compute; reflexivity).
        unfold v, k. change (@csub Qcf) with Qcminus. change (@cmul Qcf) with Qcmult. field. repeat split; assumption.
  Qed.

  Lemma lsum_le {A} (f g : A -> Qcf) l : (forall a, In a l -> f a <= g a) -> lsum f l <= lsum g l.
  Proof.
    induction l as [|a l IH]; intros H; [apply Qcle_refl|]. change (f a + lsum f l <= g a + lsum g l). apply Qcplus_le_compat.
    - apply H. left; reflexivity.
    - apply IH. intros; apply H; right; assumption.
  Qed.

  Lemma factors_ok mass : mass <> [] -> Forall (fun m => 0 < m) mass ->
    nsq_factors mass = Ok (map (fun m => - (1) / (1 + 1) / m) mass).
  Proof.
    intros NE P. unfold nsq_factors. destruct mass as [|m0 ms]; [contradiction|]. remember (m0 :: ms) as mass eqn:Em.
    assert (E1 : existsb (fun m => if Qc_eq_dec m 0 then true else false) mass = false).
    { clear Em NE. induction P as [|m l Hm P IH]; cbn; [reflexivity|]. destruct (Qc_eq_dec m 0) as [->|]; [|exact IH].
      exfalso. apply (Qclt_not_eq 0 0); [exact Hm|reflexivity]. }
    assert (E2 : existsb (fun m => match m ?= 0 with Gt => true | _ => false end) mass = true).
    { subst mass. inversion P; subst. cbn. apply Qcgt_alt in H1. rewrite H1. reflexivity. }
    rewrite E1, E2. reflexivity.
  Qed.

  Lemma Qcplus_0_l' (a b : Qc) : 0 * a + b = b.
  Proof. ring. Qed.
  Lemma emax_sum (pi : Qc) mass (dx : nat -> Qc) : Forall (fun m => 0 < m) mass ->
    nsq_emax pi mass dx = @lsum Qcf _ (fun d => 1 / (nth d mass (- (1)) * dx d * dx d) * (pi * pi / (1 + 1))) (seq 0 (length mass)).
  Proof.
    intros P. unfold nsq_emax.
    assert (G : forall l T, (forall d, In d l -> 0 < nth d mass (- (1))) ->
       fold_left (fun T i => match nth i mass (- (1)) ?= 0 with Gt => T + 1 / (nth i mass (- (1)) * dx i * dx i) | _ => T end) l T * (pi * pi / (1 + 1)) =
       T * (pi * pi / (1 + 1)) + @lsum Qcf _ (fun d => 1 / (nth d mass (- (1)) * dx d * dx d) * (pi * pi / (1 + 1))) l).
    { induction l as [|d l IH]; intros T H.
      - cbn [fold_left]. change (T * (pi * pi / (1 + 1)) = T * (pi * pi / (1 + 1)) + 0). ring.
      - cbn [fold_left]. assert (Hd : 0 < nth d mass (- (1))) by (apply H; left; reflexivity). apply Qcgt_alt in Hd. rewrite Hd.
        rewrite IH by (intros; apply H; right; assumption).
        change (@lsum Qcf nat (fun d0 => 1 / (nth d0 mass (- (1)) * dx d0 * dx d0) * (pi * pi / (1 + 1))) (d :: l)) with
          (1 / (nth d mass (- (1)) * dx d * dx d) * (pi * pi / (1 + 1)) + @lsum Qcf nat (fun d0 => 1 / (nth d0 mass (- (1)) * dx d0 * dx d0) * (pi * pi / (1 + 1))) l).
        ring. }
    rewrite G.
    - apply (Qcplus_0_l' _ _).
    - intros d Hd. apply in_seq in Hd. rewrite Forall_forall in P. apply P. apply nth_In. lia.
  Qed.

  Lemma energy_bounds (pi : Qc) ds (dx dk : nat -> Qc) mass :
    Forall (fun d => (0 < d)%Z) ds -> ds <> [] -> length ds = length mass -> Forall (fun m => 0 < m) mass ->
    (forall d, (d < length ds)%nat -> dx d <> 0 /\ dk d = (1 + 1) * pi / (@ofZ Qcf (nth d ds 0%Z) * dx d)) ->
    exists t, nsq_table ds dk mass = Ok t /\
      table Qcf ds t (fun cs => @lsum Qcf _ (fun d => kat Qcf ds dk cs d * kat Qcf ds dk cs d / ((1 + 1) * nth d mass (- (1)))) (seq 0 (length ds))) /\
      forall i x, rd t i = Ok x -> nsq_emin <= x /\ x <= nsq_emax pi mass dx.
  Proof.
    intros Pos NE Hl P Hk. unfold nsq_table. rewrite factors_ok; [|destruct ds, mass; cbn in *; congruence|exact P]. cbn [bind].
    replace (length ds =? length mass)%nat with true by (symmetry; apply Nat.eqb_eq; exact Hl). cbn [negb].
    set (D := mkDiff (F := Qcf) 2 (-1) false false true _ _ _ _).
    destruct (init_kspace_ok Qcf 0 ds dk Pos NE D) as (D' & E & _ & _ & _ & T); [discriminate|discriminate|].
    rewrite E. cbn [bind]. exists (f_ks D'). split; [reflexivity|]. cbn in T.
    assert (Nm : forall d, (d < length ds)%nat -> 0 < nth d mass (- (1))).
    { intros d Hd. rewrite Forall_forall in P. apply P. apply nth_In. lia. }
    assert (Fv : forall d, (d < length ds)%nat -> nth d (map (fun m => - (1) / (1 + 1) / m) mass) (@ofZ Qcf (-1)) = - (1) / (1 + 1) / nth d mass (- (1))).
    { intros d Hd. rewrite (nth_indep _ _ ((fun m => - (1) / (1 + 1) / m) (- (1)))) by (rewrite map_length; lia). rewrite map_nth. reflexivity. }
    split.
    - apply (table_ext _ _ _ _ _ T). intros cs _. unfold coll_value. apply lsum_ext. intros d Hd. apply in_seq in Hd.
      unfold single_value. cbn [Z.eqb Pos.eqb]. cbn in *. rewrite Fv by lia.
      assert (nth d mass (- (1)) <> 0). { intros H0. specialize (Nm d ltac:(lia)). rewrite H0 in Nm. apply (Qclt_not_eq 0 0); [exact Nm|reflexivity]. }
      field. split; [assumption|]. intros Ex; vm_compute in Ex; discriminate.
    - intros i x Ex. destruct T as [TL T]. assert (Hi : (0 <= i < points ds)%Z) by (rewrite <- TL; apply rd_ok; eauto).
      destruct (flat_surj ds i Pos Hi) as (cs & Hc & <-). pose proof (eq_trans (eq_sym Ex) (T cs Hc)) as Ex'. clear Ex. injection Ex' as ->.
      rewrite emax_sum by exact P. rewrite <- Hl. unfold coll_value, nsq_emin.
      assert (B : forall d, In d (seq 0 (length ds)) -> 0 <= single_value Qcf ds dk 2 (f_pfac D) d cs /\
         single_value Qcf ds dk 2 (f_pfac D) d cs <= 1 / (nth d mass (- (1)) * dx d * dx d) * (pi * pi / (1 + 1))).
      { intros d Hd. apply in_seq in Hd. assert (Hd' : (d < length ds)%nat) by lia. destruct (Hk d Hd') as [Hx Ek].
        unfold single_value. cbn [Z.eqb Pos.eqb f_pfac D]. rewrite Fv by exact Hd'. unfold kat. rewrite Ek.
        pose proof (box_nth _ _ d Hc Hd') as Bn. pose proof (wavek_bin _ _ Bn) as [_ Bw].
        apply (energy_term pi (dx d) (nth d mass (- (1))) (nth d ds 0%Z) (wavek (nth d ds 0%Z) (nth d cs 0%Z))); auto; lia. }
      split.
      + replace 0 with (@lsum Qcf _ (fun _ : nat => 0) (seq 0 (length ds))) by (apply lsum_zero; reflexivity).
        apply lsum_le. intros d Hd. apply B. exact Hd.
      + apply lsum_le. intros d Hd. apply B. exact Hd.
  Qed.
End Energy.

Section Exponent.
  Variable F : fld.
  Add Field FF4 : (f_th F).
  Lemma exponent_conj (c : Cx F) (fac k : F) : nabla_exponent F c0 c fac k = (c * nabla_symbol F true false fac k)%cr.
  Proof. apply cx_eq; destruct c as [a b]; cbn; ring. Qed.
End Exponent.

Lemma mass_accepted ds dk mass : nsq_table ds dk mass <> Throw -> mass <> [] /\ length ds = length mass /\
  (forall m, In m mass -> m <> 0%Qc) /\ exists m, In m mass /\ (0 < m)%Qc.
Proof.
  unfold nsq_table. intros H. destruct (nsq_factors mass) as [f| |] eqn:E; cbn [bind] in H; [|contradiction|].
  2:{ exfalso. unfold nsq_factors in E. destruct mass; [discriminate|]. destruct (existsb _ _); [discriminate|]. destruct (existsb _ _); discriminate. }
  destruct (length ds =? length mass)%nat eqn:El; cbn [negb] in H; [|contradiction]. apply Nat.eqb_eq in El.
  unfold nsq_factors in E. destruct mass as [|m0 ms]; [discriminate|]. remember (m0 :: ms) as mass eqn:Em.
  destruct (existsb (fun m => if Qc_eq_dec m 0 then true else false) mass) eqn:E1; [discriminate|].
  destruct (existsb (fun m => match (m ?= 0)%Qc with Gt => true | _ => false end) mass) eqn:E2; [|discriminate].
  split; [subst mass; discriminate|]. split; [exact El|]. split.
  - intros m Hm ->. assert (K : existsb (fun m => if Qc_eq_dec m 0 then true else false) mass = true).
    { apply existsb_exists. exists 0%Qc. split; [exact Hm|]. destruct (Qc_eq_dec 0 0); [reflexivity|contradiction]. }
    rewrite K in E1. discriminate.
  - apply existsb_exists in E2. destruct E2 as (m & Hm & Em2). exists m. split; [exact Hm|]. apply Qcgt_alt.
    destruct (m ?= 0)%Qc eqn:Ec; try discriminate. reflexivity.
Qed.
