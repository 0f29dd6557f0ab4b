From Coq Require Import List ZArith Lia Bool Arith Permutation.
From Verif Require Import Base Arrays Model.Grid Spec.Grid.
Import ListNotations.
Open Scope Z_scope.

(** ** Multi-indices *)
Lemma points_app a b : points (a ++ b) = points a * points b.
Proof. induction a as [|x a IH]; cbn [app]; unfold points in *; cbn [fold_right]; [lia|]. rewrite IH. lia. Qed.
Lemma points_cons d ds : points (d :: ds) = d * points ds. Proof. reflexivity. Qed.
Lemma points_pos ds : Forall (fun d => 0 < d) ds -> 0 < points ds.
Proof. induction 1; [reflexivity|]. rewrite points_cons. nia. Qed.

Lemma flat_app lo hi cl ch : length lo = length cl ->
  flat (lo ++ hi) (cl ++ ch) = flat lo cl + points lo * flat hi ch.
Proof.
  revert cl; induction lo as [|d lo IH]; intros [|c cl] H; try discriminate; cbn [app flat].
  - rewrite Z.mul_1_l. reflexivity.
  - injection H as H. rewrite (IH cl H), points_cons. ring.
Qed.
Lemma box_len ds cs : in_box ds cs -> length ds = length cs. Proof. induction 1; cbn; congruence. Qed.
Lemma flat_bound ds cs : in_box ds cs -> 0 <= flat ds cs < points ds.
Proof. induction 1 as [|d c ds cs H _ IH]; [cbn; lia|]. rewrite points_cons. cbn [flat]. nia. Qed.
Lemma flat_inj ds cs cs' : in_box ds cs -> in_box ds cs' -> flat ds cs = flat ds cs' -> cs = cs'.
Proof.
  intros H; revert cs'; induction H as [|d c ds cs H H' IH]; intros cs' H2 E; inversion H2; subst; [reflexivity|].
  cbn [flat] in E. apply flat_bound in H'. pose proof (flat_bound _ _ H5) as B.
  assert (c = y). { assert (c = (c + d * flat ds cs) mod d) by (apply Z.mod_unique with (flat ds cs); lia).
    assert (y = (y + d * flat ds l') mod d) by (apply Z.mod_unique with (flat ds l'); lia). congruence. }
  subst y. f_equal. apply IH; [assumption|]. nia.
Qed.
Lemma flat_surj ds k : Forall (fun d => 0 < d) ds -> 0 <= k < points ds -> exists cs, in_box ds cs /\ flat ds cs = k.
Proof.
  intros H; revert k; induction H as [|d ds Hd _ IH]; intros k Hk.
  - exists []. split; [constructor|]. cbn in *. lia.
  - rewrite points_cons in Hk. destruct (IH (k / d)) as (cs & B & E).
    { split; [apply Z.div_pos; lia|]. apply Z.div_lt_upper_bound; lia. }
    exists (k mod d :: cs). split; [constructor; [apply Z.mod_pos_bound; lia|exact B]|].
    cbn [flat]. rewrite E. pose proof (Z.div_mod k d). lia.
Qed.

Lemma split_nth {A} (l : list A) n d : (n < length l)%nat ->
  l = firstn n l ++ nth n l d :: skipn (S n) l /\ length (firstn n l) = n.
Proof.
  revert n; induction l as [|x l IH]; intros [|n] H; cbn in H; try lia; cbn; [auto|].
  destruct (IH n) as [A1 A2]; [lia|]. split; [f_equal; exact A1|f_equal; exact A2].
Qed.
Lemma in_box_app lo hi cl ch : in_box lo cl -> in_box hi ch -> in_box (lo ++ hi) (cl ++ ch).
Proof. apply Forall2_app. Qed.
Lemma in_box_app_inv lo hi cs : in_box (lo ++ hi) cs ->
  exists cl ch, cs = cl ++ ch /\ in_box lo cl /\ in_box hi ch.
Proof. intros H. apply Forall2_app_inv_l in H. destruct H as (cl & ch & A & B & C). exists cl, ch. auto. Qed.

Lemma insert_app {A} (cl ch : list A) i n : length cl = n -> insert_at n i (cl ++ ch) = cl ++ i :: ch.
Proof.
  intros <-. unfold insert_at. rewrite firstn_app, skipn_app, firstn_all, skipn_all, Nat.sub_diag. cbn.
  rewrite app_nil_r. reflexivity.
Qed.
Lemma remove_app {A} (lo hi : list A) x n : length lo = n -> remove_at n (lo ++ x :: hi) = lo ++ hi.
Proof.
  intros <-. unfold remove_at. rewrite firstn_app, skipn_app, firstn_all, Nat.sub_diag.
  rewrite skipn_all2 by lia. replace (S (length lo) - length lo)%nat with 1%nat by lia. cbn. rewrite app_nil_r. reflexivity.
Qed.

(** decomposition of a grid at a dimension *)
Record at_dim (ds : list Z) (dim : nat) (lo hi : list Z) (n : Z) : Prop := {
  ad_eq : ds = lo ++ n :: hi; ad_len : length lo = dim }.
Lemma at_dim_ex ds dim : (dim < length ds)%nat -> exists lo hi, at_dim ds dim lo hi (size_of ds dim).
Proof.
  intros H. destruct (split_nth ds dim 0 H) as [A B]. exists (firstn dim ds), (skipn (S dim) ds). constructor; assumption.
Qed.
Lemma at_dim_remove ds dim lo hi n : at_dim ds dim lo hi n -> remove_at dim ds = lo ++ hi.
Proof. intros [-> E]. apply remove_app. exact E. Qed.

(** a multi-index of the whole grid is one of the others plus the coordinate along the dimension *)
Lemma box_insert ds dim lo hi n cs i : at_dim ds dim lo hi n -> in_box (remove_at dim ds) cs -> 0 <= i < n ->
  in_box ds (insert_at dim i cs) /\ flat ds (insert_at dim i cs) = flat ds (insert_at dim 0 cs) + i * points lo /\
  nth dim (insert_at dim i cs) 0 = i /\ remove_at dim (insert_at dim i cs) = cs.
Proof.
  intros AD B Hi. rewrite (at_dim_remove _ _ _ _ _ AD) in B. destruct AD as [-> L].
  apply in_box_app_inv in B. destruct B as (cl & ch & -> & B1 & B2). pose proof (box_len _ _ B1) as L1.
  rewrite !insert_app by congruence. split; [|split; [|split]].
  - apply in_box_app; [assumption|]. constructor; assumption.
  - rewrite !flat_app by assumption. cbn [flat]. ring.
  - rewrite app_nth2 by lia. replace (dim - length cl)%nat with 0%nat by lia. reflexivity.
  - rewrite remove_app by congruence. reflexivity.
Qed.
Lemma box_remove ds dim lo hi n cs : at_dim ds dim lo hi n -> in_box ds cs ->
  in_box (remove_at dim ds) (remove_at dim cs) /\ 0 <= nth dim cs 0 < n /\ insert_at dim (nth dim cs 0) (remove_at dim cs) = cs.
Proof.
  intros AD B. rewrite (at_dim_remove _ _ _ _ _ AD). destruct AD as [-> L].
  apply in_box_app_inv in B. destruct B as (cl & ch & -> & B1 & B2). pose proof (box_len _ _ B1) as L1.
  inversion B2; subst. rewrite remove_app by congruence. rewrite insert_app by congruence.
  rewrite app_nth2 by lia. replace (length lo - length cl)%nat with 0%nat by lia. cbn [nth].
  split; [apply in_box_app; assumption|]. split; [assumption|reflexivity].
Qed.

(** ** Products computed by loops *)
Lemma fold_mul_seq ds a s n : (s + n <= length ds)%nat ->
  fold_left (fun a i => a * size_of ds i) (seq s n) a = a * points (firstn n (skipn s ds)).
Proof.
  revert a s; induction n as [|n IH]; intros a s H; cbn [seq fold_left].
  - cbn. lia.
  - rewrite IH by lia. destruct (split_nth ds s 0) as [E L]; [lia|].
    assert (K : skipn s ds = size_of ds s :: skipn (S s) ds).
    { rewrite E at 1. rewrite skipn_app, L, Nat.sub_diag, skipn_all2 by lia. reflexivity. }
    rewrite K. cbn [firstn]. rewrite points_cons. ring.
Qed.
Lemma low_others_spec ds dim lo hi n : at_dim ds dim lo hi n -> low_others ds dim = points lo.
Proof.
  intros [-> L]. unfold low_others. rewrite fold_mul_seq by (rewrite app_length; lia).
  rewrite Z.mul_1_l. cbn [skipn]. rewrite <- L, firstn_app, firstn_all, Nat.sub_diag. cbn. rewrite app_nil_r. reflexivity.
Qed.
Lemma fold_skip ds dim l a : ~ In dim l ->
  fold_left (fun a i => if (i =? dim)%nat then a else a * size_of ds i) l a = fold_left (fun a i => a * size_of ds i) l a.
Proof.
  revert a; induction l as [|x l IH]; intros a H; [reflexivity|]. cbn. destruct (Nat.eqb_spec x dim) as [->|].
  - exfalso; apply H; left; reflexivity.
  - apply IH. intros H2; apply H; right; exact H2.
Qed.
Lemma num_others_spec ds dim lo hi n : at_dim ds dim lo hi n -> num_others ds dim = points (lo ++ hi).
Proof.
  intros [-> L]. unfold num_others. rewrite app_length. cbn [length].
  replace (length lo + S (length hi))%nat with (dim + (1 + length hi))%nat by lia. rewrite seq_app, fold_left_app.
  rewrite (fold_skip _ dim (seq 0 dim)) by (rewrite in_seq; lia). cbn [seq Nat.add fold_left]. rewrite Nat.eqb_refl.
  rewrite fold_skip by (rewrite in_seq; lia). rewrite fold_mul_seq by (rewrite app_length; cbn; lia).
  rewrite fold_mul_seq by (rewrite app_length; cbn; lia). rewrite points_app. rewrite skipn_O.
  rewrite <- L, firstn_app, firstn_all, Nat.sub_diag. cbn [firstn]. rewrite app_nil_r.
  rewrite skipn_app, skipn_all2 by lia. replace (S (length lo) - length lo)%nat with 1%nat by lia. cbn [skipn app].
  rewrite firstn_all. ring.
Qed.
Lemma grid_size_spec ds : ds <> [] -> grid_size ds = points ds.
Proof.
  intros H. unfold grid_size. destruct ds as [|d ds]; [contradiction|]. rewrite fold_mul_seq by lia. cbn [skipn].
  rewrite firstn_all. lia.
Qed.

(** ** C15 *)
Definition ready (g0 G : grid) (acts : list nat) (dim : nat) : grid :=
  active_dim (fold_left active_dim acts (assign g0 G)) dim.

Lemma acts_keep acts g : g_sizes (fold_left active_dim acts g) = g_sizes g /\
  g_lo (fold_left active_dim acts g) = g_lo g /\ g_no (fold_left active_dim acts g) = g_no g.
Proof.
  revert g; induction acts as [|d t IH]; intros g; [auto|]. cbn. destruct (IH (active_dim g d)) as (A & B & C).
  rewrite A, B, C. auto.
Qed.
Lemma ready_info g0 G acts dim : (dim < length (g_sizes G))%nat ->
  g_sizes (ready g0 G acts dim) = g_sizes G /\
  LowOthers (ready g0 G acts dim) = Ok (low_others (g_sizes G) dim) /\
  NumOthers (ready g0 G acts dim) = Ok (num_others (g_sizes G) dim) /\
  g_numactive (ready g0 G acts dim) = size_of (g_sizes G) dim.
Proof.
  intros H. unfold ready, LowOthers, NumOthers. cbn [g_active active_dim get_opt bind g_sizes g_lo g_no g_numactive].
  destruct (acts_keep acts (assign g0 G)) as (A & B & C). rewrite A, B, C. cbn [assign build_info g_sizes g_lo g_no].
  apply Nat.ltb_lt in H. rewrite H. auto.
Qed.

Lemma index_flat (g0 G : grid) acts dim cs i :
  (dim < length (g_sizes G))%nat -> in_box (remove_at dim (g_sizes G)) cs -> 0 <= i < size_of (g_sizes G) dim ->
  let g := ready g0 G acts dim in let r := flat (remove_at dim (g_sizes G)) cs in
  Index g i r = Ok (flat (g_sizes G) (insert_at dim i cs)) /\
  IndexBase g r = Ok (flat (g_sizes G) (insert_at dim 0 cs)) /\
  exists lo, LowOthers g = Ok lo /\ flat (g_sizes G) (insert_at dim i cs) = flat (g_sizes G) (insert_at dim 0 cs) + i * lo.
Proof.
  intros Hd B Hi g r. destruct (ready_info g0 G acts dim Hd) as (S1 & S2 & S3 & S4). fold g in S1, S2, S3, S4.
  destruct (at_dim_ex _ _ Hd) as (lo & hi & AD). destruct (box_insert _ _ _ _ _ cs i AD B Hi) as (_ & F & _).
  unfold Index, IndexBase. rewrite S2, S4. cbn [bind]. rewrite (low_others_spec _ _ _ _ _ AD).
  assert (R : r = flat (remove_at dim (g_sizes G)) cs) by reflexivity. clearbody r.
  rewrite (at_dim_remove _ _ _ _ _ AD) in B, R. apply in_box_app_inv in B. destruct B as (cl & ch & -> & B1 & B2).
  pose proof (box_len _ _ B1) as L1. rewrite flat_app in R by assumption. pose proof (flat_bound _ _ B1) as F1.
  pose proof (flat_bound _ _ B2) as F2.
  assert (NZ : points lo <> 0) by lia. destruct (points lo =? 0) eqn:E0; [apply Z.eqb_eq in E0; lia|].
  assert (Q : Z.quot r (points lo) = flat hi ch).
  { symmetry. apply Z.quot_unique with (flat lo cl); [lia| |lia]. nia. }
  assert (Rm : Z.rem r (points lo) = flat lo cl).
  { symmetry. apply Z.rem_unique with (flat hi ch); [lia| |lia]. nia. }
  rewrite Q, Rm. assert (F0 : flat (g_sizes G) (insert_at dim 0 (cl ++ ch)) = flat hi ch * size_of (g_sizes G) dim * points lo + flat lo cl).
  { rewrite insert_app by (rewrite <- L1; apply AD). rewrite (ad_eq _ _ _ _ _ AD) at 1. rewrite flat_app by assumption.
    cbn [flat]. ring. }
  split; [|split].
  - f_equal. rewrite F, F0. reflexivity.
  - f_equal. rewrite F0. reflexivity.
  - exists (points lo). split; [reflexivity|]. exact F.
Qed.

(** every element of the vector is addressed exactly once *)
Lemma index_bijection (g0 G : grid) acts dim :
  Forall (fun d => 0 < d) (g_sizes G) -> (dim < length (g_sizes G))%nat ->
  let g := ready g0 G acts dim in
  exists no, NumOthers g = Ok no /\ no * size_of (g_sizes G) dim = grid_size (g_sizes G) /\
  (forall i r, 0 <= i < size_of (g_sizes G) dim -> 0 <= r < no ->
     exists k, Index g i r = Ok k /\ 0 <= k < grid_size (g_sizes G)) /\
  (forall k, 0 <= k < grid_size (g_sizes G) ->
     exists i r, 0 <= i < size_of (g_sizes G) dim /\ 0 <= r < no /\ Index g i r = Ok k /\
     forall i' r', 0 <= i' < size_of (g_sizes G) dim -> 0 <= r' < no -> Index g i' r' = Ok k -> i' = i /\ r' = r).
Proof.
  intros Pos Hd g. destruct (ready_info g0 G acts dim Hd) as (S1 & S2 & S3 & S4). fold g in S1, S2, S3, S4.
  destruct (at_dim_ex _ _ Hd) as (lo & hi & AD). set (ds := g_sizes G) in *.
  assert (NE : ds <> []) by (intros E; rewrite E in Hd; cbn in Hd; lia).
  rewrite (grid_size_spec ds NE). rewrite (num_others_spec _ _ _ _ _ AD) in S3. exists (points (lo ++ hi)).
  split; [exact S3|].
  assert (PR : Forall (fun d => 0 < d) (remove_at dim ds)).
  { rewrite (at_dim_remove _ _ _ _ _ AD). rewrite (ad_eq _ _ _ _ _ AD) in Pos. apply Forall_app in Pos.
    destruct Pos as [P1 P2]. inversion P2; subst. apply Forall_app; auto. }
  rewrite <- (at_dim_remove _ _ _ _ _ AD).
  assert (Hf : forall i r, 0 <= i < size_of ds dim -> 0 <= r < points (remove_at dim ds) -> exists cs,
     in_box (remove_at dim ds) cs /\ flat (remove_at dim ds) cs = r /\ Index g i r = Ok (flat ds (insert_at dim i cs))).
  { intros i r Hi Hr. destruct (flat_surj _ r PR Hr) as (cs & B & E). exists cs. split; [exact B|]. split; [exact E|].
    rewrite <- E. apply (index_flat g0 G acts dim cs i Hd B Hi). }
  split; [|split].
  - rewrite (at_dim_remove _ _ _ _ _ AD). transitivity (points (lo ++ size_of ds dim :: hi)).
    + rewrite !points_app, points_cons. ring.
    + f_equal. symmetry. apply AD.
  - intros i r Hi Hr. destruct (Hf i r Hi Hr) as (cs & B & E & I). exists (flat ds (insert_at dim i cs)).
    split; [exact I|]. apply flat_bound. apply (box_insert _ _ _ _ _ cs i AD B Hi).
  - intros k Hk. destruct (flat_surj ds k Pos Hk) as (cs & B & E).
    destruct (box_remove _ _ _ _ _ cs AD B) as (B1 & B2 & B3).
    exists (nth dim cs 0), (flat (remove_at dim ds) (remove_at dim cs)). split; [exact B2|].
    split; [apply flat_bound; exact B1|]. split.
    + destruct (index_flat g0 G acts dim (remove_at dim cs) (nth dim cs 0) Hd B1 B2) as (I & _).
      fold g ds in I. rewrite I, B3, E. reflexivity.
    + intros i' r' Hi' Hr' I'. destruct (Hf i' r' Hi' Hr') as (cs' & B' & E' & I''). rewrite I'' in I'.
      injection I' as I'. destruct (box_insert _ _ _ _ _ cs' i' AD B' Hi') as (C1 & _ & C3 & C4).
      assert (insert_at dim i' cs' = cs) by (apply (flat_inj ds); [assumption|assumption|congruence]).
      rewrite <- H, C3, C4. auto.
Qed.

(** ** C16 *)
Lemma view_table_spec ds dim lo hi n t : at_dim ds dim lo hi n -> n = size_of ds dim -> Forall (fun d => 0 < d) ds ->
  view_table ds dim = Ok t ->
  forall i cs, 0 <= i < n -> in_box (remove_at dim ds) cs ->
  exists row, rd t i = Ok row /\ zlen row = num_others ds dim /\
    rd row (flat (remove_at dim ds) cs) = Ok (flat ds (insert_at dim i cs)).
Proof.
  intros AD En Pos Ht i cs Hi B. unfold view_table in Ht. rewrite (low_others_spec _ _ _ _ _ AD), <- En in Ht.
  destruct (_ && _) in Ht; [discriminate|]. injection Ht as <-.
  pose proof (flat_bound _ _ B) as FB. rewrite (num_others_spec _ _ _ _ _ AD).
  pose proof (at_dim_remove _ _ _ _ _ AD) as RM. rewrite RM in FB.
  eexists. split; [|split].
  - rewrite rd_map, rd_upto by lia. cbn [bind]. reflexivity.
  - rewrite zlen_map. unfold zlen. rewrite upto_length. pose proof (points_pos (lo ++ hi)).
    assert (Forall (fun d => 0 < d) (lo ++ hi)).
    { rewrite (ad_eq _ _ _ _ _ AD) in Pos. apply Forall_app in Pos. destruct Pos as [P1 P2]. inversion P2; subst. apply Forall_app; auto. }
    specialize (H H0). lia.
  - rewrite RM in *. rewrite rd_map, rd_upto by lia. cbn [bind]. f_equal.
    destruct (in_box_app_inv _ _ _ B) as (cl & ch & -> & B1 & B2). pose proof (box_len _ _ B1) as L1.
    pose proof (flat_bound _ _ B1) as F1. pose proof (flat_bound _ _ B2) as F2.
    rewrite insert_app by (rewrite <- L1; apply AD). rewrite (ad_eq _ _ _ _ _ AD). rewrite !flat_app by assumption.
    cbn [flat]. rewrite !Z.add_0_l. set (r := flat lo cl + points lo * flat hi ch).
    assert (Q : Z.quot r (points lo) = flat hi ch).
    { symmetry. apply Z.quot_unique with (flat lo cl); unfold r; nia. }
    assert (Rm : Z.rem r (points lo) = flat lo cl).
    { symmetry. apply Z.rem_unique with (flat hi ch); unfold r; nia. }
    rewrite Q, Rm. ring.
Qed.

Lemma remove_pos ds dim : Forall (fun d => 0 < d) ds -> Forall (fun d => 0 < d) (remove_at dim ds).
Proof.
  intros H. unfold remove_at. rewrite Forall_forall in *. intros x Hx. apply H. apply in_app_iff in Hx.
  destruct Hx as [Hx|Hx]; [rewrite <- (firstn_skipn dim ds); apply in_app_iff; left; exact Hx|].
  rewrite <- (firstn_skipn (S dim) ds). apply in_app_iff. right. exact Hx.
Qed.
Lemma nth_pos ds dim : Forall (fun d => 0 < d) ds -> (dim < length ds)%nat -> 0 < size_of ds dim.
Proof. intros H Hd. rewrite Forall_forall in H. apply H. apply nth_In. exact Hd. Qed.

Section ViewProofs.
  Context {T : Type}.
  Record vinv (ds : list Z) (seen : list nat) (a : option nat) (v : vview T) : Prop := {
    vi_dims : v_dims v = ds;
    vi_len : zlen (v_data v) = points ds;
    vi_tab : forall d t, v_view v d = Some t -> view_table ds d = Ok t /\ In d seen;
    vi_seen : forall d, In d seen -> v_view v d <> None;
    vi_act : forall d, a = Some d -> v_adim v = d /\ In d seen /\ (d < length ds)%nat /\
                       v_nothers v = Some (points (remove_at d ds)) }.

  Lemma view_op_ok ds seen d (v : vview T) f vec : Forall (fun d => 0 < d) ds -> vinv ds seen (Some d) v ->
    zlen vec = nth d ds 0 ->
    exists v', view_op f v vec = Ok v' /\ vinv ds seen (Some d) v' /\ axis_result f ds d vec (v_data v) (v_data v').
  Proof.
    intros Pos [Id Il It Is Ia] Lv. destruct (Ia d eq_refl) as (A1 & A2 & A3 & A4).
    destruct (v_view v d) as [t|] eqn:Et; [|exfalso; exact (Is d A2 Et)]. destruct (It d t Et) as [Ht _].
    destruct (at_dim_ex _ _ A3) as (lo & hi & AD). pose proof (view_table_spec _ _ _ _ _ t AD eq_refl Pos Ht) as TS.
    pose proof (remove_pos ds d Pos) as PR. pose proof (nth_pos ds d Pos A3) as Pn.
    set (no := points (remove_at d ds)) in *. set (n := size_of ds d) in *.
    set (addr := fun p : Z * Z => match rd t (fst p) with Ok row => match rd row (snd p) with Ok x => x | _ => 0 end | _ => 0 end).
    set (g := fun (p : Z * Z) (a : T) => match rd vec (fst p) with Ok y => f a y | _ => a end).
    assert (AddrS : forall i j, 0 <= i < n -> 0 <= j < no -> exists cs, in_box (remove_at d ds) cs /\
        flat (remove_at d ds) cs = j /\ addr (i, j) = flat ds (insert_at d i cs)).
    { intros i j Hi Hj. destruct (flat_surj _ j PR Hj) as (cs & B & E). exists cs. split; [exact B|]. split; [exact E|].
      destruct (TS i cs Hi B) as (row & R1 & R2 & R3). unfold addr. cbn [fst snd]. rewrite R1, <- E, R3. reflexivity. }
    assert (AddrI : forall i j, 0 <= i < n -> 0 <= j < no -> 
        exists row, rd t i = Ok row /\ rd row j = Ok (addr (i, j))).
    { intros i j Hi Hj. destruct (flat_surj _ j PR Hj) as (cs & B & E). 
      destruct (TS i cs Hi B) as (row & R1 & R2 & R3). exists row. split; [exact R1|].
      unfold addr. cbn [fst snd]. rewrite R1, <- E, R3. reflexivity. }
    assert (InP : forall p, In p (pairs (upto 0 n) (upto 0 no)) -> 0 <= fst p < n /\ 0 <= snd p < no).
    { intros [i j] Hp. apply in_pairs in Hp. rewrite !in_upto in Hp. exact Hp. }
    destruct (foldM_update addr g (pairs (upto 0 n) (upto 0 no)) (v_data v)) as (data' & E & L & U1 & U2).
    { apply nodup_map_in; [|apply nodup_pairs; apply upto_nodup].
      intros [i j] [i' j'] H1 H2 HE. apply InP in H1, H2. cbn in H1, H2.
      destruct (AddrS i j) as (cs & B & E1 & E2); try tauto. destruct (AddrS i' j') as (cs' & B' & E1' & E2'); try tauto.
      rewrite E2, E2' in HE. destruct (box_insert _ _ _ _ _ cs i AD B) as (C1 & _ & C3 & C4); [tauto|].
      destruct (box_insert _ _ _ _ _ cs' i' AD B') as (C1' & _ & C3' & C4'); [tauto|].
      apply (flat_inj ds) in HE; [|assumption|assumption]. rewrite HE in C3, C4. congruence. }
    { intros [i j] Hp. apply InP in Hp. cbn in Hp. destruct (AddrS i j) as (cs & B & E1 & E2); try tauto.
      rewrite E2, Il. apply flat_bound. apply (box_insert _ _ _ _ _ cs i AD B). tauto. }
    exists (mkView data' (v_dims v) (v_view v) (v_adim v) (v_nothers v)). split; [|split].
    - unfold view_op. rewrite A1, Et, A4. cbn [get_opt bind]. rewrite Id. fold n.
      rewrite (foldM_nested (fun data i j => let* row := rd t i in let* a := rd row j in let* x := rd data a in
          let* y := rd vec i in wr data a (f x y)) (upto 0 n) (fun _ => upto 0 no)).
      fold (pairs (upto 0 n) (upto 0 no)).
      rewrite (foldM_ext _ (fun v x => let* a := rd v (addr x) in wr v (addr x) (g x a))).
      + rewrite E. cbn [bind]. reflexivity.
      + intros [i j] s Hp. apply InP in Hp. cbn [fst snd] in *. destruct (AddrI i j) as (row & R1 & R2); try tauto.
        rewrite R1. cbn [bind]. rewrite R2. cbn [bind]. destruct (rd s (addr (i, j))); cbn [bind]; try reflexivity.
        unfold g. cbn [fst]. destruct (proj1 (rd_ok vec i)) as [y Ey]; [rewrite Lv; apply Hp|]. rewrite Ey. reflexivity.
    - constructor; cbn; auto. rewrite L. exact Il.
    - cbn. split; [exact L|]. intros cs x y B Ex Ey. destruct (box_remove _ _ _ _ _ cs AD B) as (B1 & B2 & B3).
      pose proof (flat_bound _ _ B1) as FB. set (i := nth d cs 0) in *. set (j := flat (remove_at d ds) (remove_at d cs)) in *.
      assert (EA : addr (i, j) = flat ds cs).
      { destruct (TS i (remove_at d cs) B2 B1) as (row & R1 & R2 & R3). unfold addr. cbn [fst snd]. rewrite R1.
        fold j in R3. rewrite R3, B3. reflexivity. }
      rewrite <- EA in Ex |- *. rewrite (U1 (i, j) x); [|apply in_pairs; rewrite !in_upto; split; assumption|exact Ex].
      unfold g. cbn [fst]. fold i. rewrite Ey. reflexivity.
  Qed.

  Lemma view_act_ok ds seen a d (v : vview T) : Forall (fun d => 0 < d) ds -> (d < length ds)%nat -> vinv ds seen a v ->
    (forall e, In e seen -> exists p, a = Some p) ->
    (In d seen -> forall p, a = Some p -> points (remove_at d ds) = points (remove_at p ds)) ->
    exists v', view_active v d = Ok v' /\ vinv ds (d :: seen) (Some d) v' /\ v_data v' = v_data v.
  Proof.
    intros Pos Hd [Id Il It Is Ia] SA St. unfold view_active. destruct (v_view v d) as [t|] eqn:Et.
    - eexists. split; [reflexivity|]. split; [|reflexivity]. destruct (It d t Et) as [_ Hs]. destruct (SA d Hs) as [p ->].
      destruct (Ia p eq_refl) as (A1 & A2 & A3 & A4). constructor; cbn; auto.
      + intros e t' He. destruct (It e t' He). auto.
      + intros e [<-|He]; [congruence|auto].
      + intros e [= <-]. repeat split; auto. rewrite A4. f_equal. symmetry. apply (St Hs p eq_refl).
    - destruct (at_dim_ex _ _ Hd) as (lo & hi & AD). rewrite Id.
      assert (Ht : exists t, view_table ds d = Ok t).
      { unfold view_table. rewrite (low_others_spec _ _ _ _ _ AD). assert (0 < points lo).
        { apply points_pos. rewrite (ad_eq _ _ _ _ _ AD) in Pos. apply Forall_app in Pos. tauto. }
        destruct (points lo =? 0) eqn:E; [apply Z.eqb_eq in E; lia|]. cbn [andb]. eauto. }
      destruct Ht as [t Ht]. rewrite Ht. cbn [bind]. eexists. split; [reflexivity|]. split; [|reflexivity].
      constructor; cbn; auto.
      + intros e t' He. destruct (Nat.eqb_spec e d) as [->|]; [injection He as <-; auto|]. destruct (It e t' He); auto.
      + intros e He. destruct (Nat.eqb_spec e d); [discriminate|]. destruct He as [?|He]; [congruence|auto].
      + intros e [= <-]. repeat split; auto. rewrite (num_others_spec _ _ _ _ _ AD), (at_dim_remove _ _ _ _ _ AD). reflexivity.
  Qed.

  Lemma vrun_spec ds : Forall (fun d => 0 < d) ds -> forall h seen a (v : vview T), vinv ds seen a v ->
    (forall e, In e seen -> exists p, a = Some p) -> legal ds a h -> steady ds seen a h ->
    exists v', vrun v h = Ok v' /\ vspec ds a (v_data v) h (v_data v').
  Proof.
    intros Pos h; induction h as [|[d|f vec] t IH]; intros seen a v I SA Lg St.
    - exists v. split; [reflexivity|constructor].
    - destruct Lg as [L1 L2]. destruct St as [S1 S2].
      destruct (view_act_ok ds seen a d v Pos L1 I SA S1) as (v1 & E1 & I1 & D1).
      destruct (IH (d :: seen) (Some d) v1 I1) as (v2 & E2 & V2); eauto.
      exists v2. cbn. rewrite E1. split; [exact E2|]. constructor. rewrite <- D1. exact V2.
    - destruct Lg as [L1 L2]. destruct a as [d|]; [|contradiction]. cbn in St.
      destruct (view_op_ok ds seen d v f vec Pos I L1) as (v1 & E1 & I1 & D1).
      destruct (IH seen (Some d) v1 I1) as (v2 & E2 & V2); eauto.
      exists v2. cbn. rewrite E1. split; [exact E2|]. econstructor; eassumption.
  Qed.

  Lemma new_vinv ds (data : list T) : zlen data = points ds -> vinv ds [] None (new_view data ds).
  Proof. intros H. constructor; cbn; auto; try discriminate. Qed.

  Lemma view_spec ds (data : list T) h : Forall (fun d => 0 < d) ds -> zlen data = points ds ->
    legal ds None h -> steady ds [] None h ->
    exists v', vrun (new_view data ds) h = Ok v' /\ vspec ds None data h (v_data v').
  Proof.
    intros P L Lg St. destruct (vrun_spec ds P h [] None (new_view data ds) (new_vinv ds data L)) as (v' & A & B); auto.
    - intros e [].
    - exists v'. auto.
  Qed.

  (** sufficient conditions *)
  Lemma steady_once ds : forall (h : list (vop T)) seen a, (forall d, In d seen -> ~ In d (acts h)) -> NoDup (acts h) -> steady ds seen a h.
  Proof.
    induction h as [|[d|f vec] t IH]; intros seen a D N; cbn in *; [exact I| |].
    - inversion N; subst. split.
      + intros Hd. exfalso. apply (D d Hd). left; reflexivity.
      + apply IH; [|assumption]. intros e [<-|He]; [assumption|]. intros H. apply (D e He). right; exact H.
    - apply IH; assumption.
  Qed.
  Lemma steady_cube ds n : (forall d, (d < length ds)%nat -> points (remove_at d ds) = n) ->
    forall (h : list (vop T)) seen a, (forall p, a = Some p -> (p < length ds)%nat) -> legal ds a h -> steady ds seen a h.
  Proof.
    intros C h; induction h as [|[d|f vec] t IH]; intros seen a Ha Lg; cbn in *; [exact I| |].
    - destruct Lg as [L1 L2]. split.
      + intros _ p Ep. rewrite (C d L1), (C p (Ha p Ep)). reflexivity.
      + apply IH; [|assumption]. intros p [= <-]. exact L1.
    - destruct Lg. apply IH; assumption.
  Qed.
End ViewProofs.

(** ** C17 *)
(** all multi-indices of a box *)
Fixpoint boxes (ds : list Z) : list (list Z) :=
  match ds with [] => [[]] | d :: t => flat_map (fun k => map (cons k) (boxes t)) (upto 0 d) end.
Lemma in_boxes ds cs : In cs (boxes ds) <-> in_box ds cs.
Proof.
  revert cs; induction ds as [|d t IH]; intros cs; cbn.
  - split; [intros [<-|[]]; constructor|]. intros H; inversion H; auto.
  - rewrite in_flat_map. split.
    + intros (k & Hk & H). apply in_map_iff in H. destruct H as (c & <- & H). constructor; [apply in_upto; exact Hk|apply IH; exact H].
    + intros H; inversion H; subst. exists y. split; [apply in_upto; assumption|]. apply in_map. apply IH. assumption.
Qed.
Lemma boxes_nodup ds : NoDup (boxes ds).
Proof.
  induction ds as [|d t IH]; cbn; [repeat constructor; cbn; tauto|]. apply nodup_flat_map; [apply upto_nodup| |].
  - intros x _. apply nodup_map_in; [|exact IH]. intros a b _ _ [= ->]. reflexivity.
  - intros x y z _ _ Hx Hy. apply in_map_iff in Hx, Hy. destruct Hx as (a & <- & _), Hy as (b & E & _). congruence.
Qed.
Fixpoint dot (ss cs : list Z) : Z := match ss, cs with s :: ss', c :: cs' => c * s + dot ss' cs' | _, _ => 0 end.
Lemma map_flat_map {A B C} (f : B -> C) (g : A -> list B) l : map f (flat_map g l) = flat_map (fun x => map f (g x)) l.
Proof. induction l as [|a l IH]; cbn; [reflexivity|]. rewrite map_app, IH. reflexivity. Qed.
Lemma loop_offsets_boxes ls : loop_offsets ls = map (dot (map io_s ls)) (boxes (map io_n ls)).
Proof.
  induction ls as [|l t IH]; cbn; [reflexivity|]. rewrite map_flat_map. apply flat_map_ext. intros k.
  rewrite IH, !map_map. apply map_ext. intros c. reflexivity.
Qed.
Lemma dot_app a b c d : length a = length c -> dot (a ++ b) (c ++ d) = dot a c + dot b d.
Proof.
  revert c; induction a as [|x a IH]; intros [|y c] H; try discriminate; [reflexivity|]. cbn [app dot].
  injection H as H. rewrite IH by exact H. lia.
Qed.
Lemma dot_rev a c : length a = length c -> dot (rev a) (rev c) = dot a c.
Proof.
  revert c; induction a as [|x a IH]; intros [|y c] H; try discriminate; [reflexivity|]. injection H as H. cbn [rev dot].
  rewrite dot_app by (rewrite !rev_length; exact H). rewrite IH by exact H. cbn. lia.
Qed.
Lemma in_box_rev ds cs : in_box ds cs <-> in_box (rev ds) (rev cs).
Proof.
  assert (F : forall ds cs, in_box ds cs -> in_box (rev ds) (rev cs)).
  { induction 1; cbn; [constructor|]. apply in_box_app; [assumption|]. constructor; [assumption|constructor]. }
  split; [apply F|]. intros H. apply F in H. rewrite !rev_involutive in H. exact H.
Qed.
(** strides of consecutive dimensions *)
Fixpoint strides (p : Z) (ds : list Z) : list Z := match ds with [] => [] | d :: t => p :: strides (p * d) t end.
Lemma strides_len p ds : length (strides p ds) = length ds.
Proof. revert p; induction ds; intros p; cbn; auto. Qed.
Lemma strides_dot p ds cs : in_box ds cs -> dot (strides p ds) cs = p * flat ds cs.
Proof.
  intros H; revert p; induction H as [|d c ds cs _ _ IH]; intros p; cbn; [lia|]. rewrite IH. ring.
Qed.
Lemma fft_low ds dim : (dim <= length ds)%nat -> fft_lothers ds dim = points (firstn dim ds).
Proof. intros H. unfold fft_lothers. rewrite fold_mul_seq by lia. rewrite skipn_O. lia. Qed.

Lemma strides_map ds s n p : (s + n <= length ds)%nat -> p = points (firstn s ds) ->
  map (fft_lothers ds) (seq s n) = strides p (firstn n (skipn s ds)).
Proof.
  revert s p; induction n as [|n IH]; intros s p H ->; [reflexivity|]. cbn [seq map].
  destruct (split_nth ds s 0) as [E L]; [lia|].
  assert (K : skipn s ds = nth s ds 0 :: skipn (S s) ds).
  { rewrite E at 1. rewrite skipn_app, L, Nat.sub_diag, skipn_all2 by lia. reflexivity. }
  rewrite K. cbn [firstn strides]. rewrite fft_low by lia. f_equal. apply IH; [lia|].
  assert (E2 : firstn (S s) ds = firstn s ds ++ [nth s ds 0]).
  { rewrite E at 1. rewrite firstn_app, L. replace (S s - s)%nat with 1%nat by lia.
    rewrite (firstn_all2 (firstn s ds)) by lia. reflexivity. }
  rewrite E2, points_app. cbn. lia.
Qed.
Lemma sizes_map ds s n : (s + n <= length ds)%nat -> map (size_of ds) (seq s n) = firstn n (skipn s ds).
Proof.
  revert s; induction n as [|n IH]; intros s H; [reflexivity|]. cbn [seq map].
  destruct (split_nth ds s 0) as [E L]; [lia|].
  assert (K : skipn s ds = nth s ds 0 :: skipn (S s) ds).
  { rewrite E at 1. rewrite skipn_app, L, Nat.sub_diag, skipn_all2 by lia. reflexivity. }
  rewrite K. cbn [firstn]. f_equal. apply IH. lia.
Qed.

Definition others (dim m : nat) : list nat := seq 0 dim ++ seq (S dim) (m - dim - 1).
Lemma filter_seq_others dim m : (dim < m)%nat -> filter (fun i => negb (i =? dim)%nat) (seq 0 m) = others dim m.
Proof.
  intros H. unfold others. replace m with (dim + S (m - dim - 1))%nat at 1 by lia. rewrite seq_app, filter_app.
  assert (K : forall s n, ~ In dim (seq s n) -> filter (fun i => negb (i =? dim)%nat) (seq s n) = seq s n).
  { intros s n; revert s; induction n as [|n IH]; intros s Hn; [reflexivity|]. cbn. cbn in Hn.
    destruct (Nat.eqb_spec s dim); [tauto|]. cbn. f_equal. apply IH. tauto. }
  rewrite K by (rewrite in_seq; lia). f_equal. cbn [seq Nat.add filter]. rewrite Nat.eqb_refl. cbn [negb].
  apply K. rewrite in_seq. lia.
Qed.
Lemma rev_seq_map n : map (fun i => (n - 1 - i)%nat) (seq 0 n) = rev (seq 0 n).
Proof.
  induction n as [|n IH]; [reflexivity|]. rewrite seq_S at 2. rewrite rev_app_distr. cbn [rev app Nat.add].
  rewrite <- IH. cbn [seq map]. f_equal; [lia|]. rewrite <- seq_shift, map_map. apply map_ext. intros a. lia.
Qed.

Lemma plan_loops_rev ds dim : (dim < length ds)%nat ->
  plan_loops ds dim = rev (map (fun d => mkIO (size_of ds d) (fft_lothers ds d)) (others dim (length ds))).
Proof.
  intros H. rewrite <- (filter_seq_others dim (length ds) H). rewrite <- map_rev.
  set (m := length ds) in *. unfold plan_loops. fold m.
  assert (E : map (fun i => (m - 1 - i)%nat) (filter (fun i => negb (i =? m - dim - 1)%nat) (seq 0 m)) =
              rev (filter (fun i => negb (i =? dim)%nat) (seq 0 m))).
  { assert (FR : forall (p : nat -> bool) l, filter p (rev l) = rev (filter p l)).
    { intros p l. induction l as [|a l IH]; [reflexivity|]. cbn. rewrite filter_app, IH. cbn. destruct (p a); cbn; [reflexivity|].
      rewrite app_nil_r. reflexivity. }
    rewrite <- FR, <- rev_seq_map.
    assert (FM : forall l, (forall i, In i l -> (i < m)%nat) ->
       filter (fun i => negb (i =? dim)%nat) (map (fun i => (m - 1 - i)%nat) l) =
       map (fun i => (m - 1 - i)%nat) (filter (fun i => negb (i =? m - dim - 1)%nat) l)).
    { induction l as [|a l IH]; intros Hl; [reflexivity|]. cbn.
      rewrite IH by (intros i Hi; apply Hl; right; exact Hi). specialize (Hl a (or_introl eq_refl)).
      destruct (Nat.eqb_spec (m - 1 - a) dim), (Nat.eqb_spec a (m - dim - 1)); try lia; reflexivity. }
    symmetry. apply FM. intros i Hi. apply in_seq in Hi. lia. }
  rewrite <- E, map_map. apply map_ext_in. intros i Hi. apply filter_In in Hi. destruct Hi as [Hi _]. apply in_seq in Hi.
  unfold rdims, size_of, fft_uothers. fold m. rewrite rev_nth by lia. fold m.
  replace (m - S i)%nat with (m - 1 - i)%nat by lia. replace (m - i - 1)%nat with (m - 1 - i)%nat by lia. reflexivity.
Qed.

Lemma fft_plan_spec ds dim : (dim < length ds)%nat ->
  exists lcs, NoDup lcs /\ (forall cs, In cs lcs <-> in_box (remove_at dim ds) cs) /\
    plan_stripes (plan_data ds dim) (plan_loops ds dim) =
    map (fun cs => map (fun i => flat ds (insert_at dim i cs)) (upto 0 (size_of ds dim))) lcs.
Proof.
  intros H. destruct (at_dim_ex ds dim H) as (lo & hi & AD).
  exists (map (@rev Z) (boxes (rev (remove_at dim ds)))). split; [|split].
  - apply nodup_map_in; [|apply boxes_nodup]. intros x y _ _ E. rewrite <- (rev_involutive x), E, rev_involutive. reflexivity.
  - intros cs. rewrite in_map_iff. split.
    + intros (c & <- & Hc). apply in_boxes in Hc. apply in_box_rev. rewrite rev_involutive. exact Hc.
    + intros Hc. exists (rev cs). split; [apply rev_involutive|]. apply in_boxes, in_box_rev. rewrite !rev_involutive. exact Hc.
  - unfold plan_stripes. rewrite loop_offsets_boxes, (plan_loops_rev ds dim H). rewrite !map_rev, !map_map. cbn [io_n io_s].
    assert (M : map (fun d => size_of ds d) (others dim (length ds)) = remove_at dim ds).
    { unfold others. rewrite map_app. rewrite !sizes_map by lia. unfold remove_at. rewrite skipn_O. f_equal.
      apply firstn_all2. rewrite skipn_length. lia. }
    rewrite M. apply map_ext_in. intros c Hc. apply in_boxes in Hc. unfold plan_data. cbn [io_n io_s].
    assert (Sz : size_of (rdims ds) (length ds - dim - 1) = size_of ds dim).
    { unfold rdims, size_of. rewrite rev_nth by lia. f_equal. lia. }
    rewrite Sz. apply map_ext_in. intros i Hi. apply in_upto in Hi.
    assert (B : in_box (remove_at dim ds) (rev c)) by (apply in_box_rev; rewrite rev_involutive; exact Hc).
    destruct (box_insert _ _ _ _ _ (rev c) i AD B Hi) as (_ & F & _). rewrite F.
    assert (LO : fft_lothers ds dim = points lo) by (exact (low_others_spec _ _ _ _ _ AD)). rewrite LO. f_equal.
    rewrite <- (rev_involutive c) at 1. rewrite dot_rev.
    2:{ rewrite rev_length, map_length. pose proof (box_len _ _ Hc) as L. rewrite rev_length in L. rewrite <- L, <- M, map_length. reflexivity. }
    rewrite (at_dim_remove _ _ _ _ _ AD) in B. destruct (in_box_app_inv _ _ _ B) as (cl & ch & E & B1 & B2). rewrite E.
    pose proof (box_len _ _ B1) as L1. rewrite insert_app by (rewrite <- L1; apply AD).
    transitivity (flat (lo ++ size_of ds dim :: hi) (cl ++ 0 :: ch)); [|f_equal; symmetry; apply AD].
    rewrite flat_app by assumption. cbn [flat]. rewrite Z.add_0_l.
    change (map (fun x : nat => fft_lothers ds x)) with (map (fft_lothers ds)).
    unfold others. rewrite map_app. rewrite (strides_map ds 0 dim 1) by (try reflexivity; lia). rewrite skipn_O.
    rewrite (strides_map ds (S dim) (length ds - dim - 1) (points lo * size_of ds dim)).
    2:{ lia. } 2:{ rewrite (ad_eq _ _ _ _ _ AD) at 2. rewrite firstn_app, (ad_len _ _ _ _ _ AD).
        rewrite firstn_all2 by (rewrite (ad_len _ _ _ _ _ AD); lia). replace (S dim - dim)%nat with 1%nat by lia. cbn [firstn].
        rewrite points_app. cbn. ring. }
    assert (F1 : firstn dim ds = lo).
    { rewrite (ad_eq _ _ _ _ _ AD), firstn_app, (ad_len _ _ _ _ _ AD), Nat.sub_diag. rewrite firstn_all2 by (rewrite (ad_len _ _ _ _ _ AD); lia).
      cbn. apply app_nil_r. }
    assert (F2 : firstn (length ds - dim - 1) (skipn (S dim) ds) = hi).
    { rewrite firstn_all2 by (rewrite skipn_length; lia). rewrite (ad_eq _ _ _ _ _ AD), skipn_app, (ad_len _ _ _ _ _ AD).
      rewrite skipn_all2 by (rewrite (ad_len _ _ _ _ _ AD); lia). replace (S dim - dim)%nat with 1%nat by lia. reflexivity. }
    rewrite F1, F2. rewrite dot_app by (rewrite strides_len; exact L1). rewrite !strides_dot by assumption. ring.
Qed.

(** all stripes together are the whole vector *)
Lemma fft_cover ds dim : Forall (fun d => 0 < d) ds -> (dim < length ds)%nat ->
  Permutation (concat (plan_stripes (plan_data ds dim) (plan_loops ds dim))) (upto 0 (points ds)).
Proof.
  intros Pos H. destruct (fft_plan_spec ds dim H) as (lcs & ND & HI & ->). destruct (at_dim_ex ds dim H) as (lo & hi & AD).
  rewrite <- flat_map_concat_map. apply NoDup_Permutation.
  - apply nodup_flat_map; [exact ND| |].
    + intros cs Hc. apply HI in Hc. apply nodup_map_in; [|apply upto_nodup]. intros i j Hi Hj E. apply in_upto in Hi, Hj.
      destruct (box_insert _ _ _ _ _ cs i AD Hc Hi) as (A1 & _ & A2 & _).
      destruct (box_insert _ _ _ _ _ cs j AD Hc Hj) as (B1 & _ & B2 & _). apply (flat_inj ds) in E; auto. congruence.
    + intros c c' z Hc Hc' Hz Hz'. apply HI in Hc, Hc'. apply in_map_iff in Hz, Hz'. destruct Hz as (i & <- & Hi), Hz' as (j & E & Hj).
      apply in_upto in Hi, Hj. destruct (box_insert _ _ _ _ _ c i AD Hc Hi) as (A1 & _ & _ & A2).
      destruct (box_insert _ _ _ _ _ c' j AD Hc' Hj) as (B1 & _ & _ & B2). apply (flat_inj ds) in E; auto. congruence.
  - apply upto_nodup.
  - intros k. rewrite in_flat_map, in_upto. split.
    + intros (cs & Hc & Hk). apply HI in Hc. apply in_map_iff in Hk. destruct Hk as (i & <- & Hi). apply in_upto in Hi.
      apply flat_bound. apply (box_insert _ _ _ _ _ cs i AD Hc Hi).
    + intros Hk. destruct (flat_surj ds k Pos Hk) as (cs & B & E). destruct (box_remove _ _ _ _ _ cs AD B) as (B1 & B2 & B3).
      exists (remove_at dim cs). split; [apply HI; exact B1|]. apply in_map_iff. exists (nth dim cs 0).
      rewrite B3. split; [exact E|]. apply in_upto. exact B2.
Qed.

Lemma low_others2_one ds d1 d2 : ds <> [] -> Forall (fun d => 0 < d) ds -> low_others2 ds d1 d2 = 1.
Proof.
  intros N P. pose proof (grid_size_spec ds N) as Gs. assert (Pp : forall l, Forall (fun d => 0 < d) l -> 1 <= points l).
  { induction 1 as [|d l Hd Hl IH]; [cbn; lia|]. rewrite points_cons. nia. }
  pose proof (Pp ds P) as P0. rewrite <- Gs in P0.
  assert (L : forall i, (i <= length ds)%nat -> 1 <= fold_left (fun a j => a * size_of ds j) (seq 0 i) 1).
  { intros i Hi. rewrite fold_mul_seq by lia. cbn [skipn]. rewrite Z.mul_1_l. apply Pp. rewrite <- (firstn_skipn i ds) in P. apply Forall_app in P. apply P. }
  unfold low_others2. destruct ds as [|d ds]; [contradiction|]. remember (d :: ds) as D eqn:ED. assert (Ln : length D = S (length ds)) by (rewrite ED; reflexivity).
  rewrite Ln. cbn [seq fold_left]. match goal with |- fold_left ?f _ ?x = 1 => set (F := f); assert (E1 : x = 1) end.
  { destruct (_ || _); cbn [seq fold_left]; destruct (1 <? grid_size D) eqn:E; try reflexivity; apply Z.ltb_ge in E; lia. }
  rewrite E1. clear E1. assert (K : forall l, (forall i, In i l -> (i <= length D)%nat) -> fold_left F l 1 = 1).
  { induction l as [|i l IH]; intros Hl; [reflexivity|]. cbn [fold_left]. replace (F 1 i) with 1; [apply IH; intros; apply Hl; right; assumption|].
    unfold F. pose proof (L i (Hl i (or_introl eq_refl))) as Li. destruct (_ || _).
    - destruct (Z.ltb_spec (fold_left (fun a j => a * size_of D j) (seq 0 i) 1) 1); lia.
    - reflexivity. }
  apply K. intros i Hi. apply in_seq in Hi. lia.
Qed.
