From Coq Require Import List ZArith Lia Bool.
From Verif Require Import Base Arrays Algebra Complex Ordered Spec.ODMultistate Proofs.ODMultistate Model.TransformMat Spec.TransformMat.
Import ListNotations.
Open Scope Z_scope.

Section Proofs.
  Variable F : ofld.
  Notation C := (Cx F).
  Notation fmat := (Z -> Z -> F).
  Add Ring FrT : (cr_th F).
  Add Ring CrT : (cr_th (Cx F)).
  Variable cexp : C -> C.
  Variable junk : C.

  Definition of_fun (r c : Z) (X : fmat) : mat F := mkMat r c (columns r c X).
  Lemma zlen_vec {A} n (g : Z -> A) : 0 <= n -> zlen (vec n g) = n.
  Proof. clear. intros H. unfold zlen, vec. rewrite map_length. unfold upto. rewrite map_length, seq_length. lia. Qed.
  Lemma vec_ext {A} n (f g : Z -> A) : (forall i, 0 <= i < n -> f i = g i) -> vec n f = vec n g.
  Proof. clear. intros H. unfold vec. apply map_ext_in. intros i Hi. apply in_upto in Hi. apply H. lia. Qed.
  Lemma at_fun r c X i j : 0 <= i < r -> 0 <= j < c -> m_at F (of_fun r c X) i j = Ok (X i j).
  Proof.
    clear cexp junk. intros Hi Hj. unfold m_at, of_fun. cbn [m_cols m_rows m_v]. destruct (Z.leb_spec 0 j); [|lia]. destruct (Z.ltb_spec j c); [|lia]. cbn [andb].
    unfold columns. rewrite rd_mapto by nia. rewrite Z.add_comm, Z.mod_add, Z.mod_small, Z.div_add, Z.div_small by lia. rewrite Z.add_0_l. reflexivity.
  Qed.
  Lemma inner (f : Z -> outcome F) (e : Z -> F) (a : list C) (g : Z -> C) n : 0 <= n -> (forall j, 0 <= j < n -> f j = Ok (e j)) -> (forall j, 0 <= j < n -> rd a j = Ok (g j)) ->
    foldM (fun x j => let* e := f j in let* y := rd a j in Ok (cadd x (cmul (cx_of e) y))) (upto 0 n) c0 = Ok (lsum (fun j => cmul (cx_of (e j)) (g j)) (upto 0 n)).
  Proof.
    clear cexp junk. intros Hn Hf Ha.
    destruct (foldM_upto (fun x j => let* e := f j in let* y := rd a j in Ok (cadd x (cmul (cx_of e) y)))
      (fun k x => x = lsum (fun j => cmul (cx_of (e j)) (g j)) (upto 0 k)) 0 n c0) as (s & E & P).
    - exact Hn.
    - rewrite upto_nil by lia. reflexivity.
    - intros k s Hk ->. rewrite Hf, Ha by lia. cbn [bind]. eexists. split; [reflexivity|].
      rewrite (upto_app 0 k (k + 1)) by lia. rewrite lsum_app. rewrite (upto_cons k (k + 1)), (upto_nil (k + 1) (k + 1)) by lia. cbn [lsum]. ring.
    - rewrite E, P. reflexivity.
  Qed.
  Lemma fit_len b a : zlen (fit F junk b a) = zlen a.
  Proof. clear cexp. unfold fit, fresh. destruct (Z.eqb_spec (zlen b) (zlen a)); [assumption|]. unfold zlen. rewrite map_length. reflexivity. Qed.
  Lemma as_vec {A} (b : list A) (d : A) : b = vec (zlen b) (fun k => nth (Z.to_nat k) b d).
  Proof.
    clear. unfold vec, zlen, upto. rewrite map_map. rewrite Z.sub_0_r, Nat2Z.id. symmetry.
    transitivity (map (fun k => nth k b d) (seq 0 (length b))).
    - apply map_ext. intros k. f_equal. lia.
    - induction b as [|x t IH]; [reflexivity|]. cbn [length seq map]. f_equal. rewrite <- seq_shift, map_map. exact IH.
  Qed.
  Lemma rows_loop (h : Z -> outcome C) (v : Z -> C) r (b : list C) : 0 <= r <= zlen b -> (forall i, 0 <= i < r -> h i = Ok (v i)) ->
    foldM (fun b i => let* x := h i in wr b i x) (upto 0 r) b = Ok (vec (zlen b) (fun i => if i <? r then v i else nth (Z.to_nat i) b c0)).
  Proof.
    clear cexp junk. intros Hr Hh. set (n := zlen b).
    destruct (foldM_upto (fun b i => let* x := h i in wr b i x)
      (fun k s => s = vec n (fun i => if i <? k then v i else nth (Z.to_nat i) b c0)) 0 r b) as (s & E & P).
    - lia.
    - rewrite (as_vec b c0) at 1. fold n. apply vec_ext. intros i Hi. destruct (Z.ltb_spec i 0); [lia|reflexivity].
    - intros k s Hk ->. rewrite Hh by lia. cbn [bind]. unfold vec at 1. rewrite wr_mapto by (unfold n; lia). eexists. split; [reflexivity|].
      apply vec_ext. intros i Hi. destruct (Z.eqb_spec i k) as [E|N]; destruct (Z.ltb_spec i (k + 1)); destruct (Z.ltb_spec i k); try lia; try reflexivity. rewrite E. reflexivity.
    - rewrite E, P. reflexivity.
  Qed.
  Lemma mat_vec_square n (X : fmat) b (g : Z -> C) tr : 0 <= n ->
    mat_vec F junk b (of_fun n n X) (vec n g) tr = Ok (vec n (times n (if tr then transpose X else X) g)).
  Proof.
    clear cexp. intros Hn. unfold mat_vec. cbn [of_fun m_cols m_rows]. rewrite zlen_vec by exact Hn. rewrite Z.eqb_refl. cbn [negb andb].
    rewrite (rows_loop _ (times n (if tr then transpose X else X) g)).
    - rewrite fit_len, zlen_vec by exact Hn. f_equal. apply vec_ext. intros i Hi. destruct (Z.ltb_spec i n); [reflexivity|lia].
    - rewrite fit_len, zlen_vec by exact Hn. lia.
    - intros i Hi. unfold times. apply (inner (fun j => if tr then m_at F (of_fun n n X) j i else m_at F (of_fun n n X) i j)); [exact Hn| |].
      + intros j Hj. destruct tr; [unfold transpose|]; apply at_fun; lia.
      + intros j Hj. unfold vec. apply rd_mapto. exact Hj.
  Qed.
  (** more columns than rows, not transposed: the rest of the memory stays *)
  Lemma mat_vec_flat r c (X : fmat) b (g : Z -> C) : 0 <= r <= c -> zlen b = c ->
    mat_vec F junk b (of_fun r c X) (vec c g) false = Ok (vec c (fun i => if i <? r then times c X g i else nth (Z.to_nat i) b c0)).
  Proof.
    clear cexp. intros Hr Hb. unfold mat_vec. cbn [of_fun m_cols m_rows]. rewrite zlen_vec by lia. rewrite Z.eqb_refl. cbn [negb andb]. rewrite andb_false_r.
    replace (fit F junk b (vec c g)) with b by (unfold fit; rewrite zlen_vec by lia; rewrite Hb, Z.eqb_refl; reflexivity).
    rewrite (rows_loop _ (times c X g)).
    - rewrite Hb. reflexivity.
    - lia.
    - intros i Hi. unfold times. apply (inner (fun j => m_at F (of_fun r c X) i j)); [lia| |].
      + intros j Hj. apply at_fun; lia.
      + intros j Hj. unfold vec. apply rd_mapto. exact Hj.
  Qed.
  Lemma foldM_stuck {S} (f : S -> Z -> outcome S) a b s (P : S -> Prop) : (forall k s s', f s k = Ok s' -> P s -> P s') -> P s ->
    (forall k s, a <= k < b -> P s -> f s k <> Throw) -> (exists k, a <= k < b /\ forall s, P s -> f s k = UB) -> foldM f (upto a b) s = UB.
  Proof.
    clear. intros HP H0 HT (k & Hk & HU). rewrite (upto_app a k b), foldM_app by lia.
    assert (G : foldM f (upto a k) s = UB \/ exists s', foldM f (upto a k) s = Ok s' /\ P s').
    { assert (HT' : forall j s, In j (upto a k) -> P s -> f s j <> Throw) by (intros j s1 Hj; apply in_upto in Hj; apply HT; lia).
      clear - HP H0 HT'. revert s H0. induction (upto a k) as [|x t IH]; intros s H0; [right; exists s; auto|]. cbn. destruct (f s x) as [s'| |] eqn:E; cbn; auto.
      - apply IH; [intros j s1 Hj; apply HT'; right; exact Hj|exact (HP _ _ _ E H0)].
      - exfalso. exact (HT' x s (or_introl eq_refl) H0 E). }
    destruct G as [-> |(s' & -> & Ps)]; [reflexivity|]. cbn. rewrite (upto_cons k b) by lia. cbn. rewrite HU by exact Ps. reflexivity.
  Qed.
  (** more rows than columns, not transposed: memory behind the result is written *)
  Lemma mat_vec_high r c (X : fmat) b (g : Z -> C) : 0 <= c < r -> mat_vec F junk b (of_fun r c X) (vec c g) false = UB.
  Proof.
    clear cexp. intros Hr. unfold mat_vec. cbn [of_fun m_cols m_rows]. rewrite zlen_vec by lia. rewrite Z.eqb_refl. cbn [negb andb]. rewrite andb_false_r.
    assert (H : forall i, 0 <= i < r -> foldM (fun (x : C) j => let* e := m_at F (of_fun r c X) i j in let* y := rd (vec c g) j in Ok (cadd x (cmul (cx_of e) y))) (upto 0 c) c0 = Ok (times c X g i)).
    { intros i Hi. unfold times. apply (inner (fun j => m_at F (of_fun r c X) i j)); [lia| |].
      - intros j Hj. apply at_fun; lia.
      - intros j Hj. unfold vec. apply rd_mapto. exact Hj. }
    rewrite (foldM_ext _ (fun b i => wr b i (times c X g i))). 2: { intros i s Hi. apply in_upto in Hi. cbn [of_fun m_cols] in *. rewrite H by lia. reflexivity. }
    apply (foldM_stuck _ 0 r _ (fun s => zlen s = c)).
    - intros k s s' E Hs. unfold wr in E. destruct ((0 <=? k) && _); [|discriminate]. injection E as <-. unfold zlen in *. rewrite upd_length. exact Hs.
    - rewrite fit_len, zlen_vec by lia. reflexivity.
    - intros k s _ _. unfold wr. destruct ((0 <=? k) && _); discriminate.
    - exists c. split; [lia|]. intros s Hs. unfold wr. fold (zlen s). rewrite Hs. rewrite Z.ltb_irrefl, andb_false_r. reflexivity.
  Qed.
  Lemma foldM_nothrow {A S} (f : S -> A -> outcome S) l s : (forall k s, f s k <> Throw) -> foldM f l s <> Throw.
  Proof. clear. intros H. revert s. induction l as [|x t IH]; intros s; cbn; [discriminate|]. destruct (f s x) eqn:E; cbn; [apply IH|exfalso; exact (H _ _ E)|discriminate]. Qed.
  Lemma rd_nothrow {A} (v : list A) i : rd v i <> Throw.
  Proof. clear. unfold rd. destruct (0 <=? i); [|discriminate]. destruct (nth_error v (Z.to_nat i)); discriminate. Qed.
  Lemma at_nothrow M i j : m_at F M i j <> Throw.
  Proof. clear. unfold m_at. destruct ((0 <=? j) && (j <? m_cols M)); [apply rd_nothrow|discriminate]. Qed.
  (** transposed and not square: memory outside is used *)
  Lemma mat_vec_turned r c (X : fmat) b (g : Z -> C) : 0 < r -> 0 < c -> r <> c -> mat_vec F junk b (of_fun r c X) (vec r g) true = UB.
  Proof.
    clear cexp. intros Hr Hc N. unfold mat_vec. cbn [of_fun m_cols m_rows]. rewrite zlen_vec by lia. rewrite Z.eqb_refl. cbn [negb andb]. rewrite andb_false_r.
    set (M := of_fun r c X). set (body := fun i (x : C) j => let* e := m_at F M j i in let* y := rd (vec r g) j in Ok (cadd x (cmul (cx_of e) y))).
    change (foldM (fun b i => let* x := foldM (body i) (upto 0 c) c0 in wr b i x) (upto 0 r) (fit F junk b (vec r g)) = UB).
    assert (NT : forall i k x, body i x k <> Throw).
    { intros i k x. unfold body. destruct (m_at F M k i) eqn:E; cbn [bind]; [|exfalso; exact (at_nothrow _ _ _ E)|discriminate].
      destruct (rd (vec r g) k) eqn:E'; cbn [bind]; [discriminate|exfalso; exact (rd_nothrow _ _ E')|discriminate]. }
    assert (U : exists k, 0 <= k < r /\ foldM (body k) (upto 0 c) c0 = UB).
    { destruct (Z.lt_ge_cases r c) as [L|L].
      - exists 0. split; [lia|]. apply (foldM_stuck _ 0 c c0 (fun _ => True)); auto. exists r. split; [lia|]. intros x _. unfold body.
        replace (rd (vec r g) r) with (UB : outcome C).
        2: { symmetry. unfold rd. destruct (Z.leb_spec 0 r); [|reflexivity]. replace (nth_error (vec r g) (Z.to_nat r)) with (None : option C); [reflexivity|].
             symmetry. apply nth_error_None. pose proof (zlen_vec r g ltac:(lia)) as Z1. unfold zlen in Z1. lia. }
        destruct (m_at F M r 0) eqn:E; [reflexivity|exfalso; exact (at_nothrow _ _ _ E)|reflexivity].
      - exists c. split; [lia|]. apply (foldM_stuck _ 0 c c0 (fun _ => True)); auto. exists 0. split; [lia|]. intros x _. unfold body, m_at, M, of_fun. cbn [m_cols].
        rewrite Z.ltb_irrefl, andb_false_r. reflexivity. }
    destruct U as (k & Hk & U). apply (foldM_stuck _ 0 r _ (fun _ => True)); auto.
    - intros i s _ _. destruct (foldM (body i) (upto 0 c) c0) eqn:E; cbn; [|exfalso; exact (foldM_nothrow _ _ _ (NT i) E)|discriminate].
      unfold wr. destruct ((0 <=? i) && _); discriminate.
    - exists k. split; [exact Hk|]. intros s _. rewrite U. reflexivity.
  Qed.
  Lemma mat_vec_other b M (a : list C) (tr : bool) : (if tr then m_rows M else m_cols M) <> zlen a -> mat_vec F junk b M a tr = Ok b.
  Proof.
    clear cexp. intros H. unfold mat_vec. destruct tr; cbn [negb]; rewrite ?andb_false_r, ?andb_true_r.
    - destruct (Z.eqb_spec (m_rows M) (zlen a)); [contradiction|reflexivity].
    - destruct (Z.eqb_spec (m_cols M) (zlen a)); [contradiction|reflexivity].
  Qed.

  Section Basis.
    Variable n : Z.
    Variable X : fmat.
    Hypothesis Hn : 0 <= n.
    Hypothesis HX : orthonormal F n X.
    Notation eg := (fun n (M : fmat) => (M, fun _ : Z => c0 : F)).
    Lemma times_T (f : Z -> C) j : times n (transpose X) f j = comp F n X f j.
    Proof. clear. reflexivity. Qed.
    Lemma back_forth (f : Z -> C) i : 0 <= i < n -> times n X (times n (transpose X) f) i = f i.
    Proof. clear cexp junk. intros Hi. exact (comp_back F (fun x => x) eg n X HX f i Hi). Qed.
    Lemma forth_back (f : Z -> C) i : 0 <= i < n -> times n (transpose X) (times n X f) i = f i.
    Proof. clear cexp junk. intros Hi. exact (comp_inv F (fun x => x) eg n X HX f i Hi). Qed.
    Lemma fit_vec (f g : Z -> C) : fit F junk (vec n f) (vec n g) = vec n f.
    Proof. clear - Hn. unfold fit. rewrite !zlen_vec, Z.eqb_refl by exact Hn. reflexivity. Qed.
    Lemma forward_vec (g : Z -> C) b k : forward F junk (Some (of_fun n n X)) (mkWave (vec n g) b k) =
      Ok (if k then mkWave (vec n g) (Some (vec n (times n (transpose X) g))) true else mkWave (vec n (times n (transpose X) g)) (Some (vec n g)) true).
    Proof.
      clear - Hn. unfold forward. cbn [w_v w_k]. rewrite mat_vec_square by exact Hn. cbn [bind]. unfold kspace, space_buffer. cbn [w_v w_k w_buf]. rewrite fit_vec.
      destruct k; reflexivity.
    Qed.
    Lemma backward_vec (g : Z -> C) b k : backward F junk (Some (of_fun n n X)) (mkWave (vec n g) b k) =
      Ok (if k then mkWave (vec n (times n X g)) (Some (vec n g)) false else mkWave (vec n g) (Some (vec n (times n X g))) false).
    Proof.
      clear - Hn. unfold backward. cbn [w_v w_k]. rewrite mat_vec_square by exact Hn. cbn [bind]. unfold kspace, space_buffer. cbn [w_v w_k w_buf]. rewrite fit_vec.
      destruct k; reflexivity.
    Qed.
    (** the calls, [true] for Forward *)
    Definition call (w : wave F) (d : bool) : outcome (wave F) := if d then forward F junk (Some (of_fun n n X)) w else backward F junk (Some (of_fun n n X)) w.
    Lemma call_keeps (f : Z -> C) w d : holds n X (w_k w) f (w_v w) -> exists w', call w d = Ok w' /\ w_k w' = d /\ holds n X d f (w_v w').
    Proof.
      unfold holds. destruct w as [v b k]. cbn [w_v w_k]. intros ->. unfold call. destruct d.
      - rewrite forward_vec. eexists. split; [reflexivity|]. destruct k; cbn; auto.
      - rewrite backward_vec. eexists. split; [reflexivity|]. destruct k; cbn; split; auto. apply vec_ext. intros i Hi. apply back_forth. exact Hi.
    Qed.
    Lemma calls_keep (f : Z -> C) ds w : holds n X (w_k w) f (w_v w) ->
      exists w', foldM call ds w = Ok w' /\ w_k w' = last ds (w_k w) /\ holds n X (w_k w') f (w_v w').
    Proof.
      revert w. induction ds as [|d t IH]; intros w H; [exists w; cbn; auto|]. destruct (call_keeps f w d H) as (w1 & E & K & H1).
      destruct (IH w1) as (w2 & E2 & K2 & H2); [rewrite K; exact H1|]. exists w2. cbn [foldM]. rewrite E. cbn [bind]. split; [exact E2|]. split; [|exact H2].
      rewrite K2, K. destruct t as [|d' t]; [reflexivity|]. clear. revert d'. induction t as [|e t IH]; intros d'; [reflexivity|]. apply (IH e).
    Qed.
    Lemma mult_vec (g : Z -> C) (ev : Z -> F) c : mult F (vec n g) (exponential F cexp (vec n ev) c) = Ok (vec n (fun j => cmul (g j) (cexp (cmul (cx_of (ev j)) c)))).
    Proof.
      clear - Hn. unfold mult, exponential. replace (zlen (map (fun e : F => cmul (cexp (cmul (cx_of e) c)) c1) (vec n ev)) <? zlen (vec n g)) with false.
      2: { symmetry. apply Z.ltb_ge. unfold zlen. rewrite map_length. fold (zlen (vec n ev)) (zlen (vec n g)). rewrite !zlen_vec by exact Hn. lia. }
      f_equal. unfold vec. induction (upto 0 n) as [|x t IH]; [reflexivity|]. cbn [map combine fst snd]. rewrite IH. f_equal. ring.
    Qed.
    Definition out (ev : Z -> F) (c : C) (f : Z -> C) : Z -> C := result F cexp n X ev c f.
    Lemma factor_vec (f : Z -> C) b (ev : Z -> F) c : exists b', factor F cexp junk (Some (of_fun n n X)) (vec n ev) c (mkWave (vec n f) b false) = Ok (mkWave (vec n (out ev c f)) b' false).
    Proof. clear HX. unfold factor. rewrite forward_vec. cbn [bind w_v w_buf w_k]. rewrite mult_vec. cbn [bind]. rewrite backward_vec. eexists. reflexivity. Qed.
    Lemma out_eigvec (H : fmat) ev lam (f : Z -> C) c k : symmetric F n H -> eigenbasis F n H X ev -> eigvec F n H lam f -> 0 <= k < n ->
      out ev c f k = cmul (cexp (cmul (cx_of lam) c)) (f k).
    Proof. intros. eapply (result_eigvec F cexp eg); eassumption. Qed.
    Lemma out_comp ev c f j : 0 <= j < n -> times n (transpose X) (out ev c f) j = cmul (times n (transpose X) f j) (cexp (cmul (cx_of (ev j)) c)).
    Proof. intros Hj. exact (result_comp F cexp eg n X HX ev c f j Hj). Qed.
    Lemma out_square ev c f : (forall j, 0 <= j < n -> cmul (cx_conj (cexp (cmul (cx_of (ev j)) c))) (cexp (cmul (cx_of (ev j)) c)) = c1) ->
      square n (out ev c f) = square n f.
    Proof.
      intros H1. unfold square. rewrite (weight_comp F (fun x => x) eg n X HX (out ev c f)), (weight_comp F (fun x => x) eg n X HX f). apply lsum_ext. intros j Hj. apply in_upto in Hj.
      pose proof (out_comp ev c f j ltac:(lia)) as E. rewrite !times_T in E. rewrite E. set (e := cexp (cmul (cx_of (ev j)) c)). set (y := comp F n X f j).
      replace (cx_conj (cmul y e)) with (cmul (cx_conj y) (cx_conj e)) by (apply cx_eq; cbn; ring).
      transitivity (cmul (cmul (cx_conj e) e) (cmul (cx_conj y) y)); [ring|]. unfold e. rewrite H1 by lia. ring.
    Qed.
    Lemma out_sum ev c d f : (forall j, 0 <= j < n -> cexp (cmul (cx_of (ev j)) (cadd c d)) = cmul (cexp (cmul (cx_of (ev j)) c)) (cexp (cmul (cx_of (ev j)) d))) ->
      forall i, 0 <= i < n -> out ev d (out ev c f) i = out ev (cadd c d) f i.
    Proof.
      intros HA i Hi. unfold out at 1 3. unfold result. apply lsum_ext. intros j Hj. apply in_upto in Hj. pose proof (out_comp ev c f j ltac:(lia)) as E. rewrite !times_T in E.
      rewrite E, HA by lia. ring.
    Qed.
    Lemma out_ext ev c f g i : (forall k, 0 <= k < n -> f k = g k) -> out ev c f i = out ev c g i.
    Proof. clear HX Hn. intros H. unfold out, result. apply lsum_ext. intros j _. rewrite (comp_ext F eg n X f g) by exact H. reflexivity. Qed.
    Lemma out_linear ev c (a b : C) f g i : 0 <= i < n -> out ev c (fun k => cadd (cmul a (f k)) (cmul b (g k))) i = cadd (cmul a (out ev c f i)) (cmul b (out ev c g i)).
    Proof.
      clear HX. intros Hi. unfold out, result, comp. rewrite <- !lsum_mul. rewrite <- lsum_add. apply lsum_ext. intros j _.
      assert (E : lsum (fun k => cmul (cx_of (X k j)) (cadd (cmul a (f k)) (cmul b (g k)))) (upto 0 n) =
                  cadd (cmul a (lsum (fun k => cmul (cx_of (X k j)) (f k)) (upto 0 n))) (cmul b (lsum (fun k => cmul (cx_of (X k j)) (g k)) (upto 0 n)))).
      { rewrite <- !lsum_mul. rewrite <- lsum_add. apply lsum_ext. intros k _. ring. }
      rewrite E. ring.
    Qed.
    Lemma factor_comp (f : Z -> C) b ev c : exists b' h, factor F cexp junk (Some (of_fun n n X)) (vec n ev) c (mkWave (vec n f) b false) = Ok (mkWave (vec n h) b' false) /\
      forall j, 0 <= j < n -> times n (transpose X) h j = cmul (times n (transpose X) f j) (cexp (cmul (cx_of (ev j)) c)).
    Proof. destruct (factor_vec f b ev c) as (b' & E). exists b', (out ev c f). split; [exact E|]. intros j Hj. apply out_comp, Hj. Qed.
    Lemma factor_eigen (H : fmat) (f : Z -> C) b ev c lam : symmetric F n H -> eigenbasis F n H X ev -> eigvec F n H lam f ->
      exists b', factor F cexp junk (Some (of_fun n n X)) (vec n ev) c (mkWave (vec n f) b false) = Ok (mkWave (vec n (fun k => cmul (cexp (cmul (cx_of lam) c)) (f k))) b' false).
    Proof. intros HS HE HV. destruct (factor_vec f b ev c) as (b' & E). exists b'. rewrite E. do 2 f_equal. apply vec_ext. intros k Hk. apply (out_eigvec H); assumption. Qed.
    Lemma factor_square (f : Z -> C) b ev c : (forall j, 0 <= j < n -> cmul (cx_conj (cexp (cmul (cx_of (ev j)) c))) (cexp (cmul (cx_of (ev j)) c)) = c1) ->
      exists b' h, factor F cexp junk (Some (of_fun n n X)) (vec n ev) c (mkWave (vec n f) b false) = Ok (mkWave (vec n h) b' false) /\ square n h = square n f.
    Proof. intros H1. destruct (factor_vec f b ev c) as (b' & E). exists b', (out ev c f). split; [exact E|]. apply out_square, H1. Qed.
    Lemma factor_sum (f : Z -> C) b b1 ev c d : (forall j, 0 <= j < n -> cexp (cmul (cx_of (ev j)) (cadd c d)) = cmul (cexp (cmul (cx_of (ev j)) c)) (cexp (cmul (cx_of (ev j)) d))) ->
      exists w1 w2 w3, factor F cexp junk (Some (of_fun n n X)) (vec n ev) c (mkWave (vec n f) b false) = Ok w1 /\ factor F cexp junk (Some (of_fun n n X)) (vec n ev) d w1 = Ok w2 /\
        factor F cexp junk (Some (of_fun n n X)) (vec n ev) (cadd c d) (mkWave (vec n f) b1 false) = Ok w3 /\ w_v w2 = w_v w3.
    Proof.
      intros HA. destruct (factor_vec f b ev c) as (b' & E). destruct (factor_vec (out ev c f) b' ev d) as (b2 & E2). destruct (factor_vec f b1 ev (cadd c d)) as (b3 & E3).
      do 3 eexists. split; [exact E|]. split; [exact E2|]. split; [exact E3|]. cbn [w_v]. apply vec_ext. intros i Hi. apply out_sum; assumption.
    Qed.
    Lemma factor_linear (f g : Z -> C) b b1 b2 ev c (x y : C) :
      exists w1 w2 h k, factor F cexp junk (Some (of_fun n n X)) (vec n ev) c (mkWave (vec n f) b false) = Ok w1 /\ w_v w1 = vec n h /\
        factor F cexp junk (Some (of_fun n n X)) (vec n ev) c (mkWave (vec n g) b1 false) = Ok w2 /\ w_v w2 = vec n k /\
        exists w3, factor F cexp junk (Some (of_fun n n X)) (vec n ev) c (mkWave (vec n (fun i => cadd (cmul x (f i)) (cmul y (g i)))) b2 false) = Ok w3 /\
          w_v w3 = vec n (fun i => cadd (cmul x (h i)) (cmul y (k i))).
    Proof.
      clear HX. destruct (factor_vec f b ev c) as (b' & E). destruct (factor_vec g b1 ev c) as (b'' & E1).
      destruct (factor_vec (fun i => cadd (cmul x (f i)) (cmul y (g i))) b2 ev c) as (b3 & E2).
      do 4 eexists. split; [exact E|]. split; [reflexivity|]. split; [exact E1|]. split; [reflexivity|]. eexists. split; [exact E2|]. cbn [w_v].
      apply vec_ext. intros i Hi. apply out_linear, Hi.
    Qed.
  End Basis.
End Proofs.
