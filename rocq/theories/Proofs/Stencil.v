From Coq Require Import List ZArith Lia Bool Arith Ring Field.
From Verif Require Import Base Arrays Algebra Model.Grid Spec.Grid Proofs.Grid Model.Stencil Spec.Stencil.
Import ListNotations.
Open Scope Z_scope.

Lemma upto_shift c a b : upto (c + a) (c + b) = map (fun k => c + k) (upto a b).
Proof.
  unfold upto. replace (c + b - (c + a)) with (b - a) by lia. rewrite map_map. apply map_ext. intros k. lia.
Qed.

Section P.
  Variable F : fld.
  Add Field FF : (f_th F).
  Notation "x +' y" := (@cadd F x y) (at level 50, left associativity).
  Notation "x *' y" := (@cmul F x y) (at level 40, left associativity).

  Lemma value_ok (v : list F) i : 0 <= i < zlen v -> rd v i = Ok (value v i).
  Proof. intros H. apply rd_ok in H. destruct H as [x E]. unfold value. rewrite E. reflexivity. Qed.

  (** counted loops that accumulate a sum *)
  Lemma loop1 (lo : Z) (f : Z -> F) body (c : Z) a b d s0 : s0 = a * lo -> a <= b ->
    (forall m d, a <= m < b -> body (d, m * lo) (c - m) = Ok (d +' f m, m * lo + lo)) ->
    foldM body (map (fun m => c - m) (upto a b)) (d, s0) = Ok (d +' lsum f (upto a b), b * lo).
  Proof.
    intros -> H Hs. rewrite foldM_map.
    destruct (foldM_upto (fun s m => body s (c - m)) (fun m s => s = (d +' lsum f (upto a m), m * lo)) a b (d, a * lo))
      as (s' & E & ->); auto.
    - rewrite upto_nil by lia. cbn. f_equal. ring.
    - intros k s Hk ->. rewrite Hs by lia. eexists. split; [reflexivity|]. rewrite upto_snoc, lsum_app by lia. cbn.
      f_equal; [ring|lia].
  Qed.
  Lemma loop2 (lo : Z) (f g : Z -> F) body (c : Z) a b d e s0 : s0 = a * lo -> a <= b ->
    (forall m d e, a <= m < b -> body (d, e, m * lo) (c - m) = Ok (d +' f m, e +' g m, m * lo + lo)) ->
    foldM body (map (fun m => c - m) (upto a b)) (d, e, s0) =
      Ok (d +' lsum f (upto a b), e +' lsum g (upto a b), b * lo).
  Proof.
    intros -> H Hs. rewrite foldM_map.
    destruct (foldM_upto (fun s m => body s (c - m))
               (fun m s => s = (d +' lsum f (upto a m), e +' lsum g (upto a m), m * lo)) a b (d, e, a * lo))
      as (s' & E & ->); auto.
    - rewrite upto_nil by lia. cbn. f_equal. f_equal; ring.
    - intros k s Hk ->. rewrite Hs by lia. eexists. split; [reflexivity|]. rewrite upto_snoc, !lsum_app by lia. cbn.
      f_equal; [f_equal; ring|lia].
  Qed.

  (** the stencil as centre plus pairs of neighbours *)
  Definition sgn (odd : bool) : F := if odd then ofZ (-1) else c1.
  Lemma stencil_pairs t p odd (x : Z -> F) i : 0 <= p ->
    stencil (weight t p odd) p x i =
    t p *' x i +' lsum (fun m => t (p - m) *' (x (i - m) +' sgn odd *' x (i + m))) (upto 1 (p + 1)).
  Proof.
    intros Hp. unfold stencil. rewrite (upto_app (-p) 0 (p + 1)) by lia. rewrite (upto_cons 0) by lia.
    rewrite lsum_app. cbn [lsum].
    assert (E1 : lsum (fun m => weight t p odd m *' x (i + m)) (upto (- p) 0) = lsum (fun m => t (p - m) *' x (i - m)) (upto 1 (p + 1))).
    { clear -Hp. revert Hp. generalize p at 2 4. intros q Hp.
      assert (G : forall n, 0 <= n -> lsum (fun m => weight t q odd m *' x (i + m)) (upto (- n) 0) =
                               lsum (fun m => t (q - m) *' x (i - m)) (upto 1 (n + 1))).
      { intros n Hn. remember (Z.to_nat n) as k eqn:Ek. revert n Hn Ek. induction k as [|k IH]; intros n Hn Ek.
        - rewrite !upto_nil by lia. reflexivity.
        - rewrite (upto_cons (- n)), (upto_snoc 1 n), lsum_app by lia. cbn [lsum].
          replace (- n + 1) with (- (n - 1)) by lia. rewrite IH by lia. replace (n - 1 + 1) with n by lia.
          unfold weight. rewrite (proj2 (Z.leb_le (- n) 0)) by lia. replace (q + - n) with (q - n) by lia.
          replace (i + - n) with (i - n) by lia. ring. }
      apply G. assumption. }
    rewrite E1.
    assert (E2 : weight t p odd 0 = t p) by (unfold weight; cbn; f_equal; lia).
    rewrite E2. replace (i + 0) with i by lia. replace (0 + 1) with 1 by lia.
    transitivity (t p *' x i +' (lsum (fun m => t (p - m) *' x (i - m)) (upto 1 (p + 1)) +'
                     lsum (fun m => weight t p odd m *' x (i + m)) (upto 1 (p + 1)))); [ring|].
    f_equal. rewrite <- lsum_add. apply lsum_ext. intros m Hm. apply in_upto in Hm. unfold weight, sgn.
    destruct (m <=? 0) eqn:E; [apply Z.leb_le in E; lia|]. destruct odd; [rewrite ofZ_m1|]; ring.
  Qed.

  Lemma ext_in pbc n (x : Z -> F) k : 0 <= k < n -> extend pbc n x k = x k.
  Proof. intros H. unfold extend. rewrite (proj2 (Z.leb_le 0 k)), (proj2 (Z.ltb_lt k n)) by lia. reflexivity. Qed.
  Lemma ext_low pbc n (x : Z -> F) k : - n <= k < 0 -> extend pbc n x k = if pbc then x (n + k) else c0.
  Proof.
    intros H. unfold extend. rewrite (proj2 (Z.leb_gt 0 k)) by lia. cbn. destruct pbc; [|reflexivity]. f_equal.
    symmetry. apply Z.mod_unique with (-1); lia.
  Qed.
  Lemma ext_high pbc n (x : Z -> F) k : n <= k < 2 * n -> extend pbc n x k = if pbc then x (k - n) else c0.
  Proof.
    intros H. unfold extend. rewrite (proj2 (Z.ltb_ge k n)) by lia. rewrite andb_false_r. destruct pbc; [|reflexivity]. f_equal.
    symmetry. apply Z.mod_unique with 1; lia.
  Qed.

  Lemma sum_split (a A B A' B' C : F) : A = A' -> B = B' +' C -> a +' (A +' B) = a +' A' +' B' +' C.
  Proof. intros -> ->. ring. Qed.

  Section Stripe.
    Variables (cf psi : list F) (base Nx lo p : Z) (odd pbc : bool).
    Variable x : Z -> F.
    Variable t : Z -> F.
    Hypothesis Hp : 0 <= p.
    Hypothesis HN : 2 * p <= Nx.
    Hypothesis Ht : forall k, 0 <= k <= p -> rd cf k = Ok (t k).
    Hypothesis Hx : forall k, 0 <= k < Nx -> rd psi (base + k * lo) = Ok (x k).

    Let S i := stencil (weight t p odd) p (extend pbc Nx x) i.

    Lemma rdx k z : z = k * lo -> 0 <= k < Nx -> rd psi (base + z) = Ok (x k).
    Proof. intros -> H. apply Hx. exact H. Qed.

    Lemma centre_ok i : p <= i < Nx - p -> centre_point F cf psi base lo p (sgn odd) i = Ok (S i).
    Proof.
      intros Hi. unfold centre_point. rewrite (Ht p) by lia. cbn [bind]. rewrite (Hx i) by lia. cbn [bind].
      rewrite (downto_map p) by lia. replace (p - (p - 1)) with 1 by lia. replace (p - 0 + 1) with (p + 1) by lia.
      rewrite (loop1 lo (fun m => t (p - m) *' (x (i - m) +' sgn odd *' x (i + m)))).
      - cbn [bind fst]. f_equal. unfold S. rewrite stencil_pairs by lia. rewrite ext_in by lia. f_equal. apply lsum_ext.
        intros m Hm. apply in_upto in Hm. rewrite !ext_in by lia. reflexivity.
      - lia.
      - lia.
      - intros m d Hm. cbn beta iota. rewrite Ht by lia. cbn [bind]. rewrite (rdx (i + m)) by lia. cbn [bind].
        rewrite (rdx (i - m)) by lia. cbn [bind]. do 2 f_equal. ring.
    Qed.

    Lemma edge_ok i : 0 <= i < p -> edge_point F cf psi base Nx lo p (sgn odd) pbc i = Ok (S i, S (Nx - 1 - i)).
    Proof.
      intros Hi. unfold edge_point. rewrite (Ht p) by lia. cbn [bind]. rewrite (rdx i) by lia. cbn [bind].
      rewrite (rdx (Nx - 1 - i)) by lia. cbn [bind].
      rewrite (downto_map p (p - 1) (p - i)) by lia. replace (p - (p - 1)) with 1 by lia.
      replace (p - (p - i) + 1) with (i + 1) by lia.
      set (j := Nx - 1 - i).
      rewrite (loop2 lo (fun m => t (p - m) *' (x (i - m) +' sgn odd *' x (i + m)))
                     (fun m => t (p - m) *' (x (j - m) +' sgn odd *' x (j + m)))).
      2: lia.
      2: lia.
      2: { intros m d e Hm. cbn beta iota. rewrite Ht by lia. cbn [bind]. rewrite (rdx (i - m)) by lia. cbn [bind].
           rewrite (rdx (i + m)) by lia. cbn [bind]. rewrite (rdx (j - m)) by (unfold j; lia). cbn [bind].
           rewrite (rdx (j + m)) by (unfold j; lia). reflexivity. }
      cbn [bind].
      rewrite (downto_map p (p - 1 - i) 0) by lia. replace (p - (p - 1 - i)) with (i + 1) by lia.
      replace (p - 0 + 1) with (p + 1) by lia.
      rewrite (loop2 lo (fun m => sgn odd *' t (p - m) *' x (i + m)) (fun m => t (p - m) *' x (j - m))).
      2: lia.
      2: lia.
      2: { intros m d e Hm. cbn beta iota. rewrite Ht by lia. cbn [bind]. rewrite (rdx (i + m)) by lia. cbn [bind].
           rewrite (rdx (j - m)) by (unfold j; lia). reflexivity. }
      cbn [bind].
      (* split of the specification at distance i *)
      assert (SP : forall u v : Z -> F, lsum u (upto 1 (p + 1)) = lsum u (upto 1 (i + 1)) +' lsum u (upto (i + 1) (p + 1))).
      { intros u _. rewrite (upto_app 1 (i + 1) (p + 1)) by lia. apply lsum_app. }
      assert (SH : forall u : Z -> F, lsum u (upto (i + 1) (p + 1)) = lsum (fun k => u (i + k)) (upto 1 (p - i + 1))).
      { intros u. replace (p + 1) with (i + (p - i + 1)) by lia. rewrite upto_shift. apply lsum_map. }
      assert (EL : S i = t p *' x i +' lsum (fun m => t (p - m) *' (x (i - m) +' sgn odd *' x (i + m))) (upto 1 (i + 1)) +'
                     lsum (fun m => sgn odd *' t (p - m) *' x (i + m)) (upto (i + 1) (p + 1)) +'
                     (if pbc then lsum (fun k => t (p - i - k) *' x (Nx - k)) (upto 1 (p - i + 1)) else c0)).
      { unfold S. rewrite stencil_pairs by lia. rewrite ext_in by lia. rewrite (SP _ x).
        apply sum_split.
        - apply lsum_ext. intros m Hm. apply in_upto in Hm. rewrite !ext_in by lia. reflexivity.
        - destruct pbc.
          + replace (lsum (fun k => t (p - i - k) *' x (Nx - k)) (upto 1 (p - i + 1)))
              with (lsum (fun m => t (p - m) *' x (Nx + i - m)) (upto (i + 1) (p + 1))).
            * rewrite <- lsum_add. apply lsum_ext. intros m Hm. apply in_upto in Hm.
              rewrite (ext_in _ _ _ (i + m)), ext_low by lia. replace (Nx + (i - m)) with (Nx + i - m) by lia. ring.
            * rewrite SH. apply lsum_ext. intros k _. f_equal; f_equal; lia.
          + transitivity (lsum (fun m => sgn odd *' t (p - m) *' x (i + m)) (upto (i + 1) (p + 1))); [|ring].
            apply lsum_ext. intros m Hm. apply in_upto in Hm. rewrite (ext_in _ _ _ (i + m)), ext_low by lia. ring. }
      assert (ER : S j = t p *' x j +' lsum (fun m => t (p - m) *' (x (j - m) +' sgn odd *' x (j + m))) (upto 1 (i + 1)) +'
                     lsum (fun m => t (p - m) *' x (j - m)) (upto (i + 1) (p + 1)) +'
                     (if pbc then lsum (fun k => sgn odd *' t (p - i - k) *' x (k - 1)) (upto 1 (p - i + 1)) else c0)).
      { unfold S. rewrite stencil_pairs by lia. unfold j. rewrite ext_in by lia. rewrite (SP _ x).
        apply sum_split.
        - apply lsum_ext. intros m Hm. apply in_upto in Hm. rewrite !ext_in by lia. reflexivity.
        - destruct pbc.
          + replace (lsum (fun k => sgn odd *' t (p - i - k) *' x (k - 1)) (upto 1 (p - i + 1)))
              with (lsum (fun m => sgn odd *' t (p - m) *' x (m - i - 1)) (upto (i + 1) (p + 1))).
            * rewrite <- lsum_add. apply lsum_ext. intros m Hm. apply in_upto in Hm.
              rewrite (ext_in _ _ _ (Nx - 1 - i - m)), ext_high by lia.
              replace (Nx - 1 - i + m - Nx) with (m - i - 1) by lia. ring.
            * rewrite SH. apply lsum_ext. intros k _. f_equal; [f_equal|]; f_equal; lia.
          + transitivity (lsum (fun m => t (p - m) *' x (Nx - 1 - i - m)) (upto (i + 1) (p + 1))); [|ring].
            apply lsum_ext. intros m Hm. apply in_upto in Hm. rewrite (ext_in _ _ _ (Nx - 1 - i - m)), ext_high by lia. ring. }
      destruct pbc.
      - cbn beta iota.
        rewrite (downto_map (p - i) (p - i - 1) 0) by lia. replace (p - i - (p - i - 1)) with 1 by lia.
        replace (p - i - 0 + 1) with (p - i + 1) by lia.
        rewrite (loop2 lo (fun k => t (p - i - k) *' x (Nx - k)) (fun k => sgn odd *' t (p - i - k) *' x (k - 1))).
        2: lia.
      2: lia.
        2: { intros m d e Hm. cbn beta iota. rewrite Ht by lia. cbn [bind]. rewrite (rdx (Nx - m)) by lia. cbn [bind].
             rewrite (rdx (m - 1)) by lia. reflexivity. }
        cbn [bind]. rewrite <- EL, <- ER. reflexivity.
      - cbn [bind]. rewrite EL, ER. do 2 f_equal; ring.
    Qed.
  End Stripe.

  Lemma put_eq acc (res : list F) a x : put F acc res a x = let* o := rd res a in wr res a (if acc then o +' x else x).
  Proof.
    unfold put. destruct acc; [reflexivity|]. destruct (rd res a) eqn:E; cbn; [reflexivity|exfalso|].
    - revert E. unfold rd. destruct (0 <=? a); [destruct (nth_error _ _)|]; discriminate.
    - unfold rd in E. unfold wr. destruct (0 <=? a) eqn:E1; [|reflexivity]. cbn. apply Z.leb_le in E1.
      destruct (nth_error res (Z.to_nat a)) eqn:E2; [discriminate|]. apply nth_error_None in E2.
      rewrite (proj2 (Z.ltb_ge a _)) by lia. reflexivity.
  Qed.

  (** points of a stripe in the order they are written *)
  Definition coords (p Nx : Z) : list Z := flat_map (fun i => [i; Nx - i - 1]) (upto 0 p) ++ upto p (Nx - p).
  Lemma in_coords p Nx k : 0 <= p -> 2 * p <= Nx -> In k (coords p Nx) <-> 0 <= k < Nx.
  Proof.
    intros H0 H. unfold coords. rewrite in_app_iff, in_flat_map, in_upto. split.
    - intros [(i & Hi & Hk)|Hk]; [|lia]. apply in_upto in Hi. cbn in Hk. lia.
    - intros Hk. destruct (Z_lt_le_dec k p); [left; exists k|destruct (Z_lt_le_dec k (Nx - p)); [right; lia|left; exists (Nx - k - 1)]];
        (split; [apply in_upto; lia|cbn; lia]).
  Qed.
  Lemma nodup_coords p Nx : 0 <= p -> 2 * p <= Nx -> NoDup (coords p Nx).
  Proof.
    intros H0 H. unfold coords. apply nodup_app.
    - apply nodup_flat_map; [apply upto_nodup| |].
      + intros i Hi. apply in_upto in Hi. constructor; [cbn; lia|]. constructor; [intros []|constructor].
      + intros i j z Hi Hj Hz Hz'. apply in_upto in Hi, Hj. cbn in Hz, Hz'. lia.
    - apply upto_nodup.
    - intros z Hz Hz'. apply in_upto in Hz'. apply in_flat_map in Hz. destruct Hz as (i & Hi & Hz). apply in_upto in Hi. cbn in Hz. lia.
  Qed.

  Lemma diff_single_loop (res psi cf : list F) base Nx lo p h odd pbc acc x t :
    0 <= p -> 2 * p <= Nx ->
    (forall k, 0 <= k <= p -> rd cf k = Ok (t k)) -> (forall k, 0 <= k < Nx -> rd psi (base + k * lo) = Ok (x k)) ->
    diff_single F res psi cf base Nx lo p h (sgn odd) pbc acc =
    foldM (fun res k => let* a := rd res (base + k * lo) in
             wr res (base + k * lo) (if acc then a +' h *' stencil (weight t p odd) p (extend pbc Nx x) k
                                     else h *' stencil (weight t p odd) p (extend pbc Nx x) k)) (coords p Nx) res.
  Proof.
    intros H0 H Ht Hx. unfold diff_single, coords. rewrite foldM_app. rewrite foldM_flat_map.
    match goal with |- bind ?A _ = bind ?B _ => assert (E : A = B) end.
    { apply foldM_ext. intros i s Hi. apply in_upto in Hi. rewrite (edge_ok cf psi base Nx lo p odd pbc x t) by assumption.
      cbn [bind fst snd]. cbn [foldM]. rewrite put_eq.
      destruct (rd s (base + i * lo)) as [a| |]; cbn [bind]; [|reflexivity|reflexivity].
      match goal with |- bind ?A _ = bind ?B _ => change A with B; destruct B as [s1| |]; cbn [bind]; [|reflexivity|reflexivity] end.
      rewrite put_eq. replace (Nx - 1 - i) with (Nx - i - 1) by lia.
      destruct (rd s1 (base + (Nx - i - 1) * lo)) as [b| |]; cbn [bind]; [|reflexivity|reflexivity].
      match goal with |- _ = bind ?B _ => destruct B; reflexivity end. }
    rewrite E. clear E. match goal with |- bind ?A _ = _ => destruct A as [res1| |]; cbn [bind]; [|reflexivity|reflexivity] end.
      apply foldM_ext. intros k s Hk. apply in_upto in Hk.
      rewrite (centre_ok cf psi base Nx lo p odd pbc x t) by assumption. cbn [bind]. rewrite put_eq.
      destruct (rd s (base + k * lo)); cbn [bind]; [|reflexivity|reflexivity]. f_equal. destruct acc; ring.
  Qed.

  Lemma set_coord_insert dim k cs : (dim < length cs)%nat -> set_coord dim k cs = insert_at dim k (remove_at dim cs).
  Proof.
    intros H. destruct (split_nth cs dim 0 H) as [_ L]. unfold remove_at. rewrite insert_app by exact L. reflexivity.
  Qed.

  Definition with_grid (h : hofd F) (g : grid) : hofd F :=
    mkHofd F (h_deriv F h) (h_order F h) (h_pbc F h) (h_cfc F h) (h_pfac1 F h) (h_pfac F h) g (h_dx F h).

  Definition odd_deriv (h : hofd F) : bool := negb (Z.rem (h_deriv F h) 2 =? 0).
  Lemma deriv_sign_eq h : deriv_sign F h = sgn (odd_deriv h).
  Proof. unfold deriv_sign, odd_deriv, sgn. destruct (Z.rem _ 2 =? 0); reflexivity. Qed.

  Lemma diff_dim_spec (h : hofd F) g0 G acts res psi dim acc cf hf :
    let ds := g_sizes G in let p := Z.quot (h_order F h) 2 in
    h_grid F h = fold_left active_dim acts (assign g0 G) ->
    Forall (fun d => 0 < d) ds -> (dim < length ds)%nat -> zlen psi = points ds -> zlen res = points ds ->
    coeffs F h = Ok cf -> 0 <= p < zlen cf -> prefactor F h dim = Ok hf ->
    2 * p <= nth dim ds 0 ->
    exists res', diff_dim F h res psi dim acc = Ok (with_grid h (ready g0 G acts dim), res') /\ zlen res' = points ds /\
      forall cs, in_box ds cs ->
        value res' (flat ds cs) = (if acc then value res (flat ds cs) else c0) +'
                                  hf *' deriv_at cf p (odd_deriv h) (h_pbc F h) ds dim psi cs.
  Proof.
    intros ds p Hg Pos Hd Lpsi Lres Ecf Hp Ehf HN. unfold diff_dim. rewrite Ehf. cbn [bind]. rewrite Ecf. cbn [bind].
    rewrite Hg. change (active_dim (fold_left active_dim acts (assign g0 G)) dim) with (ready g0 G acts dim).
    set (g := ready g0 G acts dim). destruct (ready_info g0 G acts dim Hd) as (S1 & S2 & S3 & S4). fold g in S1, S2, S3, S4.
    fold ds in S1, S2, S3, S4. rewrite S3. cbn [bind]. rewrite S4, deriv_sign_eq. fold p.
    destruct (at_dim_ex ds dim Hd) as (lo & hi & AD). set (Nx := size_of ds dim) in *. change (nth dim ds 0) with Nx in HN.
    set (od := remove_at dim ds).
    assert (Nod : num_others ds dim = points od) by (unfold od; rewrite (at_dim_remove _ _ _ _ _ AD); apply (num_others_spec _ _ _ _ _ AD)).
    assert (Elo : low_others ds dim = points lo) by (apply (low_others_spec _ _ _ _ _ AD)).
    rewrite Nod. set (L := points lo).
    assert (PO : Forall (fun d => 0 < d) od) by (apply remove_pos; exact Pos).
    set (bse := fun rep => match IndexBase g rep with Ok b => b | _ => 0 end).
    (* stripes *)
    assert (ST : forall rep, 0 <= rep < points od -> exists cs, in_box od cs /\ flat od cs = rep /\ IndexBase g rep = Ok (bse rep) /\
       forall k, 0 <= k < Nx -> bse rep + k * L = flat ds (insert_at dim k cs)).
    { intros rep Hr. destruct (flat_surj od rep PO Hr) as (cs & B & E). exists cs. split; [exact B|]. split; [exact E|].
      assert (P0 : 0 < Nx) by (apply nth_pos; assumption).
      destruct (index_flat g0 G acts dim cs 0 Hd B ltac:(change (0 <= 0 < Nx); lia)) as (_ & I0 & _). fold g ds od in I0. rewrite E in I0.
      assert (Eb : bse rep = flat ds (insert_at dim 0 cs)) by (unfold bse; rewrite I0; reflexivity).
      split; [rewrite I0, Eb; reflexivity|]. intros k Hk. rewrite Eb.
      destruct (box_insert _ _ _ _ _ cs k AD B Hk) as (_ & Fk & _). rewrite Fk. reflexivity. }
    set (xs := fun rep k => value psi (bse rep + k * L)).
    assert (BD : forall rep k, 0 <= rep < points od -> 0 <= k < Nx -> 0 <= bse rep + k * L < points ds).
    { intros rep k Hr Hk. destruct (ST rep Hr) as (cs & B & _ & _ & A). rewrite A by assumption. apply flat_bound.
      apply (box_insert _ _ _ _ _ cs k AD B Hk). }
    set (val := fun rep k => hf *' stencil (weight (value cf) p (odd_deriv h)) p (extend (h_pbc F h) Nx (xs rep)) k).
    rewrite (foldM_ext _ (fun res rep => foldM (fun res k => let* a := rd res (bse rep + k * L) in
             wr res (bse rep + k * L) (if acc then a +' val rep k else val rep k)) (coords p Nx) res)).
    2: { intros rep s Hr. apply in_upto in Hr. destruct (ST rep Hr) as (cs & B & _ & I0 & A). rewrite I0. cbn [bind].
         rewrite S2. cbn [bind]. rewrite Elo. fold L.
         rewrite (diff_single_loop s psi cf (bse rep) Nx L p hf (odd_deriv h) (h_pbc F h) acc (xs rep) (value cf)).
         - apply foldM_ext. intros k s' _. reflexivity.
         - lia.
         - lia.
         - intros k Hk. apply value_ok. lia.
         - intros k Hk. apply value_ok. rewrite Lpsi. apply BD; assumption. }
    rewrite (foldM_nested (fun res rep k => let* a := rd res (bse rep + k * L) in
             wr res (bse rep + k * L) (if acc then a +' val rep k else val rep k)) (upto 0 (points od)) (fun _ => coords p Nx)).
    change (flat_map (fun i => map (pair i) (coords p Nx)) (upto 0 (points od))) with (pairs (upto 0 (points od)) (coords p Nx)).
    destruct (foldM_update (fun q => bse (fst q) + snd q * L) (fun q a => if acc then a +' val (fst q) (snd q) else val (fst q) (snd q))
                (pairs (upto 0 (points od)) (coords p Nx)) res) as (res' & E & Lr & H1 & _).
    - apply nodup_map_in; [|apply nodup_pairs; [apply upto_nodup|apply nodup_coords; lia]].
      intros [r k] [r' k'] Hq Hq' E. cbn [fst snd] in E. apply in_pairs in Hq, Hq'. destruct Hq as [Hr Hk], Hq' as [Hr' Hk'].
      apply in_upto in Hr, Hr'. apply in_coords in Hk, Hk'; try lia.
      destruct (ST r Hr) as (cs & B & Er & _ & A). destruct (ST r' Hr') as (cs' & B' & Er' & _ & A').
      rewrite A, A' in E by assumption. destruct (box_insert _ _ _ _ _ cs k AD B Hk) as (C1 & _ & C3 & C4).
      destruct (box_insert _ _ _ _ _ cs' k' AD B' Hk') as (D1 & _ & D3 & D4).
      apply (flat_inj ds) in E; [|assumption|assumption]. rewrite E in C3, C4. rewrite C3 in D3. rewrite C4 in D4. congruence.
    - intros [r k] Hq. apply in_pairs in Hq. destruct Hq as [Hr Hk]. apply in_upto in Hr. apply in_coords in Hk; try lia.
      cbn [fst snd]. rewrite Lres. apply BD; assumption.
    - change (fun (v : list F) (x : Z * Z) =>
          let* a := rd v (bse (fst x) + snd x * L) in
          wr v (bse (fst x) + snd x * L) (if acc then a +' val (fst x) (snd x) else val (fst x) (snd x))) with
        (fun (s : list F) (p0 : Z * Z) =>
          let* a := rd s (bse (fst p0) + snd p0 * L) in
          wr s (bse (fst p0) + snd p0 * L) (if acc then a +' val (fst p0) (snd p0) else val (fst p0) (snd p0))) in E.
      rewrite E. cbn [bind]. exists res'. split; [reflexivity|]. split; [congruence|].
      intros cs Bc. destruct (box_remove _ _ _ _ _ cs AD Bc) as (B1 & B2 & B3). fold od in B1.
      set (k := nth dim cs 0) in *. set (rep := flat od (remove_at dim cs)).
      assert (Hr : 0 <= rep < points od) by (apply flat_bound; exact B1).
      destruct (ST rep Hr) as (cs' & B' & Er & _ & A). assert (cs' = remove_at dim cs) by (apply (flat_inj od); assumption). subst cs'.
      assert (Ea : bse rep + k * L = flat ds cs) by (rewrite A by exact B2; rewrite B3; reflexivity).
      assert (Hin : In (rep, k) (pairs (upto 0 (points od)) (coords p Nx)))
        by (apply in_pairs; split; [apply in_upto; lia|apply in_coords; lia]).
      specialize (H1 (rep, k) (value res (flat ds cs)) Hin). cbn [fst snd] in H1. rewrite Ea in H1.
      assert (Er' : rd res' (flat ds cs) = Ok (if acc then value res (flat ds cs) +' val rep k else val rep k)).
      { apply H1. apply value_ok. rewrite Lres. apply flat_bound. exact Bc. }
      assert (Ev : value res' (flat ds cs) = (if acc then value res (flat ds cs) else c0) +' val rep k).
      { unfold value at 1. rewrite Er'. destruct acc; ring. }
      rewrite Ev. f_equal. unfold val, deriv_at. fold Nx k. f_equal. change (nth dim ds 0) with Nx.
      assert (Lc : (dim < length cs)%nat) by (rewrite <- (box_len _ _ Bc); exact Hd).
      assert (X : forall j, 0 <= j < Nx -> xs rep j = along ds dim psi cs j).
      { intros j Hj. unfold xs, along. rewrite A by exact Hj. rewrite set_coord_insert by exact Lc. reflexivity. }
      unfold stencil. apply lsum_ext. intros m _. f_equal. unfold extend.
      destruct ((0 <=? k + m) && (k + m <? Nx)) eqn:Eb.
      + apply X. apply andb_prop in Eb. destruct Eb as [Q1 Q2]. apply Z.leb_le in Q1. apply Z.ltb_lt in Q2. lia.
      + destruct (h_pbc F h); [|reflexivity]. apply X. apply Z.mod_pos_bound. lia.
  Qed.

  Lemma bind_ok {A B} (x : outcome A) (f : A -> outcome B) y : bind x f = Ok y -> exists a, x = Ok a /\ f a = Ok y.
  Proof. destruct x; cbn; try discriminate. eauto. Qed.

  (** on grids with fewer points than the stencil needs the code reads outside the vector *)
  Lemma diff_dim_small (h : hofd F) g0 G acts res psi dim acc hr :
    let ds := g_sizes G in let p := Z.quot (h_order F h) 2 in
    h_grid F h = fold_left active_dim acts (assign g0 G) ->
    Forall (fun d => 0 < d) ds -> (dim < length ds)%nat -> zlen psi = points ds -> 1 <= p ->
    diff_dim F h res psi dim acc = Ok hr -> 2 * p <= nth dim ds 0.
  Proof.
    intros ds p Hg Pos Hd Lpsi Hp E. unfold diff_dim in E.
    apply bind_ok in E. destruct E as (hf & _ & E). apply bind_ok in E. destruct E as (cf & _ & E).
    rewrite Hg in E. change (active_dim (fold_left active_dim acts (assign g0 G)) dim) with (ready g0 G acts dim) in E.
    set (g := ready g0 G acts dim) in *. destruct (ready_info g0 G acts dim Hd) as (S1 & S2 & S3 & S4). fold g in S1, S2, S3, S4.
    fold ds in S1, S2, S3, S4. rewrite S3 in E. cbn [bind] in E. rewrite S4 in E. fold p in E.
    destruct (at_dim_ex ds dim Hd) as (lo & hi & AD). set (Nx := size_of ds dim) in *. change (nth dim ds 0) with Nx.
    apply bind_ok in E. destruct E as (res' & E & _).
    pose proof (points_pos ds Pos) as PP.
    destruct (flat_surj ds (points ds - 1) Pos ltac:(lia)) as (cs & B & Ef).
    destruct (box_remove _ _ _ _ _ cs AD B) as (B1 & B2 & B3).
    assert (PL : 0 < points lo).
    { apply points_pos. rewrite (ad_eq _ _ _ _ _ AD) in Pos. apply Forall_app in Pos. tauto. }
    assert (K0 : nth dim cs 0 = Nx - 1).
    { destruct (Z.eq_dec (nth dim cs 0) (Nx - 1)); [assumption|]. exfalso.
      destruct (box_insert _ _ _ _ _ (remove_at dim cs) (nth dim cs 0) AD B1 B2) as (_ & F1 & _).
      destruct (box_insert _ _ _ _ _ (remove_at dim cs) (nth dim cs 0 + 1) AD B1) as (I2 & F2 & _); [lia|].
      apply flat_bound in I2. rewrite F2 in I2. rewrite B3 in F1. nia. }
    assert (Fb : flat ds (insert_at dim 0 (remove_at dim cs)) = points ds - 1 - (Nx - 1) * points lo).
    { destruct (box_insert _ _ _ _ _ (remove_at dim cs) (nth dim cs 0) AD B1 B2) as (_ & F1 & _).
      rewrite B3 in F1. rewrite K0 in F1. lia. }
    set (rep := flat (remove_at dim ds) (remove_at dim cs)).
    assert (Hr : In rep (upto 0 (num_others ds dim))).
    { apply in_upto. rewrite (num_others_spec _ _ _ _ _ AD), <- (at_dim_remove _ _ _ _ _ AD). apply flat_bound. exact B1. }
    destruct (foldM_ok_in _ _ _ _ rep E Hr) as (s1 & s2 & E1).
    destruct (index_flat g0 G acts dim (remove_at dim cs) 0 Hd B1 ltac:(change (0 <= 0 < Nx); lia)) as (_ & I0 & _).
    fold g ds in I0. fold rep in I0. rewrite I0 in E1. cbn [bind] in E1. rewrite S2 in E1. cbn [bind] in E1.
    rewrite (low_others_spec _ _ _ _ _ AD) in E1. rewrite Fb in E1. set (L := points lo) in *.
    unfold diff_single in E1. apply bind_ok in E1. destruct E1 as (r1 & E1 & _).
    destruct (foldM_ok_in _ _ _ _ (p - 1) E1 ltac:(apply in_upto; lia)) as (s3 & s4 & E2).
    apply bind_ok in E2. destruct E2 as (dd & E2 & _). unfold edge_point in E2.
    apply bind_ok in E2. destruct E2 as (c & _ & E2). apply bind_ok in E2. destruct E2 as (x & _ & E2).
    apply bind_ok in E2. destruct E2 as (y & _ & E2). apply bind_ok in E2. destruct E2 as ([[db de] st] & E3 & E2).
    assert (St : st = p * L).
    { rewrite (downto_map p) in E3 by lia. replace (p - (p - 1)) with 1 in E3 by lia.
      replace (p - (p - (p - 1)) + 1) with p in E3 by lia. rewrite foldM_map in E3. revert E3.
      match goal with |- foldM ?f _ ?s = _ -> _ => set (body := f); set (ini := s) end.
      assert (Gs : forall n a0 s0, 1 <= a0 -> n = Z.to_nat (p - a0) -> a0 <= p -> snd s0 = a0 * L ->
         foldM body (upto a0 p) s0 = Ok (db, de, st) -> st = p * L).
      { induction n as [|n IH]; intros a0 s0 H1 H2 H3 H4 H5.
        - rewrite upto_nil in H5 by lia. cbn in H5. injection H5 as ->. cbn in H4. rewrite H4. f_equal. lia.
        - rewrite upto_cons in H5 by lia. cbn [foldM] in H5. apply bind_ok in H5. destruct H5 as (s5 & H5 & H6).
          apply (IH (a0 + 1) s5); try lia; [|exact H6]. unfold body in H5. destruct s0 as [[d0 e0] t0]. cbn in H4. subst t0.
          repeat (apply bind_ok in H5; destruct H5 as (? & _ & H5)). injection H5 as <-. cbn. lia. }
      intros E3. replace (p - 1 + 1) with p in E3 by lia. apply (Gs (Z.to_nat (p - 1)) 1 ini); [lia|lia|lia|change (L = 1 * L); lia|exact E3]. }
    apply bind_ok in E2. destruct E2 as (s5 & E4 & _). replace (p - 1 - (p - 1)) with 0 in E4 by lia.
    change (downto 0 0) with [0] in E4. cbn [foldM] in E4. apply bind_ok in E4. destruct E4 as (s6 & E4 & _).
    apply bind_ok in E4. destruct E4 as (cj & _ & E4). apply bind_ok in E4. destruct E4 as (r & E5 & _).
    apply rd_bounds in E5. rewrite Lpsi, St in E5. nia.
  Qed.

  Lemma with_grid_same h g : coeffs F (with_grid h g) = coeffs F h /\ (forall d, prefactor F (with_grid h g) d = prefactor F h d) /\
    h_order F (with_grid h g) = h_order F h /\ odd_deriv (with_grid h g) = odd_deriv h /\ h_pbc F (with_grid h g) = h_pbc F h /\
    forall g', with_grid (with_grid h g) g' = with_grid h g'.
  Proof. repeat split. Qed.

  (** OGridHOFD: all dimensions one after the other *)
  Lemma o_apply_spec (o : ohofd F) h g0 G acts dest src cf (hf : nat -> F) :
    let ds := g_sizes G in let p := Z.quot (h_order F h) 2 in
    o_dim F o = -1 -> o_hofd F o = Some h -> o_sizes F o = ds -> ds <> [] ->
    h_grid F h = fold_left active_dim acts (assign g0 G) ->
    Forall (fun d => 0 < d) ds -> zlen src = points ds -> zlen dest = points ds ->
    coeffs F h = Ok cf -> 0 <= p < zlen cf ->
    (forall d, (d < length ds)%nat -> prefactor F h d = Ok (hf d) /\ 2 * p <= nth d ds 0) ->
    exists r, o_apply F o dest src = Ok r /\ zlen r = points ds /\
      forall cs, in_box ds cs ->
        value r (flat ds cs) = lsum (fun d => hf d *' deriv_at cf p (odd_deriv h) (h_pbc F h) ds d src cs) (seq 0 (length ds)).
  Proof.
    intros ds p Hm Ho Hs NE Hg Pos Ls Ld Ecf Hp HD. unfold o_apply. rewrite Ho. cbn [get_opt bind]. rewrite Hm. cbn [Z.eqb].
    rewrite Hs. change (-1 =? -1) with true. cbn iota.
    assert (Hl : (0 < length ds)%nat) by (destruct ds; [contradiction|cbn; lia]).
    destruct (HD 0%nat Hl) as [HF0 HN0].
    destruct (diff_dim_spec h g0 G acts dest src 0 false cf (hf 0%nat) Hg Pos Hl Ls Ld Ecf Hp HF0 HN0) as (r0 & E0 & L0 & V0).
    rewrite E0. cbn [bind].
    destruct (foldM_inv (fun hr dim => diff_dim F (fst hr) (snd hr) src dim true)
      (fun l hr => exists acts', fst hr = with_grid h (fold_left active_dim acts' (assign g0 G)) /\ zlen (snd hr) = points ds /\
         forall cs, in_box ds cs -> value (snd hr) (flat ds cs) =
            lsum (fun d => hf d *' deriv_at cf p (odd_deriv h) (h_pbc F h) ds d src cs) (0%nat :: l))
      (seq 1 (length ds - 1)) (with_grid h (ready g0 G acts 0), r0)) as (hr & E & acts' & _ & L1 & V1).
    - exists (acts ++ [0%nat]). cbn [fst snd]. split; [rewrite fold_left_app; reflexivity|]. split; [exact L0|].
      intros cs B. rewrite V0 by exact B. cbn [lsum]. fold ds p. ring.
    - intros l x l' [h1 r1] El (acts' & E1 & L1 & V1). cbn [fst snd] in *.
      assert (Hx : (x < length ds)%nat).
      { assert (In x (seq 1 (length ds - 1))) by (rewrite El; apply in_app_iff; right; left; reflexivity).
        apply in_seq in H. lia. }
      destruct (HD x Hx) as [HFx HNx].
      destruct (diff_dim_spec h1 g0 G acts' r1 src x true cf (hf x)) as (r2 & E2 & L2 & V2); subst h1; auto.
      exists (with_grid h (ready g0 G acts' x), r2). split; [exact E2|]. exists (acts' ++ [x]). cbn [fst snd].
      split; [rewrite fold_left_app; reflexivity|]. split; [exact L2|]. intros cs B.
      assert (V3 : value r2 (flat ds cs) = value r1 (flat ds cs) +' hf x *' deriv_at cf p (odd_deriv h) (h_pbc F h) ds x src cs) by exact (V2 cs B).
      rewrite V3, V1 by exact B. rewrite app_comm_cons, lsum_app. cbn [lsum]. ring.
    - rewrite E. cbn [bind]. exists (snd hr). split; [reflexivity|]. split; [exact L1|]. intros cs B. rewrite V1 by exact B.
      replace (length ds) with (S (length ds - 1)) at 2 by lia. reflexivity.
  Qed.

  (** one dimension only *)
  Lemma o_apply_dim_spec (o : ohofd F) h g0 G acts dest src cf hf :
    let ds := g_sizes G in let p := Z.quot (h_order F h) 2 in let d := Z.to_nat (o_dim F o) in
    0 <= o_dim F o -> (d < length ds)%nat -> o_hofd F o = Some h ->
    h_grid F h = fold_left active_dim acts (assign g0 G) ->
    Forall (fun d => 0 < d) ds -> zlen src = points ds -> zlen dest = points ds ->
    coeffs F h = Ok cf -> 0 <= p < zlen cf -> prefactor F h d = Ok hf -> 2 * p <= nth d ds 0 ->
    exists r, o_apply F o dest src = Ok r /\ zlen r = points ds /\
      forall cs, in_box ds cs ->
        value r (flat ds cs) = hf *' deriv_at cf p (odd_deriv h) (h_pbc F h) ds d src cs.
  Proof.
    intros ds p d Hm Hd Ho Hg Pos Ls Ld Ecf Hp Ehf HN. unfold o_apply. rewrite Ho. cbn [get_opt bind].
    destruct (o_dim F o =? -1) eqn:E; [apply Z.eqb_eq in E; lia|]. fold d.
    destruct (diff_dim_spec h g0 G acts dest src d false cf hf Hg Pos Hd Ls Ld Ecf Hp Ehf HN) as (r & E1 & L & V).
    rewrite E1. cbn [bind snd]. exists r. split; [reflexivity|]. split; [exact L|]. intros cs B. rewrite V by exact B. fold ds p. ring.
  Qed.

  (** ** all dimensions at once, one dimensional periodic grids *)
  Lemma extend_rem n (x : Z -> F) k : 0 <= k -> 0 < n -> extend true n x k = x (Z.rem k n).
  Proof.
    intros H Hn. rewrite Z.rem_mod_nonneg by lia. unfold extend. destruct ((0 <=? k) && (k <? n)) eqn:E; [|reflexivity].
    apply andb_prop in E. destruct E as [_ E]. apply Z.ltb_lt in E. rewrite Z.mod_small by lia. reflexivity.
  Qed.
  Lemma extend_shift n (x : Z -> F) k : 0 < n -> extend true n x (n + k) = extend true n x k.
  Proof.
    intros Hn. assert (G : forall j, extend true n x j = x (j mod n)).
    { intros j. unfold extend. destruct ((0 <=? j) && (j <? n)) eqn:E; [|reflexivity]. apply andb_prop in E.
      destruct E as [E1 E2]. apply Z.leb_le in E1. apply Z.ltb_lt in E2. rewrite Z.mod_small by lia. reflexivity. }
    rewrite !G. f_equal. rewrite <- Z.add_mod_idemp_l, Z.mod_same, Z.add_0_l by lia. reflexivity.
  Qed.

  Lemma diff_all_1d (h : hofd F) g0 G acts res psi acc cf hf n :
    let p := Z.quot (h_order F h) 2 in
    g_sizes G = [n] -> 0 < n -> h_pbc F h = true ->
    h_grid F h = fold_left active_dim acts (assign g0 G) ->
    zlen psi = n -> zlen res = n ->
    coeffs F h = Ok cf -> 0 <= p < zlen cf -> prefactor F h 0 = Ok hf -> p <= n ->
    exists res', diff_all F h res psi acc = Ok res' /\ zlen res' = n /\
      forall i, 0 <= i < n ->
        value res' (flat [n] [i]) = (if acc then value res (flat [n] [i]) else c0) +'
                           hf *' deriv_at cf p (odd_deriv h) true [n] 0 psi [i].
  Proof.
    intros p Gs Hn Pb Hg Lp Lr Ecf Hp Ehf HN. unfold diff_all. rewrite Ecf. cbn [bind].
    destruct (acts_keep acts (assign g0 G)) as (A1 & A2 & _). rewrite Hg, A1, A2. cbn [assign build_info g_sizes g_lo]. rewrite Gs.
    fold p. rewrite deriv_sign_eq, Pb. cbn [length].
    replace (grid_size [n]) with n by (unfold grid_size, size_of; cbn [length seq fold_left nth]; lia).
    set (x := value psi).
    set (S := stencil (weight (value cf) p (odd_deriv h)) p (extend true n x)).
    assert (AP : forall i, 0 <= i < n -> all_point F cf psi true p n 1 (sgn (odd_deriv h)) i = Ok (S i)).
    { intros i Hi. unfold all_point. rewrite (proj2 (Z.eqb_neq n 0)) by lia. rewrite (value_ok cf p) by lia. cbn [bind].
      rewrite (value_ok psi i) by lia. cbn [bind]. rewrite (downto_map p) by lia. replace (p - (p - 1)) with 1 by lia.
      replace (p - 0 + 1) with (p + 1) by lia.
      rewrite (loop1 1 (fun m => value cf (p - m) *' (extend true n x (i - m) +' sgn (odd_deriv h) *' extend true n x (i + m)))).
      - cbn [bind fst]. f_equal. unfold S. rewrite stencil_pairs by lia. rewrite ext_in by lia. reflexivity.
      - lia.
      - lia.
      - intros m d Hm. cbn beta iota. rewrite (value_ok cf (p - m)) by lia. cbn [bind].
        rewrite !Z.mul_1_r. rewrite (value_ok psi (Z.rem (i + m) n)) by (rewrite Lp; apply Z.rem_bound_pos; lia). cbn [bind].
        rewrite (value_ok psi (Z.rem (n + i - m) n)) by (rewrite Lp; apply Z.rem_bound_pos; lia). cbn [bind].
        fold x. rewrite <- !extend_rem by lia. replace (n + i - m) with (n + (i - m)) by lia. rewrite extend_shift by lia.
        do 2 f_equal. ring. }
    destruct (foldM_update (fun i => i) (fun i a => if acc then a +' hf *' S i else hf *' S i) (upto 0 n) res) as (r & E & L & H1 & _).
    - rewrite map_id. apply upto_nodup.
    - intros i Hi. apply in_upto in Hi. lia.
    - exists r. split; [|split; [lia|]].
      + rewrite <- E.
        match goal with |- foldM ?f _ _ = foldM ?g _ _ => set (b1 := f); set (b2 := g) end.
        assert (ST : forall s i, zlen s = n -> 0 <= i < n -> exists s', b1 s i = Ok s' /\ b2 s i = Ok s' /\ zlen s' = n).
        { intros s i Hs Hi. unfold b1, b2. cbn [foldM seq].
          change (low_others [n] 0) with 1. change (size_of [n] 0) with n.
          cbn [Nat.ltb Nat.leb get_opt bind]. rewrite Ehf. cbn [bind]. rewrite AP by exact Hi. cbn [bind].
          destruct (proj1 (rd_ok s i)) as [a Ea]; [lia|]. rewrite Ea. cbn [bind].
          rewrite (wr_ok s i (if acc then _ else _)) by lia.
          eexists. split; [|split; [reflexivity|rewrite zlen_upd; exact Hs]].
          destruct acc; cbn [bind].
          - rewrite put_eq, Ea. cbn [bind]. rewrite wr_ok by lia. reflexivity.
          - rewrite wr_ok by lia. cbn [bind]. rewrite put_eq. rewrite rd_upd, Z.eqb_refl by lia. cbn [bind].
            rewrite wr_ok by (rewrite zlen_upd; lia). cbn [bind]. f_equal.
            apply rd_ext; [rewrite !zlen_upd; reflexivity|]. intros j Hj. rewrite !zlen_upd in Hj.
            rewrite (rd_upd (upd s _ _)) by (rewrite zlen_upd; lia). rewrite !rd_upd by lia.
            destruct (j =? i); [f_equal; ring|reflexivity]. }
        assert (K : forall l, (forall i, In i l -> 0 <= i < n) -> forall s, zlen s = n -> foldM b1 l s = foldM b2 l s).
        { induction l as [|i l IH]; intros Hl s Hs; [reflexivity|]. cbn [foldM].
          destruct (ST s i Hs) as (s' & -> & -> & Ls); [apply Hl; left; reflexivity|]. cbn [bind].
          apply IH; [intros; apply Hl; right; assumption|exact Ls]. }
        apply K; [intros i Hi; apply in_upto in Hi; lia|assumption].
      + intros i Hi. cbn [flat]. replace (i + n * 0) with i by lia.
        specialize (H1 i (value res i) ltac:(apply in_upto; lia) ltac:(apply value_ok; lia)).
        unfold value at 1. rewrite H1. unfold deriv_at. cbn [nth].
        assert (S i = stencil (weight (value cf) p (odd_deriv h)) p (extend true n (along [n] 0 psi [i])) i).
        { unfold S, stencil. apply lsum_ext. intros m _. f_equal.
          assert (X : forall j, x j = along [n] 0 psi [i] j).
          { intros j. unfold x, along, set_coord. cbn [firstn skipn app flat]. f_equal. lia. }
          unfold extend. rewrite X. destruct (_ && _); [reflexivity|apply X]. }
        rewrite <- H. destruct acc; ring.
  Qed.

  Lemma mixed_small (h : hofd F) g0 G acts res buf psi d1 d2 cf h1 h2 acc :
    let ds := g_sizes G in
    h_grid F h = fold_left active_dim acts (assign g0 G) ->
    (d1 < length ds)%nat -> (d2 < length ds)%nat ->
    coeffs F h = Ok cf -> prefactor F h d1 = Ok h1 -> prefactor F h d2 = Ok h2 ->
    0 <= nth d1 ds 0 < 16 ->
    diff_mixed F h res buf psi d1 d2 acc = Ok (res, buf).
  Proof.
    intros ds Hg H1 H2 Ecf P1 P2 HN. unfold diff_mixed.
    unfold prefactor in P1, P2. apply bind_ok in P1, P2. destruct P1 as (x1 & R1 & _), P2 as (x2 & R2 & _).
    rewrite R1, R2. cbn [bind]. destruct (acts_keep acts (assign g0 G)) as (A1 & A2 & _). rewrite Hg, A1, A2.
    cbn [assign build_info g_sizes g_lo]. fold ds.
    rewrite (proj2 (Nat.ltb_lt d1 _) H1), (proj2 (Nat.ltb_lt d2 _) H2). cbn [get_opt bind]. rewrite Ecf. cbn [bind].
    assert (B : block_size 16 (size_of ds d1) = 16).
    { unfold block_size, size_of. rewrite upto_nil by lia. cbn [find]. lia. }
    rewrite B. replace (Z.quot (size_of ds d1) 16) with 0 by (symmetry; apply Z.quot_small; exact HN).
    rewrite (upto_nil 0 0) by lia.
    generalize (upto 0 (num_others2 ds d1 d2)). intros l. induction l as [|a l IH]; [reflexivity|]. exact IH.
  Qed.
  (** ** masses *)
  Variable feqb : F -> F -> bool.
  Variable above : F -> bool.
  Lemma mass_loop_spec mass n fe :
    mass_loop F feqb above mass (S n) = Ok fe ->
    exists m, rd mass (Z.of_nat n) = Ok m /\ fst fe = map (fun _ => fdiv (ofZ (-1)) (ofZ 2 *' m)) mass.
  Proof.
    unfold mass_loop. rewrite seq_S, foldM_app. intros E. apply bind_ok in E. destruct E as (s & E1 & E2).
    assert (K : forall l s0 s1, foldM (fun s i => let '(factor, eff) := s in
        let* m := rd mass (Z.of_nat i) in
        if feqb m c0 then Throw else
        Ok (map (fun _ => fdiv (ofZ (-1)) (cmul (ofZ 2) m)) factor, eff || above m)) l s0 = Ok s1 ->
        length (fst s0) = length mass -> length (fst s1) = length mass).
    { induction l as [|a l IH]; intros s0 s1 E L; cbn in E; [congruence|]. apply bind_ok in E. destruct E as (s2 & Ea & Eb).
      apply (IH s2 s1 Eb). destruct s0 as [f0 e0]. apply bind_ok in Ea. destruct Ea as (m & _ & Ea).
      destruct (feqb m c0); [discriminate|]. injection Ea as <-. cbn. rewrite map_length. exact L. }
    apply K in E1; [|cbn; apply map_length]. cbn [foldM Nat.add] in E2. apply bind_ok in E2. destruct E2 as (s2 & E2 & E3).
    injection E3 as ->. destruct s as [f0 e0]. apply bind_ok in E2. destruct E2 as (m & Em & E2).
    destruct (feqb m c0); [discriminate|]. injection E2 as <-. exists m. split; [exact Em|]. cbn [fst] in *.
    clear -E1. revert f0 E1. induction mass as [|a l IH]; intros [|b f0] E; try discriminate; [reflexivity|]. cbn. f_equal. apply IH. cbn in E. lia.
  Qed.
  Lemma rd_const {A B} (c : B) (l : list A) i : 0 <= i < zlen l -> rd (map (fun _ => c) l) i = Ok c.
  Proof. intros H. rewrite rd_map. apply rd_ok in H. destruct H as [x E]. rewrite E. reflexivity. Qed.

  Lemma kinetic_spec table deriv order pbc (G : grid) dx mass o1 o cf dest src :
    let ds := g_sizes G in let p := Z.quot order 2 in
    o_init_params F table deriv order (-1) pbc = Ok o1 ->
    o_init_wf F feqb above o1 G dx (Some mass) = Ok o ->
    Forall (fun d => 0 < d) ds -> ds <> [] -> zlen src = points ds -> zlen dest = points ds ->
    length dx = length ds ->
    rd table (Z.quot ((deriv - 1) * 50) 2 + p - 1) = Ok cf -> p < zlen cf ->
    (forall d, (d < length ds)%nat -> 2 * p <= nth d ds 0) ->
    exists r m, rd mass (Z.of_nat (length ds - 1)) = Ok m /\ o_apply F o dest src = Ok r /\ zlen r = points ds /\
      forall cs, in_box ds cs ->
        value r (flat ds cs) =
        lsum (fun d => fdiv (ofZ (-1)) (ofZ 2 *' m) *' (fdiv c1 (fpow F (nth d dx c0) (Z.to_nat deriv)) *'
                       deriv_at cf p (Z.odd deriv) pbc ds d src cs)) (seq 0 (length ds)).
  Proof.
    intros ds p E1 E2 Pos NE Ls Ld Lx Ecf Hp HN. unfold o_init_params, new_hofd in E1.
    destruct (check_setup deriv order) as [[]| |] eqn:CS; try discriminate. cbn [bind] in E1. injection E1 as <-.
    unfold o_init_wf in E2. cbn [o_dim o_hofd get_opt bind] in E2. fold ds in E2.
    destruct ((Z.of_nat (length ds) <=? -1) || (-1 <? -1)); [discriminate|].
    destruct (length mass <? 1)%nat; [discriminate|]. apply bind_ok in E2. destruct E2 as (fe & Em & E2).
    destruct (snd fe); [|discriminate]. injection E2 as <-.
    destruct (length ds) as [|n] eqn:Eln; [destruct ds; [contradiction|discriminate]|].
    apply mass_loop_spec in Em. destruct Em as (m & Rm & Ef). cbn [Nat.sub]. rewrite Nat.sub_0_r.
    assert (Hml : Z.of_nat n < zlen mass) by (apply rd_bounds in Rm; lia).
    unfold check_setup in CS. destruct ((50 <? order) || negb (Z.rem order 2 =? 0) || (order <? 2)) eqn:C1; [discriminate|].
    destruct ((2 <? deriv) || (deriv <? 1)) eqn:C2; [discriminate|]. apply orb_false_elim in C1, C2.
    destruct C1 as [_ C1], C2 as [C2 C3]. apply Z.ltb_ge in C1, C2, C3.
    match goal with |- context [Some ?hh] => set (h := hh) end.
    assert (P0 : 0 <= p) by (apply Z.quot_pos; lia).
    match goal with |- context [o_apply F ?oo] => set (o := oo) end.
    destruct (o_apply_spec o h new_grid G [] dest src cf
                (fun d => fdiv c1 (fpow F (nth d dx c0) (Z.to_nat deriv)) *' c1 *' fdiv (ofZ (-1)) (ofZ 2 *' m)))
      as (r & E & L & V); try reflexivity; try assumption.
    - cbn. fold p. lia.
    - intros d Hd. split; [|apply HN; change (g_sizes G) with ds in Hd; lia].
      unfold prefactor. cbn [h h_dx set_pfac set_grid h_pfac h_deriv set_pfac1 set_pbc h_pfac1].
      change (g_sizes G) with ds in Hd.
      rewrite (rd_nth dx (Z.of_nat d) c0) by (unfold zlen; lia). cbn [bind]. rewrite Ef.
      rewrite rd_const by (unfold zlen in *; lia). cbn [bind]. rewrite Nat2Z.id. reflexivity.
    - exists r, m. split; [exact Rm|]. split; [exact E|]. split; [exact L|]. intros cs B. rewrite V by exact B.
      change (g_sizes G) with ds. rewrite Eln. apply lsum_ext. intros d _. cbn [h_order h_pbc h_deriv h].
      assert (Eo : odd_deriv h = Z.odd deriv).
      { unfold odd_deriv. cbn. assert (deriv = 1 \/ deriv = 2) as [-> | ->] by lia; reflexivity. }
      rewrite Eo. change (h_order F h ÷ 2) with p. change (h_pbc F h) with pbc. ring.
  Qed.

  Lemma kinetic_equal table deriv order pbc (G : grid) dx mass o1 o cf dest src :
    let ds := g_sizes G in let p := Z.quot order 2 in
    o_init_params F table deriv order (-1) pbc = Ok o1 ->
    o_init_wf F feqb above o1 G dx (Some mass) = Ok o ->
    Forall (fun d => 0 < d) ds -> ds <> [] -> zlen src = points ds -> zlen dest = points ds ->
    length dx = length ds -> length mass = length ds ->
    rd table (Z.quot ((deriv - 1) * 50) 2 + p - 1) = Ok cf -> p < zlen cf ->
    (forall d, (d < length ds)%nat -> 2 * p <= nth d ds 0) ->
    (forall d, (d < length ds)%nat -> nth d mass c0 = nth 0 mass c0) ->
    exists r, o_apply F o dest src = Ok r /\ zlen r = points ds /\
      forall cs, in_box ds cs -> value r (flat ds cs) =
        lsum (fun d => fdiv (ofZ (-1)) (ofZ 2 *' nth d mass c0) *' (fdiv c1 (fpow F (nth d dx c0) (Z.to_nat deriv)) *'
                       deriv_at cf p (Z.odd deriv) pbc ds d src cs)) (seq 0 (length ds)).
  Proof.
    intros ds p E1 E2 Pos NE Ls Ld Lx Lm Ecf Hp HN Eq.
    destruct (kinetic_spec table deriv order pbc G dx mass o1 o cf dest src E1 E2 Pos NE Ls Ld Lx Ecf Hp HN) as (r & m & Rm & E & L & V).
    exists r. split; [exact E|]. split; [exact L|]. intros cs B. rewrite V by exact B. apply lsum_ext. intros d Hd.
    apply in_seq in Hd. fold ds in Hd, Rm. assert (Hl : (0 < length ds)%nat) by lia.
    rewrite (rd_nth mass (Z.of_nat (length ds - 1)) c0) in Rm by (unfold zlen; rewrite Lm; lia). injection Rm as <-.
    rewrite Nat2Z.id. rewrite (Eq (length ds - 1)%nat) by lia. rewrite (Eq d) by (fold ds; lia). reflexivity.
  Qed.

End P.

Lemma setup_ok deriv order :
  check_setup deriv order = Ok tt <-> 1 <= deriv <= 2 /\ exists p, order = 2 * p /\ 1 <= p <= 25.
Proof.
  unfold check_setup. split.
  - destruct ((50 <? order) || negb (Z.rem order 2 =? 0) || (order <? 2)) eqn:C1; [discriminate|].
    destruct ((2 <? deriv) || (deriv <? 1)) eqn:C2; [discriminate|]. intros _.
    apply orb_false_elim in C1, C2. destruct C1 as [C0 C1], C2 as [C2 C3]. apply orb_false_elim in C0. destruct C0 as [C0 C4].
    apply Z.ltb_ge in C0, C1, C2, C3. apply negb_false_iff in C4. apply Z.eqb_eq in C4. split; [lia|].
    exists (Z.quot order 2). pose proof (Z.quot_rem' order 2). rewrite C4 in H. lia.
  - intros [Hd (p & -> & Hp)]. rewrite (proj2 (Z.ltb_ge 50 (2 * p))), (proj2 (Z.ltb_ge (2 * p) 2)) by lia.
    rewrite (Z.mul_comm 2 p), Z.rem_mul by lia. cbn.
    rewrite (proj2 (Z.ltb_ge 2 deriv)), (proj2 (Z.ltb_ge deriv 1)) by lia. reflexivity.
Qed.

(** ** masses and blocks *)
Lemma mass_loop_zero (F : fld) feqb above (mass : list F) n d : (n <= length mass)%nat -> (d < n)%nat -> feqb (nth d mass c0) c0 = true ->
  mass_loop F feqb above mass n = Throw.
Proof.
  intros Hn Hd H. unfold mass_loop.
  assert (G : forall l s, (forall i, In i l -> (i < length mass)%nat) -> In d l ->
    foldM (fun s i => let '(factor, eff) := s in let* m := rd mass (Z.of_nat i) in
        if feqb m c0 then Throw else Ok (map (fun _ => fdiv (ofZ (-1)) (cmul (ofZ 2) m)) factor, eff || above m)) l s = Throw).
  { induction l as [|i l IH]; intros [fa ef] Hl Hi; [contradiction|]. cbn [foldM].
    rewrite (rd_nth mass (Z.of_nat i) c0) by (specialize (Hl i (or_introl eq_refl)); unfold zlen; lia). cbn [bind]. rewrite Nat2Z.id.
    destruct Hi as [->|Hi]; [rewrite H; reflexivity|]. destruct (feqb (nth i mass c0) c0); [reflexivity|]. cbn [bind].
    apply IH; [intros j Hj; apply Hl; right; exact Hj|exact Hi]. }
  apply G; [intros i Hi; apply in_seq in Hi; lia|apply in_seq; lia].
Qed.
Lemma zero_mass (F : fld) feqb above (o1 : ohofd F) h (G : grid) dx mass d :
  o_hofd F o1 = Some h -> -1 <= o_dim F o1 < Z.of_nat (length (g_sizes G)) -> (length (g_sizes G) <= length mass)%nat ->
  (d < length (g_sizes G))%nat -> feqb (nth d mass c0) c0 = true -> o_init_wf F feqb above o1 G dx (Some mass) = Throw.
Proof.
  intros E Hd Hl Hi H. unfold o_init_wf. rewrite E. destruct (Z.leb_spec (Z.of_nat (length (g_sizes G))) (o_dim F o1)); [lia|].
  destruct (Z.ltb_spec (o_dim F o1) (-1)); [lia|]. cbn [orb get_opt bind]. destruct (Nat.ltb_spec (length mass) 1); [lia|].
  rewrite (mass_loop_zero F feqb above mass _ d Hl Hi H). reflexivity.
Qed.
Lemma find_upto f b n : match find f (upto b n) with
  | Some k => b <= k < n /\ f k = true /\ forall j, b <= j < k -> f j = false
  | None => forall j, b <= j < n -> f j = false end.
Proof.
  remember (Z.to_nat (n - b)) as m eqn:E. revert b E. induction m as [|m IH]; intros b E.
  - rewrite upto_nil by lia. cbn [find]. intros j Hj. lia.
  - rewrite upto_cons by lia. cbn [find]. destruct (f b) eqn:Fb; [split; [lia|]; split; [exact Fb|intros; lia]|].
    specialize (IH (b + 1) ltac:(lia)). destruct (find f (upto (b + 1) n)) as [k|].
    + destruct IH as (B & Fk & N). split; [lia|]. split; [exact Fk|]. intros j Hj. destruct (Z.eq_dec j b) as [->|]; [exact Fb|]. apply N. lia.
    + intros j Hj. destruct (Z.eq_dec j b) as [->|]; [exact Fb|]. apply IH. lia.
Qed.
Lemma block_size_ok b n : 1 <= b ->
  (n < b -> block_size b n = b) /\
  (b <= n -> b <= block_size b n <= n /\ n mod block_size b n = 0 /\ forall k, b <= k < block_size b n -> n mod k <> 0).
Proof.
  intros Hb. unfold block_size. pose proof (find_upto (fun k => Z.rem n k =? 0) b n) as Q.
  assert (RM : forall k, b <= k -> b <= n -> Z.rem n k = n mod k) by (intros k H1 H2; apply Z.rem_mod_nonneg; lia).
  split.
  - intros H. rewrite upto_nil in * by lia. cbn [find]. lia.
  - intros H. destruct (find _ _) as [k|].
    + destruct Q as (B & Fk & N). apply Z.eqb_eq in Fk. rewrite RM in Fk by lia. split; [lia|]. split; [exact Fk|].
      intros j Hj. specialize (N j Hj). apply Z.eqb_neq in N. rewrite RM in N by lia. exact N.
    + rewrite Z.max_r by lia. split; [lia|]. split; [apply Z.mod_same; lia|]. intros j Hj. specialize (Q j Hj). apply Z.eqb_neq in Q. rewrite RM in Q by lia. exact Q.
Qed.
