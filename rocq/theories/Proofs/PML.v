From Coq Require Import List ZArith Lia Bool Arith.
From Verif Require Import Base Arrays Model.Grid Spec.Grid Proofs.Grid Proofs.Stripes Model.PML Spec.PML.
Import ListNotations.
Open Scope Z_scope.

(** the sides the code acts on *)
Definition code_begin (side : Z) : bool := negb (side =? 2).
Definition code_end (side : Z) : bool := negb (side =? 1).

Lemma code_sides side : side = 1 \/ side = 2 \/ side = 3 -> code_begin side = at_begin side /\ code_end side = at_end side.
Proof. intros [->|[->| ->]]; split; reflexivity. Qed.

Lemma foldM_ok_inv {A S} (P : S -> Prop) (f : S -> A -> outcome S) l s s' x :
  (forall s a s', P s -> In a l -> f s a = Ok s' -> P s') -> P s ->
  foldM f l s = Ok s' -> In x l -> exists s1 s2, P s1 /\ f s1 x = Ok s2.
Proof.
  revert s; induction l as [|a t IH]; intros s HP Ps E Hx; [destruct Hx|]. cbn in E. destruct (f s a) as [u| |] eqn:E1; try discriminate.
  destruct Hx as [<-|Hx]; [eauto|]. apply (IH u); auto. 2: eapply HP; eauto; left; reflexivity.
  intros s1 b s2 H1 H2. apply HP; [exact H1|right; exact H2].
Qed.
Lemma foldM_keep {A S} (P : S -> Prop) (f : S -> A -> outcome S) l s s' :
  (forall s a s', P s -> In a l -> f s a = Ok s' -> P s') -> P s -> foldM f l s = Ok s' -> P s'.
Proof.
  revert s; induction l as [|a t IH]; intros s HP Ps E; cbn in E; [congruence|]. destruct (f s a) as [u| |] eqn:E1; try discriminate.
  apply (IH u); auto. 2: eapply HP; eauto; left; reflexivity.
  intros s1 b s2 H1 H2. apply HP; [exact H1|right; exact H2].
Qed.

Section P.
  Context {T : Type}.
  Variable mul : T -> T -> T.

  Definition fac (fs : list T) (i : Z) (x : T) : T := match rd fs i with Ok f => mul x f | _ => x end.

  Definition updates (b e : bool) (t Nx : Z) (fs : list T) : list (Z * (T -> T)) :=
    flat_map (fun i => (if b then [(i, fac fs i)] else []) ++ (if e then [(Nx - 1 - i, fac fs i)] else [])) (upto 0 t).

  Lemma bind_id {A} (x : outcome A) : (let* y := x in Ok y) = x.
  Proof. destruct x; reflexivity. Qed.

  Lemma layer_updates side t fs base Nx lo v : t <= zlen fs ->
    layer mul side t fs base Nx lo v =
    foldM (fun v kf => let* x := rd v (base + fst kf * lo) in wr v (base + fst kf * lo) (snd kf x))
      (updates (code_begin side) (code_end side) t Nx fs) v.
  Proof.
    intros Lf. unfold layer, updates. rewrite foldM_flat_map. apply foldM_ext. intros i s Hi. apply in_upto in Hi.
    destruct (proj1 (rd_ok fs i) ltac:(lia)) as [f Ef]. rewrite Ef. unfold code_begin, code_end.
    replace (base + (Nx - 1) * lo - i * lo) with (base + (Nx - 1 - i) * lo) by ring. cbv zeta.
    destruct (side =? 1) eqn:E1; [destruct (side =? 2) eqn:E2; [apply Z.eqb_eq in E1, E2; lia|]|];
      [|destruct (side =? 2) eqn:E2]; cbn [negb app foldM bind fst snd]; unfold scale_at, fac; rewrite ?Ef; rewrite ?bind_id; try reflexivity.
    destruct (let* x := rd s (base + i * lo) in wr s (base + i * lo) (mul x f)); cbn [bind]; auto. rewrite bind_id. reflexivity.
  Qed.

  Definition opened (g0 G : grid) acts : grid := fold_left active_dim acts (assign g0 G).

  Lemma scale_at_len v a f v' : scale_at mul v a f = Ok v' -> zlen v' = zlen v /\ 0 <= a < zlen v.
  Proof.
    unfold scale_at. destruct (rd v a) as [x| |] eqn:E; cbn; try discriminate. intros W. apply wr_inv in W. destruct W as [B ->].
    split; [apply zlen_upd|exact B].
  Qed.

  Definition body (side : Z) fs base Nx lo (v : list T) (i : Z) : outcome (list T) :=
        let step := i * lo in
        if side =? 1 then
          let* f := rd fs i in scale_at mul v (base + step) f
        else if side =? 2 then
          let* f := rd fs i in scale_at mul v (base + (Nx - 1) * lo - step) f
        else
          let* f := rd fs i in
          let* v := scale_at mul v (base + step) f in
          scale_at mul v (base + (Nx - 1) * lo - step) f.
  Lemma body_len side fs base Nx lo v i v' : body side fs base Nx lo v i = Ok v' -> zlen v' = zlen v /\
    (side <> 2 -> base + i * lo < zlen v) /\ (side = 2 -> 0 <= base + (Nx - 1) * lo - i * lo).
  Proof.
    unfold body. cbv zeta. destruct (side =? 1) eqn:E1; [|destruct (side =? 2) eqn:E2];
      (destruct (rd fs i) as [f| |]; cbn [bind]; try discriminate).
    - apply Z.eqb_eq in E1. intros H. apply scale_at_len in H. lia.
    - apply Z.eqb_eq in E2. intros H. apply scale_at_len in H. lia.
    - apply Z.eqb_neq in E2. destruct (scale_at mul v (base + i * lo) f) as [w| |] eqn:E; cbn [bind]; try discriminate. intros H.
      apply scale_at_len in H, E. lia.
  Qed.

  (** a layer that does not fit leaves the vector *)
  Lemma stripes_bad g0 G acts m fs v v' : m_grid m = opened g0 G acts -> Forall (fun d => 0 < d) (g_sizes G) ->
    (m_dim m < length (g_sizes G))%nat -> zlen v = points (g_sizes G) ->
    size_of (g_sizes G) (m_dim m) < m_thick m -> all_stripes mul m fs v <> Ok v'.
  Proof.
    intros Eg Pos Hd Lv Ht E. set (dim := m_dim m) in *. set (Nx := size_of (g_sizes G) dim) in *.
    destruct (stripes g0 G acts dim Pos Hd) as (no & lo & bse & E1 & E2 & Plo & Pno & PN & IB & BD & INJ & CS & (r1 & R1 & Z1) & (r0 & R0 & Z0)).
    fold Nx in PN, BD, Z1. unfold all_stripes in E. rewrite Eg in E. fold dim in E.
    change (active_dim (opened g0 G acts) dim) with (ready g0 G acts dim) in E.
    rewrite E2, E1 in E. cbn [bind] in E. destruct (ready_info g0 G acts dim Hd) as (Es & _). rewrite Es in E. fold Nx in E.
    set (sd := m_side m) in *.
    assert (ST : forall rep, 0 <= rep < no -> exists w w', zlen w = points (g_sizes G) /\ body sd fs (bse rep) Nx lo w Nx = Ok w').
    { intros rep Hr. assert (LL : forall b s s', layer mul sd (m_thick m) fs b Nx lo s = Ok s' -> zlen s = points (g_sizes G) -> zlen s' = points (g_sizes G)).
      { intros b s s' EL Ls. apply (foldM_keep (fun w => zlen w = points (g_sizes G)) (body sd fs b Nx lo) (upto 0 (m_thick m)) s); auto.
        intros s1 a s2 L1 _ EB. apply body_len in EB. lia. }
      destruct (fun a => foldM_ok_inv (fun w : list T => zlen w = points (g_sizes G)) _ _ _ _ rep a Lv E) as (w & w' & Lw & W).
      - intros s a s' Ls _ Ei. destruct (IndexBase _ a); cbn [bind] in Ei; try discriminate. eapply LL; eassumption.
      - apply in_upto. lia.
      - destruct (IB rep Hr) as [Ib _]. rewrite Ib in W. cbn [bind] in W.
        destruct (foldM_ok_inv (fun w => zlen w = points (g_sizes G)) (body sd fs (bse rep) Nx lo) (upto 0 (m_thick m)) w w' Nx) as (s1 & s2 & A & B); auto.
        + intros s a s' Ls _ Eb. apply body_len in Eb. lia.
        + apply in_upto. lia.
        + eauto. }
    destruct (Z.eq_dec sd 2) as [e|e].
    - destruct (ST r0 R0) as (w & w' & Lw & W). apply body_len in W. nia.
    - destruct (ST r1 R1) as (w & w' & Lw & W). apply body_len in W. nia.
  Qed.

  Lemma init_inv g lmap thick factors dim (m : pml (T := T)) : init_params g lmap thick factors dim = Ok m ->
    m_dim m = dim /\ m_grid m = g /\ 0 <= m_thick m /\ m_f1 m = fst (factors (m_thick m)) /\ m_df1 m = snd (factors (m_thick m)) /\
    0 <= m_side m <= 3 /\ (lmap = None -> m_side m = 3) /\
    (thick = None -> m_thick m = 10) /\ (thick <> None -> m_thick m <= size_of (g_sizes g) dim).
  Proof.
    unfold init_params. destruct lmap as [lm|], thick as [th|]; cbn [bind];
      repeat (match goal with |- bind (bind ?a _) _ = _ -> _ => let E := fresh "P" in destruct a eqn:E; cbn [bind]; try discriminate end;
        match goal with |- context [if ?c then _ else _] => let E := fresh "C" in destruct c eqn:E; cbn [bind]; try discriminate end);
      match goal with |- context [if ?c then _ else _] => let E := fresh "C" in destruct c eqn:E; cbn [bind]; try discriminate end;
      intros H; injection H; intros; subst m; cbn [m_dim m_grid m_thick m_f1 m_df1 m_side];
      repeat match goal with H : (_ || _)%bool = false |- _ => apply orb_false_iff in H; destruct H end;
      repeat match goal with H : (_ <? _) = false |- _ => apply Z.ltb_ge in H end;
      repeat split; try lia; try congruence.
  Qed.

  (** a parameter with exactly dim entries passes the check and is read behind its end *)
  Lemma pick_behind val dim : zlen val = Z.of_nat dim -> dim <> 1%nat -> pick val dim = UB.
  Proof.
    intros L N. unfold pick. rewrite (proj2 (Z.ltb_ge _ _)), andb_false_r by lia.
    rewrite (proj2 (Z.eqb_neq _ _)) by lia. apply rd_ub. lia.
  Qed.

  Hypothesis swap : forall x a b, mul (mul x a) b = mul (mul x b) a.

  Lemma scaled_swap fs is x f : scaled mul fs is (mul x f) = mul (scaled mul fs is x) f.
  Proof.
    unfold scaled. revert x; induction is as [|i t IH]; intros x; cbn; [reflexivity|].
    destruct (rd fs i); cbn; [rewrite swap|..]; apply IH.
  Qed.
  Lemma scaled_fac fs is i x : scaled mul fs is (fac fs i x) = fac fs i (scaled mul fs is x).
  Proof. unfold fac. destruct (rd fs i); auto. apply scaled_swap. Qed.
  Lemma scaled_app fs a b x : scaled mul fs (a ++ b) x = scaled mul fs b (scaled mul fs a x).
  Proof. apply fold_left_app. Qed.

  Lemma updates_at b e n Nx fs k x : 0 <= k < Nx ->
    at_coord k (updates b e (Z.of_nat n) Nx fs) x = scaled mul fs (depths b e (Z.of_nat n) Nx k) x.
  Proof.
    intros Hk. induction n as [|n IH].
    - unfold updates, depths. change (Z.of_nat 0) with 0. rewrite upto_nil by lia.
      rewrite (proj2 (Z.ltb_ge k 0)), (proj2 (Z.ltb_ge (Nx - 1 - k) 0)), !andb_false_r by lia. reflexivity.
    - unfold updates in *. replace (Z.of_nat (S n)) with (Z.of_nat n + 1) by lia. rewrite upto_snoc by lia.
      rewrite flat_map_app. unfold at_coord in *. rewrite fold_left_app, IH. clear IH. set (t := Z.of_nat n). cbn [flat_map]. rewrite app_nil_r.
      rewrite fold_left_app. unfold depths. rewrite !scaled_app.
      assert (Bg : forall y, fold_left (fun x kf => if fst kf =? k then snd kf x else x) (if b then [(t, fac fs t)] else []) y =
         if b && (t =? k) then fac fs t y else y) by (intros y; destruct b; reflexivity).
      assert (En : forall y, fold_left (fun x kf => if fst kf =? k then snd kf x else x) (if e then [(Nx - 1 - t, fac fs t)] else []) y =
         if e && (Nx - 1 - t =? k) then fac fs t y else y) by (intros y; destruct e; reflexivity).
      rewrite Bg, En. clear Bg En.
      assert (D : forall (c : bool) d y, scaled mul fs (if c && (d <? t + 1) then [d] else []) y =
         (if c && (t =? d) then fac fs t else (fun z => z)) (scaled mul fs (if c && (d <? t) then [d] else []) y)).
      { intros c d y. destruct c; [|reflexivity]. cbn [andb]. destruct (t =? d) eqn:E.
        - apply Z.eqb_eq in E; subst d. rewrite (proj2 (Z.ltb_lt t (t + 1))), (proj2 (Z.ltb_ge t t)) by lia. reflexivity.
        - apply Z.eqb_neq in E. replace (d <? t + 1) with (d <? t); [reflexivity|]. apply eq_true_iff_eq. rewrite !Z.ltb_lt. lia. }
      rewrite !D. replace (t =? Nx - 1 - k) with (Nx - 1 - t =? k) by (apply eq_true_iff_eq; rewrite !Z.eqb_eq; lia).
      destruct (b && (t =? k)), (e && (Nx - 1 - t =? k)); rewrite ?scaled_fac; reflexivity.
  Qed.

  (** what the code does, for every layer that fits *)
  Lemma stripes_exact g0 G acts m fs v : m_grid m = opened g0 G acts -> Forall (fun d => 0 < d) (g_sizes G) ->
    (m_dim m < length (g_sizes G))%nat -> zlen v = points (g_sizes G) -> 0 <= m_thick m <= zlen fs ->
    m_thick m <= size_of (g_sizes G) (m_dim m) ->
    exists v', all_stripes mul m fs v = Ok v' /\ zlen v' = zlen v /\
      forall cs x, in_box (g_sizes G) cs -> rd v (flat (g_sizes G) cs) = Ok x ->
        rd v' (flat (g_sizes G) cs) =
        Ok (scaled mul fs (depths (code_begin (m_side m)) (code_end (m_side m)) (m_thick m) (size_of (g_sizes G) (m_dim m)) (nth (m_dim m) cs 0)) x).
  Proof.
    intros Eg Pos Hd Lv Hf Ht. set (dim := m_dim m) in *. set (Nx := size_of (g_sizes G) dim) in *.
    set (L := updates (code_begin (m_side m)) (code_end (m_side m)) (m_thick m) Nx fs).
    destruct (stripe_fold g0 G acts dim L v Pos Hd Lv) as (no & lo & v' & E1 & E2 & E3 & Lr & H).
    { intros kf Hk. unfold L, updates in Hk. apply in_flat_map in Hk. destruct Hk as (i & Hi & Hk). apply in_upto in Hi. fold Nx.
      apply in_app_iff in Hk. destruct Hk as [Hk|Hk]; [destruct (code_begin _)|destruct (code_end _)];
        cbn in Hk; try contradiction; (destruct Hk as [<-|Hk]; [cbn [fst]; lia|contradiction]). }
    exists v'. split.
    - unfold all_stripes. rewrite Eg. fold dim. change (active_dim (opened g0 G acts) dim) with (ready g0 G acts dim).
      rewrite E2, E1. cbn [bind]. rewrite <- E3. apply foldM_ext. intros rep s _. destruct (IndexBase _ rep); cbn [bind]; auto.
      rewrite layer_updates by lia. destruct (ready_info g0 G acts dim Hd) as (-> & _). reflexivity.
    - split; [exact Lr|]. intros cs x B Ex. rewrite (H cs x B Ex). f_equal. unfold L.
      replace (m_thick m) with (Z.of_nat (Z.to_nat (m_thick m))) by lia. apply updates_at.
      destruct (at_dim_ex (g_sizes G) dim Hd) as (l1 & l2 & AD). apply (box_remove _ _ _ _ _ cs AD B).
  Qed.

End P.

(** ** C48 *)

Definition C48_stmt (P : forall T, @pml T -> Prop) : Prop :=
  forall T (mul : T -> T -> T) (cj : T -> T), (forall x a b, mul (mul x a) b = mul (mul x b) a) ->
  forall g0 G acts lmap thick factors dim (m : @pml T) v (conj : bool),
  Forall (fun d => 0 < d) (g_sizes G) -> (dim < length (g_sizes G))%nat -> zlen v = points (g_sizes G) -> sized factors ->
  init_params (opened g0 G acts) lmap thick factors dim = Ok m -> P T m ->
  exists v', apply_transform mul cj m v conj = Ok v' /\ zlen v' = zlen v /\
    forall cs x, in_box (g_sizes G) cs -> rd v (flat (g_sizes G) cs) = Ok x ->
      let fs := if conj then map cj (m_f1 m) else m_f1 m in
      let ks := depths (at_begin (m_side m)) (at_end (m_side m)) (m_thick m) (size_of (g_sizes G) dim) (nth dim cs 0) in
      (length ks <= 1)%nat /\ rd v' (flat (g_sizes G) cs) = Ok (scaled mul fs ks x).

Lemma fitting_sizes {T} (cj : T -> T) m factors (conj : bool) : sized factors -> 0 <= m_thick m ->
  m_f1 m = fst (factors (m_thick m)) -> m_thick m <= zlen (if conj then map cj (m_f1 m) else m_f1 m).
Proof. intros S P E. destruct (S _ P) as [L _]. rewrite E. destruct conj; rewrite ?zlen_map; lia. Qed.

Lemma layer_once : C48_stmt (fun T m => m_side m <> 0 /\
  m_thick m <= size_of (g_sizes (m_grid m)) (m_dim m) /\
  (m_side m = 3 -> 2 * m_thick m <= size_of (g_sizes (m_grid m)) (m_dim m))).
Proof.
  intros T mul cj swap g0 G acts lmap thick factors dim m v conj Pos Hd Lv S E (H0 & H1 & H2).
  apply init_inv in E. destruct E as (Ed & Eg & Pt & F1 & _ & Hs & _). subst dim.
  assert (Es : g_sizes (m_grid m) = g_sizes G) by (rewrite Eg; apply (proj1 (acts_keep acts (assign g0 G)))). rewrite Es in *.
  pose proof (fitting_sizes cj m factors conj S Pt F1) as Lf.
  destruct (stripes_exact mul swap g0 G acts m _ v Eg Pos Hd Lv (Logic.conj Pt Lf) H1) as (v' & A & B & C).
  exists v'. split; [exact A|]. split; [exact B|]. intros cs x Bx Ex fs ks. destruct (code_sides (m_side m)) as [S1 S2]; [lia|].
  specialize (C cs x Bx Ex). rewrite S1, S2 in C. split; [|exact C].
  destruct (at_dim_ex (g_sizes G) (m_dim m) Hd) as (l1 & l2 & AD). destruct (box_remove _ _ _ _ _ cs AD Bx) as (_ & R & _).
  unfold ks, depths. destruct (at_begin (m_side m)) eqn:B1, (at_end (m_side m)) eqn:B2; cbn [andb app length];
   repeat match goal with |- context [if ?c then _ else _] => destruct c eqn:?; cbn [app length] end; try lia.
  apply Z.ltb_lt in Heqb, Heqb0. unfold at_begin, at_end in B1, B2.
  apply orb_true_iff in B1, B2. rewrite !Z.eqb_eq in B1, B2. lia.
Qed.
