(** Lemmas on the vector class: retired storage; whole runs; leaks. *)
From Coq Require Import List ZArith Lia Bool Arith.
From Verif Require Import Base Arrays Model.Vec Spec.Vec Proofs.Vec Proofs.VecOps Proofs.VecStore Proofs.VecRun Proofs.VecRef.
Import ListNotations.
Open Scope Z_scope.

Section P.
  Context {A : Type}.
  Variable junk : nat -> Z -> A.
  Variables (add mul : A -> A -> A).
  Notation heap := (heap A). Notation st := (st A). Notation abs := (abs A). Notation avec := (avec A).
  Notation good := (good junk add mul). Notation astep := (astep A add mul).

  Definition re_p (v : vec) (ps : list (option nat)) : vec := mkVec ps (v_n v) (v_obj v) (v_src v) (v_lock v) (v_str v) (v_len v) (v_ref v).
  Lemma re_p_same v : re_p v (v_p v) = v.
  Proof. destruct v; reflexivity. Qed.
  Lemma upd_alivev (vs : list (option vec)) i v : alivev vs i = Some v -> upd vs i (Some v) = vs.
  Proof. intros E. apply upd_same. unfold alivev in E. destruct (nth_error vs i); congruence. Qed.
  Lemma upd_comm {B} (l : list B) i j x y : i <> j -> upd (upd l i x) j y = upd (upd l j y) i x.
  Proof. revert i j; induction l as [|z l IH]; intros [|i] [|j] N; cbn; try reflexivity; [congruence|]. f_equal. apply IH. congruence. Qed.
  Lemma foldM_sim {S T} (f : S -> Z -> outcome S) (g : T -> Z -> outcome T) (emb : Z -> S -> T) b : forall a, a <= b -> (forall k x x', a <= k < b -> f x k = Ok x' -> g (emb k x) k = Ok (emb (k + 1) x')) ->
    forall x x', foldM f (upto a b) x = Ok x' -> foldM g (upto a b) (emb a x) = Ok (emb b x').
  Proof.
    intros a Hab. remember (Z.to_nat (b - a)) as n eqn:En. revert a Hab En. induction n as [|n IH]; intros a Hab En Hs x x' E.
    - assert (a = b) by lia. subst b. rewrite upto_nil in * by lia. cbn in *. congruence.
    - rewrite upto_cons in * by lia. cbn [foldM] in *. destruct (f x a) as [x1| |] eqn:E1; try discriminate. cbn [bind] in *. rewrite (Hs a x x1) by (auto; lia). cbn [bind]. apply IH; try lia; [|exact E]. intros k y y' Hk. apply Hs. lia.
  Qed.
  Definition at_vec (s : st) (h : heap) (i : nat) (v : vec) : st := mkSt A h (s_arrays A s) (upd (s_vecs A s) i (Some v)).
  Lemma obj_at (s : st) h i v : (i < length (s_vecs A s))%nat -> obj A (at_vec s h i v) i = Ok v.
  Proof. intros L. apply obj_alive. cbn. rewrite alivev_upd, Nat.eqb_refl by exact L. reflexivity. Qed.

  (** ** an owner *)
  Lemma retire_op f (s : st) i v h' : alivev (s_vecs A s) i = Some v -> v_lock v = false -> v_str v = Z.of_nat (length (v_p v)) -> v_obj v = repeat None (length (v_p v)) ->
    foldM (fun h k => let* p := rd (v_p v) k in free A h p) (upto 0 (v_str v)) (s_heap A s) = Ok h' ->
    retire A (S f) s i = Ok (at_vec s h' i (re_p v (repeat None (length (v_p v))))).
  Proof.
    intros Av Lk Es Eo Ef. cbn [retire]. rewrite (obj_alive s i v Av). cbn [bind]. rewrite Lk. pose proof (alivev_lt _ _ _ Av) as Lv.
    set (emb := fun (k : Z) (h : heap) => at_vec s h i (re_p v (repeat None (Z.to_nat k) ++ skipn (Z.to_nat k) (v_p v)))).
    assert (E0 : emb 0 (s_heap A s) = s). { unfold emb, at_vec. cbn. rewrite re_p_same, upd_alivev by exact Av. destruct s; reflexivity. }
    rewrite <- E0 at 1. erewrite (foldM_sim _ _ emb (v_str v) 0); [|lia| |exact Ef].
    - unfold emb. rewrite Es, Nat2Z.id, skipn_all, app_nil_r. reflexivity.
    - intros k h h1 Hk Eh. cbv beta in Eh. unfold emb. rewrite obj_at by exact Lv. cbn [bind re_p v_obj v_p].
      assert (Ek : nth_error (v_p v) (Z.to_nat k) <> None) by (apply nth_error_Some; lia). destruct (nth_error (v_p v) (Z.to_nat k)) as [p|] eqn:Ep; [|contradiction]. rewrite (proj1 (rd_nth_error (v_p v) k p ltac:(lia)) Ep) in Eh. cbn [bind] in Eh.
      rewrite Eo. rewrite (proj1 (rd_nth_error _ k None ltac:(lia))) by (rewrite (nth_error_nth' _ None) by (rewrite repeat_length; lia); rewrite nth_repeat; reflexivity). cbn [bind].
      assert (Lm : length (repeat (@None nat) (Z.to_nat k) ++ skipn (Z.to_nat k) (v_p v)) = length (v_p v)) by (rewrite app_length, repeat_length, skipn_length; lia).
      assert (Em : nth_error (repeat None (Z.to_nat k) ++ skipn (Z.to_nat k) (v_p v)) (Z.to_nat k) = Some p).
      { rewrite nth_error_app2, repeat_length, Nat.sub_diag by (rewrite repeat_length; lia). rewrite <- Ep. clear. generalize (Z.to_nat k). generalize (v_p v). intros l n. revert n. induction l as [|z l IH]; intros [|n]; try reflexivity. exact (IH n). }
      rewrite (proj1 (rd_nth_error _ k p ltac:(lia)) Em). cbn [bind]. cbn [at_vec s_heap]. rewrite Eh. cbn [bind]. rewrite (obj_alive _ i (re_p v (repeat None (Z.to_nat k) ++ skipn (Z.to_nat k) (v_p v)))) by (cbn; rewrite alivev_upd, Nat.eqb_refl by exact Lv; reflexivity).
      cbn [bind re_p v_p v_n v_obj v_src v_lock v_str v_len v_ref]. rewrite wr_ok by (unfold zlen; rewrite Lm; lia). cbn [bind]. unfold at_vec, put, with_heap, re_p. cbn [s_heap s_arrays s_vecs v_n v_obj v_src v_lock v_str v_len v_ref]. rewrite upd_upd. do 4 f_equal. f_equal.
      replace (Z.to_nat (k + 1)) with (S (Z.to_nat k)) by lia. clear - Ep. revert Ep. generalize (Z.to_nat k). generalize (v_p v). intros l n. revert n. induction l as [|z l IH]; intros [|n] E; cbn in *; try discriminate; [reflexivity|]. f_equal. apply IH. exact E.
  Qed.
  Lemma retire_R h vs (a : abs) i s n d v : R h vs a -> alive A a i = Some (Own A false s n d) -> alivev vs i = Some v -> (forall i' lk' n' l k, alive A a i' = Some (Ref A lk' n' l true) -> nth_error l k <> Some (Some i)) ->
    exists h', foldM (fun h k => let* p := rd (v_p v) k in free A h p) (upto 0 (v_str v)) h = Ok h' /\ R h' (upd vs i (Some (re_p v (repeat None (length (v_p v)))))) (upd a i (Some (Own A false s n None))) /\
      v_lock v = false /\ v_str v = Z.of_nat (length (v_p v)) /\ v_obj v = repeat None (length (v_p v)).
  Proof.
    intros H Ax Av Nl. destruct (kill_own h vs a i false s n d v H Ax Av) as (h' & E & H'). exists h'. split; [exact E|]. pose proof (alive_lt a i _ Ax) as Li. destruct (r_obj h vs a i _ H Ax) as (v' & Av' & Sh). rewrite Av in Av'. injection Av' as <-.
    destruct Sh as (S1 & S2 & S3 & S4 & S5 & S6 & S7 & S8). cbn in S2, S4. split; [|rewrite S4; auto].
    rewrite <- (upd_upd a i None), <- (upd_upd vs i None). apply void_R.
    - exact H'.
    - rewrite upd_length. exact Li.
    - rewrite alive_upd, Nat.eqb_refl by exact Li. reflexivity.
    - unfold shape, size. cbn. rewrite repeat_length. auto 10.
    - intros k. cbn. destruct (nth_error (repeat (@None nat) (length (v_p v))) k) as [p|] eqn:Q; [|left; reflexivity]. right. apply nth_error_In, repeat_spec in Q. congruence.
    - intros i' lk' n' l q k E' Hl. rewrite alive_upd in E' by exact Li. destruct (Nat.eqb_spec i' i); [discriminate|]. destruct (r_links h vs a H i' lk' n' l q k i E' Hl) as [_ [D|(lk2 & d2 & D & _)]]; [congruence|]. rewrite Ax in D. injection D as <- -> -> <-.
      destruct q; [destruct (Nl _ _ _ _ _ E' Hl)|]. auto.
  Qed.
  Lemma reaquire_op f (s : st) i v h' ps : alivev (s_vecs A s) i = Some v -> v_lock v = false -> v_str v = Z.of_nat (length (v_p v)) -> v_obj v = repeat None (length (v_p v)) -> v_p v = repeat None (length (v_p v)) -> 0 < v_len v ->
    storage A junk (s_heap A s) (v_len v) (length (v_p v)) = (h', ps) -> reaquire A junk (S f) s i = Ok (at_vec s h' i (re_p v ps)).
  Proof.
    intros Av Lk Es Eo Ep Hl Est. cbn [reaquire]. rewrite (obj_alive s i v Av). cbn [bind]. rewrite Lk. pose proof (alivev_lt _ _ _ Av) as Lv. set (h := s_heap A s) in *. set (m := length (v_p v)) in *.
    set (hh := fun k => h ++ map (fun j => Some (block A junk j (v_len v))) (seq (length h) k)). set (pp := fun k => map Some (seq (length h) k) ++ repeat None (m - k)).
    assert (Lpp : forall k, (k <= m)%nat -> length (pp k) = m) by (intros k Hk; unfold pp; rewrite app_length, map_length, seq_length, repeat_length; lia).
    assert (Npp : forall k, (k < m)%nat -> nth_error (pp k) k = Some None).
    { intros k Hk. unfold pp. rewrite nth_error_app2; rewrite map_length, seq_length; [|lia]. rewrite Nat.sub_diag. destruct (m - k)%nat eqn:Q; [lia|reflexivity]. }
    match goal with |- foldM ?f _ _ = _ => set (body := f) end.
    destruct (foldM_upto body (fun k s' => s' = at_vec s (hh (Z.to_nat k)) i (re_p v (pp (Z.to_nat k)))) 0 (v_str v) s) as (s' & E & Es').
    - lia.
    - unfold hh, pp. cbn. rewrite app_nil_r, Nat.sub_0_r, <- Ep, re_p_same. unfold at_vec. rewrite upd_alivev by exact Av. unfold h. destruct s; reflexivity.
    - intros k s' Hk ->. set (k0 := Z.to_nat k). assert (Hk0 : (k0 < m)%nat) by (unfold k0; lia). replace (Z.to_nat (k + 1)) with (S k0) by (unfold k0; lia). unfold body. rewrite obj_at by exact Lv. cbn [bind re_p v_p v_obj v_len].
      rewrite (proj1 (rd_nth_error (pp k0) k None ltac:(lia)) (Npp k0 Hk0)). cbn [bind]. rewrite Eo. rewrite (proj1 (rd_nth_error _ k None ltac:(lia))) by (rewrite (nth_error_nth' _ None) by (rewrite repeat_length; fold k0; lia); rewrite nth_repeat; reflexivity). cbn [bind]. unfold alloc. cbn [bind].
      rewrite (obj_alive _ i (re_p v (pp k0))) by (cbn; rewrite alivev_upd, Nat.eqb_refl by exact Lv; reflexivity). cbn [bind re_p v_p v_n v_obj v_src v_lock v_str v_len v_ref]. rewrite wr_ok by (unfold zlen; rewrite Lpp by lia; fold k0; lia). cbn [bind]. eexists. split; [reflexivity|].
      unfold at_vec, put, with_heap, re_p. cbn [s_heap s_arrays s_vecs v_n v_obj v_src v_lock v_str v_len v_ref]. rewrite upd_upd. fold k0.
      assert (Lh : length (hh k0) = (length h + k0)%nat) by (unfold hh; rewrite app_length, map_length, seq_length; reflexivity).
      assert (Eh : hh k0 ++ [Some (block A junk (length (hh k0)) (v_len v))] = hh (S k0)). { rewrite Lh. unfold hh. rewrite seq_S, map_app, app_assoc. reflexivity. }
      assert (Epp : upd (pp k0) k0 (Some (length (hh k0))) = pp (S k0)).
      { rewrite Lh. unfold pp. rewrite seq_S, map_app. destruct (m - k0)%nat eqn:Q; [lia|]. replace (m - S k0)%nat with n by lia. cbn [repeat map]. rewrite <- app_assoc. cbn [app].
        assert (L1 : length (map (@Some nat) (seq (length h) k0)) = k0) by (rewrite map_length, seq_length; reflexivity). revert L1. generalize (map (@Some nat) (seq (length h) k0)). generalize (Some (length h + k0)%nat). clear. intros z l <-. induction l as [|y l IH]; cbn; [reflexivity|]. f_equal. exact IH. }
      rewrite Eh, Epp. reflexivity.
    - rewrite E, Es'. rewrite storage_some in Est by exact Hl. injection Est as <- <-. rewrite Es, Nat2Z.id. unfold hh, pp. rewrite Nat.sub_diag. cbn [repeat]. rewrite app_nil_r. reflexivity.
  Qed.
  Lemma reaquire_R h vs (a : abs) i s n v h' ps : R h vs a -> alive A a i = Some (Own A false s n None) -> alivev vs i = Some v -> storage A junk h (v_len v) (length (v_p v)) = (h', ps) ->
    R h' (upd vs i (Some (re_p v ps))) (upd a i (Some (Own A false s n (Some (fresh A s n))))) /\ v_lock v = false /\ v_str v = Z.of_nat (length (v_p v)) /\ v_obj v = repeat None (length (v_p v)) /\ v_p v = repeat None (length (v_p v)) /\ v_len v = Z.of_nat n.
  Proof.
    intros H Ax Av Est. destruct (r_obj h vs a i _ H Ax) as (v' & Av' & Sh). rewrite Av in Av'. injection Av' as <-. destruct Sh as (S1 & S2 & S3 & S4 & S5 & S6 & S7 & S8). cbn in S2, S3, S4. rewrite S3, S4 in Est.
    destruct (storage_spec junk h n s h' ps Est) as (Lp & _). split.
    - eapply fill_own; [exact H|exact Ax|exact Est|reflexivity|]. unfold shape, size. cbn. auto 10.
    - rewrite S4. split; [auto|]. split; [auto|]. split; [auto|]. split; [|exact S3]. destruct (r_data h vs a H i false s n None Ax) as [_ D]. rewrite <- S4. clear - Av D. assert (X : forall k p, nth_error (v_p v) k = Some p -> p = None).
      { intros k p Q. specialize (D k). unfold ptr in D. rewrite Av, Q in D. exact D. }
      revert X. generalize (v_p v). clear. intros l X. induction l as [|p l IH]; cbn; [reflexivity|]. f_equal; [apply (X O); reflexivity|]. apply IH. intros k q Q. apply (X (S k)). exact Q.
  Qed.
  Lemma reaquire_full f (s : st) i v : alivev (s_vecs A s) i = Some v -> v_str v = Z.of_nat (length (v_p v)) -> (forall k, nth_error (v_p v) k <> Some None) -> reaquire A junk (S f) s i = Ok s.
  Proof.
    intros Av Es Hp. cbn [reaquire]. rewrite (obj_alive s i v Av). cbn [bind]. destruct (v_lock v); [reflexivity|].
    match goal with |- foldM ?f _ _ = _ => set (body := f) end. destruct (foldM_upto body (fun _ s' => s' = s) 0 (v_str v) s) as (s' & E & ->); [lia|reflexivity| |exact E].
    intros k s' Hk ->. exists s. split; [|reflexivity]. unfold body. rewrite (obj_alive s i v Av). cbn [bind]. destruct (nth_error (v_p v) (Z.to_nat k)) as [[b|]|] eqn:Q; [|destruct (Hp _ Q)|apply nth_error_None in Q; lia].
    rewrite (proj1 (rd_nth_error _ k _ ltac:(lia)) Q). reflexivity.
  Qed.
  Lemma own_full h vs (a : abs) i lk s n d v : R h vs a -> alive A a i = Some (Own A lk s n (Some d)) -> alivev vs i = Some v -> (0 < n)%nat -> v_str v = Z.of_nat (length (v_p v)) /\ forall k, nth_error (v_p v) k <> Some None.
  Proof.
    intros H Ax Av Hn. destruct (r_obj h vs a i _ H Ax) as (v' & Av' & Sh). rewrite Av in Av'. injection Av' as <-. destruct Sh as (S1 & S2 & S3 & S4 & _). cbn in S2, S4. split; [congruence|]. intros k Q. destruct (r_data h vs a H i lk s n _ Ax) as (_ & Ld & D).
    assert (Hk : (k < length (v_p v))%nat) by (apply nth_error_Some; congruence). destruct (nth_error d k) as [l|] eqn:El; [|apply nth_error_None in El; lia]. destruct (D k l El) as [Ll Sl]. unfold ptr in Sl. rewrite Av, Q in Sl. destruct Sl as [[_ ->]|(b & c & Z & _)]; [cbn in Ll; lia|discriminate].
  Qed.

  (** ** a vector of references *)
  Definition alike (x y : option avec) : Prop := match x, y with Some (Own _ _ s n _), Some (Own _ _ s' n' _) => s = s' /\ n = n' | _, _ => x = y end.
  Lemma alike_refl x : alike x x.
  Proof. destruct x as [[|]|]; cbn; auto. Qed.
  Lemma alike_trans x y z : alike x y -> alike y z -> alike x z.
  Proof. destruct x as [[|]|]; destruct y as [[|]|]; destruct z as [[|]|]; cbn; try congruence; try (intros [-> ->] [-> ->]; auto). Qed.
  Lemma each_snoc (f : option avec -> option (option avec)) l m (a : abs) : each A f (l ++ [Some m]) a = match each A f l a with Some a1 => match f (alive A a1 m) with Some x => Some (upd a1 m x) | None => None end | None => None end.
  Proof. revert a; induction l as [|[m'|] l IH]; intros a; cbn; [destruct (f (alive A a m)); reflexivity| |reflexivity]. destruct (f (alive A a m')); [apply IH|reflexivity]. Qed.
  Lemma each_prefix (f : option avec -> option (option avec)) l l' (a a' : abs) : each A f (l ++ l') a = Some a' -> exists a1, each A f l a = Some a1 /\ each A f l' a1 = Some a'.
  Proof. revert a; induction l as [|[m|] l IH]; intros a E; cbn in *; [eauto| |discriminate]. destruct (f (alive A a m)); [apply IH; exact E|discriminate]. Qed.
  Lemma each_other (f : option avec -> option (option avec)) l (a a' : abs) i : (forall k, nth_error l k <> Some (Some i)) -> each A f l a = Some a' -> each A f l (upd a i None) = Some (upd a' i None) /\ nth_error a' i = nth_error a i.
  Proof.
    revert a; induction l as [|[m|] l IH]; intros a Hl E; cbn in *; [injection E as <-; auto| |discriminate]. assert (Nm : m <> i) by (intros ->; apply (Hl O); reflexivity).
    assert (Em : alive A (upd a i None) m = alive A a m) by (unfold alive; rewrite upd_nth; destruct (Nat.eqb_spec m i); [contradiction|reflexivity]). rewrite Em. destruct (f (alive A a m)) as [x|]; [|discriminate].
    rewrite (upd_comm a i m) by congruence. destruct (IH (upd a m x) (fun k => Hl (S k)) E) as [I1 I2]. split; [exact I1|]. rewrite I2, upd_nth. destruct (Nat.eqb_spec i m); [congruence|reflexivity].
  Qed.
  Lemma each_some (f : option avec -> option (option avec)) l (a a' : abs) k : each A f l a = Some a' -> (k < length l)%nat -> exists m, nth_error l k = Some (Some m).
  Proof. revert a k; induction l as [|[m|] l IH]; intros a k E Hk; cbn in *; [lia| |discriminate]. destruct (f (alive A a m)); [|discriminate]. destruct k as [|k]; [exists m; reflexivity|]. apply (IH _ _ E). lia. Qed.
  Lemma each_alive (f : option avec -> option (option avec)) l (a a' : abs) m k : (forall x y, f x = Some y -> x <> None) -> (forall x y, f x = Some y -> y <> None -> alike x y) -> each A f l a = Some a' -> nth_error l k = Some (Some m) -> (forall x y, f x = Some y -> y <> None) -> alive A a m <> None.
  Proof.
    intros F1 F2. revert a k; induction l as [|[m'|] l IH]; intros a k E Hk F3; cbn in *; [destruct k; discriminate| |discriminate]. destruct (f (alive A a m')) as [x|] eqn:Q; [|discriminate]. destruct k as [|k]; cbn in Hk; [injection Hk as <-; apply (F1 _ _ Q)|].
    specialize (IH _ _ E Hk F3). intros Z. apply IH. unfold alive in *. rewrite upd_nth. destruct (Nat.eqb_spec m m') as [->|]; [|exact Z]. destruct (nth_error a m') eqn:T; [|reflexivity]. exfalso. apply (F1 _ _ Q). exact Z.
  Qed.
  Lemma retire_one_facts x y : retire_one A x = Some y -> x <> None /\ y <> None /\ alike x y.
  Proof. destruct x as [[[|] s n d|]|]; cbn; intros E; try discriminate; injection E as <-; cbn; repeat split; discriminate. Qed.
  Lemma reaquire_one_facts x y : reaquire_one A x = Some y -> x <> None /\ y <> None /\ alike x y.
  Proof. destruct x as [[[|] s n [d|]|]|]; cbn; intros E; try discriminate; injection E as <-; cbn; repeat split; discriminate. Qed.

  (** the state inside the loops over the strides of [i]: everything but [i] itself is in order *)
  Definition during (s : st) (a : abs) (i : nat) (v : vec) (b : abs) (s' : st) (ps : list (option nat)) : Prop :=
    R (s_heap A s') (upd (s_vecs A s') i None) b /\ alivev (s_vecs A s') i = Some (re_p v ps) /\ length (s_vecs A s') = length (s_vecs A s) /\ length ps = length (v_p v) /\ (forall o, alike (alive A (upd a i None) o) (alive A b o)).
  Lemma during_ref s a i v b s' ps o lk n l q : during s a i v b s' ps -> alive A b o = Some (Ref A lk n l q) -> alive A (upd a i None) o = Some (Ref A lk n l q).
  Proof. intros (_ & _ & _ & _ & D) E. specialize (D o). rewrite E in D. destruct (alive A (upd a i None) o) as [[|]|]; cbn in D; congruence. Qed.
  Lemma during_end s a i v lk n l b s' ps q : Rs s a -> alive A a i = Some (Ref A lk n l true) \/ alive A a i = Some (Ref A lk n l false) -> alivev (s_vecs A s) i = Some v -> during s a i v b s' ps ->
    (forall k m, nth_error l k = Some (Some m) -> alive A b m <> None /\ (q = true -> (forall lk' s0 n0 d, alive A b m = Some (Own A lk' s0 n0 d) -> d <> None) /\ nth_error ps k = Some (ptr (upd (s_vecs A s') i None) m 0))) ->
    (q = false -> forall k, nth_error ps k = None \/ nth_error ps k = Some None) -> (q = true -> forall k, (k < length l)%nat -> exists m, nth_error l k = Some (Some m)) ->
    Rs s' (upd b i (Some (Ref A lk n l q))).
  Proof.
    intros H Ax Av (H' & Av' & Lv & Lps & D) Hl Hq Hq2. assert (Ax' : exists q0, alive A a i = Some (Ref A lk n l q0)) by (destruct Ax; eauto). clear Ax. destruct Ax' as [q0 Ax]. pose proof (alive_lt a i _ Ax) as Li.
    pose proof (r_len _ _ _ H') as Lb. rewrite upd_length in Lb. pose proof (alivev_lt _ _ _ Av) as Lvi. pose proof (r_len _ _ _ H) as La.
    destruct (r_obj _ _ a i _ H Ax) as (v' & Av2 & Sh). rewrite Av in Av2. injection Av2 as <-. destruct Sh as (S1 & S2 & S3 & S4 & S5 & S6 & S7 & S8 & S9 & S10 & S11 & S12). cbn in S2, S3, S4, S5.
    unfold Rs. rewrite <- (upd_alivev _ i _ Av'), <- (upd_upd (s_vecs A s') i None). apply ref_R.
    - exact H'.
    - lia.
    - specialize (D i). rewrite alive_upd, Nat.eqb_refl in D by exact Li. cbn in D. destruct (alive A b i) as [[|]|]; congruence.
    - intros (i' & lk' & n' & l' & q' & k' & E' & Hl'). apply (during_ref s a i v b s' ps i' lk' n' l' q') in E'; [|split; auto]. apply (not_named_none a i i (ref_free _ _ a i lk n l q0 H Ax)). exists i', lk', n', l', q', k'. auto.
    - unfold shape, size. cbn. split; [exact S1|]. split; [exact S2|]. split; [exact S3|]. split; [congruence|]. split; [exact S5|]. split; [exact S6|]. split; [exact S7|]. split; [exact S8|]. split; [exact S9|]. split; [exact S10|]. split; [exact S11|].
      intros k p Q. destruct q; [|destruct (Hq eq_refl k); congruence]. split; [reflexivity|]. apply Hq2; [reflexivity|]. rewrite <- S4, <- Lps. apply nth_error_Some. congruence.
    - intros k m Hm. destruct (link_facts junk _ _ a i lk n l q0 v k m H Ax Av Hm) as (Lm & Nm & Nn & F). split; [lia|]. split; [exact Nm|]. split.
      + intros (i' & lk' & n' & l' & q' & k' & E' & Hl'). apply (during_ref s a i v b s' ps i' lk' n' l' q') in E'; [|split; auto]. apply Nn. exists i', lk', n', l', q', k'. auto.
      + right. destruct (Hl k m Hm) as [Ab Hqq]. specialize (D m). destruct F as [F|(lk2 & d2 & F & _)]; rewrite F in D; cbn in D; [congruence|]. destruct (alive A b m) as [[lk3 s3 n3 d3|]|] eqn:Eb; try discriminate. destruct D as [<- <-]. exists lk3, d3. split; [reflexivity|].
        intros Y. destruct (Hqq Y) as [Q1 Q2]. split; [eapply Q1; reflexivity|exact Q2].
    - intros k k' m Hm Hm'. apply (r_uniq _ _ a H i i lk lk n n l l q0 q0 k k' m Ax Ax Hm Hm').
  Qed.
  Lemma each_links h vs (a a' : abs) i lk n l q f : R h vs a -> alive A a i = Some (Ref A lk n l q) -> each A f l a = Some a' -> (forall x y, f x = Some y -> x <> None /\ y <> None /\ alike x y) -> forall k, nth_error l k <> Some (Some i).
  Proof. intros H Ax E F k Q. destruct (r_links h vs a H i lk n l q k i Ax Q) as [_ [D|(? & ? & D & _)]]; congruence. Qed.
  Lemma during_start s a i v x : Rs s a -> alive A a i = Some x -> (exists lk n l q, x = Ref A lk n l q) -> alivev (s_vecs A s) i = Some v -> during s a i v (upd a i None) s (v_p v).
  Proof. intros H Ax (lk & n & l & q & ->) Av. split; [apply (kill_ref _ _ a i lk n l q H Ax)|]. split; [rewrite re_p_same; exact Av|]. split; [reflexivity|]. split; [reflexivity|]. intros o. apply alike_refl. Qed.
  Lemma put_vecs s' i (v0 : vec) m (vm : vec) h : m <> i -> upd (s_vecs A (put A (at_vec s' h m vm) i v0)) i None = upd (upd (s_vecs A s') i None) m (Some vm).
  Proof. intros N. cbn. rewrite upd_upd. apply upd_comm. exact N. Qed.
  Lemma alike_upd (a : abs) m x : alike (alive A a m) x -> alive A a m <> None -> forall o, alike (alive A a o) (alive A (upd a m x) o).
  Proof. intros Q N o. assert (L : (m < length a)%nat) by (destruct (alive A a m) eqn:E; [eapply alive_lt; exact E|contradiction]). rewrite alive_upd by exact L. destruct (Nat.eqb_spec o m) as [->|]; [exact Q|apply alike_refl]. Qed.
  Lemma app_firstn {B} (l : list B) k : firstn k l ++ skipn k l = l.
  Proof. apply firstn_skipn. Qed.

  Lemma retire_ref_good s a i n l q a' : Rs s a -> alive A a i = Some (Ref A false n l q) -> each A (retire_one A) l a = Some a' -> exists s', retire A (depth A s) s i = Ok s' /\ Rs s' (upd a' i (Some (Ref A false n l false))).
  Proof.
    intros H Ax E. destruct (r_obj _ _ a i _ H Ax) as (v & Av & Sh). destruct Sh as (S1 & S2 & S3 & S4 & S5 & S6 & S7 & S8 & S9 & S10 & S11 & S12). cbn in S2, S3, S4.
    pose proof (each_links _ _ a a' i false n l q _ H Ax E retire_one_facts) as Nl. destruct (each_other _ l a a' i Nl E) as [E' _]. unfold depth. remember (S (length (s_vecs A s))) as fu eqn:Elen. cbn [retire]. rewrite (obj_alive s i v Av). cbn [bind]. rewrite S7.
    match goal with |- exists s', foldM ?f _ _ = _ /\ _ => set (body := f) end.
    destruct (foldM_upto body (fun k s' => exists b, each A (retire_one A) (firstn (Z.to_nat k) l) (upd a i None) = Some b /\ during s a i v b s' (repeat None (Z.to_nat k) ++ skipn (Z.to_nat k) (v_p v))) 0 (v_str v) s) as (s' & Es & b & Eb & Db).
    - lia.
    - cbn. exists (upd a i None). split; [reflexivity|]. eapply during_start; eauto 6.
    - intros k s' Hk (b & Eb & Db). set (k0 := Z.to_nat k) in *. replace (Z.to_nat (k + 1)) with (S k0) by (unfold k0; lia). assert (Hk0 : (k0 < length l)%nat) by (unfold k0; lia).
      destruct (each_some _ _ _ _ k0 E Hk0) as [m Hm]. rewrite (firstn_snoc l k0 _ Hm), each_snoc, Eb.
      assert (Ef : exists x, retire_one A (alive A b m) = Some x).
      { rewrite <- (app_firstn l (S k0)) in E'. apply each_prefix in E'. destruct E' as (a1 & E1 & _). rewrite (firstn_snoc l k0 _ Hm), each_snoc, Eb in E1. destruct (retire_one A (alive A b m)); [eauto|discriminate]. }
      destruct Ef as [x Ef]. rewrite Ef. destruct (retire_one_facts _ _ Ef) as (F1 & F2 & F3). destruct Db as (H' & Av' & Lv & Lps & D).
      assert (Nm : m <> i) by (intros ->; apply (Nl k0 Hm)). pose proof (alivev_lt _ _ _ Av') as Lv'.
      set (ps := repeat None k0 ++ skipn k0 (v_p v)) in *.
      assert (Ek : exists p, nth_error (v_p v) k0 = Some p). { destruct (nth_error (v_p v) k0) eqn:Q; [eauto|]. apply nth_error_None in Q. lia. } destruct Ek as [p Ek].
      assert (Eps : upd ps k0 None = repeat None (S k0) ++ skipn (S k0) (v_p v)).
      { unfold ps. revert Ek. generalize (v_p v). generalize k0. clear. intros n l. revert n. induction l as [|z l IH]; intros [|n] E; cbn in *; try discriminate; [reflexivity|]. f_equal. apply IH. exact E. }
      assert (St : exists s1, retire A fu s' m = Ok s1 /\ R (s_heap A s1) (upd (s_vecs A s1) i None) (upd b m x) /\ alivev (s_vecs A s1) i = Some (re_p v ps) /\ length (s_vecs A s1) = length (s_vecs A s)).
      { destruct fu as [|len]; [discriminate|]. destruct (alive A b m) as [[[|] s0 n0 d|]|] eqn:Em; try discriminate; injection Ef as <-.
        - destruct (r_obj _ _ b m _ H' Em) as (vm & Avm & Shm). rewrite alivev_upd in Avm by exact Lv'. destruct (Nat.eqb_spec m i); [contradiction|]. exists s'. split; [|rewrite (upd_same b m) by (unfold alive in Em; destruct (nth_error b m); congruence); auto].
          cbn [retire]. rewrite (obj_alive s' m vm Avm). cbn [bind]. destruct Shm as (_ & _ & _ & _ & _ & _ & -> & _). reflexivity.
        - destruct (r_obj _ _ b m _ H' Em) as (vm & Avm & _). destruct (retire_R _ _ b m s0 n0 d vm H' Em Avm) as (h2 & Eh & H2 & L1 & L2 & L3).
          { intros i' lk' n' l' k' Ei' Hl'. apply (during_ref s a i v b s' ps i' lk' n' l' true) in Ei'; [|split; auto]. pose proof (link_facts junk _ _ a i false n l q v k0 m H Ax Av Hm) as (_ & _ & Nn & _). apply Nn. exists i', lk', n', l', true, k'. auto. }
          rewrite alivev_upd in Avm by exact Lv'. destruct (Nat.eqb_spec m i); [contradiction|]. exists (at_vec s' h2 m (re_p vm (repeat None (length (v_p vm))))). split; [apply retire_op; assumption|]. cbn [at_vec s_heap s_vecs]. rewrite (upd_comm _ m i) by congruence. split; [exact H2|].
          rewrite alivev_upd by (apply alivev_lt in Avm; exact Avm). destruct (Nat.eqb_spec i m); [congruence|]. rewrite upd_length. auto. }
      destruct St as (s1 & Es1 & H1 & Av1 & Lv1). unfold body. rewrite (obj_alive s' i _ Av'). cbn [bind re_p v_obj]. rewrite S6. rewrite (proj1 (rd_nth_error l k (Some m) ltac:(lia)) Hm). cbn [bind]. rewrite Es1. cbn [bind]. rewrite (obj_alive s1 i _ Av1). cbn [bind re_p v_p v_n v_obj v_src v_lock v_str v_len v_ref].
      rewrite wr_ok by (unfold zlen; lia). cbn [bind]. eexists. split; [reflexivity|]. exists (upd b m x). split; [reflexivity|]. fold k0. rewrite Eps. split; [cbn [put s_heap s_vecs]; rewrite upd_upd; exact H1|]. split; [cbn [put s_vecs]; rewrite alivev_upd, Nat.eqb_refl by (apply alivev_lt in Av1; exact Av1); reflexivity|].
      split; [cbn; rewrite upd_length; exact Lv1|]. split; [rewrite <- Eps, upd_length; exact Lps|]. intros o. eapply alike_trans; [apply D|]. apply alike_upd; [exact F3|exact F1].
    - exists s'. split; [exact Es|]. rewrite S2, Nat2Z.id in Eb, Db. rewrite firstn_all in Eb. rewrite E' in Eb. injection Eb as <-. rewrite <- (upd_upd a' i None).
      eapply during_end; [exact H|destruct q; [left|right]; exact Ax|exact Av|exact Db| | |].
      + intros k m Hm. split; [|discriminate]. assert (Ab : alive A (upd a i None) m <> None). { eapply (each_alive (retire_one A)); [intros x y Q; exact (proj1 (retire_one_facts x y Q))|intros x y Q _; exact (proj2 (proj2 (retire_one_facts x y Q)))|exact E'|exact Hm|intros x y Q; exact (proj1 (proj2 (retire_one_facts x y Q)))]. }
        destruct Db as (_ & _ & _ & _ & D). specialize (D m). intros Z. rewrite Z in D. destruct (alive A (upd a i None) m) as [[|]|]; try (cbn in D; congruence); contradiction.
      + intros _ k. rewrite skipn_all2 by lia. rewrite app_nil_r. destruct (nth_error (repeat (@None nat) (length l)) k) as [p|] eqn:Q; [|left; reflexivity]. right. apply nth_error_In, repeat_spec in Q. congruence.
      + discriminate.
  Qed.
  Lemma reaquire_ref_good s a i n l a' : Rs s a -> alive A a i = Some (Ref A false n l false) -> each A (reaquire_one A) l a = Some a' -> exists s', reaquire A junk (depth A s) s i = Ok s' /\ Rs s' (upd a' i (Some (Ref A false n l true))).
  Proof.
    intros H Ax E. destruct (r_obj _ _ a i _ H Ax) as (v & Av & Sh). destruct Sh as (S1 & S2 & S3 & S4 & S5 & S6 & S7 & S8 & S9 & S10 & S11 & S12). cbn in S2, S3, S4.
    pose proof (each_links _ _ a a' i false n l false _ H Ax E reaquire_one_facts) as Nl. destruct (each_other _ l a a' i Nl E) as [E' _]. unfold depth. remember (S (length (s_vecs A s))) as fu eqn:Elen. cbn [reaquire]. rewrite (obj_alive s i v Av). cbn [bind]. rewrite S7.
    match goal with |- exists s', foldM ?f _ _ = _ /\ _ => set (body := f) end.
    destruct (foldM_upto body (fun k s' => exists b ps, each A (reaquire_one A) (firstn (Z.to_nat k) l) (upd a i None) = Some b /\ during s a i v b s' ps /\ (forall j, (Z.to_nat k <= j)%nat -> nth_error ps j = nth_error (v_p v) j) /\
        forall j m, (j < Z.to_nat k)%nat -> nth_error l j = Some (Some m) -> (forall lk' s0 n0 d, alive A b m = Some (Own A lk' s0 n0 d) -> d <> None) /\ nth_error ps j = Some (ptr (upd (s_vecs A s') i None) m 0)) 0 (v_str v) s) as (s' & Es & b & ps & Eb & Db & _ & Pb).
    - lia.
    - cbn. exists (upd a i None), (v_p v). split; [reflexivity|]. split; [eapply during_start; eauto 6|]. split; [reflexivity|]. intros; lia.
    - intros k s' Hk (b & ps & Eb & Db & Pt & Pb). set (k0 := Z.to_nat k) in *. replace (Z.to_nat (k + 1)) with (S k0) by (unfold k0; lia). assert (Hk0 : (k0 < length l)%nat) by (unfold k0; lia).
      destruct (each_some _ _ _ _ k0 E Hk0) as [m Hm]. rewrite (firstn_snoc l k0 _ Hm), each_snoc, Eb.
      assert (Ef : exists x, reaquire_one A (alive A b m) = Some x).
      { rewrite <- (app_firstn l (S k0)) in E'. apply each_prefix in E'. destruct E' as (a1 & E1 & _). rewrite (firstn_snoc l k0 _ Hm), each_snoc, Eb in E1. destruct (reaquire_one A (alive A b m)); [eauto|discriminate]. }
      destruct Ef as [x Ef]. rewrite Ef. destruct (reaquire_one_facts _ _ Ef) as (F1 & F2 & F3). destruct Db as (H' & Av' & Lv & Lps & D).
      assert (Nm : m <> i) by (intros ->; apply (Nl k0 Hm)). pose proof (alivev_lt _ _ _ Av') as Lv'.
      assert (Ek : nth_error ps k0 = Some None).
      { rewrite Pt by lia. destruct (nth_error (v_p v) k0) as [[p|]|] eqn:Q; [destruct (S12 _ _ Q) as [Z _]; discriminate|reflexivity|apply nth_error_None in Q; lia]. }
      (* the shape of the master *)
      assert (Sm : exists lk' d, alive A b m = Some (Own A lk' 1 n d)).
      { destruct (link_facts junk _ _ a i false n l false v k0 m H Ax Av Hm) as (_ & _ & _ & F). specialize (D m). destruct F as [F|(lk2 & d2 & F & _)]; rewrite F in D; cbn in D; [congruence|]. destruct (alive A b m) as [[lk3 s3 n3 d3|]|]; try discriminate. destruct D as [<- <-]. eauto. }
      destruct Sm as (lkm & dm & Em).
      assert (St : exists s1 wm dx, reaquire A junk fu s' m = Ok s1 /\ R (s_heap A s1) (upd (s_vecs A s1) i None) (upd b m x) /\ alivev (s_vecs A s1) i = Some (re_p v ps) /\ length (s_vecs A s1) = length (s_vecs A s) /\
          alivev (s_vecs A s1) m = Some wm /\ x = Some (Own A lkm 1 n (Some dx)) /\ (forall o, o <> m -> o <> i -> alivev (s_vecs A s1) o = alivev (s_vecs A s') o)).
      { destruct fu as [|len]; [discriminate|]. destruct (r_obj _ _ b m _ H' Em) as (vm & Avm & Shm). rewrite Em in Ef. destruct dm as [dm|].
        - assert (Ex : x = Some (Own A lkm 1 n (Some dm))) by (destruct lkm; cbn in Ef; congruence). destruct (own_full _ _ b m lkm 1 n dm vm H' Em Avm S9) as [Q1 Q2]. rewrite alivev_upd in Avm by exact Lv'. destruct (Nat.eqb_spec m i); [contradiction|].
          exists s', vm, dm. split; [eapply reaquire_full; eassumption|]. split; [rewrite Ex, (upd_same b m) by (unfold alive in Em; destruct (nth_error b m); congruence); exact H'|]. auto 10.
        - destruct lkm; [discriminate|]. cbn in Ef. injection Ef as <-. destruct (storage A junk (s_heap A s') (v_len vm) (length (v_p vm))) as [h2 ps2] eqn:Est. destruct (reaquire_R _ _ b m 1 n vm h2 ps2 H' Em Avm Est) as (H2 & L1 & L2 & L3 & L4 & L5).
          rewrite alivev_upd in Avm by exact Lv'. destruct (Nat.eqb_spec m i); [contradiction|]. exists (at_vec s' h2 m (re_p vm ps2)), (re_p vm ps2), (fresh A 1 n). split; [apply reaquire_op; auto; lia|]. cbn [at_vec s_heap s_vecs]. rewrite (upd_comm _ m i) by congruence. split; [exact H2|].
          assert (Lm : (m < length (s_vecs A s'))%nat) by (apply alivev_lt in Avm; exact Avm). rewrite !alivev_upd by exact Lm. rewrite Nat.eqb_refl. destruct (Nat.eqb_spec i m); [congruence|]. rewrite upd_length. split; [exact Av'|]. split; [exact Lv|]. split; [reflexivity|]. split; [reflexivity|].
          intros o No _. rewrite alivev_upd by exact Lm. destruct (Nat.eqb_spec o m); [contradiction|reflexivity]. }
      destruct St as (s1 & wm & dx & Es1 & H1 & Av1 & Lv1 & Avm & Ex & Oth). unfold body. rewrite (obj_alive s' i _ Av'). cbn [bind re_p v_obj v_p v_src]. rewrite (proj1 (rd_nth_error ps k None ltac:(lia)) Ek). cbn [bind]. rewrite S6. rewrite (proj1 (rd_nth_error l k (Some m) ltac:(lia)) Hm). cbn [bind]. rewrite Es1. cbn [bind].
      rewrite (obj_alive s1 m wm Avm). cbn [bind]. rewrite (proj1 (rd_nth_error (v_src v) k 0 ltac:(lia))) by (apply (S11 _ m); exact Hm). cbn [bind].
      pose proof (alivev_lt _ _ _ Av1) as L1. pose proof (alivev_lt _ _ _ Avm) as Lm1.
      assert (Ep0 : nth_error (v_p wm) 0 = Some (ptr (upd (s_vecs A s1) i None) m 0)).
      { assert (Ax1 : alive A (upd b m x) m = Some (Own A lkm 1 n (Some dx))) by (rewrite alive_upd, Nat.eqb_refl by (eapply alive_lt; exact Em); exact Ex). destruct (r_obj _ _ _ m _ H1 Ax1) as (w' & Aw' & Shw). rewrite alivev_upd in Aw' by exact L1. destruct (Nat.eqb_spec m i); [contradiction|]. rewrite Avm in Aw'. injection Aw' as <-.
        destruct Shw as (_ & _ & _ & Lw & _). cbn in Lw. rewrite ptr_upd by exact L1. destruct (Nat.eqb_spec m i); [contradiction|]. unfold ptr. rewrite Avm. destruct (nth_error (v_p wm) 0) eqn:Q; [reflexivity|]. apply nth_error_None in Q. lia. }
      rewrite (proj1 (rd_nth_error (v_p wm) 0 _ ltac:(lia)) Ep0). cbn [bind]. rewrite (obj_alive s1 i _ Av1). cbn [bind re_p v_p v_n v_obj v_src v_lock v_str v_len v_ref]. rewrite wr_ok by (unfold zlen; lia). cbn [bind]. eexists. split; [reflexivity|].
      exists (upd b m x), (upd ps k0 (ptr (upd (s_vecs A s1) i None) m 0)). split; [reflexivity|]. fold k0. split; [|split].
      + split; [cbn [put s_heap s_vecs]; rewrite upd_upd; exact H1|]. split; [cbn [put s_vecs]; rewrite alivev_upd, Nat.eqb_refl by exact L1; reflexivity|]. split; [cbn; rewrite upd_length; exact Lv1|]. split; [rewrite upd_length; exact Lps|].
        intros o. eapply alike_trans; [apply D|]. apply alike_upd; [exact F3|exact F1].
      + intros j Hj. rewrite upd_nth. destruct (Nat.eqb_spec j k0); [lia|]. apply Pt. lia.
      + intros j m' Hj Hm'. cbn [put s_vecs]. rewrite upd_upd. destruct (Nat.eq_dec j k0) as [->|Nj].
        * rewrite Hm in Hm'. injection Hm' as <-. split; [|rewrite upd_nth, Nat.eqb_refl, Ek; reflexivity]. intros lk' s0 n0 d Q. rewrite alive_upd, Nat.eqb_refl in Q by (eapply alive_lt; exact Em). rewrite Ex in Q. injection Q as _ _ _ <-. discriminate.
        * assert (Nm' : m' <> m). { intros ->. apply Nj. apply (r_uniq _ _ a H i i false false n n l l false false j k0 m Ax Ax Hm' Hm). } assert (Ni' : m' <> i) by (intros ->; apply (Nl j Hm')).
          destruct (Pb j m' ltac:(lia) Hm') as [Q1 Q2]. split.
          -- intros lk' s0 n0 d Q. rewrite alive_upd in Q by (eapply alive_lt; exact Em). destruct (Nat.eqb_spec m' m); [contradiction|]. apply (Q1 _ _ _ _ Q).
          -- rewrite upd_nth. destruct (Nat.eqb_spec j k0); [contradiction|]. rewrite Q2. f_equal. rewrite !ptr_upd by lia. destruct (Nat.eqb_spec m' i); [contradiction|]. unfold ptr. rewrite Oth by assumption. reflexivity.
    - exists s'. split; [exact Es|]. rewrite S2, Nat2Z.id in Eb, Pb. rewrite firstn_all in Eb. rewrite E' in Eb. injection Eb as <-. rewrite <- (upd_upd a' i None).
      eapply during_end; [exact H|right; exact Ax|exact Av|exact Db| | |].
      + intros k m Hm. assert (Hk : (k < length l)%nat) by (apply nth_error_Some; congruence). split; [|intros _; apply (Pb k m Hk Hm)].
        assert (Ab : alive A (upd a i None) m <> None). { eapply (each_alive (reaquire_one A)); [intros x y Q; exact (proj1 (reaquire_one_facts x y Q))|intros x y Q _; exact (proj2 (proj2 (reaquire_one_facts x y Q)))|exact E'|exact Hm|intros x y Q; exact (proj1 (proj2 (reaquire_one_facts x y Q)))]. }
        destruct Db as (_ & _ & _ & _ & D). specialize (D m). intros Z. rewrite Z in D. destruct (alive A (upd a i None) m) as [[|]|]; try (cbn in D; congruence); contradiction.
      + discriminate.
      + intros _ k Hk. apply (each_some _ _ _ _ k E Hk).
  Qed.
  Lemma retire_good s a i a' r : Rs s a -> astep a (Retire A i) = Some (a', r) -> good s (Retire A i) a' r.
  Proof.
    intros H E. cbn in E. unfold with1, guard in E. destruct (alive A a i) as [x|] eqn:Ax; [|discriminate]. destruct (r_obj _ _ _ i x H Ax) as (v & Av & Sh). unfold VecRun.good. cbn [step quiet].
    assert (Lk : forall a0 r0, Some (a, ANone A) = Some (a0, r0) -> v_lock v = true -> exists s' x0, (let* s0 := retire A (depth A s) s i in Ok (s0, RNone A)) = Ok (s', x0) /\ Rs s' a0 /\ fits A r0 x0).
    { intros a0 r0 Q L. injection Q as <- <-. unfold depth. cbn [retire]. rewrite (obj_alive s i v Av). cbn [bind]. rewrite L. cbn. eexists _, _. split; [reflexivity|]. split; [exact H|exact I]. }
    destruct x as [[|] s0 n d|[|] n l q].
    - apply (Lk _ _ E). apply Sh.
    - destruct (held_linked A a i) eqn:Hh; [discriminate|]. cbn in E. injection E as <- <-.
      destruct (retire_R _ _ a i s0 n d v H Ax Av) as (h' & Eh & H' & L1 & L2 & L3). { intros i' lk' n' l k E' Hl. apply (linked_spec a i i' lk' n' l k Hh E' Hl). }
      unfold depth. rewrite (retire_op _ s i v h' Av L1 L2 L3 Eh). cbn [bind]. eexists _, _. split; [reflexivity|]. split; [exact H'|exact I].
    - apply (Lk _ _ E). destruct Sh as (_ & _ & _ & _ & _ & _ & L & _). exact L.
    - destruct (each A (retire_one A) l a) as [a1|] eqn:Ee; [|discriminate]. injection E as <- <-. destruct (retire_ref_good s a i n l q a1 H Ax Ee) as (s' & Es & H'). rewrite Es. cbn. eexists _, _. split; [reflexivity|]. split; [exact H'|exact I].
  Qed.
  Lemma reaquire_good s a i a' r : Rs s a -> astep a (Reaquire A i) = Some (a', r) -> good s (Reaquire A i) a' r.
  Proof.
    intros H E. cbn in E. unfold with1, guard, with_cells in E. destruct (alive A a i) as [x|] eqn:Ax; [|discriminate]. destruct (r_obj _ _ _ i x H Ax) as (v & Av & Sh). unfold VecRun.good. cbn [step quiet].
    assert (Lk : forall a0 r0, Some (a, ANone A) = Some (a0, r0) -> v_lock v = true -> exists s' x0, (let* s0 := reaquire A junk (depth A s) s i in Ok (s0, RNone A)) = Ok (s', x0) /\ Rs s' a0 /\ fits A r0 x0).
    { intros a0 r0 Q L. injection Q as <- <-. unfold depth. cbn [reaquire]. rewrite (obj_alive s i v Av). cbn [bind]. rewrite L. cbn. eexists _, _. split; [reflexivity|]. split; [exact H|exact I]. }
    destruct x as [[|] s0 n d|[|] n l [|]].
    - apply (Lk _ _ E). apply Sh.
    - destruct n as [|n]; [discriminate|]. assert (Hn : (0 < S n)%nat) by lia. destruct d as [d|]; cbn in E; injection E as <- <-.
      + destruct (own_full _ _ a i false s0 (S n) d v H Ax Av Hn) as [Q1 Q2]. unfold depth. rewrite (reaquire_full _ s i v Av Q1 Q2). cbn [bind]. eexists _, _. split; [reflexivity|]. split; [|exact I]. rewrite upd_same by (unfold alive in Ax; destruct (nth_error a i); congruence). exact H.
      + destruct (storage A junk (s_heap A s) (v_len v) (length (v_p v))) as [h2 ps2] eqn:Est. destruct (reaquire_R _ _ a i s0 (S n) v h2 ps2 H Ax Av Est) as (H2 & L1 & L2 & L3 & L4 & L5). unfold depth. rewrite (reaquire_op _ s i v h2 ps2 Av L1 L2 L3 L4 ltac:(lia) Est). cbn [bind].
        eexists _, _. split; [reflexivity|]. split; [exact H2|exact I].
    - apply (Lk _ _ E). destruct Sh as (_ & _ & _ & _ & _ & _ & L & _). exact L.
    - apply (Lk _ _ E). destruct Sh as (_ & _ & _ & _ & _ & _ & L & _). exact L.
    - destruct (cells A a i) as [ci|] eqn:Ec; [|discriminate]. injection E as <- <-. destruct Sh as (_ & S2 & _ & S4 & _ & _ & _ & _ & S9 & _). cbn in S2, S4.
      unfold depth. rewrite (reaquire_full _ s i v Av); [|congruence|].
      + cbn [bind]. eexists _, _. split; [reflexivity|]. split; [exact H|exact I].
      + intros k Q. destruct (cells_spec _ _ a i ci H Ec) as (x & v' & Ax' & Av' & _ & Lc & Cc). rewrite Ax in Ax'. injection Ax' as <-. rewrite Av in Av'. injection Av' as <-. assert (Hk : (k < length (v_p v))%nat) by (apply nth_error_Some; congruence).
        destruct (nth_error ci k) as [c|] eqn:Eck; [|apply nth_error_None in Eck; cbn in Lc; lia]. destruct (Cc k c Eck) as [V P]. cbn in V. destruct (valid_block _ _ a c n H V S9) as (b & cc & Pb & _). congruence.
    - destruct (each A (reaquire_one A) l a) as [a1|] eqn:Ee; [|discriminate]. injection E as <- <-. destruct (reaquire_ref_good s a i n l a1 H Ax Ee) as (s' & Es & H'). rewrite Es. cbn. eexists _, _. split; [reflexivity|]. split; [exact H'|exact I].
  Qed.

  (** ** whole runs *)
  Theorem step_good s a o a' r : Rs s a -> astep a o = Some (a', r) -> good s o a' r.
  Proof.
    destruct o; [apply new_good|apply clone_good|apply delete_good|apply newsize1_good|apply newsize_good|apply assign_good|apply fast_good|apply swap_good|apply stridecopy_good|apply sub_good|apply fill_good|apply scale_good|apply add_good|apply get_good|apply set_good|
      apply retire_good|apply reaquire_good|apply lock_good|apply strideref_good|apply downsize_good].
  Qed.
  Lemma run_good l : forall s a a' rs, Rs s a -> arun A add mul a l = Some (a', rs) -> exists s' rs', run A junk add mul s l = Ok (s', rs') /\ Rs s' a' /\ Forall2 (fits A) rs rs'.
  Proof.
    induction l as [|o l IH]; intros s a a' rs H E; cbn in *; [injection E as <- <-; eauto|]. destruct (astep a o) as [[a1 r]|] eqn:E1; [|discriminate]. destruct (arun A add mul a1 l) as [[a2 rs1]|] eqn:E2; [|discriminate]. injection E as <- <-.
    destruct (step_good s a o a1 r H E1) as (s1 & x & Es & H1 & F). rewrite Es. cbn [bind]. destruct (IH s1 a1 a2 rs1 H1 E2) as (s2 & rs2 & Er & H2 & F2). rewrite Er. cbn [bind]. eexists _, _. split; [reflexivity|]. split; [exact H2|]. constructor; assumption.
  Qed.
  Lemma start_R : Rs (start A) [].
  Proof.
    assert (N : forall B i, nth_error (@nil B) i = None) by (intros B [|i]; reflexivity). constructor; cbn.
    - reflexivity.
    - intros i. unfold alive, alivev. rewrite !N. exact I.
    - intros o lk s n d E. unfold alive in E. rewrite N in E. discriminate.
    - intros o o' k k' b O. unfold owner, alive in O. rewrite N in O. destruct O.
    - intros b c E. rewrite N in E. discriminate.
    - intros i lk n l q k m E. unfold alive in E. rewrite N in E. discriminate.
    - intros i i' lk lk' n n' l l' q q' k k' m E. unfold alive in E. rewrite N in E. discriminate.
  Qed.
  Lemma no_leak s a : Rs s a -> (forall i, alive A a i = None) -> forall b, nth_error (s_heap A s) b = None \/ nth_error (s_heap A s) b = Some None.
  Proof.
    intros H D b. destruct (nth_error (s_heap A s) b) as [[c|]|] eqn:E; auto. exfalso. destruct (r_cover _ _ a H b c E) as (o & k & O & _). unfold owner in O. rewrite D in O. exact O.
  Qed.
End P.
