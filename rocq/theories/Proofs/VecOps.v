(** Lemmas on the vector class: calls that only change values. *)
From Coq Require Import List ZArith Lia Bool Arith.
From Verif Require Import Base Arrays Model.Vec Spec.Vec Proofs.Vec.
Import ListNotations.
Open Scope Z_scope.

Section P.
  Context {A : Type}.
  Notation heap := (heap A). Notation st := (st A). Notation abs := (abs A). Notation avec := (avec A).
  Definition Rs (s : st) (a : abs) : Prop := R (s_heap A s) (s_vecs A s) a.

  Lemma rd_p {B} (l : list B) k x : nth_error l k = Some x -> rd l (Z.of_nat k) = Ok x.
  Proof. intros E. apply rd_nth_error; [lia|]. rewrite Nat2Z.id. exact E. Qed.
  Lemma fill_R s a i ci x : Rs s a -> cells A a i = Some ci -> exists s', fill A s i x = Ok s' /\ Rs s' (write A a ci (map (fun c => map (fun _ => Some x) (seg A a c)) ci)).
  Proof.
    intros H E. pose proof (cells_nodup _ _ _ _ _ H E) as Nd. destruct (cells_spec _ _ _ i ci H E) as (y & v & Ay & Av & Sh & Lc & Cc). unfold fill. rewrite (obj_alive s i v Av). cbn [bind]. destruct Sh as (_ & S2 & S3 & _).
    rewrite S2, <- Lc.
    destruct (vec_loop (s_heap A s) (s_vecs A s) a ci (map (fun c => map (fun _ => Some x) (seg A a c)) ci) (stride_len A y)
      (fun h k => foldM (fun h j => let* p := rd (v_p v) k in store A h p j x) (upto 0 (v_len v)) h) H) as (h' & E' & H').
    - intros c Hc. apply In_nth_error in Hc. destruct Hc as [k Hk]. apply (Cc k c Hk).
    - apply map_length.
    - intros k c l h' Hk Hl a' H' P1 P2. rewrite nth_error_map, Hk in Hl. injection Hl as <-. destruct (Cc k c Hk) as [Vc Pc].
      destruct (fill_cell h' _ a' c (stride_len A y) x H' (P1 _ _ Vc)) as (h'' & E'' & H''). rewrite P2 in H'' by (apply nodup_firstn; assumption). exists h''. split; [|exact H''].
      rewrite S3, <- E''. apply foldM_ext. intros z h0 _. rewrite (rd_p _ _ _ Pc). reflexivity.
    - rewrite E'. cbn [bind]. eexists. split; [reflexivity|exact H'].
  Qed.
  Lemma scale_R (mul : A -> A -> A) s a i ci x : Rs s a -> cells A a i = Some ci -> exists s', scale A mul s i x = Ok s' /\ Rs s' (write A a ci (map (fun c => map (option_map (fun y => mul y x)) (seg A a c)) ci)).
  Proof.
    intros H E. pose proof (cells_nodup _ _ _ _ _ H E) as Nd. destruct (cells_spec _ _ _ i ci H E) as (y & v & Ay & Av & Sh & Lc & Cc). unfold scale. rewrite (obj_alive s i v Av). cbn [bind]. destruct Sh as (_ & S2 & S3 & _).
    rewrite S2, <- Lc.
    destruct (vec_loop (s_heap A s) (s_vecs A s) a ci (map (fun c => map (option_map (fun y => mul y x)) (seg A a c)) ci) (stride_len A y)
      (fun h k => foldM (fun h j => let* p := rd (v_p v) k in let* y := load A h p j in store A h p j (mul y x)) (upto 0 (v_len v)) h) H) as (h' & E' & H').
    - intros c Hc. apply In_nth_error in Hc. destruct Hc as [k Hk]. apply (Cc k c Hk).
    - apply map_length.
    - intros k c l h' Hk Hl a' H' P1 P2. rewrite nth_error_map, Hk in Hl. injection Hl as <-. destruct (Cc k c Hk) as [Vc Pc].
      destruct (map_cell h' _ a' c (stride_len A y) (option_map (fun y => mul y x)) (fun y => mul y x) H' (P1 _ _ Vc)) as (h'' & E'' & H'').
      { intros [u|] z Q; cbn in *; [congruence|exact I]. }
      rewrite P2 in H'' by (apply nodup_firstn; assumption). exists h''. split; [|exact H''].
      rewrite S3, <- E''. apply foldM_ext. intros z h0 _. rewrite (rd_p _ _ _ Pc). cbn [bind]. destruct (load A h0 (ptr (s_vecs A s) (fst c) (snd c)) z); reflexivity.
    - rewrite E'. cbn [bind]. eexists. split; [reflexivity|exact H'].
  Qed.
  (** memcpy of the strides *)
  Lemma fast_all_R h vs a i j ci cj v w : R h vs a -> cells A a i = Some ci -> cells A a j = Some cj -> (forall c, In c ci -> ~ In c cj) -> alivev vs i = Some v -> alivev vs j = Some w ->
    v_str v = v_str w -> v_len v = v_len w ->
    exists h', foldM (fun h k => let* p := rd (v_p v) k in let* q := rd (v_p w) k in memcpy A h p q (v_len v)) (upto 0 (v_str v)) h = Ok h' /\ R h' vs (write A a ci (map (seg A a) cj)).
  Proof.
    intros H Ei Ej Dj Ev Ew Es El. destruct (copy_all_R h vs a i j ci cj v w H Ei Ej Dj Ev Ew Es El) as (h' & E & H'). exists h'. split; [|exact H'].
    rewrite <- E. unfold copy_all. apply foldM_ext. intros k h0 Hk.
    destruct (cells_spec h vs a i ci H Ei) as (x & v' & Ax & Av & Sh & Lc & Cc). rewrite Ev in Av. injection Av as <-.
    destruct (cells_spec h vs a j cj H Ej) as (y & w' & Ay & Aw & Shw & Lcw & Ccw). rewrite Ew in Aw. injection Aw as <-.
    destruct Sh as (_ & S2 & S3 & _). destruct Shw as (_ & T2 & T3 & _). apply in_upto in Hk.
    destruct (nth_error ci (Z.to_nat k)) as [c|] eqn:Ek; [|apply nth_error_None in Ek; lia]. destruct (nth_error cj (Z.to_nat k)) as [c'|] eqn:Ek'; [|apply nth_error_None in Ek'; lia].
    destruct (Cc _ c Ek) as [Vc Pc]. destruct (Ccw _ c' Ek') as [Vc' Pc']. apply rd_p in Pc, Pc'. rewrite Z2Nat.id in Pc, Pc' by lia. rewrite Pc, Pc'. cbn [bind]. unfold memcpy.
    assert (N : c <> c'). { intros ->. apply (Dj c'); eapply nth_error_In; eassumption. }
    destruct (ptr vs (fst c) (snd c)) as [b|] eqn:Pb.
    - destruct (ptr vs (fst c') (snd c')) as [b'|] eqn:Pb'.
      + destruct (Nat.eqb_spec b b') as [->|]; [exfalso; apply (other_block h vs a c c' _ _ b' H Vc Vc' N Pb Pb')|]. rewrite andb_false_r. reflexivity.
      + rewrite andb_false_r. apply foldM_ext. reflexivity.
    - rewrite andb_false_r. reflexivity.
  Qed.

  (** ** single elements *)
  Lemma store_cell h vs a c n m x u : R h vs a -> valid a c n -> 0 <= m < Z.of_nat n -> cell u x ->
    exists h', store A h (ptr vs (fst c) (snd c)) m x = Ok h' /\ R h' vs (set_seg A a c (upd (seg A a c) (Z.to_nat m) u)).
  Proof.
    intros H V Hm Cu. destruct (valid_block h vs a c n H V ltac:(lia)) as (b & cc & P & Eh & F & L). rewrite P. unfold store. rewrite Eh. rewrite wr_ok by (unfold zlen; lia). cbn [bind].
    eexists. split; [reflexivity|]. apply (set_R h vs a c n _ b _ H V); [rewrite upd_length; apply (valid_slot h vs a c n H V)|exact P|].
    clear - F Cu. revert F. generalize (Z.to_nat m). generalize (seg A a c). intros l k F. revert k. induction F; intros [|k]; cbn; constructor; auto.
  Qed.
  Lemma pos_cell (cs : list (nat * nat)) n k : (k < length cs * n)%nat -> (0 < n)%nat /\ (k / n < length cs)%nat /\ nth_error cs (k / n) = Some (nth (k / n) cs (O, O)) /\ (k mod n < n)%nat.
  Proof.
    intros H. assert (0 < n)%nat by (destruct n; lia). assert (k / n < length cs)%nat by (apply Nat.div_lt_upper_bound; lia).
    split; [assumption|]. split; [assumption|]. split; [apply nth_error_nth'; assumption|]. apply Nat.mod_upper_bound. lia.
  Qed.
  Lemma at_cell s a i ci x k : Rs s a -> alive A a i = Some x -> cells A a i = Some ci -> 0 <= k < Z.of_nat (size A x) -> let c := nth (Z.to_nat k / stride_len A x) ci (O, O) in
    exists v, obj A s i = Ok v /\ at_ v k = Ok (ptr (s_vecs A s) (fst c) (snd c), Z.of_nat (Z.to_nat k mod stride_len A x)) /\ valid a c (stride_len A x) /\ (Z.to_nat k mod stride_len A x < stride_len A x)%nat.
  Proof.
    intros H Ax E Hk c. destruct (cells_spec _ _ _ i ci H E) as (y & v & Ay & Av & Sh & Lc & Cc). rewrite Ax in Ay. injection Ay as <-. exists v. split; [apply obj_alive; exact Av|].
    destruct Sh as (_ & S2 & S3 & _). unfold size in Hk. rewrite <- Lc in Hk. destruct (pos_cell ci (stride_len A x) (Z.to_nat k) ltac:(lia)) as (Hn & Hq & Hc & Hr). fold c in Hc.
    destruct (Cc _ c Hc) as [Vc Pc]. split; [|split; [exact Vc|exact Hr]]. unfold at_. rewrite S3. destruct (Z.eqb_spec (Z.of_nat (stride_len A x)) 0) as [|_]; [lia|].
    rewrite Z.quot_div_nonneg, Z.rem_mod_nonneg by lia. rewrite Nat2Z.inj_mod, Z2Nat.id by lia.
    apply rd_p in Pc. rewrite Nat2Z.inj_div, Z2Nat.id in Pc by lia. rewrite Pc. reflexivity.
  Qed.
  Lemma get_R s a i ci x k : Rs s a -> alive A a i = Some x -> cells A a i = Some ci -> 0 <= k < Z.of_nat (size A x) ->
    exists y, get A s i k = Ok y /\ cell (elem A a ci (stride_len A x) (Z.to_nat k)) y.
  Proof.
    intros H Ax E Hk. destruct (at_cell s a i ci x k H Ax E Hk) as (v & Ov & Ea & V & Hm). unfold get. rewrite Ov. cbn [bind]. rewrite Ea. cbn [bind].
    destruct (load_valid _ _ a _ _ (Z.of_nat (Z.to_nat k mod stride_len A x)) H V ltac:(lia)) as (y & u & Ey & Eu & Cu). exists y. split; [exact Ey|]. unfold elem.
    apply rd_nth_error in Eu; [|lia]. rewrite Nat2Z.id in Eu. rewrite (nth_error_nth _ _ None Eu). exact Cu.
  Qed.
  Lemma set_R' s a i ci x k y u : Rs s a -> alive A a i = Some x -> cells A a i = Some ci -> 0 <= k < Z.of_nat (size A x) -> cell u y ->
    exists s', set A s i k y = Ok s' /\ Rs s' (set_elem A a ci (stride_len A x) (Z.to_nat k) u) /\ s_vecs A s' = s_vecs A s.
  Proof.
    intros H Ax E Hk Cu. destruct (at_cell s a i ci x k H Ax E Hk) as (v & Ov & Ea & V & Hm). unfold set. rewrite Ov. cbn [bind]. rewrite Ea. cbn [bind].
    destruct (store_cell _ _ a _ _ (Z.of_nat (Z.to_nat k mod stride_len A x)) y u H V ltac:(lia) Cu) as (h' & Eh & H'). rewrite Eh. cbn [bind]. eexists. split; [reflexivity|]. split; [|reflexivity].
    rewrite Nat2Z.id in H'. exact H'.
  Qed.
  Lemma elem_other a c n l cs n' k : valid a c n -> nth (k / n') cs (O, O) <> c -> elem A (set_seg A a c l) cs n' k = elem A a cs n' k.
  Proof.
    intros V N. unfold elem. rewrite (seg_set_seg a c l n _ V). destruct ((fst (nth (k / n') cs (O, O)) =? fst c)%nat && (snd (nth (k / n') cs (O, O)) =? snd c)%nat) eqn:Q; [|reflexivity].
    exfalso. apply N. apply andb_true_iff in Q. destruct Q as [Q1 Q2]. apply Nat.eqb_eq in Q1, Q2. destruct (nth (k / n') cs (O, O)), c; cbn in *; congruence.
  Qed.
  Lemma elem_later a cs n k k' u : (forall c, In c cs -> valid a c n) -> NoDup cs -> (k < length cs * n)%nat -> (k' < length cs * n)%nat -> k <> k' ->
    elem A (set_elem A a cs n k u) cs n k' = elem A a cs n k'.
  Proof.
    intros V Nd Hk Hk' N. destruct (pos_cell cs n k Hk) as (Hn & Hq & Hc & Hr). destruct (pos_cell cs n k' Hk') as (_ & Hq' & Hc' & Hr').
    assert (Vc : valid a (nth (k / n) cs (O, O)) n) by (apply V; eapply nth_error_In; exact Hc). unfold set_elem.
    destruct (Nat.eq_dec (k / n) (k' / n)) as [Eq|Nq].
    - unfold elem. rewrite (seg_set_seg a _ _ n _ Vc). rewrite <- Eq, !Nat.eqb_refl. cbn [andb].
      assert (Nm : (k mod n <> k' mod n)%nat). { intros Q. apply N. rewrite (Nat.div_mod k n), (Nat.div_mod k' n) by lia. congruence. }
      generalize (seg A a (nth (k / n) cs (O, O))). clear - Nm. generalize (k mod n)%nat (k' mod n)%nat Nm. clear. intros p q N l. revert p q N.
      induction l as [|x l IH]; intros [|p] [|q] N; cbn; try reflexivity; [contradiction|]. apply IH. congruence.
    - apply (elem_other a _ n _ cs n k' Vc). intros Q. rewrite NoDup_nth_error in Nd. apply Nq. symmetry. apply Nd; [exact Hq'|]. rewrite Hc, Hc', Q. reflexivity.
  Qed.
  Lemma add_R (add : A -> A -> A) s a i j ci cj x y : Rs s a -> alive A a i = Some x -> alive A a j = Some y -> cells A a i = Some ci -> cells A a j = Some cj -> size A x = size A y ->
    (i = j \/ forall c, In c ci -> ~ In c cj) ->
    exists s', add_to A add s i j = Ok s' /\ Rs s' (fold_left (fun a' k => set_elem A a' ci (stride_len A x) k
              match elem A a ci (stride_len A x) k, elem A a cj (stride_len A y) k with Some u, Some v => Some (add u v) | _, _ => None end) (seq 0 (size A x)) a).
  Proof.
    intros H Ax Ay Ei Ej Sz Dj. pose proof (cells_nodup _ _ _ _ _ H Ei) as Nd. destruct (cells_spec _ _ _ i ci H Ei) as (x' & v & Ax' & Av & Sh & Lc & Cc). rewrite Ax in Ax'. injection Ax' as <-.
    destruct (cells_spec _ _ _ j cj H Ej) as (y' & w & Ay' & Aw & Shw & Lcw & Ccw). rewrite Ay in Ay'. injection Ay' as <-.
    unfold add_to. rewrite (obj_alive s i v Av), (obj_alive s j w Aw). cbn [bind]. destruct Sh as (S1 & S2 & S3 & _). rewrite S1.
    set (g := fun k => match elem A a ci (stride_len A x) k, elem A a cj (stride_len A y) k with Some u, Some v => Some (add u v) | _, _ => None end).
    assert (Vi : forall c, In c ci -> valid a c (stride_len A x)). { intros c Hc. apply In_nth_error in Hc. destruct Hc as [k Hk]. apply (Cc k c Hk). }
    destruct (foldM_upto (fun s k => let* y := get A s j k in let* x := get A s i k in set A s i k (add x y))
      (fun k s' => let a' := fold_left (fun a' k => set_elem A a' ci (stride_len A x) k (g k)) (seq 0 (Z.to_nat k)) a in
         Rs s' a' /\ (forall o, cells A a' o = cells A a o) /\ (forall c n, valid a c n -> valid a' c n) /\ (forall q, (Z.to_nat k <= q < size A x)%nat -> elem A a' ci (stride_len A x) q = elem A a ci (stride_len A x) q) /\
         (i <> j -> forall q, (q < size A y)%nat -> elem A a' cj (stride_len A y) q = elem A a cj (stride_len A y) q) /\
         (forall o, match alive A a o, alive A a' o with Some x, Some x' => strides A x = strides A x' /\ stride_len A x = stride_len A x' | None, None => True | _, _ => False end)) 0 (Z.of_nat (size A x)) s) as (s' & E & H').
    - lia.
    - cbn. split; [exact H|]. split; [reflexivity|]. split; [auto|]. split; [reflexivity|]. split; [reflexivity|]. intros o. destruct (alive A a o); auto.
    - intros k s' Hk. cbv zeta. replace (Z.to_nat (k + 1)) with (S (Z.to_nat k)) by lia. rewrite seq_S, fold_left_app. cbn [fold_left Nat.add].
      set (a' := fold_left _ _ a). intros (H' & I1 & I2 & I3 & I4 & I5).
      assert (Ax' : exists x', alive A a' i = Some x' /\ size A x' = size A x /\ stride_len A x' = stride_len A x).
      { specialize (I5 i). rewrite Ax in I5. destruct (alive A a' i) as [x'|]; [|contradiction]. exists x'. unfold size. destruct I5 as [-> ->]. auto. }
      assert (Ay' : exists y', alive A a' j = Some y' /\ size A y' = size A y /\ stride_len A y' = stride_len A y).
      { specialize (I5 j). rewrite Ay in I5. destruct (alive A a' j) as [y'|]; [|contradiction]. exists y'. unfold size. destruct I5 as [-> ->]. auto. }
      destruct Ax' as (x' & Ax' & Sx & Lx). destruct Ay' as (y' & Ay' & Sy & Ly).
      destruct (get_R s' a' j cj y' k H' Ay' (eq_trans (I1 j) Ej) ltac:(lia)) as (yv & Gy & Cy).
      destruct (get_R s' a' i ci x' k H' Ax' (eq_trans (I1 i) Ei) ltac:(lia)) as (xv & Gx & Cx). rewrite Gy, Gx. cbn [bind]. rewrite Lx in Cx. rewrite Ly in Cy. rewrite I3 in Cx by lia.
      assert (Cy' : cell (elem A a cj (stride_len A y) (Z.to_nat k)) yv).
      { destruct (Nat.eq_dec i j) as [Eij|Nij]; [|rewrite <- (I4 Nij) by lia; exact Cy]. subst j. rewrite Ax in Ay. injection Ay as <-. rewrite Ei in Ej. injection Ej as <-. rewrite <- I3 by lia. exact Cy. }
      destruct (set_R' s' a' i ci x' k (add xv yv) (g (Z.to_nat k)) H' Ax' (eq_trans (I1 i) Ei) ltac:(lia)) as (s2 & Es & H2 & _).
      { unfold g. clear - Cx Cy'. unfold cell in *. destruct (elem A a ci (stride_len A x) (Z.to_nat k)), (elem A a cj (stride_len A y) (Z.to_nat k)); try exact I. congruence. }
      rewrite Lx in H2. exists s2. split; [exact Es|]. split; [exact H2|].
      destruct (pos_cell ci (stride_len A x) (Z.to_nat k)) as (Hn & Hq & Hc & Hr). { unfold size in Hk. rewrite Lc. lia. }
      assert (Vc : valid a' (nth (Z.to_nat k / stride_len A x) ci (O, O)) (stride_len A x)) by (apply I2, Vi; eapply nth_error_In; exact Hc).
      split; [|split; [|split; [|split]]].
      + intros o. unfold set_elem. rewrite (cells_set_seg a' _ _ _ o Vc). apply I1.
      + intros c n V. apply (valid_set_seg a' _ _ (stride_len A x)); auto.
      + intros q Hq'. rewrite elem_later; [apply I3; lia| |exact Nd| | |lia]; [intros c Hc'; apply I2, Vi, Hc'| |]; unfold size in *; rewrite Lc; lia.
      + intros Nij q Hq'. unfold set_elem. rewrite (elem_other a' _ _ _ cj _ q Vc); [apply I4; assumption|]. intros Q. destruct Dj as [Dj|Dj]; [contradiction|].
        destruct (pos_cell cj (stride_len A y) q) as (_ & _ & Hcj & _). { unfold size in Hq'. rewrite Lcw. exact Hq'. }
        apply (Dj (nth (Z.to_nat k / stride_len A x) ci (O, O))); [eapply nth_error_In; exact Hc|]. rewrite <- Q. eapply nth_error_In; exact Hcj.
      + intros o. unfold set_elem. rewrite (alive_set_seg a' _ _ _ Vc). specialize (I5 o). destruct (alive A a o) as [x1|]; destruct (alive A a' o) as [[? ? ? [?|]|]|]; try exact I5.
        * destruct (o =? _)%nat; exact I5.
        * destruct (o =? _)%nat; exact I5.
    - exists s'. split; [exact E|]. rewrite Nat2Z.id in H'. apply H'.
  Qed.
  (** ** one stride *)
  Lemma stride_copy_R s a i j ci cj x y src dst : Rs s a -> alive A a i = Some x -> alive A a j = Some y -> cells A a i = Some ci -> cells A a j = Some cj -> stride_len A x = stride_len A y ->
    0 <= dst < Z.of_nat (strides A x) -> 0 <= src < Z.of_nat (strides A y) ->
    exists s', stride_copy A s i j src dst = Ok (s', true) /\ Rs s' (set_seg A a (nth (Z.to_nat dst) ci (O, O)) (seg A a (nth (Z.to_nat src) cj (O, O)))).
  Proof.
    intros H Ax Ay Ei Ej El Hd Hs. destruct (cells_spec _ _ _ i ci H Ei) as (x' & v & Ax' & Av & Sh & Lc & Cc). rewrite Ax in Ax'. injection Ax' as <-.
    destruct (cells_spec _ _ _ j cj H Ej) as (y' & w & Ay' & Aw & Shw & Lcw & Ccw). rewrite Ay in Ay'. injection Ay' as <-.
    destruct Sh as (_ & S2 & S3 & _). destruct Shw as (_ & T2 & T3 & _).
    unfold stride_copy. rewrite (obj_alive s i v Av), (obj_alive s j w Aw). cbn [bind]. rewrite S2, T2, S3, T3, El, Z.eqb_refl. cbn [negb].
    destruct (Z.ltb_spec (Z.of_nat (strides A x)) dst); [lia|]. destruct (Z.ltb_spec (Z.of_nat (strides A y)) src); [lia|]. cbn [orb].
    assert (Hc : nth_error ci (Z.to_nat dst) = Some (nth (Z.to_nat dst) ci (O, O))) by (apply nth_error_nth'; lia).
    assert (Hc' : nth_error cj (Z.to_nat src) = Some (nth (Z.to_nat src) cj (O, O))) by (apply nth_error_nth'; lia).
    set (c := nth (Z.to_nat dst) ci (O, O)) in *. set (c' := nth (Z.to_nat src) cj (O, O)) in *. destruct (Cc _ _ Hc) as [Vc Pc]. destruct (Ccw _ _ Hc') as [Vc' Pc']. rewrite El in Vc.
    assert (G : exists h', foldM (fun h k => let* x := load A h (ptr (s_vecs A s) (fst c') (snd c')) k in store A h (ptr (s_vecs A s) (fst c) (snd c)) k x) (upto 0 (Z.of_nat (stride_len A y))) (s_heap A s) = Ok h' /\
              R h' (s_vecs A s) (set_seg A a c (seg A a c'))).
    { assert (D : {c = c'} + {c <> c'}) by (decide equality; apply Nat.eq_dec). destruct D as [<-|N]; [|apply (copy_cell _ _ a c c' _ H Vc Vc' N)].
      destruct (map_cell _ _ a c _ (fun u => u) (fun y => y) H Vc ltac:(auto)) as (h' & E & H'). rewrite map_id in H'. exists h'. split; [|exact H']. rewrite <- E. apply foldM_ext. intros z h0 _.
      destruct (load A h0 (ptr (s_vecs A s) (fst c) (snd c)) z); reflexivity. }
    destruct G as (h' & E & H'). exists (with_heap A s h'). split; [|exact H'].
    apply rd_p in Pc, Pc'. rewrite Z2Nat.id in Pc, Pc' by lia. erewrite foldM_ext; [rewrite E; reflexivity|]. intros z h0 _. rewrite Pc'. cbn [bind]. destruct (load A h0 _ z); [|reflexivity|reflexivity]. cbn [bind]. rewrite Pc. reflexivity.
  Qed.
  (** a part of the only stride *)
  Lemma part_R h vs a c c' n n' b r : R h vs a -> valid a c n -> valid a c' n' -> c <> c' -> (b + r <= n')%nat -> (r <= n)%nat ->
    exists h', foldM (fun h k => let* x := load A h (ptr vs (fst c') (snd c')) (Z.of_nat b + k) in store A h (ptr vs (fst c) (snd c)) k x) (upto 0 (Z.of_nat r)) h = Ok h' /\
      R h' vs (set_seg A a c (firstn r (skipn b (seg A a c')) ++ skipn r (seg A a c))).
  Proof.
    intros H V V' N Hb Hr. destruct (valid_slot h vs a c' n' H V') as [L' _]. destruct (valid_slot h vs a c n H V) as [L _].
    assert (Lp : length (firstn r (skipn b (seg A a c'))) = r) by (rewrite firstn_length, skipn_length; lia).
    apply (seg_R h vs a c n _ (fun h k => load A h (ptr vs (fst c') (snd c')) (Z.of_nat b + k)) (Z.of_nat r) H V); [rewrite app_length, Lp, skipn_length; lia|lia| |].
    - intros k Hk. rewrite Nat2Z.id in Hk. rewrite nth_error_app2 by lia. rewrite Lp. clear - Hk. revert k Hk. generalize (seg A a c). intros l. revert r. induction l as [|x l IH]; intros [|r] k Hk; cbn.
      + destruct (k - 0)%nat, k; reflexivity.
      + destruct (k - S r)%nat, k; reflexivity.
      + f_equal. lia.
      + destruct k as [|k]; [lia|]. cbn. apply IH. lia.
    - intros b' cc P E F k Hk. destruct (load_valid h vs a c' n' (Z.of_nat b + k) H V' ltac:(lia)) as (y & u & Ey & Eu & Cu). exists y. split.
      + exists u. split; [|exact Cu]. apply rd_nth_error; [lia|]. rewrite nth_error_app1 by lia. apply rd_nth_error in Eu; [|lia]. rewrite <- Eu. clear - Hk.
        replace (Z.to_nat (Z.of_nat b + k)) with (b + Z.to_nat k)%nat by lia. assert (Q : (Z.to_nat k < r)%nat) by lia. revert Q. generalize (Z.to_nat k). generalize (seg A a c'). clear. intros l k Hk.
        assert (X : nth_error (skipn b l) k = nth_error l (b + k)) by (clear; revert b; induction l as [|x l IH]; intros [|b]; cbn; [reflexivity|destruct k; reflexivity|reflexivity|apply IH]).
        rewrite <- X. generalize (skipn b l). clear - Hk. intros l. revert k r Hk. induction l as [|x l IH]; intros [|k] [|r] Hk; cbn; try lia; try reflexivity. apply IH. lia.
      + intros cc' _. rewrite load_upd; [exact Ey|]. apply (other_block h vs a c c' n n' b' H V V' N P).
  Qed.
End P.
