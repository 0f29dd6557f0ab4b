(** Lemmas on the vector class: objects come and go. *)
From Coq Require Import List ZArith Lia Bool Arith.
From Verif Require Import Base Arrays Model.Vec Spec.Vec Proofs.Vec Proofs.VecOps.
Import ListNotations.
Open Scope Z_scope.

Section P.
  Context {A : Type}.
  Notation heap := (heap A). Notation st := (st A). Notation abs := (abs A). Notation avec := (avec A).

  (** ** giving the storage back *)
  Lemma frees (h : heap) (ps : list (option nat)) : (forall k k' b, nth_error ps k = Some (Some b) -> nth_error ps k' = Some (Some b) -> k = k') ->
    (forall b, In (Some b) ps -> exists c, nth_error h b = Some (Some c)) ->
    exists h', foldM (fun h k => let* p := rd ps k in free A h p) (upto 0 (Z.of_nat (length ps))) h = Ok h' /\
      (forall b, In (Some b) ps -> nth_error h' b = Some None) /\ (forall b, ~ In (Some b) ps -> nth_error h' b = nth_error h b).
  Proof.
    intros Inj Live.
    destruct (foldM_upto (fun h k => let* p := rd ps k in free A h p) (fun k h' => (forall b, In (Some b) (firstn (Z.to_nat k) ps) -> nth_error h' b = Some None) /\ (forall b, ~ In (Some b) (firstn (Z.to_nat k) ps) -> nth_error h' b = nth_error h b)) 0 (Z.of_nat (length ps)) h) as (h' & E & H').
    - lia.
    - cbn. split; [intros b []|reflexivity].
    - intros k h' Hk [H1 H2]. destruct (nth_error ps (Z.to_nat k)) as [p|] eqn:Ep; [|apply nth_error_None in Ep; lia]. rewrite (proj1 (rd_nth_error ps k p ltac:(lia)) Ep). cbn [bind].
      replace (Z.to_nat (k + 1)) with (S (Z.to_nat k)) by lia. rewrite (firstn_snoc ps _ p Ep). destruct p as [b|].
      + assert (N : ~ In (Some b) (firstn (Z.to_nat k) ps)).
        { intros Q. apply In_nth_error in Q. destruct Q as [j Q]. assert (Hj : (j < Z.to_nat k)%nat). { assert (T : (j < length (firstn (Z.to_nat k) ps))%nat) by (apply nth_error_Some; congruence). rewrite firstn_length in T. lia. }
          assert (E2 : nth_error ps j = Some (Some b)). { rewrite <- (firstn_skipn (Z.to_nat k) ps). rewrite nth_error_app1 by (apply nth_error_Some; congruence). exact Q. }
          pose proof (Inj _ _ _ E2 Ep). lia. }
        destruct (Live b (nth_error_In _ _ Ep)) as [c Hc]. unfold free. rewrite (H2 b N), Hc. eexists. split; [reflexivity|]. split.
        * intros b' Q. rewrite upd_nth. destruct (Nat.eqb_spec b' b) as [->|Nb]; [rewrite (H2 b N), Hc; reflexivity|]. apply H1. apply in_app_or in Q. destruct Q as [Q|[Q|[]]]; [exact Q|congruence].
        * intros b' Q. rewrite upd_nth. destruct (Nat.eqb_spec b' b) as [->|Nb]; [exfalso; apply Q, in_or_app; right; left; reflexivity|]. apply H2. intros T. apply Q, in_or_app. left; exact T.
      + exists h'. split; [reflexivity|]. split.
        * intros b' Q. apply H1. apply in_app_or in Q. destruct Q as [Q|[Q|[]]]; [exact Q|discriminate].
        * intros b' Q. apply H2. intros T. apply Q, in_or_app. left; exact T.
    - exists h'. split; [exact E|]. rewrite Nat2Z.id, firstn_all in H'. exact H'.
  Qed.
  Definition mine (vs : list (option vec)) (a : abs) (i b : nat) : Prop := owner a i /\ exists k, ptr vs i k = Some b.
  Lemma kill_R (h h' : heap) vs a i x : R h vs a -> alive A a i = Some x ->
    (forall b c, nth_error h' b = Some (Some c) -> nth_error h b = Some (Some c) /\ ~ mine vs a i b) ->
    (forall b c, nth_error h b = Some (Some c) -> ~ mine vs a i b -> nth_error h' b = Some (Some c)) -> R h' (upd vs i None) (upd a i None).
  Proof.
    intros H Ax K1 K2. pose proof (alive_lt a i x Ax) as Li. pose proof (r_len h vs a H) as Lv.
    assert (Al : forall j, alive A (upd a i None) j = if (j =? i)%nat then None else alive A a j) by (intros j; apply alive_upd; exact Li).
    assert (Av : forall j, alivev (upd vs i None) j = if (j =? i)%nat then None else alivev vs j) by (intros j; apply alivev_upd; lia).
    assert (Pt : forall o k, ptr (upd vs i None) o k = if (o =? i)%nat then None else ptr vs o k) by (intros o k; rewrite ptr_upd by lia; reflexivity).
    assert (Ow : forall o, owner (upd a i None) o -> o <> i /\ owner a o). { intros o. unfold owner. rewrite Al. destruct (Nat.eqb_spec o i); [intros []|auto]. }
    constructor.
    - rewrite !upd_length. exact Lv.
    - intros j. rewrite Al, Av. destruct (j =? i)%nat; [exact I|apply (r_shape h vs a H)].
    - intros o lk s n d E. rewrite Al in E. destruct (Nat.eqb_spec o i) as [|No]; [discriminate|]. destruct (r_data h vs a H o lk s n d E) as [D1 D2].
      assert (P' : forall k, ptr (upd vs i None) o k = ptr vs o k) by (intros k; rewrite Pt; destruct (Nat.eqb_spec o i); [contradiction|reflexivity]). split; [intros Z k; rewrite P'; apply D1, Z|].
      destruct d as [d|]; [|intros k; rewrite P'; apply D2]. destruct D2 as [Ld D2]. split; [exact Ld|]. intros k l Hl. destruct (D2 k l Hl) as [Ll Sl]. split; [exact Ll|]. rewrite P'.
      destruct Sl as [Sl|(b & c & Ep & Eh & F)]; [left; exact Sl|]. right. exists b, c. split; [exact Ep|]. split; [|exact F]. apply K2; [exact Eh|]. intros [Oi [k' Q]].
      destruct (r_inj h vs a H o i k k' b) as [Z _]; auto. unfold owner. rewrite E. exact I.
    - intros o o' k k' b O1 O2. apply Ow in O1, O2. destruct O1 as [N1 O1], O2 as [N2 O2]. rewrite !Pt. destruct (Nat.eqb_spec o i); [contradiction|]. destruct (Nat.eqb_spec o' i); [contradiction|]. apply (r_inj h vs a H); assumption.
    - intros b c Hb. destruct (K1 b c Hb) as [Hh Nm]. destruct (r_cover h vs a H b c Hh) as (o & k & O & P). exists o, k. assert (No : o <> i) by (intros ->; apply Nm; split; [exact O|eauto]).
      rewrite Pt. unfold owner. rewrite Al. destruct (Nat.eqb_spec o i); [contradiction|]. auto.
    - intros i' lk n l linked k m E Hl. rewrite Al in E. destruct (Nat.eqb_spec i' i) as [|Ni]; [discriminate|]. rewrite upd_length. destruct (r_links h vs a H i' lk n l linked k m E Hl) as [Lm D]. split; [exact Lm|].
      rewrite Al. destruct (Nat.eqb_spec m i) as [->|Nm]; [left; reflexivity|]. destruct D as [D|(lk' & d & Em & Q)]; [left; exact D|]. right. exists lk', d. split; [exact Em|]. intros Y. destruct (Q Y) as [Q1 Q2]. split; [exact Q1|].
      rewrite !Pt. destruct (Nat.eqb_spec i' i); [contradiction|]. destruct (Nat.eqb_spec m i); [contradiction|]. exact Q2.
    - intros i1 i2 lk lk' n n' l l' q q' k k' m E1 E2. rewrite Al in E1, E2. destruct (i1 =? i)%nat; [discriminate|]. destruct (i2 =? i)%nat; [discriminate|]. apply (r_uniq h vs a H i1 i2 lk lk' n n' l l' q q' k k' m E1 E2).
  Qed.
  Lemma ptr_in (vs : list (option vec)) i v b : alivev vs i = Some v -> (In (Some b) (v_p v) <-> exists k, ptr vs i k = Some b).
  Proof.
    intros E. split.
    - intros Q. apply In_nth_error in Q. destruct Q as [k Q]. exists k. unfold ptr. rewrite E, Q. reflexivity.
    - intros [k Q]. unfold ptr in Q. rewrite E in Q. destruct (nth_error (v_p v) k) as [p|] eqn:Ep; [|discriminate]. subst p. eapply nth_error_In; exact Ep.
  Qed.
  (** the destructor of an owner *)
  Lemma kill_own h vs a i lk s n d v : R h vs a -> alive A a i = Some (Own A lk s n d) -> alivev vs i = Some v ->
    exists h', foldM (fun h k => let* p := rd (v_p v) k in free A h p) (upto 0 (v_str v)) h = Ok h' /\ R h' (upd vs i None) (upd a i None).
  Proof.
    intros H E Ev. assert (Oi : owner a i) by (unfold owner; rewrite E; exact I). destruct (r_obj h vs a i _ H E) as (v' & Ev' & Sh). rewrite Ev in Ev'. injection Ev' as <-.
    destruct Sh as (_ & S2 & _ & Lp & _). cbn in Lp, S2. destruct (frees h (v_p v)) as (h' & Ef & F1 & F2).
    - intros k k' b P P'. apply (r_inj h vs a H i i k k' b Oi Oi); unfold ptr; rewrite Ev; [rewrite P|rewrite P']; reflexivity.
    - intros b Q. apply (ptr_in vs i v b Ev) in Q. destruct Q as [k Q]. apply (r_live h vs a i k b H Oi Q).
    - exists h'. rewrite S2, <- Lp. split; [exact Ef|]. apply (kill_R h h' vs a i _ H E).
      + intros b c Hb. assert (N : ~ In (Some b) (v_p v)) by (intros Q; rewrite (F1 b Q) in Hb; discriminate). rewrite (F2 b N) in Hb. split; [exact Hb|]. intros [_ Q]. apply N, (ptr_in vs i v b Ev), Q.
      + intros b c Hb N. rewrite F2; [exact Hb|]. intros Q. apply N. split; [exact Oi|]. apply (ptr_in vs i v b Ev), Q.
  Qed.
  Lemma kill_ref h vs a i lk n l q : R h vs a -> alive A a i = Some (Ref A lk n l q) -> R h (upd vs i None) (upd a i None).
  Proof.
    intros H E. assert (Ni : ~ owner a i) by (unfold owner; rewrite E; auto). apply (kill_R h h vs a i _ H E).
    - intros b c Hb. split; [exact Hb|]. intros [Q _]. contradiction.
    - auto.
  Qed.

  (** ** new objects *)
  Definition named (a : abs) (i : nat) : Prop := exists i' lk n l q k, alive A a i' = Some (Ref A lk n l q) /\ nth_error l k = Some (Some i).
  Lemma names_spec i l : names i l = true <-> exists k, nth_error l k = Some (Some i).
  Proof.
    unfold names. rewrite existsb_exists. split.
    - intros ([m|] & Hm & E); [|discriminate]. apply Nat.eqb_eq in E. subst m. apply In_nth_error in Hm. exact Hm.
    - intros [k Hk]. exists (Some i). split; [eapply nth_error_In; exact Hk|apply Nat.eqb_refl].
  Qed.
  Lemma alive_in (a : abs) i x : alive A a i = Some x -> In (Some x) a.
  Proof. unfold alive. destruct (nth_error a i) eqn:E; [|discriminate]. intros ->. eapply nth_error_In; exact E. Qed.
  Lemma held_spec (a : abs) i : held A a i = false -> ~ named a i.
  Proof.
    intros E (i' & lk & n & l & q & k & Ea & Hk). assert (T : held A a i = true); [|congruence]. unfold held. apply existsb_exists. eexists. split; [apply (alive_in _ _ _ Ea)|]. cbn. apply names_spec. eauto.
  Qed.
  Lemma linked_spec (a : abs) i i' lk n l k : held_linked A a i = false -> alive A a i' = Some (Ref A lk n l true) -> nth_error l k = Some (Some i) -> False.
  Proof.
    intros E Ea Hk. assert (T : held_linked A a i = true); [|congruence]. unfold held_linked. apply existsb_exists. eexists. split; [apply (alive_in _ _ _ Ea)|]. cbn. apply names_spec. eauto.
  Qed.
  Lemma void_R (h : heap) vs a i lk s n v : R h vs a -> (i < length a)%nat -> alive A a i = None -> shape v (Own A lk s n None) -> (forall k, nth_error (v_p v) k = None \/ nth_error (v_p v) k = Some None) ->
    (forall i' lk' n' l q k, alive A a i' = Some (Ref A lk' n' l q) -> nth_error l k = Some (Some i) -> q = false /\ s = 1%nat /\ n' = n) ->
    R h (upd vs i (Some v)) (upd a i (Some (Own A lk s n None))).
  Proof.
    intros H Li Ax Sh Hp Hn. pose proof (r_len h vs a H) as Lv.
    assert (Al : forall j, alive A (upd a i (Some (Own A lk s n None))) j = if (j =? i)%nat then Some (Own A lk s n None) else alive A a j) by (intros j; apply alive_upd; exact Li).
    assert (Av : forall j, alivev (upd vs i (Some v)) j = if (j =? i)%nat then Some v else alivev vs j) by (intros j; apply alivev_upd; lia).
    assert (Pt : forall o k, ptr (upd vs i (Some v)) o k = if (o =? i)%nat then None else ptr vs o k).
    { intros o k. rewrite ptr_upd by lia. destruct (o =? i)%nat; [|reflexivity]. destruct (Hp k) as [-> | ->]; reflexivity. }
    constructor.
    - rewrite !upd_length. exact Lv.
    - intros j. rewrite Al, Av. destruct (j =? i)%nat; [exact Sh|apply (r_shape h vs a H)].
    - intros o lk' s' n' d E. rewrite Al in E. destruct (Nat.eqb_spec o i) as [->|No].
      + injection E as <- <- <- <-. split; [intros _ k|intros k]; rewrite Pt, Nat.eqb_refl; reflexivity.
      + destruct (r_data h vs a H o lk' s' n' d E) as [D1 D2]. assert (P' : forall k, ptr (upd vs i (Some v)) o k = ptr vs o k) by (intros k; rewrite Pt; destruct (Nat.eqb_spec o i); [contradiction|reflexivity]).
        split; [intros Z k; rewrite P'; apply D1, Z|]. destruct d as [d|]; [|intros k; rewrite P'; apply D2]. destruct D2 as [Ld D2]. split; [exact Ld|]. intros k l Hl. rewrite P'. apply D2. exact Hl.
    - intros o o' k k' b O1 O2. rewrite !Pt. destruct (Nat.eqb_spec o i); [discriminate|]. destruct (Nat.eqb_spec o' i); [discriminate|]. unfold owner in O1, O2. rewrite Al in O1, O2.
      destruct (Nat.eqb_spec o i); [contradiction|]. destruct (Nat.eqb_spec o' i); [contradiction|]. apply (r_inj h vs a H); assumption.
    - intros b c Hb. destruct (r_cover h vs a H b c Hb) as (o & k & O & P). exists o, k. rewrite Pt. unfold owner in *. rewrite Al. destruct (Nat.eqb_spec o i) as [->|]; [rewrite Ax in O; destruct O|]. auto.
    - intros i' lk' n' l linked k m E Hl. rewrite Al in E. destruct (Nat.eqb_spec i' i) as [|Ni]; [discriminate|]. rewrite upd_length. destruct (r_links h vs a H i' lk' n' l linked k m E Hl) as [Lm D]. split; [exact Lm|].
      rewrite Al. destruct (Nat.eqb_spec m i) as [->|Nm].
      + right. destruct (Hn i' lk' n' l linked k E Hl) as (-> & -> & ->). exists lk, None. split; [reflexivity|discriminate].
      + destruct D as [D|(lk2 & d & Em & Q)]; [left; exact D|]. right. exists lk2, d. split; [exact Em|]. intros Y. destruct (Q Y) as [Q1 Q2]. split; [exact Q1|].
        rewrite !Pt. destruct (Nat.eqb_spec i' i); [contradiction|]. destruct (Nat.eqb_spec m i); [contradiction|]. exact Q2.
    - intros i1 i2 lk1 lk2 n1 n2 l l' q q' k k' m E1 E2. rewrite Al in E1, E2. destruct (i1 =? i)%nat; [discriminate|]. destruct (i2 =? i)%nat; [discriminate|]. apply (r_uniq h vs a H i1 i2 lk1 lk2 n1 n2 l l' q q' k k' m E1 E2).
  Qed.
  Lemma storage_some (junk : nat -> Z -> A) (h : heap) n k : 0 < n -> storage A junk h n k = (h ++ map (fun j => Some (block A junk j n)) (seq (length h) k), map Some (seq (length h) k)).
  Proof.
    intros Hn. revert h; induction k as [|k IH]; intros h; cbn [storage]; [rewrite app_nil_r; reflexivity|]. destruct (Z.eqb_spec n 0); [lia|]. unfold alloc. rewrite IH. cbn [seq map].
    rewrite app_length. cbn [length]. rewrite Nat.add_1_r, <- app_assoc. reflexivity.
  Qed.
  Lemma storage_none (junk : nat -> Z -> A) (h : heap) k : storage A junk h 0 k = (h, repeat None k).
  Proof. induction k as [|k IH]; cbn [storage]; [reflexivity|]. change (0 =? 0) with true. cbv iota. rewrite IH. reflexivity. Qed.
  Lemma block_cells (junk : nat -> Z -> A) b n : Forall2 cell (repeat None n) (block A junk b (Z.of_nat n)).
  Proof.
    unfold block. assert (L : length (map (junk b) (upto 0 (Z.of_nat n))) = n) by (rewrite map_length, upto_length; lia). revert L. generalize (map (junk b) (upto 0 (Z.of_nat n))). intros l <-. induction l; cbn; constructor; auto. exact I.
  Qed.
  Lemma storage_spec (junk : nat -> Z -> A) (h : heap) n s h' ps : storage A junk h (Z.of_nat n) s = (h', ps) -> length ps = s /\
    (forall b x, nth_error h b = Some x -> nth_error h' b = Some x) /\ (forall k, (k < s)%nat -> exists p, nth_error ps k = Some p /\ slot h' p (repeat None n)) /\
    (forall k b, nth_error ps k = Some (Some b) -> (length h <= b)%nat) /\ (forall k k' b, nth_error ps k = Some (Some b) -> nth_error ps k' = Some (Some b) -> k = k') /\
    (forall b x, nth_error h' b = Some x -> (length h <= b)%nat -> In (Some b) ps) /\ (n = O -> forall k, nth_error ps k = None \/ nth_error ps k = Some None) /\ ((0 < n)%nat -> forall k, nth_error ps k <> Some None).
  Proof.
    intros E. destruct (Nat.eq_dec n 0) as [->|Nn].
    - change (Z.of_nat 0) with 0 in E. rewrite storage_none in E. injection E as <- <-. split; [apply repeat_length|]. split; [auto|]. split.
      + intros k Hk. exists None. split; [rewrite (nth_error_nth' _ None) by (rewrite repeat_length; exact Hk); f_equal; apply nth_repeat|left; auto].
      + assert (T : forall k, nth_error (repeat (@None nat) s) k = None \/ nth_error (repeat (@None nat) s) k = Some None).
        { intros k. destruct (nth_error (repeat (@None nat) s) k) as [p|] eqn:Q; [|left; reflexivity]. right. apply nth_error_In in Q. apply repeat_spec in Q. congruence. }
        split; [intros k b Q; destruct (T k); congruence|]. split; [intros k k' b Q; destruct (T k); congruence|]. split.
        * intros b x Q Hb. exfalso. assert (b < length h)%nat by (apply nth_error_Some; congruence). lia.
        * split; [auto|lia].
    - rewrite storage_some in E by lia. injection E as <- <-. split; [rewrite map_length, seq_length; reflexivity|]. split.
      { intros b x Q. rewrite nth_error_app1; [exact Q|]. apply nth_error_Some. congruence. }
      assert (T : forall k p, nth_error (map Some (seq (length h) s)) k = Some p -> (k < s)%nat /\ p = Some (length h + k)%nat).
      { intros k p Q. rewrite nth_error_map in Q. destruct (nth_error (seq (length h) s) k) as [z|] eqn:Ez; [|discriminate]. injection Q as <-. assert (Hk : (k < s)%nat) by (rewrite <- (seq_length s (length h)); apply nth_error_Some; congruence).
        split; [exact Hk|]. apply (nth_error_nth _ _ O) in Ez. rewrite seq_nth in Ez by exact Hk. congruence. }
      split.
      { intros k Hk. exists (Some (length h + k)%nat). split.
        - rewrite nth_error_map, (nth_error_nth' (seq (length h) s) O) by (rewrite seq_length; exact Hk). rewrite seq_nth by exact Hk. reflexivity.
        - right. exists (length h + k)%nat, (block A junk (length h + k) (Z.of_nat n)). split; [reflexivity|]. split; [|apply block_cells]. rewrite nth_error_app2 by lia. replace (length h + k - length h)%nat with k by lia.
          rewrite nth_error_map, (nth_error_nth' (seq (length h) s) O) by (rewrite seq_length; exact Hk). rewrite seq_nth by exact Hk. reflexivity. }
      split; [intros k b Q; apply T in Q; destruct Q as [_ Q]; injection Q as ->; lia|]. split; [intros k k' b Q Q'; apply T in Q, Q'; destruct Q as [_ Q], Q' as [_ Q']; injection Q as ->; injection Q' as Q'; lia|]. split.
      { intros b x Q Hb. assert (Hl : (b < length (h ++ map (fun j => Some (block A junk j (Z.of_nat n))) (seq (length h) s)))%nat) by (apply nth_error_Some; congruence). rewrite app_length, map_length, seq_length in Hl. apply in_map. apply in_seq. lia. }
      split; [lia|]. intros _ k Q. apply T in Q. destruct Q as [_ Q]. discriminate.
  Qed.
  Lemma fill_own (junk : nat -> Z -> A) (h h' : heap) ps vs a i lk s n v : R h vs a -> alive A a i = Some (Own A lk s n None) -> storage A junk h (Z.of_nat n) s = (h', ps) -> v_p v = ps -> shape v (Own A lk s n (Some (fresh A s n))) ->
    R h' (upd vs i (Some v)) (upd a i (Some (Own A lk s n (Some (fresh A s n))))).
  Proof.
    intros H Ax Es Ep Sh. pose proof (alive_lt a i _ Ax) as Li. pose proof (r_len h vs a H) as Lv. destruct (storage_spec junk h n s h' ps Es) as (Lp & Old & Slots & New & Inj & Cov & Z0 & _). subst ps.
    set (X := Own A lk s n (Some (fresh A s n))) in *.
    assert (Al : forall j, alive A (upd a i (Some X)) j = if (j =? i)%nat then Some X else alive A a j) by (intros j; apply alive_upd; exact Li).
    assert (Av : forall j, alivev (upd vs i (Some v)) j = if (j =? i)%nat then Some v else alivev vs j) by (intros j; apply alivev_upd; lia).
    assert (Pt : forall o k, ptr (upd vs i (Some v)) o k = if (o =? i)%nat then match nth_error (v_p v) k with Some p => p | None => None end else ptr vs o k) by (intros o k; rewrite ptr_upd by lia; reflexivity).
    assert (Pi : forall k, ptr vs i k = None) by (intros k; apply (r_data h vs a H i lk s n None Ax)).
    assert (Lt : forall o k b, owner a o -> ptr vs o k = Some b -> (b < length h)%nat). { intros o k b O P. destruct (r_live h vs a o k b H O P) as [c Hc]. apply nth_error_Some. congruence. }
    assert (Ow : forall o, o <> i -> owner (upd a i (Some X)) o -> owner a o). { intros o No. unfold owner. rewrite Al. destruct (Nat.eqb_spec o i); [contradiction|auto]. }
    assert (Qi : forall k b, ptr (upd vs i (Some v)) i k = Some b -> nth_error (v_p v) k = Some (Some b)). { intros k b. rewrite Pt, Nat.eqb_refl. destruct (nth_error (v_p v) k); congruence. }
    constructor.
    - rewrite !upd_length. exact Lv.
    - intros j. rewrite Al, Av. destruct (j =? i)%nat; [exact Sh|apply (r_shape h vs a H)].
    - intros o lk' s' n' d E. rewrite Al in E. destruct (Nat.eqb_spec o i) as [->|No].
      + injection E as <- <- <- <-. split.
        * intros Zn k. rewrite Pt, Nat.eqb_refl. destruct (Z0 Zn k) as [-> | ->]; reflexivity.
        * split; [apply repeat_length|]. intros k l Hl. assert (Hk : (k < s)%nat) by (rewrite <- (repeat_length (repeat (@None A) n) s); apply nth_error_Some; unfold fresh in Hl; congruence).
          apply nth_error_In in Hl. apply repeat_spec in Hl. subst l. split; [apply repeat_length|]. destruct (Slots k Hk) as (p & Ep & Sp). rewrite Pt, Nat.eqb_refl, Ep. exact Sp.
      + destruct (r_data h vs a H o lk' s' n' d E) as [D1 D2]. assert (P' : forall k, ptr (upd vs i (Some v)) o k = ptr vs o k) by (intros k; rewrite Pt; destruct (Nat.eqb_spec o i); [contradiction|reflexivity]).
        split; [intros Z k; rewrite P'; apply D1, Z|]. destruct d as [d|]; [|intros k; rewrite P'; apply D2]. destruct D2 as [Ld D2]. split; [exact Ld|]. intros k l Hl. rewrite P'. destruct (D2 k l Hl) as [Ll Sl]. split; [exact Ll|].
        destruct Sl as [Sl|(b & c & Q1 & Q2 & Q3)]; [left; exact Sl|]. right. exists b, c. split; [exact Q1|]. split; [apply Old; exact Q2|exact Q3].
    - intros o o' k k' b O1 O2 P1 P2. destruct (Nat.eq_dec o i) as [->|No]; destruct (Nat.eq_dec o' i) as [->|No'].
      + split; [reflexivity|]. apply Qi in P1, P2. apply (Inj _ _ _ P1 P2).
      + exfalso. apply Qi in P1. apply New in P1. rewrite Pt in P2. destruct (Nat.eqb_spec o' i); [contradiction|]. apply Lt in P2; [lia|apply Ow; assumption].
      + exfalso. apply Qi in P2. apply New in P2. rewrite Pt in P1. destruct (Nat.eqb_spec o i); [contradiction|]. apply Lt in P1; [lia|apply Ow; assumption].
      + rewrite Pt in P1, P2. destruct (Nat.eqb_spec o i); [contradiction|]. destruct (Nat.eqb_spec o' i); [contradiction|]. apply (r_inj h vs a H o o' k k' b); auto.
    - intros b c Hb. destruct (Nat.lt_ge_cases b (length h)) as [Lb|Lb].
      + destruct (nth_error h b) as [x|] eqn:Q; [|apply nth_error_None in Q; lia]. rewrite (Old b x Q) in Hb. injection Hb as ->. destruct (r_cover h vs a H b c Q) as (o & k & O & P). exists o, k.
        assert (No : o <> i) by (intros ->; rewrite Pi in P; discriminate). rewrite Pt. unfold owner in *. rewrite Al. destruct (Nat.eqb_spec o i); [contradiction|]. auto.
      + pose proof (Cov b _ Hb Lb) as Q. apply In_nth_error in Q. destruct Q as [k Q]. exists i, k. rewrite Pt, Nat.eqb_refl, Q. unfold owner. rewrite Al, Nat.eqb_refl. split; [exact I|reflexivity].
    - intros i' lk' n' l linked k m E Hl. rewrite Al in E. destruct (Nat.eqb_spec i' i) as [|Ni]; [discriminate|]. rewrite upd_length. destruct (r_links h vs a H i' lk' n' l linked k m E Hl) as [Lm D]. split; [exact Lm|].
      rewrite Al. destruct (Nat.eqb_spec m i) as [->|Nm].
      + destruct D as [D|(lk2 & d & Em & Q)]; [congruence|]. rewrite Ax in Em. injection Em as <- -> -> <-. right. exists lk, (Some (fresh A 1 n')). split; [reflexivity|]. intros Y. destruct (Q Y) as [Q1 _]. congruence.
      + destruct D as [D|(lk2 & d & Em & Q)]; [left; exact D|]. right. exists lk2, d. split; [exact Em|]. intros Y. destruct (Q Y) as [Q1 Q2]. split; [exact Q1|].
        rewrite !Pt. destruct (Nat.eqb_spec i' i); [contradiction|]. destruct (Nat.eqb_spec m i); [contradiction|]. exact Q2.
    - intros i1 i2 lk1 lk2 n1 n2 l l' q q' k k' m E1 E2. rewrite Al in E1, E2. destruct (i1 =? i)%nat; [discriminate|]. destruct (i2 =? i)%nat; [discriminate|]. apply (r_uniq h vs a H i1 i2 lk1 lk2 n1 n2 l l' q q' k k' m E1 E2).
  Qed.
  Lemma upd_upd' {B} (l : list B) k x y : upd (upd l k x) k y = upd l k y.
  Proof. apply upd_upd. Qed.
  (** a new owner in an empty place that nobody refers to *)
  Lemma insert_R (junk : nat -> Z -> A) h h' ps vs a i s n v : R h vs a -> (i < length a)%nat -> alive A a i = None -> ~ named a i -> storage A junk h (Z.of_nat n) s = (h', ps) -> v_p v = ps ->
    shape v (own A s n (fresh A s n)) -> R h' (upd vs i (Some v)) (upd a i (Some (own A s n (fresh A s n)))).
  Proof.
    intros H Li Ax Nn Es Ep Sh. destruct (storage_spec junk h n s h' ps Es) as (Lp & _).
    set (v0 := mkVec (repeat None s) (v_n v) (v_obj v) (v_src v) (v_lock v) (v_str v) (v_len v) (v_ref v)).
    assert (Sh0 : shape v0 (Own A false s n None)). { destruct Sh as (Q1 & Q2 & Q3 & Q4 & Q5). split; [exact Q1|]. split; [exact Q2|]. split; [exact Q3|]. split; [apply repeat_length|exact Q5]. }
    assert (H0 : R h (upd vs i (Some v0)) (upd a i (Some (Own A false s n None)))).
    { apply void_R; auto.
      - intros k. cbn. destruct (nth_error (repeat (@None nat) s) k) as [p|] eqn:Q; [|left; reflexivity]. right. apply nth_error_In in Q. apply repeat_spec in Q. congruence.
      - intros i' lk' n' l q k E Hl. exfalso. apply Nn. exists i', lk', n', l, q, k. auto. }
    rewrite <- (upd_upd vs i (Some v0)), <- (upd_upd a i (Some (Own A false s n None))). eapply fill_own; [exact H0| |exact Es|exact Ep|exact Sh].
    rewrite alive_upd by exact Li. rewrite Nat.eqb_refl. reflexivity.
  Qed.
  Lemma append_R (h : heap) vs (a : abs) : R h vs a -> R h (vs ++ [None]) (a ++ [None]).
  Proof.
    intros H. assert (Al : forall j, alive A (a ++ [None]) j = alive A a j).
    { intros j. unfold alive. destruct (Nat.lt_ge_cases j (length a)); [rewrite nth_error_app1 by assumption; reflexivity|]. rewrite nth_error_app2 by assumption. rewrite (proj2 (nth_error_None a j)) by assumption.
      destruct (j - length a)%nat as [|[|]]; reflexivity. }
    assert (Av : forall j, alivev (vs ++ [None]) j = alivev vs j).
    { intros j. unfold alivev. destruct (Nat.lt_ge_cases j (length vs)); [rewrite nth_error_app1 by assumption; reflexivity|]. rewrite nth_error_app2 by assumption. rewrite (proj2 (nth_error_None vs j)) by assumption.
      destruct (j - length vs)%nat as [|[|]]; reflexivity. }
    assert (Pt : forall o k, ptr (vs ++ [None]) o k = ptr vs o k) by (intros o k; unfold ptr; rewrite Av; reflexivity).
    assert (Ow : forall o, owner (a ++ [None]) o = owner a o) by (intros o; unfold owner; rewrite Al; reflexivity).
    constructor.
    - rewrite !app_length. cbn. rewrite (r_len h vs a H). reflexivity.
    - intros j. rewrite Al, Av. apply (r_shape h vs a H).
    - intros o lk s n d E. rewrite Al in E. destruct (r_data h vs a H o lk s n d E) as [D1 D2]. split; [intros Z k; rewrite Pt; apply D1, Z|]. destruct d as [d|]; [|intros k; rewrite Pt; apply D2].
      destruct D2 as [Ld D2]. split; [exact Ld|]. intros k l Hl. rewrite Pt. apply D2, Hl.
    - intros o o' k k' b. rewrite !Ow, !Pt. apply (r_inj h vs a H).
    - intros b c Hb. destruct (r_cover h vs a H b c Hb) as (o & k & O & P). exists o, k. rewrite Ow, Pt. auto.
    - intros i lk n l linked k m E Hl. rewrite Al in E. rewrite Al, !Pt, app_length. destruct (r_links h vs a H i lk n l linked k m E Hl) as [Lm D]. split; [lia|exact D].
    - intros i i' lk lk' n n' l l' q q' k k' m. rewrite !Al. apply (r_uniq h vs a H).
  Qed.
  Lemma named_bound h vs a i : R h vs a -> named a i -> (i < length a)%nat.
  Proof. intros H (i' & lk & n & l & q & k & E & Hl). apply (r_links h vs a H i' lk n l q k i E Hl). Qed.
  Lemma upd_end {B} (l : list B) x y : upd (l ++ [x]) (length l) y = l ++ [y].
  Proof. induction l as [|z l IH]; cbn; [reflexivity|]. f_equal. exact IH. Qed.
  Lemma create_R (junk : nat -> Z -> A) h h' ps vs a s n v : R h vs a -> storage A junk h (Z.of_nat n) s = (h', ps) -> v_p v = ps -> shape v (own A s n (fresh A s n)) -> R h' (vs ++ [Some v]) (a ++ [Some (own A s n (fresh A s n))]).
  Proof.
    intros H Es Ep Sh. rewrite <- (upd_end a None), <- (upd_end vs None), (r_len h vs a H). assert (Al : alive A (a ++ [None]) (length a) = None) by (unfold alive; rewrite nth_error_app2, Nat.sub_diag by lia; reflexivity).
    eapply insert_R; [apply append_R; exact H| | | |exact Es|exact Ep|exact Sh].
    - rewrite app_length. cbn. lia.
    - exact Al.
    - intros (i' & lk & n' & l & q & k & E & Hl). assert (E' : alive A a i' = Some (Ref A lk n' l q)).
      { pose proof (alive_lt _ _ _ E) as Q. rewrite app_length in Q. cbn in Q. destruct (Nat.eq_dec i' (length a)) as [->|]; [congruence|]. unfold alive in *. rewrite nth_error_app1 in E by lia. exact E. }
      pose proof (named_bound h vs a (length a) H) as Q. assert (length a < length a)%nat; [|lia]. apply Q. exists i', lk, n', l, q, k. auto.
  Qed.
  (** a vector of references *)
  Lemma ref_R h vs a i lk n l q v : R h vs a -> (i < length a)%nat -> alive A a i = None -> ~ named a i -> shape v (Ref A lk n l q) ->
    (forall k m, nth_error l k = Some (Some m) -> (m < length a)%nat /\ m <> i /\ ~ named a m /\
      (alive A a m = None \/ exists lk' d, alive A a m = Some (Own A lk' 1 n d) /\ (q = true -> d <> None /\ nth_error (v_p v) k = Some (ptr vs m 0)))) ->
    (forall k k' m, nth_error l k = Some (Some m) -> nth_error l k' = Some (Some m) -> k = k') ->
    R h (upd vs i (Some v)) (upd a i (Some (Ref A lk n l q))).
  Proof.
    intros H Li Ax Nn Sh Hl Inj. pose proof (r_len h vs a H) as Lv. set (X := Ref A lk n l q) in *.
    assert (Al : forall j, alive A (upd a i (Some X)) j = if (j =? i)%nat then Some X else alive A a j) by (intros j; apply alive_upd; exact Li).
    assert (Av : forall j, alivev (upd vs i (Some v)) j = if (j =? i)%nat then Some v else alivev vs j) by (intros j; apply alivev_upd; lia).
    assert (Pt : forall o k, ptr (upd vs i (Some v)) o k = if (o =? i)%nat then match nth_error (v_p v) k with Some p => p | None => None end else ptr vs o k) by (intros o k; rewrite ptr_upd by lia; reflexivity).
    assert (Ow : forall o, owner (upd a i (Some X)) o <-> owner a o /\ o <> i). { intros o. unfold owner. rewrite Al. destruct (Nat.eqb_spec o i) as [->|]; [rewrite Ax; cbn; tauto|tauto]. }
    constructor.
    - rewrite !upd_length. exact Lv.
    - intros j. rewrite Al, Av. destruct (j =? i)%nat; [exact Sh|apply (r_shape h vs a H)].
    - intros o lk' s' n' d E. rewrite Al in E. destruct (Nat.eqb_spec o i) as [->|No]; [discriminate|].
      destruct (r_data h vs a H o lk' s' n' d E) as [D1 D2]. assert (P' : forall k, ptr (upd vs i (Some v)) o k = ptr vs o k) by (intros k; rewrite Pt; destruct (Nat.eqb_spec o i); [contradiction|reflexivity]).
      split; [intros Z k; rewrite P'; apply D1, Z|]. destruct d as [d|]; [|intros k; rewrite P'; apply D2]. destruct D2 as [Ld D2]. split; [exact Ld|]. intros k l' Hl'. rewrite P'. apply D2, Hl'.
    - intros o o' k k' b O1 O2. apply Ow in O1, O2. destruct O1 as [O1 N1], O2 as [O2 N2]. rewrite !Pt. destruct (Nat.eqb_spec o i); [contradiction|]. destruct (Nat.eqb_spec o' i); [contradiction|]. apply (r_inj h vs a H); assumption.
    - intros b c Hb. destruct (r_cover h vs a H b c Hb) as (o & k & O & P). assert (No : o <> i) by (intros ->; unfold owner in O; rewrite Ax in O; exact O). exists o, k. split; [apply Ow; auto|]. rewrite Pt. destruct (Nat.eqb_spec o i); [contradiction|exact P].
    - intros i' lk' n' l' linked k m E Hl'. rewrite Al in E. rewrite upd_length. destruct (Nat.eqb_spec i' i) as [->|Ni].
      + injection E as <- <- <- <-. destruct (Hl k m Hl') as (Lm & Nm & _ & D). split; [exact Lm|]. rewrite Al. destruct (Nat.eqb_spec m i); [contradiction|]. destruct D as [D|(lk' & d & Em & Q)]; [left; exact D|]. right. exists lk', d.
        split; [exact Em|]. intros Y. destruct (Q Y) as [Q1 Q2]. split; [exact Q1|]. rewrite !Pt, Nat.eqb_refl, Q2. destruct (Nat.eqb_spec m i); [contradiction|reflexivity].
      + destruct (r_links h vs a H i' lk' n' l' linked k m E Hl') as [Lm D]. split; [exact Lm|]. assert (Nm : m <> i) by (intros ->; apply Nn; exists i', lk', n', l', linked, k; auto).
        rewrite Al. destruct (Nat.eqb_spec m i); [contradiction|]. destruct D as [D|(lk2 & d & Em & Q)]; [left; exact D|]. right. exists lk2, d. split; [exact Em|]. intros Y. destruct (Q Y) as [Q1 Q2]. split; [exact Q1|].
        rewrite !Pt. destruct (Nat.eqb_spec i' i); [contradiction|]. destruct (Nat.eqb_spec m i); [contradiction|]. exact Q2.
    - intros i1 i2 lk1 lk2 n1 n2 l1 l2 q1 q2 k k' m E1 E2 M1 M2. rewrite Al in E1, E2. destruct (Nat.eqb_spec i1 i) as [->|N1]; destruct (Nat.eqb_spec i2 i) as [->|N2].
      + split; [reflexivity|]. injection E1 as <- <- <- <-. injection E2 as <- <- <- <-. apply (Inj k k' m M1 M2).
      + exfalso. injection E1 as <- <- <- <-. destruct (Hl k m M1) as (_ & _ & Q & _). apply Q. exists i2, lk2, n2, l2, q2, k'. auto.
      + exfalso. injection E2 as <- <- <- <-. destruct (Hl k' m M2) as (_ & _ & Q & _). apply Q. exists i1, lk1, n1, l1, q1, k. auto.
      + apply (r_uniq h vs a H i1 i2 lk1 lk2 n1 n2 l1 l2 q1 q2 k k' m E1 E2 M1 M2).
  Qed.
  (** the values of an owner are written in one go *)
  Lemma write_own a i lk s n d0 : forall ls d1, alive A a i = Some (Own A lk s n (Some (d1 ++ d0))) -> length d0 = length ls ->
    write A a (map (pair i) (seq (length d1) (length ls))) ls = upd a i (Some (Own A lk s n (Some (d1 ++ ls)))).
  Proof.
    intros ls. revert a d0. induction ls as [|l ls IH]; intros a d0 d1 E L.
    - destruct d0; [|discriminate]. cbn. symmetry. apply upd_same. unfold alive in E. destruct (nth_error a i); congruence.
    - destruct d0 as [|x d0]; [discriminate|]. cbn [length seq map]. unfold write. cbn [combine fold_left fst snd]. fold (write A (set_seg A a (i, length d1) l) (map (pair i) (seq (S (length d1)) (length ls))) ls).
      assert (U : upd (d1 ++ x :: d0) (length d1) l = (d1 ++ [l]) ++ d0). { clear. induction d1 as [|y d1 IH]; cbn; [reflexivity|]. f_equal. exact IH. }
      assert (Es : set_seg A a (i, length d1) l = upd a i (Some (Own A lk s n (Some ((d1 ++ [l]) ++ d0))))). { unfold set_seg. cbn [fst snd]. rewrite E, U. reflexivity. }
      rewrite Es. replace (S (length d1)) with (length (d1 ++ [l])) by (rewrite app_length; cbn; lia). rewrite (IH _ d0 (d1 ++ [l])).
      + rewrite upd_upd, <- app_assoc. reflexivity.
      + rewrite alive_upd, Nat.eqb_refl; [reflexivity|]. eapply alive_lt; exact E.
      + cbn in L. lia.
  Qed.
  (** ** lock and swap *)
  Lemma relock_R h vs a i lk lk' s n d v v' : R h vs a -> alive A a i = Some (Own A lk s n d) -> alivev vs i = Some v -> v_p v' = v_p v -> shape v' (Own A lk' s n d) ->
    R h (upd vs i (Some v')) (upd a i (Some (Own A lk' s n d))).
  Proof.
    intros H E Ev Ep Sh. pose proof (alive_lt a i _ E) as Li. pose proof (r_len h vs a H) as Lv. set (X := Own A lk' s n d) in *.
    assert (Al : forall j, alive A (upd a i (Some X)) j = if (j =? i)%nat then Some X else alive A a j) by (intros j; apply alive_upd; exact Li).
    assert (Av : forall j, alivev (upd vs i (Some v')) j = if (j =? i)%nat then Some v' else alivev vs j) by (intros j; apply alivev_upd; lia).
    assert (Pt : forall o k, ptr (upd vs i (Some v')) o k = ptr vs o k). { intros o k. rewrite ptr_upd by lia. destruct (Nat.eqb_spec o i) as [->|]; [|reflexivity]. unfold ptr. rewrite Ev, Ep. reflexivity. }
    assert (Ow : forall o, owner (upd a i (Some X)) o <-> owner a o). { intros o. unfold owner. rewrite Al. destruct (Nat.eqb_spec o i) as [->|]; [rewrite E; cbn; tauto|tauto]. }
    constructor.
    - rewrite !upd_length. exact Lv.
    - intros j. rewrite Al, Av. destruct (j =? i)%nat; [exact Sh|apply (r_shape h vs a H)].
    - intros o lk1 s1 n1 d1 E1. assert (exists lk0, alive A a o = Some (Own A lk0 s1 n1 d1)) as [lk0 E0]. { rewrite Al in E1. destruct (Nat.eqb_spec o i) as [->|]; [injection E1 as <- <- <- <-; eauto|eauto]. }
      destruct (r_data h vs a H o lk0 s1 n1 d1 E0) as [D1 D2]. split; [intros Z k; rewrite Pt; apply D1, Z|]. destruct d1 as [d1|]; [|intros k; rewrite Pt; apply D2]. destruct D2 as [Ld D2]. split; [exact Ld|]. intros k l Hl. rewrite Pt. apply D2, Hl.
    - intros o o' k k' b O1 O2. rewrite !Pt. apply (r_inj h vs a H); apply Ow; assumption.
    - intros b c Hb. destruct (r_cover h vs a H b c Hb) as (o & k & O & P). exists o, k. rewrite Pt. split; [apply Ow, O|exact P].
    - intros i' lk1 n1 l linked k m E1 Hl. rewrite Al in E1. destruct (Nat.eqb_spec i' i) as [|Ni]; [discriminate|]. rewrite upd_length. destruct (r_links h vs a H i' lk1 n1 l linked k m E1 Hl) as [Lm D]. split; [exact Lm|].
      rewrite !Pt, Al. destruct (Nat.eqb_spec m i) as [->|Nm]; [|exact D]. right. destruct D as [D|(lk2 & d2 & Em & Q)]; [congruence|]. rewrite E in Em. injection Em as <- -> -> <-. exists lk', d. split; [reflexivity|exact Q].
    - intros i1 i2 lk1 lk2 n1 n2 l l' q q' k k' m E1 E2. rewrite Al in E1, E2. destruct (i1 =? i)%nat; [discriminate|]. destruct (i2 =? i)%nat; [discriminate|]. apply (r_uniq h vs a H i1 i2 lk1 lk2 n1 n2 l l' q q' k k' m E1 E2).
  Qed.
  Lemma swap_R h vs a i j li lj s n di dj v w v' w' : R h vs a -> i <> j -> alive A a i = Some (Own A li s n di) -> alive A a j = Some (Own A lj s n dj) -> alivev vs i = Some v -> alivev vs j = Some w ->
    ~ named a i -> ~ named a j -> v_p v' = v_p w -> v_p w' = v_p v -> shape v' (Own A li s n dj) -> shape w' (Own A lj s n di) ->
    R h (upd (upd vs i (Some v')) j (Some w')) (upd (upd a i (Some (Own A li s n dj))) j (Some (Own A lj s n di))).
  Proof.
    intros H Nij Ei Ej Ev Ew Ni Nj Pv Pw Sv Sw. pose proof (alive_lt a i _ Ei) as Li. pose proof (alive_lt a j _ Ej) as Lj. pose proof (r_len h vs a H) as Lv.
    set (a' := upd (upd a i _) j _). set (vs' := upd (upd vs i _) j _). set (t := fun o : nat => if (o =? i)%nat then j else if (o =? j)%nat then i else o).
    assert (Al : forall o, alive A a' o = if (o =? j)%nat then Some (Own A lj s n di) else if (o =? i)%nat then Some (Own A li s n dj) else alive A a o).
    { intros o. unfold a'. rewrite alive_upd by (rewrite upd_length; exact Lj). destruct (o =? j)%nat; [reflexivity|]. apply alive_upd; exact Li. }
    assert (Av : forall o, alivev vs' o = if (o =? j)%nat then Some w' else if (o =? i)%nat then Some v' else alivev vs o).
    { intros o. unfold vs'. rewrite alivev_upd by (rewrite upd_length; lia). destruct (o =? j)%nat; [reflexivity|]. apply alivev_upd; lia. }
    assert (Pt : forall o k, ptr vs' o k = ptr vs (t o) k).
    { intros o k. unfold ptr, t. rewrite Av. destruct (Nat.eqb_spec o j) as [->|]; [|destruct (Nat.eqb_spec o i) as [->|]; [rewrite Ew, Pv; reflexivity|reflexivity]].
      destruct (Nat.eqb_spec j i); [congruence|]. rewrite Ev, Pw. reflexivity. }
    assert (Tt : forall o o', t o = t o' -> o = o'). { intros o o'. unfold t. destruct (Nat.eqb_spec o i), (Nat.eqb_spec o' i), (Nat.eqb_spec o j), (Nat.eqb_spec o' j); congruence. }
    assert (Ti : forall o, t (t o) = o).
    { intros o. unfold t. destruct (Nat.eqb_spec o i) as [->|].
      - rewrite Nat.eqb_refl. destruct (Nat.eqb_spec j i); congruence.
      - destruct (Nat.eqb_spec o j) as [->|]; [rewrite Nat.eqb_refl; reflexivity|]. destruct (Nat.eqb_spec o i); [congruence|]. destruct (Nat.eqb_spec o j); congruence. }
    assert (Dt : forall o lk0 s0 n0 d0, alive A a' o = Some (Own A lk0 s0 n0 d0) -> exists lk1, alive A a (t o) = Some (Own A lk1 s0 n0 d0)).
    { intros o lk0 s0 n0 d0. rewrite Al. unfold t. destruct (Nat.eqb_spec o j) as [->|]; [|destruct (Nat.eqb_spec o i) as [->|]; [intros Q; injection Q as <- <- <- <-; eauto|eauto]].
      destruct (Nat.eqb_spec j i); [congruence|]. intros Q. injection Q as <- <- <- <-. eauto. }
    assert (Ow : forall o, owner a' o <-> owner a (t o)).
    { intros o. unfold owner, t. rewrite Al. destruct (Nat.eqb_spec o j) as [->|]; [destruct (Nat.eqb_spec j i); [congruence|]; rewrite Ei; tauto|]. destruct (Nat.eqb_spec o i) as [->|]; [rewrite Ej; tauto|tauto]. }
    constructor.
    - unfold a', vs'. rewrite !upd_length. exact Lv.
    - intros o. rewrite Al, Av. destruct (o =? j)%nat; [exact Sw|]. destruct (o =? i)%nat; [exact Sv|]. apply (r_shape h vs a H).
    - intros o lk1 s1 n1 d1 E1. destruct (Dt o lk1 s1 n1 d1 E1) as [lk0 E0].
      destruct (r_data h vs a H (t o) lk0 s1 n1 d1 E0) as [D1 D2]. split; [intros Z k; rewrite Pt; apply D1, Z|]. destruct d1 as [d1|]; [|intros k; rewrite Pt; apply D2]. destruct D2 as [Ld D2]. split; [exact Ld|]. intros k l Hl. rewrite Pt. apply D2, Hl.
    - intros o o' k k' b O1 O2 P1 P2. rewrite Pt in P1, P2. apply Ow in O1, O2. destruct (r_inj h vs a H (t o) (t o') k k' b O1 O2 P1 P2) as [Q1 Q2]. auto.
    - intros b c Hb. destruct (r_cover h vs a H b c Hb) as (o & k & O & P). exists (t o), k. rewrite Pt, Ow, Ti. auto.
    - assert (Rf : forall o lk0 n0 l0 q0, alive A a' o = Some (Ref A lk0 n0 l0 q0) -> o <> i /\ o <> j /\ alive A a o = Some (Ref A lk0 n0 l0 q0)).
      { intros o lk0 n0 l0 q0. rewrite Al. destruct (Nat.eqb_spec o j); [discriminate|]. destruct (Nat.eqb_spec o i); [discriminate|]. auto. }
      intros i' lk1 n1 l linked k m E1 Hl. destruct (Rf _ _ _ _ _ E1) as (N1 & N2 & E2). unfold a' at 1. rewrite !upd_length. destruct (r_links h vs a H i' lk1 n1 l linked k m E2 Hl) as [Lm D]. split; [exact Lm|].
      assert (Mi : m <> i) by (intros ->; apply Ni; exists i', lk1, n1, l, linked, k; auto). assert (Mj : m <> j) by (intros ->; apply Nj; exists i', lk1, n1, l, linked, k; auto).
      rewrite !Pt, Al. unfold t. destruct (Nat.eqb_spec m j); [contradiction|]. destruct (Nat.eqb_spec m i); [contradiction|]. destruct (Nat.eqb_spec i' i); [contradiction|]. destruct (Nat.eqb_spec i' j); [contradiction|]. exact D.
    - assert (Rf : forall o lk0 n0 l0 q0, alive A a' o = Some (Ref A lk0 n0 l0 q0) -> alive A a o = Some (Ref A lk0 n0 l0 q0)).
      { intros o lk0 n0 l0 q0. rewrite Al. destruct (Nat.eqb_spec o j); [discriminate|]. destruct (Nat.eqb_spec o i); [discriminate|]. auto. }
      intros i1 i2 lk1 lk2 n1 n2 l l' q q' k k' m E1 E2. apply Rf in E1, E2. apply (r_uniq h vs a H i1 i2 lk1 lk2 n1 n2 l l' q q' k k' m E1 E2).
  Qed.
End P.
