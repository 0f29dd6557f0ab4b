(** Lemmas on the vector class: swap, references, retired storage; whole runs. *)
From Coq Require Import List ZArith Lia Bool Arith.
From Verif Require Import Base Arrays Model.Vec Spec.Vec Proofs.Vec Proofs.VecOps Proofs.VecStore Proofs.VecRun.
Import ListNotations.
Open Scope Z_scope.

Section P.
  Context {A : Type}.
  Variable junk : nat -> Z -> A.
  Variables (add mul : A -> A -> A).
  Notation heap := (heap A). Notation st := (st A). Notation abs := (abs A). Notation avec := (avec A).
  Notation good := (good junk add mul). Notation astep := (astep A add mul).

  (** ** values *)
  Lemma stridecopy_good s a i j src dst a' r : Rs s a -> astep a (StrideCopy A i j src dst) = Some (a', r) -> good s (StrideCopy A i j src dst) a' r.
  Proof.
    intros H E. cbn in E. unfold with2, guard, with_cells in E. destruct (alive A a i) as [x|] eqn:Ax; [|discriminate]. destruct (alive A a j) as [y|] eqn:Ay; [|discriminate]. unfold VecRun.good. cbn [step answer].
    destruct (negb (stride_len A x =? stride_len A y)%nat || (Z.of_nat (strides A x) <? dst) || (Z.of_nat (strides A y) <? src)) eqn:Q.
    - injection E as <- <-. destruct (r_obj _ _ _ i x H Ax) as (v & Av & Sh). destruct (r_obj _ _ _ j y H Ay) as (w & Aw & Shw). unfold stride_copy. rewrite (obj_alive s i v Av), (obj_alive s j w Aw). cbn [bind].
      destruct Sh as (_ & S2 & S3 & _). destruct Shw as (_ & T2 & T3 & _). rewrite S2, S3, T2, T3.
      assert (Q' : (Z.of_nat (strides A x) <? dst) || negb (Z.of_nat (stride_len A y) =? Z.of_nat (stride_len A x)) || (Z.of_nat (strides A y) <? src) = true).
      { rewrite <- Q. destruct (Z.of_nat (strides A x) <? dst), (Z.of_nat (strides A y) <? src); cbn; rewrite ?orb_true_r, ?orb_false_r; try reflexivity. f_equal. destruct (Z.eqb_spec (Z.of_nat (stride_len A y)) (Z.of_nat (stride_len A x))), (Nat.eqb_spec (stride_len A x) (stride_len A y)); auto; lia. }
      rewrite Q'. cbn. eexists _, _. split; [reflexivity|]. split; [exact H|reflexivity].
    - destruct ((0 <=? dst) && (dst <? Z.of_nat (strides A x)) && (0 <=? src) && (src <? Z.of_nat (strides A y))) eqn:G; [|discriminate]. rewrite !andb_true_iff in G. destruct G as [[[G1 G2] G3] G4]. apply Z.leb_le in G1, G3. apply Z.ltb_lt in G2, G4.
      destruct (cells A a i) as [ci|] eqn:Ei; [|discriminate]. destruct (cells A a j) as [cj|] eqn:Ej; [|discriminate]. injection E as <- <-. rewrite !orb_false_iff in Q. destruct Q as [[Q _] _]. apply negb_false_iff, Nat.eqb_eq in Q.
      destruct (stride_copy_R s a i j ci cj x y src dst H Ax Ay Ei Ej Q (conj G1 G2) (conj G3 G4)) as (s' & Es & H'). rewrite Es. cbn. eexists _, _. split; [reflexivity|]. split; [exact H'|reflexivity].
  Qed.
  Lemma fill_good s a i x a' r : Rs s a -> astep a (Fill A i x) = Some (a', r) -> good s (Fill A i x) a' r.
  Proof.
    intros H E. cbn in E. unfold with_cells in E. destruct (cells A a i) as [ci|] eqn:Ei; [|discriminate]. injection E as <- <-. unfold VecRun.good. cbn [step quiet]. destruct (fill_R s a i ci x H Ei) as (s' & Es & H'). rewrite Es. cbn. eexists _, _. split; [reflexivity|]. split; [exact H'|exact I].
  Qed.
  Lemma scale_good s a i x a' r : Rs s a -> astep a (Scale A i x) = Some (a', r) -> good s (Scale A i x) a' r.
  Proof.
    intros H E. cbn in E. unfold with_cells in E. destruct (cells A a i) as [ci|] eqn:Ei; [|discriminate]. injection E as <- <-. unfold VecRun.good. cbn [step quiet]. destruct (scale_R mul s a i ci x H Ei) as (s' & Es & H'). rewrite Es. cbn. eexists _, _. split; [reflexivity|]. split; [exact H'|exact I].
  Qed.
  Lemma add_good s a i j a' r : Rs s a -> astep a (AddTo A i j) = Some (a', r) -> good s (AddTo A i j) a' r.
  Proof.
    intros H E. cbn in E. unfold with2, guard, with_cells in E. destruct (alive A a i) as [x|] eqn:Ax; [|discriminate]. destruct (alive A a j) as [y|] eqn:Ay; [|discriminate].
    destruct (cells A a i) as [ci|] eqn:Ei; [|discriminate]. destruct (cells A a j) as [cj|] eqn:Ej; [|discriminate]. destruct ((size A x =? size A y)%nat && ((i =? j)%nat || disjoint ci cj)) eqn:G; [|discriminate]. injection E as <- <-.
    apply andb_true_iff in G. destruct G as [G1 G2]. apply Nat.eqb_eq in G1. unfold VecRun.good. cbn [step quiet].
    destruct (add_R add s a i j ci cj x y H Ax Ay Ei Ej G1) as (s' & Es & H'). { apply orb_true_iff in G2. destruct G2 as [G2|G2]; [left; apply Nat.eqb_eq, G2|right; apply disjoint_spec, G2]. }
    rewrite Es. cbn. eexists _, _. split; [reflexivity|]. split; [exact H'|exact I].
  Qed.
  Lemma get_good s a i k a' r : Rs s a -> astep a (Get A i k) = Some (a', r) -> good s (Get A i k) a' r.
  Proof.
    intros H E. cbn in E. unfold with1, guard, with_cells in E. destruct (alive A a i) as [x|] eqn:Ax; [|discriminate]. destruct (cells A a i) as [ci|] eqn:Ei; [|discriminate]. destruct ((0 <=? k) && (k <? Z.of_nat (size A x))) eqn:G; [|discriminate]. injection E as <- <-.
    apply andb_true_iff in G. destruct G as [G1 G2]. apply Z.leb_le in G1. apply Z.ltb_lt in G2. unfold VecRun.good. cbn [step]. destruct (get_R s a i ci x k H Ax Ei (conj G1 G2)) as (y & Ey & Cy). rewrite Ey. cbn [bind]. eexists _, _. split; [reflexivity|]. split; [exact H|].
    cbn. unfold cell in Cy. destruct (elem A a ci (stride_len A x) (Z.to_nat k)); [exact Cy|exact I].
  Qed.
  Lemma set_good s a i k x0 a' r : Rs s a -> astep a (Set_ A i k x0) = Some (a', r) -> good s (Set_ A i k x0) a' r.
  Proof.
    intros H E. cbn in E. unfold with1, guard, with_cells in E. destruct (alive A a i) as [x|] eqn:Ax; [|discriminate]. destruct (cells A a i) as [ci|] eqn:Ei; [|discriminate]. destruct ((0 <=? k) && (k <? Z.of_nat (size A x))) eqn:G; [|discriminate]. injection E as <- <-.
    apply andb_true_iff in G. destruct G as [G1 G2]. apply Z.leb_le in G1. apply Z.ltb_lt in G2. unfold VecRun.good. cbn [step quiet]. destruct (set_R' s a i ci x k x0 (Some x0) H Ax Ei (conj G1 G2) eq_refl) as (s' & Es & H' & _). rewrite Es. cbn. eexists _, _. split; [reflexivity|]. split; [exact H'|exact I].
  Qed.
  Lemma downsize_good s a i N a' r : Rs s a -> astep a (Downsize A i N) = Some (a', r) -> good s (Downsize A i N) a' r.
  Proof.
    intros H E. cbn in E. unfold with1, guard in E. destruct (alive A a i) as [x|] eqn:Ax; [|discriminate]. destruct (Z.leb_spec (Z.of_nat (size A x)) N) as [G|]; [|discriminate]. injection E as <- <-.
    destruct (r_obj _ _ _ i x H Ax) as (v & Av & Sh). destruct Sh as (S1 & _). unfold VecRun.good. cbn [step quiet]. unfold downsize. rewrite (obj_alive s i v Av). cbn [bind]. rewrite S1. eexists _, _. split; [reflexivity|]. split; [|exact I].
    destruct (Z.leb_spec N (Z.of_nat (size A x))) as [G2|]; [|exact H]. unfold Rs. cbn. rewrite upd_same; [exact H|]. unfold alivev in Av. destruct (nth_error (s_vecs A s) i) as [z|]; [|discriminate]. subst z. f_equal. f_equal. replace N with (v_n v) by lia. destruct v; reflexivity.
  Qed.

  (** ** swap *)
  Lemma swap_loop (p q : list (option nat)) : length p = length q ->
    foldM (fun '(pv, pw) k => let* p := rd pv k in let* q := rd pw k in let* pv' := wr pv k q in let* pw' := wr pw k p in Ok (pv', pw')) (upto 0 (Z.of_nat (length p))) (p, q) = Ok (q, p).
  Proof.
    intros L. destruct (foldM_upto (fun '(pv, pw) k => let* p := rd pv k in let* q := rd pw k in let* pv' := wr pv k q in let* pw' := wr pw k p in Ok (pv', pw'))
      (fun k x => x = (firstn (Z.to_nat k) q ++ skipn (Z.to_nat k) p, firstn (Z.to_nat k) p ++ skipn (Z.to_nat k) q)) 0 (Z.of_nat (length p)) (p, q)) as (x & E & Ex).
    - lia.
    - reflexivity.
    - intros k [pv pw] Hk Q. injection Q as -> ->. destruct (nth_error p (Z.to_nat k)) as [u|] eqn:Eu; [|apply nth_error_None in Eu; lia]. destruct (nth_error q (Z.to_nat k)) as [u'|] eqn:Eu'; [|apply nth_error_None in Eu'; lia].
      rewrite (proj1 (rd_nth_error _ k u ltac:(lia))) by (rewrite nth_mix by lia; destruct (Nat.ltb_spec (Z.to_nat k) (Z.to_nat k)); [lia|exact Eu]). cbn [bind].
      rewrite (proj1 (rd_nth_error _ k u' ltac:(lia))) by (rewrite nth_mix by lia; destruct (Nat.ltb_spec (Z.to_nat k) (Z.to_nat k)); [lia|exact Eu']). cbn [bind].
      rewrite !wr_ok by (unfold zlen; rewrite app_length, firstn_length, skipn_length; lia). cbn [bind]. rewrite (upd_mix p q _ u') by (auto; lia). rewrite (upd_mix q p _ u) by (auto; lia). eexists. split; [reflexivity|]. replace (Z.to_nat (k + 1)) with (S (Z.to_nat k)) by lia. reflexivity.
    - rewrite E, Ex. rewrite Nat2Z.id, firstn_all, skipn_all. rewrite (firstn_all2 q), (skipn_all2 q) by lia. rewrite !app_nil_r. reflexivity.
  Qed.
  Lemma swap_good s a i j a' r : Rs s a -> astep a (Swap A i j) = Some (a', r) -> good s (Swap A i j) a' r.
  Proof.
    intros H E. cbn in E. unfold with2, guard in E. destruct (alive A a i) as [x|] eqn:Ax; [|discriminate]. destruct (alive A a j) as [y|] eqn:Ay; [|discriminate].
    destruct (r_obj _ _ _ i x H Ax) as (v & Av & Sh). destruct (r_obj _ _ _ j y H Ay) as (w & Aw & Shw). unfold VecRun.good. cbn [step answer]. unfold swap. rewrite (obj_alive s i v Av), (obj_alive s j w Aw). cbn [bind].
    destruct Sh as (S1 & S2 & S3 & S4 & S5 & S6). destruct Shw as (T1 & T2 & T3 & T4 & T5 & T6). rewrite S1, T1. destruct (Nat.eqb_spec (size A x) (size A y)) as [Es|Es]; cbn in E.
    2:{ destruct (Z.eqb_spec (Z.of_nat (size A x)) (Z.of_nat (size A y))); [lia|]. cbn. injection E as <- <-. eexists _, _. split; [reflexivity|]. split; [exact H|reflexivity]. }
    destruct (Z.eqb_spec (Z.of_nat (size A x)) (Z.of_nat (size A y))); [|lia]. cbn [negb]. destruct (Nat.eqb_spec i j) as [->|Nij]; [injection E as <- <-; cbn; eexists _, _; split; [reflexivity|]; split; [exact H|reflexivity]|].
    destruct x as [lx sx nx dx|]; [|discriminate]. destruct y as [ly sy ny dy|]; [|discriminate]. destruct (held A a i) eqn:Hi; [discriminate|]. destruct (held A a j) eqn:Hj; [discriminate|]. destruct (Nat.eqb_spec sx sy) as [->|]; [|discriminate]. cbn in E. injection E as <- <-.
    cbn in *. unfold size in Es. cbn in Es. apply Nat.mul_cancel_l in Es; [|lia]. subst ny. rewrite S2, <- S4. rewrite swap_loop by lia. cbn. eexists _, _. split; [reflexivity|]. split; [|reflexivity]. unfold Rs. cbn.
    rewrite S4. eapply swap_R; [exact H|exact Nij|exact Ax|exact Ay|exact Av|exact Aw|apply held_spec, Hi|apply held_spec, Hj|reflexivity|reflexivity| |].
    - destruct S6 as (? & ? & ?). unfold shape, size. cbn. repeat (split; [congruence|]). congruence.
    - destruct T6 as (? & ? & ?). unfold shape, size. cbn. repeat (split; [congruence|]). congruence.
  Qed.

  (** ** references *)
  Lemma ref_free h vs (a : abs) i lk n l q : R h vs a -> alive A a i = Some (Ref A lk n l q) -> ~ named a i.
  Proof. intros H E (i' & lk' & n' & l' & q' & k & E' & Hl). destruct (r_links h vs a H i' lk' n' l' q' k i E' Hl) as [_ [D|(lk2 & d & D & _)]]; congruence. Qed.
  Lemma not_named_none (a : abs) i m : ~ named a m -> ~ named (upd a i None) m.
  Proof.
    intros N (i' & lk & n & l & q & k & E & Hl). apply N. exists i', lk, n, l, q, k. split; [|exact Hl]. unfold alive in *. rewrite upd_nth in E. destruct (i' =? i)%nat; [destruct (nth_error a i); discriminate|exact E].
  Qed.
  Lemma link_facts h vs (a : abs) i lk n l q v k m : R h vs a -> alive A a i = Some (Ref A lk n l q) -> alivev vs i = Some v -> nth_error l k = Some (Some m) ->
    (m < length a)%nat /\ m <> i /\ ~ named (upd a i None) m /\
    (alive A (upd a i None) m = None \/ exists lk' d, alive A (upd a i None) m = Some (Own A lk' 1 n d) /\ (q = true -> d <> None /\ nth_error (v_p v) k = Some (ptr (upd vs i None) m 0))).
  Proof.
    intros H E Ev Hl. destruct (r_links h vs a H i lk n l q k m E Hl) as [Lm D]. assert (Nm : m <> i) by (intros ->; destruct D as [D|(lk2 & d & D & _)]; congruence). pose proof (alive_lt a i _ E) as Li. pose proof (r_len h vs a H) as Lv.
    assert (Em : alive A (upd a i None) m = alive A a m) by (rewrite alive_upd by exact Li; destruct (Nat.eqb_spec m i); [contradiction|reflexivity]).
    split; [exact Lm|]. split; [exact Nm|]. split.
    - intros (i' & lk' & n' & l' & q' & k' & E' & Hl'). rewrite alive_upd in E' by exact Li. destruct (Nat.eqb_spec i' i) as [|Ni]; [discriminate|]. apply Ni. apply (r_uniq h vs a H i' i lk' lk n' n l' l q' q k' k m E' E Hl' Hl).
    - rewrite Em. destruct D as [D|(lk2 & d & D & Q)]; [left; exact D|]. right. exists lk2, d. split; [exact D|]. intros Y. destruct (Q Y) as [Q1 Q2]. split; [exact Q1|].
      rewrite ptr_upd by lia. destruct (Nat.eqb_spec m i); [contradiction|]. rewrite <- Q2. unfold ptr. rewrite Ev. destruct (nth_error (v_p v) k) as [p|] eqn:Ep; [reflexivity|]. exfalso. apply nth_error_None in Ep.
      destruct (r_obj h vs a i _ H E) as (v' & Ev' & Sh). rewrite Ev in Ev'. injection Ev' as <-. destruct Sh as (_ & _ & _ & S4 & _). cbn in S4. assert (k < length l)%nat by (apply nth_error_Some; congruence). lia.
  Qed.
  Lemma lock_good s a i b a' r : Rs s a -> astep a (Lock A i b) = Some (a', r) -> good s (Lock A i b) a' r.
  Proof.
    intros H E. cbn in E. unfold with1 in E. destruct (alive A a i) as [x|] eqn:Ax; [|discriminate]. injection E as <- <-. destruct (r_obj _ _ _ i x H Ax) as (v & Av & Sh). unfold VecRun.good. cbn [step quiet]. unfold lock. rewrite (obj_alive s i v Av). cbn [bind].
    eexists _, _. split; [reflexivity|]. split; [|exact I]. unfold Rs. cbn [put s_heap s_vecs]. destruct x as [lk s0 n d|lk n l q].
    - eapply relock_R; [exact H|exact Ax|exact Av|reflexivity|]. destruct Sh as (S1 & S2 & S3 & S4 & S5 & S6 & S7 & S8). unfold shape. cbn. auto 10.
    - rewrite <- (upd_upd a i None), <- (upd_upd (s_vecs A s) i None). pose proof (alive_lt a i _ Ax) as Li. eapply ref_R.
      + apply (kill_ref _ _ a i lk n l q H Ax).
      + rewrite upd_length. exact Li.
      + rewrite alive_upd, Nat.eqb_refl by exact Li. reflexivity.
      + apply not_named_none, (ref_free _ _ a i lk n l q H Ax).
      + destruct Sh as (S1 & S2 & S3 & S4 & S5 & S6 & S7 & S8). unfold shape. cbn. auto 10.
      + intros k m Hl. rewrite upd_length. cbn [v_p]. apply (link_facts _ _ a i lk n l q v k m H Ax Av Hl).
      + intros k k' m Hl Hl'. apply (r_uniq _ _ a H i i lk lk n n l l q q k k' m Ax Ax Hl Hl').
  Qed.
  Lemma strideref_good s a i j src dst a' r : Rs s a -> astep a (StrideRef A i j src dst) = Some (a', r) -> good s (StrideRef A i j src dst) a' r.
  Proof.
    intros H E. cbn in E. unfold with2, guard in E. destruct (alive A a i) as [x|] eqn:Ax; [|discriminate]. destruct (alive A a j) as [y|] eqn:Ay; [|discriminate].
    destruct (r_obj _ _ _ i x H Ax) as (v & Av & Sh). destruct (r_obj _ _ _ j y H Ay) as (w & Aw & Shw). unfold VecRun.good. cbn [step answer]. unfold stride_ref. rewrite (obj_alive s i v Av), (obj_alive s j w Aw). cbn [bind].
    destruct Sh as (S1 & S2 & S3 & S4 & S5 & S6). destruct Shw as (T1 & T2 & T3 & T4 & T5 & T6). pose proof (alive_lt a i _ Ax) as Li. pose proof (r_len _ _ a H) as Lv.
    destruct x as [lk s0 n d|lk n l q].
    - destruct S6 as (S6 & S7 & S8). rewrite S8, S2. cbn [andb negb strides] in *. destruct (Z.of_nat s0 <=? dst) eqn:Q; [injection E as <- <-; cbn; eexists _, _; split; [reflexivity|]; split; [exact H|reflexivity]|]. apply Z.leb_gt in Q.
      destruct ((0 <=? dst) && negb (i =? j)%nat && negb (held A a i)) eqn:G; [|discriminate]. rewrite !andb_true_iff in G. destruct G as [[G1 G2] G3]. apply Z.leb_le in G1. apply negb_true_iff in G2, G3. apply Nat.eqb_neq in G2.
      destruct y as [lky [|[|]] [|ny] [dy|]|]; try discriminate. destruct ((src =? 0) && negb (held A a j)) eqn:G; [|discriminate]. injection E as <- <-. apply andb_true_iff in G. destruct G as [G4 G5]. apply Z.eqb_eq in G4. subst src. apply negb_true_iff in G5.
      assert (X : exists s0', (if 0 <? v_len v then destroy A s v else Ok s) = Ok s0' /\ s_vecs A s0' = s_vecs A s /\ R (s_heap A s0') (upd (s_vecs A s) i None) (upd a i None)).
      { destruct (destroy_R s a i _ v H Ax Av) as (h1 & E1 & H1). destruct (Z.ltb_spec 0 (v_len v)) as [Z|Z]; [eexists; split; [exact E1|]; split; [reflexivity|exact H1]|]. exists s. split; [reflexivity|]. split; [reflexivity|].
        cbn in S3. assert (n = O) by lia. subst n. apply (kill_R (s_heap A s) (s_heap A s) _ a i _ H Ax).
        - intros b c Hb. split; [exact Hb|]. intros [_ [k P]]. destruct (r_data _ _ a H i lk s0 O d Ax) as [D _]. rewrite D in P by reflexivity. discriminate.
        - auto. }
      destruct X as (s1 & E1 & V1 & H1). rewrite E1. cbn [bind]. unfold initialize. destruct (Z.eqb_spec (Z.of_nat s0) 0); [cbn in S5; lia|]. destruct (Z.ltb_spec (Z.of_nat s0) 0); [lia|]. rewrite Z.quot_0_l by lia. change (0 <? 0) with false. cbv iota.
      rewrite storage_none, Nat2Z.id. cbn [bind v_p v_n v_obj v_src v_lock v_str v_len v_ref].
      assert (Es : (if Z.of_nat s0 <=? dst + 1 then dst + 1 else Z.of_nat s0) = Z.of_nat s0) by (destruct (Z.leb_spec (Z.of_nat s0) (dst + 1)); lia). rewrite Es.
      assert (Ep : nth_error (v_p w) 0 = Some (ptr (upd (s_vecs A s) i None) j 0)).
      { rewrite ptr_upd by lia. destruct (Nat.eqb_spec j i); [congruence|]. unfold ptr. rewrite Aw. destruct (nth_error (v_p w) 0) eqn:Z; [reflexivity|]. apply nth_error_None in Z. cbn in T4. lia. }
      rewrite (proj1 (rd_nth_error (v_p w) 0 _ ltac:(lia)) Ep). cbn [bind]. rewrite !wr_ok by (unfold zlen; rewrite repeat_length; lia). cbn [bind]. eexists _, _. split; [reflexivity|]. split; [|reflexivity]. unfold Rs. cbn [s_heap s_vecs put]. rewrite V1.
      rewrite <- (upd_upd a i None), <- (upd_upd (s_vecs A s) i None). eapply ref_R.
      + exact H1.
      + rewrite upd_length. exact Li.
      + rewrite alive_upd, Nat.eqb_refl by exact Li. reflexivity.
      + apply not_named_none, held_spec, G3.
      + cbn in S2, S3, S4, S5, T3. unfold shape, size. cbn. rewrite !upd_length, !repeat_length. rewrite T3. split; [lia|]. split; [reflexivity|]. split; [reflexivity|]. split; [reflexivity|]. split; [exact S5|].
        split; [reflexivity|]. split; [reflexivity|]. split; [reflexivity|]. split; [lia|]. split; [reflexivity|].
        assert (Rn : forall B (z : B) k, nth_error (repeat z s0) k = None \/ nth_error (repeat z s0) k = Some z). { intros B z k. destruct (nth_error (repeat z s0) k) as [p|] eqn:Z; [|left; reflexivity]. right. apply nth_error_In in Z. apply repeat_spec in Z. congruence. }
        split.
        * intros k m. rewrite !upd_nth. destruct (Nat.eqb_spec k (Z.to_nat dst)) as [->|]; [|intros Z; destruct (Rn _ (@None nat) k); congruence]. destruct (nth_error (repeat (@None nat) s0) (Z.to_nat dst)) eqn:Z; [|discriminate]. intros _.
          destruct (nth_error (repeat (-1) s0) (Z.to_nat dst)) eqn:Z2; [reflexivity|]. apply nth_error_None in Z2. rewrite repeat_length in Z2. lia.
        * intros k p. rewrite upd_nth. destruct (Nat.eqb_spec k (Z.to_nat dst)) as [->|]; [|intros Z; destruct (Rn _ (@None nat) k); congruence]. intros Z. split; [reflexivity|]. exists j. rewrite upd_nth, Nat.eqb_refl. destruct (nth_error (repeat None s0) (Z.to_nat dst)); [reflexivity|discriminate].
      + intros k m Hl. rewrite upd_nth in Hl. destruct (Nat.eqb_spec k (Z.to_nat dst)) as [->|]; [|apply nth_error_In, repeat_spec in Hl; discriminate]. destruct (nth_error (repeat (@None nat) s0) (Z.to_nat dst)) eqn:Z; [|discriminate]. injection Hl as <-. rewrite upd_length.
        split; [eapply alive_lt; exact Ay|]. split; [congruence|]. split; [apply not_named_none, held_spec, G5|]. right. rewrite alive_upd by exact Li. destruct (Nat.eqb_spec j i); [congruence|]. exists lky, (Some dy). split; [exact Ay|]. intros _. split; [discriminate|].
        cbn [v_p]. rewrite upd_nth, Nat.eqb_refl, Z. reflexivity.
      + intros k k' m Hl Hl'. rewrite upd_nth in Hl, Hl'. destruct (Nat.eqb_spec k (Z.to_nat dst)) as [->|]; [|apply nth_error_In, repeat_spec in Hl; discriminate]. destruct (Nat.eqb_spec k' (Z.to_nat dst)) as [->|]; [reflexivity|apply nth_error_In, repeat_spec in Hl'; discriminate].
    - destruct S6 as (S6 & S7 & S8 & S9 & S10 & S11 & S12). rewrite S8, S2, S3, T3. cbn [andb negb strides stride_len] in *. assert (Qe : (Z.of_nat (stride_len A y) =? Z.of_nat n) = (stride_len A y =? n)%nat). { destruct (Z.eqb_spec (Z.of_nat (stride_len A y)) (Z.of_nat n)), (Nat.eqb_spec (stride_len A y) n); auto; lia. }
      rewrite Qe. destruct (stride_len A y =? n)%nat eqn:Q; cbn [negb] in *; [|injection E as <- <-; cbn; eexists _, _; split; [reflexivity|]; split; [exact H|reflexivity]]. apply Nat.eqb_eq in Q. subst n.
      destruct ((0 <=? dst) && (dst <? Z.of_nat (length l)) && q) eqn:G; [|discriminate]. rewrite !andb_true_iff in G. destruct G as [[G1 G2] ->]. apply Z.leb_le in G1. apply Z.ltb_lt in G2.
      destruct y as [lky [|[|]] ny [dy|]|]; try discriminate. destruct ((src =? 0) && negb (held A a j)) eqn:G; [|discriminate]. injection E as <- <-. apply andb_true_iff in G. destruct G as [G4 G5]. apply Z.eqb_eq in G4. subst src. apply negb_true_iff in G5. cbn [stride_len] in *.
      assert (Nij : j <> i) by congruence. cbn [bind]. rewrite S2.
      assert (Es : (if Z.of_nat (length l) <=? dst + 1 then dst + 1 else Z.of_nat (length l)) = Z.of_nat (length l)) by (destruct (Z.leb_spec (Z.of_nat (length l)) (dst + 1)); lia). rewrite Es.
      assert (Ep : nth_error (v_p w) 0 = Some (ptr (upd (s_vecs A s) i None) j 0)).
      { rewrite ptr_upd by lia. destruct (Nat.eqb_spec j i); [congruence|]. unfold ptr. rewrite Aw. destruct (nth_error (v_p w) 0) eqn:Z; [reflexivity|]. apply nth_error_None in Z. cbn in T4. lia. }
      rewrite (proj1 (rd_nth_error (v_p w) 0 _ ltac:(lia)) Ep). cbn [bind]. rewrite S6. rewrite !wr_ok by (unfold zlen; lia). cbn [bind]. eexists _, _. split; [reflexivity|]. split; [|reflexivity]. unfold Rs. cbn [s_heap s_vecs put].
      rewrite <- (upd_upd a i None), <- (upd_upd (s_vecs A s) i None). eapply ref_R.
      + apply (kill_ref _ _ a i lk ny l true H Ax).
      + rewrite upd_length. exact Li.
      + rewrite alive_upd, Nat.eqb_refl by exact Li. reflexivity.
      + apply not_named_none, (ref_free _ _ a i lk ny l true H Ax).
      + unfold shape, size. cbn. rewrite !upd_length. rewrite S3. split; [lia|]. split; [reflexivity|]. split; [reflexivity|]. split; [exact S4|]. split; [exact S5|]. split; [reflexivity|]. split; [exact S7|]. split; [exact S8|]. split; [exact S9|]. split; [exact S10|]. split.
        * intros k m. rewrite !upd_nth. destruct (Nat.eqb_spec k (Z.to_nat dst)) as [->|]; [|apply S11]. intros _. destruct (nth_error (v_src v) (Z.to_nat dst)) eqn:Z2; [reflexivity|]. apply nth_error_None in Z2. lia.
        * intros k p. rewrite !upd_nth. destruct (Nat.eqb_spec k (Z.to_nat dst)) as [->|]; [|apply S12]. intros Z. split; [reflexivity|]. exists j. destruct (nth_error l (Z.to_nat dst)) eqn:Z2; [reflexivity|]. apply nth_error_None in Z2. lia.
      + intros k m Hl. cbn [v_p]. rewrite upd_length. rewrite !upd_nth in *. destruct (Nat.eqb_spec k (Z.to_nat dst)) as [->|].
        * destruct (nth_error l (Z.to_nat dst)) eqn:Z; [|discriminate]. injection Hl as <-. split; [eapply alive_lt; exact Ay|]. split; [exact Nij|]. split; [apply not_named_none, held_spec, G5|]. right. rewrite alive_upd by exact Li. destruct (Nat.eqb_spec j i); [congruence|]. exists lky, (Some dy). split; [exact Ay|]. intros _. split; [discriminate|].
          destruct (nth_error (v_p v) (Z.to_nat dst)) eqn:Z2; [reflexivity|]. apply nth_error_None in Z2. lia.
        * apply (link_facts _ _ a i lk ny l true v k m H Ax Av Hl).
      + intros k k' m Hl Hl'. rewrite upd_nth in Hl, Hl'. assert (Fr : forall z, nth_error l z <> Some (Some j)). { intros z Z. apply (held_spec a j G5). exists i, lk, ny, l, true, z. auto. }
        destruct (Nat.eqb_spec k (Z.to_nat dst)) as [->|]; destruct (Nat.eqb_spec k' (Z.to_nat dst)) as [->|]; [reflexivity| | |].
        * destruct (nth_error l (Z.to_nat dst)); [|discriminate]. injection Hl as <-. destruct (Fr k' Hl').
        * destruct (nth_error l (Z.to_nat dst)); [|discriminate]. injection Hl' as <-. destruct (Fr k Hl).
        * apply (r_uniq _ _ a H i i lk lk ny ny l l true true k k' m Ax Ax Hl Hl').
  Qed.
End P.
