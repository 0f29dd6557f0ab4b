(** Lemmas on the vector class: the calls. *)
From Coq Require Import List ZArith Lia Bool Arith.
From Verif Require Import Base Arrays Model.Vec Spec.Vec Proofs.Vec Proofs.VecOps Proofs.VecStore.
Import ListNotations.
Open Scope Z_scope.

Section P.
  Context {A : Type}.
  Variable junk : nat -> Z -> A.
  Variables (add mul : A -> A -> A).
  Notation heap := (heap A). Notation st := (st A). Notation abs := (abs A). Notation avec := (avec A).

  Lemma shape_data v lk s n d d' : shape v (Own A lk s n d) -> shape v (Own A lk s n d').
  Proof. exact (fun x => x). Qed.
  Lemma init_ok (s : st) N k str n : N = Z.of_nat (str * n) -> k = Z.of_nat str -> (1 <= str)%nat -> exists h' v, initialize A junk s N k = Ok (mkSt A h' (s_arrays A s + 1) (s_vecs A s), v) /\
    storage A junk (s_heap A s) (Z.of_nat n) str = (h', v_p v) /\ shape v (own A str n (fresh A str n)).
  Proof.
    intros EN Ek Hs. unfold initialize. destruct (Z.eqb_spec k 0); [lia|]. destruct (Z.ltb_spec k 0); [lia|]. assert (Q : Z.quot N k = Z.of_nat n). { rewrite EN, Ek, Nat2Z.inj_mul, Z.mul_comm. apply Z.quot_mul. lia. }
    rewrite Q. destruct (Z.ltb_spec (Z.of_nat n) 0); [lia|]. replace (Z.to_nat k) with str by lia. destruct (storage A junk (s_heap A s) (Z.of_nat n) str) as [h' ps] eqn:Es. eexists _, _. split; [reflexivity|]. split; [reflexivity|].
    destruct (storage_spec junk _ _ _ _ _ Es) as (Lp & _). unfold shape, own, size. cbn. rewrite EN, Ek. auto 10.
  Qed.
  (** ** making room *)
  Lemma not_named (a : abs) i X : ~ named a i -> ~ named (upd a i X) i \/ exists lk n l q, X = Some (Ref A lk n l q).
  Proof.
    intros N. destruct X as [[|lk n l q]|]; try (right; eauto 6; fail); left; intros (i' & lk' & n' & l' & q' & k & E & Hl); apply N; exists i', lk', n', l', q', k; (split; [|exact Hl]);
    unfold alive in *; rewrite upd_nth in E; destruct (Nat.eqb_spec i' i) as [->|]; auto; destruct (nth_error a i); congruence.
  Qed.
  Lemma destroy_R (s : st) a i x v : Rs s a -> alive A a i = Some x -> alivev (s_vecs A s) i = Some v ->
    exists h, destroy A s v = Ok (mkSt A h (s_arrays A s - 1) (s_vecs A s)) /\ R h (upd (s_vecs A s) i None) (upd a i None).
  Proof.
    intros H Ax Av. destruct (r_obj _ _ _ i x H Ax) as (v' & Av' & Sh). rewrite Av in Av'. injection Av' as <-. destruct Sh as (_ & _ & _ & _ & _ & Sh). unfold destroy. destruct x as [lk s0 n d|lk n l q].
    - destruct Sh as (_ & _ & ->). destruct (kill_own _ _ a i lk s0 n d v H Ax Av) as (h & E & H'). rewrite E. cbn [bind]. eauto.
    - destruct Sh as (_ & _ & -> & _). cbn [bind]. eexists. split; [reflexivity|]. apply (kill_ref _ _ a i lk n l q H Ax).
  Qed.
  Lemma discard_R (s : st) a i x v : Rs s a -> alive A a i = Some x -> alivev (s_vecs A s) i = Some v ->
    exists s1, (if v_ref v then Ok s else destroy A s v) = Ok s1 /\ s_vecs A s1 = s_vecs A s /\ R (s_heap A s1) (upd (s_vecs A s) i None) (upd a i None).
  Proof.
    intros H Ax Av. destruct (r_obj _ _ _ i x H Ax) as (v' & Av' & Sh). rewrite Av in Av'. injection Av' as <-. destruct (destroy_R s a i x v H Ax Av) as (h & E & H'). destruct (v_ref v) eqn:Er.
    - exists s. split; [reflexivity|]. split; [reflexivity|]. destruct Sh as (_ & _ & _ & _ & _ & Sh). destruct x as [lk s0 n d|lk n l q]; [destruct Sh as (_ & _ & Sh); congruence|]. apply (kill_ref _ _ a i lk n l q H Ax).
    - exists (mkSt A h (s_arrays A s - 1) (s_vecs A s)). split; [exact E|]. split; [reflexivity|exact H'].
  Qed.
  Lemma put_init (s1 : st) vs a i x N k str n : R (s_heap A s1) (upd vs i None) (upd a i None) -> alive A a i = Some x -> ~ named a i -> N = Z.of_nat (str * n) -> k = Z.of_nat str -> (1 <= str)%nat ->
    exists h' v, initialize A junk s1 N k = Ok (mkSt A h' (s_arrays A s1 + 1) (s_vecs A s1), v) /\ R h' (upd vs i (Some v)) (upd a i (Some (own A str n (fresh A str n)))) /\ shape v (own A str n (fresh A str n)).
  Proof.
    intros H Ax Nn EN Ek Hs. destruct (init_ok s1 N k str n EN Ek Hs) as (h' & v & E & Es & Sh). exists h', v. split; [exact E|]. split; [|exact Sh].
    rewrite <- (upd_upd a i None), <- (upd_upd vs i None). pose proof (alive_lt a i x Ax) as Li. eapply insert_R; [exact H| | | |exact Es|reflexivity|exact Sh].
    - rewrite upd_length. exact Li.
    - rewrite alive_upd, Nat.eqb_refl by exact Li. reflexivity.
    - destruct (not_named a i None Nn) as [Q|(? & ? & ? & ? & Q)]; [exact Q|discriminate].
  Qed.
  (** ** the cells of another vector *)
  Lemma masters_other (a : abs) i X l cs : (forall k, nth_error l k <> Some (Some i)) -> masters A a l = Some cs -> masters A (upd a i X) l = Some cs /\ forall c, In c cs -> fst c <> i.
  Proof.
    revert cs; induction l as [|[m|] l IH]; intros cs Hl E; cbn in E; [injection E as <-; split; [reflexivity|intros c []]| |discriminate].
    assert (Nm : m <> i) by (intros ->; apply (Hl O); reflexivity). assert (Em : alive A (upd a i X) m = alive A a m). { unfold alive. rewrite upd_nth. destruct (Nat.eqb_spec m i); [contradiction|reflexivity]. }
    destruct (alive A a m) as [[lk s n [d|]|]|] eqn:Q; try discriminate. destruct (masters A a l) as [cs'|] eqn:E'; [|discriminate]. injection E as <-. destruct (IH cs' (fun k => Hl (S k)) eq_refl) as [I1 I2].
    cbn. rewrite Em, I1. split; [reflexivity|]. intros c [<-|Hc]; [exact Nm|apply I2, Hc].
  Qed.
  Lemma cells_other (a : abs) i j X cj : i <> j -> ~ named a i -> cells A a j = Some cj -> cells A (upd a i X) j = Some cj /\ forall c, In c cj -> fst c <> i.
  Proof.
    intros N Nn E. unfold cells in *. assert (Ej : alive A (upd a i X) j = alive A a j). { unfold alive. rewrite upd_nth. destruct (Nat.eqb_spec j i); [congruence|reflexivity]. } rewrite Ej.
    destruct (alive A a j) as [[lk s n [d|]|lk n l [|]]|] eqn:Ex; try discriminate.
    - split; [exact E|]. injection E as <-. intros c Hc. apply in_map_iff in Hc. destruct Hc as (k & <- & _). cbn. congruence.
    - apply masters_other; [|exact E]. intros k Hk. apply Nn. exists j, lk, n, l, true, k. auto.
  Qed.
  Lemma seg_other (a : abs) i X c : fst c <> i -> seg A (upd a i X) c = seg A a c.
  Proof. intros N. unfold seg, alive. rewrite upd_nth. destruct (Nat.eqb_spec (fst c) i); [contradiction|reflexivity]. Qed.
  Lemma cells_own (a : abs) i s n d : (i < length a)%nat -> cells A (upd a i (Some (own A s n d))) i = Some (map (pair i) (seq 0 s)).
  Proof. intros L. unfold cells. rewrite alive_upd, Nat.eqb_refl by exact L. reflexivity. Qed.
  Lemma write_fresh (a : abs) i s n ls : (i < length a)%nat -> length ls = s -> write A (upd a i (Some (own A s n (fresh A s n)))) (map (pair i) (seq 0 s)) ls = upd a i (Some (own A s n ls)).
  Proof.
    intros L Ls. rewrite <- Ls at 3. change O with (@length (list (option A)) []) at 1. rewrite (write_own _ i false s n (fresh A s n) ls []).
    - rewrite upd_upd. reflexivity.
    - rewrite alive_upd, Nat.eqb_refl by exact L. reflexivity.
    - unfold fresh. rewrite repeat_length. congruence.
  Qed.
  Lemma no_overlap i s (cj : list (nat * nat)) : (forall c, In c cj -> fst c <> i) -> forall c, In c (map (pair i) (seq 0 s)) -> ~ In c cj.
  Proof. intros H c Hc Q. apply in_map_iff in Hc. destruct Hc as (k & <- & _). apply (H _ Q). reflexivity. Qed.
  Lemma alivev_lt (vs : list (option vec)) i v : alivev vs i = Some v -> (i < length vs)%nat.
  Proof. unfold alivev. intros E. apply nth_error_Some. destruct (nth_error vs i); congruence. Qed.
  Lemma r_strides h vs (a : abs) i x : R h vs a -> alive A a i = Some x -> (1 <= strides A x)%nat.
  Proof. intros H E. destruct (r_obj h vs a i x H E) as (v & _ & Sh). apply Sh. Qed.

  (** ** one call after the other *)
  Definition good (s : st) (o : op A) (a' : abs) (r : ares A) : Prop := exists s' x, step A junk add mul s o = Ok (s', x) /\ Rs s' a' /\ fits A r x.
  Lemma new_good s a N k a' r : Rs s a -> astep A add mul a (New A N k) = Some (a', r) -> good s (New A N k) a' r.
  Proof.
    intros H E. cbn in E. unfold guard in E. destruct ((0 <=? N) && (1 <=? k) && (N mod k =? 0)) eqn:G; [|discriminate]. injection E as <- <-. rewrite !andb_true_iff in G. destruct G as [[G1 G2] G3].
    apply Z.leb_le in G1, G2. apply Z.eqb_eq in G3. assert (EN : N = Z.of_nat (Z.to_nat k * Z.to_nat (N / k))).
    { pose proof (Z.div_pos N k G1 ltac:(lia)). rewrite Nat2Z.inj_mul, !Z2Nat.id by lia. pose proof (Z.div_mod N k ltac:(lia)). lia. }
    destruct (init_ok s N k (Z.to_nat k) (Z.to_nat (N / k)) EN ltac:(lia) ltac:(lia)) as (h' & v & Ei & Es & Sh). unfold good. cbn. unfold create. rewrite Ei. cbn. eexists _, _. split; [reflexivity|]. split; [|exact I].
    eapply create_R; [exact H|exact Es|reflexivity|exact Sh].
  Qed.
  Lemma clone_good s a j a' r : Rs s a -> astep A add mul a (Clone A j) = Some (a', r) -> good s (Clone A j) a' r.
  Proof.
    intros H E. cbn in E. unfold with1, with_cells in E. destruct (alive A a j) as [y|] eqn:Ay; [|discriminate]. destruct (cells A a j) as [cj|] eqn:Ec; [|discriminate]. injection E as <- <-.
    destruct (r_obj _ _ _ j y H Ay) as (w & Aw & Shw). destruct Shw as (T1 & T2 & T3 & T4 & T5 & _).
    destruct (init_ok s (v_n w) (v_str w) (strides A y) (stride_len A y) T1 T2 T5) as (h' & v & Ei & Es & Sh). unfold good. cbn. unfold clone. rewrite (obj_alive s j w Aw). cbn [bind]. rewrite Ei. cbn [bind s_heap].
    pose proof (create_R junk _ _ _ _ a (strides A y) (stride_len A y) v H Es eq_refl Sh) as H1. rewrite <- (upd_end a None) in H1. rewrite <- (upd_end (s_vecs A s) None), (r_len _ _ _ H) in H1.
    assert (La : (length a < length (a ++ [None]))%nat) by (rewrite app_length; cbn; lia). assert (Lj : (j < length a)%nat) by (eapply alive_lt; exact Ay).
    assert (Ap : forall o, (o < length a)%nat -> alive A (a ++ [None]) o = alive A a o) by (intros o Ho; unfold alive; rewrite nth_error_app1 by exact Ho; reflexivity).
    assert (Cj : cells A (a ++ [None]) j = Some cj).
    { unfold cells. rewrite Ap by exact Lj. rewrite <- Ec. unfold cells. destruct (alive A a j) as [[? ? ? [?|]|lk n l [|]]|] eqn:Q; try reflexivity.
      assert (Bl : forall k m, nth_error l k = Some (Some m) -> (m < length a)%nat) by (intros k m Hm; apply (r_links _ _ _ H j lk n l true k m Q Hm)). clear - Bl Ap. induction l as [|[m|] l IH]; [reflexivity| |reflexivity]. cbn.
      rewrite Ap by (apply (Bl O); reflexivity). rewrite IH; [reflexivity|]. intros k m' Hm. apply (Bl (S k) m' Hm). }
    assert (Nn : ~ named (a ++ [None]) (length a)).
    { intros Q. destruct Q as (i' & lk & n & l & q & k & E & Hl). assert (Li : (i' < length a)%nat). { pose proof (alive_lt _ _ _ E) as Z. rewrite app_length in Z. cbn in Z. destruct (Nat.eq_dec i' (length a)) as [->|]; [|lia].
        unfold alive in E. rewrite nth_error_app2, Nat.sub_diag in E by lia. discriminate. }
      rewrite Ap in E by exact Li. pose proof (r_links _ _ _ H i' lk n l q k _ E Hl) as [Z _]. lia. }
    destruct (cells_other _ (length a) j (Some (own A (strides A y) (stride_len A y) (fresh A (strides A y) (stride_len A y)))) cj ltac:(lia) Nn Cj) as [Cj2 Fj].
    destruct (copy_all_R _ _ _ (length a) j _ cj v w H1 (cells_own _ _ _ _ _ La) Cj2 (no_overlap _ _ _ Fj)) as (h2 & Eh & H2).
    { rewrite alivev_upd, Nat.eqb_refl by (rewrite app_length; cbn; rewrite (r_len _ _ _ H); lia). reflexivity. }
    { rewrite alivev_upd by (rewrite app_length; cbn; rewrite (r_len _ _ _ H); lia). destruct (Nat.eqb_spec j (length a)); [lia|]. unfold alivev in *. rewrite nth_error_app1 by (rewrite (r_len _ _ _ H); exact Lj). exact Aw. }
    { destruct Sh as (_ & -> & _). rewrite T2. reflexivity. } { destruct Sh as (_ & _ & -> & _). rewrite T3. reflexivity. }
    rewrite Eh. cbn. eexists _, _. split; [reflexivity|]. split; [|exact I]. unfold Rs. cbn. destruct (cells_spec _ _ _ j cj H Ec) as (y' & _ & Ay' & _ & _ & Lc & _). rewrite Ay in Ay'. injection Ay' as <-.
    rewrite write_fresh in H2; [|exact La|rewrite map_length; exact Lc]. rewrite upd_end in H2. rewrite <- (r_len _ _ _ H), upd_end in H2.
    assert (Em : map (seg A (upd (a ++ [None]) (length a) (Some (own A (strides A y) (stride_len A y) (fresh A (strides A y) (stride_len A y)))))) cj = map (seg A a) cj).
    { apply map_ext_in. intros c Hc. rewrite seg_other by (apply Fj, Hc). unfold seg. apply In_nth_error in Hc. destruct Hc as [k Hk]. destruct (cells_spec _ _ _ j cj H Ec) as (y2 & v2 & _ & _ & _ & _ & Cc). destruct (Cc k c Hk) as [(lk & s0 & d & Ed & _) _].
      rewrite Ap by (eapply alive_lt; exact Ed). reflexivity. }
    rewrite (r_len _ _ _ H) in H2. rewrite Em in H2. exact H2.
  Qed.
  Lemma delete_good s a i a' r : Rs s a -> astep A add mul a (Delete A i) = Some (a', r) -> good s (Delete A i) a' r.
  Proof.
    intros H E. cbn in E. unfold with1 in E. destruct (alive A a i) as [x|] eqn:Ax; [|discriminate]. injection E as <- <-. destruct (r_obj _ _ _ i x H Ax) as (v & Av & _). destruct (destroy_R s a i x v H Ax Av) as (h & E & H').
    unfold good. cbn. unfold remove. rewrite (obj_alive s i v Av). cbn [bind]. rewrite E. cbn. eexists _, _. split; [reflexivity|]. split; [exact H'|exact I].
  Qed.
  Lemma newsize1_good s a i N a' r : Rs s a -> astep A add mul a (Newsize1 A i N) = Some (a', r) -> good s (Newsize1 A i N) a' r.
  Proof.
    intros H E. cbn in E. unfold with1 in E. destruct (alive A a i) as [x|] eqn:Ax; [|discriminate]. destruct (r_obj _ _ _ i x H Ax) as (v & Av & Sh). destruct Sh as (S1 & _). unfold good. cbn. unfold newsize1. rewrite (obj_alive s i v Av). cbn [bind]. rewrite S1.
    destruct (Z.of_nat (size A x) =? N) eqn:Q.
    - injection E as <- <-. cbn. eexists _, _. split; [reflexivity|]. split; [exact H|exact I].
    - unfold guard in E. destruct (negb (held A a i) && (0 <=? N)) eqn:G; [|discriminate]. injection E as <- <-. apply andb_true_iff in G. destruct G as [G1 G2]. apply negb_true_iff in G1. apply Z.leb_le in G2.
      destruct (discard_R s a i x v H Ax Av) as (s1 & E1 & V1 & H1). rewrite E1. cbn [bind]. destruct (put_init s1 _ a i x N 1 1 (Z.to_nat N) H1 Ax (held_spec a i G1) ltac:(lia) eq_refl ltac:(lia)) as (h' & v' & E2 & H2 & _).
      rewrite E2. cbn. eexists _, _. split; [reflexivity|]. split; [|exact I]. unfold Rs. cbn. rewrite V1. exact H2.
  Qed.
  Lemma newsize_good s a i N k a' r : Rs s a -> astep A add mul a (Newsize A i N k) = Some (a', r) -> good s (Newsize A i N k) a' r.
  Proof.
    intros H E. cbn in E. unfold with1 in E. destruct (alive A a i) as [x|] eqn:Ax; [|discriminate]. destruct (r_obj _ _ _ i x H Ax) as (v & Av & Sh). destruct Sh as (S1 & S2 & _). unfold good. cbn. unfold newsize. rewrite (obj_alive s i v Av). cbn [bind]. rewrite S1, S2.
    destruct ((Z.of_nat (size A x) =? N) && (Z.of_nat (strides A x) =? k)) eqn:Q.
    - injection E as <- <-. cbn. eexists _, _. split; [reflexivity|]. split; [exact H|exact I].
    - unfold guard in E. destruct (negb (held A a i) && (0 <=? N) && (1 <=? k) && (N mod k =? 0)) eqn:G; [|discriminate]. injection E as <- <-. rewrite !andb_true_iff in G. destruct G as [[[G0 G1] G2] G3]. apply negb_true_iff in G0.
      apply Z.leb_le in G1, G2. apply Z.eqb_eq in G3. assert (EN : N = Z.of_nat (Z.to_nat k * Z.to_nat (N / k))).
      { pose proof (Z.div_pos N k G1 ltac:(lia)). rewrite Nat2Z.inj_mul, !Z2Nat.id by lia. pose proof (Z.div_mod N k ltac:(lia)). lia. }
      destruct (destroy_R s a i x v H Ax Av) as (h1 & E1 & H1). rewrite E1. cbn [bind].
      destruct (put_init (mkSt A h1 (s_arrays A s - 1) (s_vecs A s)) _ a i x N k (Z.to_nat k) (Z.to_nat (N / k)) H1 Ax (held_spec a i G0) EN ltac:(lia) ltac:(lia)) as (h' & v' & E2 & H2 & _).
      rewrite E2. cbn. eexists _, _. split; [reflexivity|]. split; [|exact I]. exact H2.
  Qed.
  (** ** assignments *)
  Lemma copying_cases s a i j x y a' r : Rs s a -> alive A a i = Some x -> alive A a j = Some y -> i <> j -> copying A a i j x y = Some (a', r) -> exists v w cj, r = ANone A /\ alivev (s_vecs A s) i = Some v /\ alivev (s_vecs A s) j = Some w /\ cells A a j = Some cj /\
    (((v_n v =? v_n w) && (v_str v =? v_str w) = true /\ v_str v = v_str w /\ v_len v = v_len w /\ exists ci, cells A a i = Some ci /\ (forall c, In c ci -> ~ In c cj) /\ a' = write A a ci (map (seg A a) cj)) \/
     ((v_n v =? v_n w) && (v_str v =? v_str w) = false /\ exists s1 h2 v', (if v_ref v then Ok s else destroy A s v) = Ok s1 /\ s_vecs A s1 = s_vecs A s /\
       initialize A junk s1 (v_n w) (v_str w) = Ok (mkSt A h2 (s_arrays A s1 + 1) (s_vecs A s1), v') /\
       let a2 := upd a i (Some (own A (strides A y) (stride_len A y) (fresh A (strides A y) (stride_len A y)))) in let vs2 := upd (s_vecs A s) i (Some v') in
       R h2 vs2 a2 /\ cells A a2 i = Some (map (pair i) (seq 0 (strides A y))) /\ cells A a2 j = Some cj /\ (forall c, In c (map (pair i) (seq 0 (strides A y))) -> ~ In c cj) /\ alivev vs2 i = Some v' /\ alivev vs2 j = Some w /\
       v_str v' = v_str w /\ v_len v' = v_len w /\ write A a2 (map (pair i) (seq 0 (strides A y))) (map (seg A a2) cj) = a')).
  Proof.
    intros H Ax Ay Nij E. unfold copying, with_cells in E. destruct (cells A a j) as [cj|] eqn:Ec; [|discriminate]. destruct (r_obj _ _ _ i x H Ax) as (v & Av & Sh). destruct (r_obj _ _ _ j y H Ay) as (w & Aw & Shw).
    destruct Sh as (S1 & S2 & S3 & _). destruct Shw as (T1 & T2 & T3 & _ & T5 & _). exists v, w, cj.
    assert (Qe : (v_n v =? v_n w) && (v_str v =? v_str w) = ((size A x =? size A y) && (strides A x =? strides A y))%nat).
    { rewrite S1, T1, S2, T2. f_equal; match goal with |- (?u =? ?v) = (?p =? ?q)%nat => destruct (Z.eqb_spec u v), (Nat.eqb_spec p q); auto; lia end. }
    rewrite Qe. destruct ((size A x =? size A y) && (strides A x =? strides A y))%nat eqn:Q.
    - destruct (cells A a i) as [ci|] eqn:Ei; [|discriminate]. unfold guard in E. destruct (disjoint ci cj) eqn:D; [|discriminate]. injection E as <- <-. split; [reflexivity|]. split; [exact Av|]. split; [exact Aw|]. split; [reflexivity|]. left.
      apply andb_true_iff in Q. destruct Q as [Q1 Q2]. apply Nat.eqb_eq in Q1, Q2. split; [reflexivity|]. split; [lia|]. split; [|exists ci; split; [reflexivity|]; split; [apply disjoint_spec; exact D|reflexivity]].
      unfold size in Q1. rewrite Q2 in Q1. apply Nat.mul_cancel_l in Q1; lia.
    - unfold guard in E. destruct (held A a i) eqn:Hh; [discriminate|]. cbn in E. injection E as <- <-. split; [reflexivity|]. split; [exact Av|]. split; [exact Aw|]. split; [reflexivity|]. right. split; [reflexivity|].
      destruct (discard_R s a i x v H Ax Av) as (s1 & E1 & V1 & H1). destruct (put_init s1 _ a i x (v_n w) (v_str w) (strides A y) (stride_len A y) H1 Ax (held_spec a i Hh) T1 T2 T5) as (h2 & v' & E2 & H2 & Sh'). exists s1, h2, v'.
      split; [exact E1|]. split; [exact V1|]. split; [exact E2|]. cbv zeta. pose proof (alive_lt a i x Ax) as Li. pose proof (alivev_lt _ _ _ Av) as Lv.
      destruct (cells_other a i j (Some (own A (strides A y) (stride_len A y) (fresh A (strides A y) (stride_len A y)))) cj Nij (held_spec a i Hh) Ec) as [Cj Fj].
      split; [exact H2|]. split; [apply cells_own; exact Li|]. split; [exact Cj|]. split; [apply no_overlap; exact Fj|]. split; [rewrite alivev_upd, Nat.eqb_refl by exact Lv; reflexivity|].
      split; [rewrite alivev_upd by exact Lv; destruct (Nat.eqb_spec j i); [congruence|exact Aw]|]. destruct Sh' as (_ & U2 & U3 & _). split; [rewrite U2, T2; reflexivity|]. split; [rewrite U3, T3; reflexivity|].
      destruct (cells_spec _ _ _ j cj H Ec) as (y' & _ & Ay' & _ & _ & Lc & _). rewrite Ay in Ay'. injection Ay' as <-. rewrite write_fresh; [|exact Li|rewrite map_length; exact Lc]. do 3 f_equal. apply map_ext_in. intros c Hc. apply seg_other, Fj, Hc.
  Qed.
  Lemma assign_good s a i j a' r : Rs s a -> astep A add mul a (Assign A i j) = Some (a', r) -> good s (Assign A i j) a' r.
  Proof.
    intros H E. cbn in E. unfold with2 in E. destruct (alive A a i) as [x|] eqn:Ax; [|discriminate]. destruct (alive A a j) as [y|] eqn:Ay; [|discriminate]. unfold good. cbn. unfold assign.
    destruct (r_obj _ _ _ i x H Ax) as (v0 & Av0 & _). destruct (r_obj _ _ _ j y H Ay) as (w0 & Aw0 & _). rewrite (obj_alive s i v0 Av0), (obj_alive s j w0 Aw0). cbn [bind].
    destruct (Nat.eqb_spec i j) as [->|Nij]; [injection E as <- <-; cbn; eexists _, _; split; [reflexivity|]; split; [exact H|exact I]|].
    destruct (copying_cases s a i j x y a' r H Ax Ay Nij E) as (v & w & cj & -> & Av & Aw & Ec & D). rewrite Av0 in Av. injection Av as <-. rewrite Aw0 in Aw. injection Aw as <-. destruct D as [(-> & Es & El & ci & Ei & Dj & ->)|(-> & s1 & h2 & v' & E1 & V1 & E2 & H2 & Ci & Cj & Dj & Av' & Aw' & Es & El & Ea)].
    - destruct (copy_all_R _ _ a i j ci cj v0 w0 H Ei Ec Dj Av0 Aw0 Es El) as (h & Eh & H'). rewrite Eh. cbn. eexists _, _. split; [reflexivity|]. split; [exact H'|exact I].
    - rewrite E1. cbn [bind]. rewrite E2. cbn [bind s_heap]. destruct (copy_all_R _ _ _ i j _ cj v' w0 H2 Ci Cj Dj Av' Aw' Es El) as (h & Eh & H'). rewrite Eh. cbn. eexists _, _. split; [reflexivity|]. split; [|exact I]. unfold Rs. cbn. rewrite V1, <- Ea. exact H'.
  Qed.
  Lemma fast_good s a i j a' r : Rs s a -> astep A add mul a (FastCopy A i j) = Some (a', r) -> good s (FastCopy A i j) a' r.
  Proof.
    intros H E. cbn in E. unfold with2, guard in E. destruct (alive A a i) as [x|] eqn:Ax; [|discriminate]. destruct (alive A a j) as [y|] eqn:Ay; [|discriminate]. unfold good. cbn. unfold fast_copy.
    destruct (r_obj _ _ _ i x H Ax) as (v0 & Av0 & _). destruct (r_obj _ _ _ j y H Ay) as (w0 & Aw0 & _). rewrite (obj_alive s i v0 Av0), (obj_alive s j w0 Aw0). cbn [bind]. cbv zeta.
    destruct (Nat.eqb_spec i j) as [->|Nij]; [discriminate|]. cbn in E.
    destruct (copying_cases s a i j x y a' r H Ax Ay Nij E) as (v & w & cj & -> & Av & Aw & Ec & D). rewrite Av0 in Av. injection Av as <-. rewrite Aw0 in Aw. injection Aw as <-. destruct D as [(-> & Es & El & ci & Ei & Dj & ->)|(-> & s1 & h2 & v' & E1 & V1 & E2 & H2 & Ci & Cj & Dj & Av' & Aw' & Es & El & Ea)].
    - destruct (fast_all_R _ _ a i j ci cj v0 w0 H Ei Ec Dj Av0 Aw0 Es El) as (h & Eh & H'). rewrite Eh. cbn. eexists _, _. split; [reflexivity|]. split; [exact H'|exact I].
    - rewrite E1. cbn [bind]. rewrite E2. cbn [bind s_heap]. destruct (fast_all_R _ _ _ i j _ cj v' w0 H2 Ci Cj Dj Av' Aw' Es El) as (h & Eh & H'). rewrite Eh. cbn. eexists _, _. split; [reflexivity|]. split; [|exact I]. unfold Rs. cbn. rewrite V1, <- Ea. exact H'.
  Qed.
  (** ** parts *)
  Lemma sub_good s a i j b e a' r : Rs s a -> astep A add mul a (CopySub A i j b e) = Some (a', r) -> good s (CopySub A i j b e) a' r.
  Proof.
    intros H E. cbn in E. unfold with2, guard, with_cells in E. destruct (alive A a i) as [x|] eqn:Ax; [|discriminate]. destruct (alive A a j) as [y|] eqn:Ay; [|discriminate]. unfold good. cbn [step quiet]. unfold copy_sub.
    destruct (r_obj _ _ _ i x H Ax) as (v & Av & Sh). destruct (r_obj _ _ _ j y H Ay) as (w & Aw & Shw). rewrite (obj_alive s i v Av), (obj_alive s j w Aw). cbn [bind].
    destruct Sh as (S1 & S2 & S3 & _). destruct Shw as (T1 & T2 & T3 & _ & T5 & _).
    destruct (Nat.eqb_spec i j) as [->|Nij]; [injection E as <- <-; cbn; eexists _, _; split; [reflexivity|]; split; [exact H|exact I]|]. cbv zeta. rewrite (Z.abs_eq (Z.abs (e - b) + 1)) by lia. rewrite T1.
    destruct (Z.of_nat (size A y) <? Z.abs (e - b) + 1) eqn:Q0; [injection E as <- <-; cbn; eexists _, _; split; [reflexivity|]; split; [exact H|exact I]|].
    destruct ((0 <=? b) && (b <=? e) && (e <? Z.of_nat (size A y)) && (strides A y =? 1)%nat) eqn:G; [|discriminate]. rewrite !andb_true_iff in G. destruct G as [[[G1 G2] G3] G4]. apply Z.leb_le in G1, G2. apply Z.ltb_lt in G3. apply Nat.eqb_eq in G4.
    replace (Z.abs (e - b) + 1) with (e - b + 1) by lia. set (r0 := Z.to_nat (e - b + 1)) in *. assert (Er : e - b + 1 = Z.of_nat r0) by (unfold r0; lia). rewrite Er, S1, S2, T2, G4.
    destruct (cells A a j) as [cj|] eqn:Ec; [|discriminate]. destruct (cells_spec _ _ _ j cj H Ec) as (y' & w' & Ay' & Aw' & _ & Lcw & Ccw). rewrite Ay in Ay'. injection Ay' as <-. rewrite Aw in Aw'. injection Aw' as <-.
    assert (Hcj : nth_error cj 0 = Some (nth 0 cj (O, O))) by (apply nth_error_nth'; lia). set (cc := nth 0 cj (O, O)) in *. destruct (Ccw _ _ Hcj) as [Vj Pj]. apply rd_p in Pj. change (Z.of_nat 0) with 0 in Pj. unfold size in G3. rewrite G4 in G3.
    assert (Eb : b = Z.of_nat (Z.to_nat b)) by lia.
    assert (Qe : (Z.of_nat r0 <=? Z.of_nat (size A x)) && (Z.of_nat (strides A x) =? Z.of_nat 1) = ((r0 <=? size A x) && (strides A x =? 1))%nat).
    { f_equal; [destruct (Z.leb_spec (Z.of_nat r0) (Z.of_nat (size A x))), (Nat.leb_spec r0 (size A x)); auto; lia|destruct (Z.eqb_spec (Z.of_nat (strides A x)) (Z.of_nat 1)), (Nat.eqb_spec (strides A x) 1); auto; lia]. }
    rewrite Qe. destruct ((r0 <=? size A x) && (strides A x =? 1))%nat eqn:Q.
    - apply andb_true_iff in Q. destruct Q as [Q1 Q2]. apply Nat.leb_le in Q1. apply Nat.eqb_eq in Q2. destruct (cells A a i) as [ci|] eqn:Ei; [|discriminate]. destruct (disjoint ci cj) eqn:D; [|discriminate]. injection E as <- <-.
      destruct (cells_spec _ _ _ i ci H Ei) as (x' & v' & Ax' & Av' & _ & Lc & Cc). rewrite Ax in Ax'. injection Ax' as <-. rewrite Av in Av'. injection Av' as <-.
      assert (Hci : nth_error ci 0 = Some (nth 0 ci (O, O))) by (apply nth_error_nth'; lia). set (c := nth 0 ci (O, O)) in *. destruct (Cc _ _ Hci) as [Vi Pi]. apply rd_p in Pi. change (Z.of_nat 0) with 0 in Pi.
      assert (N : c <> cc). { intros Z. apply (disjoint_spec _ _ D c); [eapply nth_error_In; exact Hci|rewrite Z; eapply nth_error_In; exact Hcj]. }
      destruct (part_R _ _ a c cc _ _ (Z.to_nat b) r0 H Vi Vj N ltac:(lia)) as (h & Eh & H'). { unfold size in Q1. rewrite Q2 in Q1. lia. }
      unfold copy_part. rewrite S2, Q2. change (upto 0 (Z.of_nat 1)) with [0]. cbn [foldM].
      rewrite (foldM_ext _ (fun h k => let* x := load A h (ptr (s_vecs A s) (fst cc) (snd cc)) (Z.of_nat (Z.to_nat b) + k) in store A h (ptr (s_vecs A s) (fst c) (snd c)) k x)).
      + rewrite Eh. cbn. eexists _, _. split; [reflexivity|]. split; [exact H'|exact I].
      + intros k h0 _. rewrite Pj, <- Eb. cbn [bind]. destruct (load A h0 _ (b + k)); [|reflexivity|reflexivity]. cbn [bind]. rewrite Pi. reflexivity.
    - destruct (held A a i) eqn:Hh; [discriminate|]. cbn in E. injection E as <- <-. destruct (discard_R s a i x v H Ax Av) as (s1 & E1 & V1 & H1). rewrite E1. cbn [bind].
      destruct (put_init s1 _ a i x (Z.of_nat r0) (Z.of_nat 1) 1 r0 H1 Ax (held_spec a i Hh) ltac:(lia) eq_refl ltac:(lia)) as (h2 & v' & E2 & H2 & Sh'). rewrite E2. cbn [bind s_heap].
      pose proof (alive_lt a i x Ax) as Li. pose proof (alivev_lt _ _ _ Av) as Lv. set (a2 := upd a i (Some (own A 1 r0 (fresh A 1 r0)))) in *.
      destruct (cells_other a i j (Some (own A 1 r0 (fresh A 1 r0))) cj Nij (held_spec a i Hh) Ec) as [Cj Fj]. fold a2 in Cj.
      destruct (cells_spec _ _ _ j cj H2 Cj) as (y2 & w2 & Ay2 & Aw2 & _ & _ & Cc2). destruct (Cc2 _ _ Hcj) as [Vj2 Pj2]. assert (Ey : y2 = y). { unfold a2 in Ay2. rewrite alive_upd in Ay2 by exact Li. destruct (Nat.eqb_spec j i); congruence. } subst y2.
      assert (Ew : w2 = w). { rewrite alivev_upd in Aw2 by exact Lv. destruct (Nat.eqb_spec j i); congruence. } subst w2. apply rd_p in Pj2. change (Z.of_nat 0) with 0 in Pj2.
      destruct (cells_spec _ _ _ i _ H2 (cells_own a i 1 r0 _ Li)) as (x2 & v2 & Ax2 & Av2 & _ & _ & Cci). destruct (Cci O (i, O) eq_refl) as [Vi2 Pi2]. unfold a2 in Ax2. rewrite alive_upd, Nat.eqb_refl in Ax2 by exact Li. injection Ax2 as <-.
      rewrite alivev_upd, Nat.eqb_refl in Av2 by exact Lv. injection Av2 as <-. apply rd_p in Pi2. change (Z.of_nat 0) with 0 in Pi2. change (stride_len A (own A 1 r0 (fresh A 1 r0))) with r0 in Vi2.
      assert (Nc : (i, O) <> cc) by (intros Z; apply (Fj cc); [eapply nth_error_In; exact Hcj|rewrite <- Z; reflexivity]).
      destruct (part_R _ _ a2 (i, O) cc _ _ (Z.to_nat b) r0 H2 Vi2 Vj2 Nc ltac:(lia) ltac:(lia)) as (h & Eh & H').
      unfold copy_part. destruct Sh' as (_ & U2 & _). rewrite U2. change (upto 0 (Z.of_nat (strides A (own A 1 r0 (fresh A 1 r0))))) with [0]. cbn [foldM].
      rewrite (foldM_ext _ (fun h k => let* x := load A h (ptr (upd (s_vecs A s) i (Some v')) (fst cc) (snd cc)) (Z.of_nat (Z.to_nat b) + k) in store A h (ptr (upd (s_vecs A s) i (Some v')) (fst (i, O)) (snd (i, O))) k x)).
      + rewrite Eh. cbn [bind]. eexists _, _. split; [reflexivity|]. split; [|exact I]. unfold Rs. cbn [s_heap s_vecs put with_heap]. rewrite V1. assert (Ea : set_seg A a2 (i, O) (firstn r0 (skipn (Z.to_nat b) (seg A a2 cc)) ++ skipn r0 (seg A a2 (i, O))) = upd a i (Some (own A 1 r0 [firstn r0 (skipn (Z.to_nat b) (seg A a cc))]))).
        { assert (L2 : length (seg A a2 (i, O)) = r0) by (apply (valid_slot _ _ a2 (i, O) r0 H2 Vi2)). rewrite (skipn_all2 (seg A a2 (i, O))) by lia. rewrite app_nil_r. unfold a2 at 2. rewrite seg_other by (apply Fj; eapply nth_error_In; exact Hcj).
          unfold set_seg. cbn [fst snd]. unfold a2. rewrite alive_upd, Nat.eqb_refl by exact Li. cbn. rewrite upd_upd. reflexivity. }
        rewrite <- Ea. exact H'.
      + intros k h0 _. rewrite Pj2, <- Eb. cbn [bind]. destruct (load A h0 _ (b + k)); [|reflexivity|reflexivity]. cbn [bind]. rewrite Pi2. reflexivity.
  Qed.
End P.
