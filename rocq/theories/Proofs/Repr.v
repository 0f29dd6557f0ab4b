(** Proofs about the two representations of a wave function. *)
From Coq Require Import List ZArith Lia Bool Arith.
From Verif Require Import Base Arrays Model.Grid Spec.Grid Proofs.Grid Model.Repr Spec.Repr.
Import ListNotations.
Open Scope Z_scope.

Lemma fupd_same {X} (f : nat -> X) i x : fupd f i x i = x.
Proof. unfold fupd. rewrite Nat.eqb_refl. reflexivity. Qed.
Lemma fupd_other {X} (f : nat -> X) i x j : j <> i -> fupd f i x j = f j.
Proof. intros H. unfold fupd. rewrite (proj2 (Nat.eqb_neq j i) H). reflexivity. Qed.
Lemma fupd_id {X} (f : nat -> X) i j : fupd f i (f i) j = f j.
Proof. unfold fupd. destruct (Nat.eqb_spec j i); congruence. Qed.
Lemma fupd_fupd {X} (f : nat -> X) i x y j : fupd (fupd f i x) i y j = fupd f i y j.
Proof. unfold fupd. destruct (j =? i)%nat; reflexivity. Qed.

Section P.
  Variable A : Type.
  Variable trans : bool -> list Z -> option nat -> list A -> list A.
  Variable junk : nat -> Z -> list A.
  Variable flag : lvl.
  Hypothesis Htr : forall fw ds od x, zlen x = grid_size ds -> zlen (trans fw ds od x) = zlen x.
  Hypothesis Hj : forall t n, 0 <= n -> zlen (junk t n) = n.
  Notation rep := (rep A).
  Notation state := (state A).
  Notation world := (world A).
  Notation active := (active A).
  Notation wisd := (prob -> option lvl).
  Notation cov := (cov flag).
  Notation learn := (learn flag).
  Notation lost := (lost flag).
  Notation learn2 := (learn2 flag).
  Notation set_k := (set_k A).
  Notation mfull := (mfull A flag).
  Notation wfull := (wfull A flag).
  Notation pfull := (pfull A).
  Notation mdim := (mdim A flag).
  Notation wdim := (wdim flag).
  Notation exec := (exec A trans).

  (** ** Wisdom and losses *)

  Lemma prob_eqb_eq p q : prob_eqb p q = true <-> p = q.
  Proof.
    destruct p as [[ds d] f], q as [[es e] g]. unfold prob_eqb. split.
    - intros H. apply andb_true_iff in H. destruct H as [H Hf]. apply andb_true_iff in H. destruct H as [Hd He].
      destruct (list_eq_dec Z.eq_dec ds es); [|discriminate]. apply Bool.eqb_prop in Hf. subst.
      destruct d, e; try discriminate; [apply Nat.eqb_eq in He; subst|]; reflexivity.
    - intros E. injection E as -> -> ->. destruct (list_eq_dec Z.eq_dec es es); [|congruence].
      destruct e; cbn; rewrite ?Nat.eqb_refl, Bool.eqb_reflx; reflexivity.
  Qed.
  Lemma lvl_leb_refl l : lvl_leb l l = true.
  Proof. destruct l; reflexivity. Qed.
  Lemma learn_cov wis p q : cov wis q = true -> cov (learn wis p) q = true.
  Proof.
    unfold Spec.Repr.learn, Spec.Repr.cov. destruct flag eqn:Ef; auto.
    - destruct (match wis p with Some l => lvl_leb Mea l | None => false end) eqn:E; auto. intros H.
      destruct (prob_eqb q p); [reflexivity|exact H].
    - destruct (match wis p with Some l => lvl_leb Pat l | None => false end) eqn:E; auto. intros H.
      destruct (prob_eqb q p); [reflexivity|exact H].
  Qed.
  Lemma learn_self wis p : cov (learn wis p) p = true.
  Proof.
    assert (E : prob_eqb p p = true) by (apply prob_eqb_eq; reflexivity).
    unfold Spec.Repr.learn, Spec.Repr.cov. destruct flag; [reflexivity| |];
      (destruct (match wis p with Some _ => _ | None => _ end) eqn:C; [exact C|]; rewrite E; reflexivity).
  Qed.
  Lemma learn_keep wis p : cov wis p = true -> forall q, learn wis p q = wis q.
  Proof. unfold Spec.Repr.learn. intros ->. destruct flag; reflexivity. Qed.
  Lemma cov_ext wis wis' p : (forall q, wis q = wis' q) -> cov wis p = cov wis' p.
  Proof. intros H. unfold Spec.Repr.cov. rewrite (H p). reflexivity. Qed.
  Lemma learn_ext wis wis' p : (forall q, wis q = wis' q) -> forall q, learn wis p q = learn wis' p q.
  Proof.
    intros H q. unfold Spec.Repr.learn. rewrite (cov_ext wis wis' p H). destruct flag; [apply H| |];
      (destruct (Spec.Repr.cov _ wis' p); [apply H|]; destruct (prob_eqb q p); auto).
  Qed.
  Lemma cov_pat wis p : match wis p with Some l => lvl_leb Pat l | None => false end = true -> cov wis p = true.
  Proof. unfold Spec.Repr.cov. destruct flag; auto; destruct (wis p) as [[| |]|]; cbn; auto. Qed.

  (** ** The relation of objects to what they stand for *)
  Definition other (r : rep) : option (list A) := if r_k _ r then r_pos _ r else r_mom _ r.
  Definition holds (h : nat -> option (list A)) (b : nat) (n : Z) (c : option (list A)) : Prop :=
    exists l, h b = Some l /\ zlen l = n /\ forall x, c = Some x -> l = x.
  Definition owns (o : wfo) (b : nat) : Prop := b <> 0%nat /\ (o_v o = b \/ exists n, o_buf o = Some (n, b)).
  Definition fft_rel (o : wfo) (r : rep) (pl : list nat) : Prop :=
    match o_fft o, r_made _ r with
    | None, None => True
    | Some f, Some c => f_bufobj f = c /\ f_dims f = r_dims _ r /\ f_planned f = pl /\
        exists b, o_buf o = Some (o_n o, b) /\ (r_ret _ r = false -> (f_in f, f_out f) = if o_k o then (b, o_v o) else (o_v o, b))
    | _, _ => False
    end.
  Definition buf_rel (h : nat -> option (list A)) (o : wfo) (r : rep) : Prop :=
    match o_buf o with
    | None => other r = None
    | Some (n, b) => b <> 0%nat /\ b <> o_v o /\ 0 <= n /\ (n = o_n o -> holds h b n (other r)) /\ (n <> o_n o -> holds h b n None /\ other r = None)
    end.
  Record orel (h : nat -> option (list A)) (o : wfo) (r : rep) (pl : list nat) : Prop := mkRel {
    rl_dims : o_dims o = r_dims _ r;
    rl_n : o_n o = grid_size (r_dims _ r);
    rl_pos : 0 <= o_n o;
    rl_k : o_k o = r_k _ r;
    rl_fft : fft_rel o r pl;
    rl_live : r_ret _ r = false -> o_v o <> 0%nat /\ holds h (o_v o) (o_n o) (active r) /\ buf_rel h o r;
    rl_ret : r_ret _ r = true -> r_pos _ r = None /\ r_mom _ r = None /\ o_v o = 0%nat /\ forall n b, o_buf o = Some (n, b) -> b = 0%nat /\ 0 <= n }.
  Definition oown (oo : option wfo) (b : nat) : Prop := match oo with Some o => owns o b | None => False end.
  Record Inv (w : world) (s : state) (pl : nat -> list nat) (wis : wisd) : Prop := mkInv {
    iv_wis : forall p, w_wis _ w p = wis p;
    iv_next : (1 <= w_next _ w)%nat;
    iv_obj : forall i, match w_obj _ w i, s i with
                       | None, None => True
                       | Some o, Some r => orel (w_heap _ w) o r (pl i) /\ forall b, owns o b -> (b < w_next _ w)%nat
                       | _, _ => False
                       end;
    iv_sep : forall i j b, oown (w_obj _ w i) b -> oown (w_obj _ w j) b -> i = j }.

  Lemma holds_weak h b n c : holds h b n c -> holds h b n None.
  Proof. intros (l & E & Z & _). exists l. split; [exact E|]. split; [exact Z|]. discriminate. Qed.
  Lemma holds_ext h h' b n c : h' b = h b -> holds h b n c -> holds h' b n c.
  Proof. intros E (l & E1 & R). exists l. rewrite E. auto. Qed.
  Lemma orel_frame h h' o r pl : (forall b, owns o b -> h' b = h b) -> orel h o r pl -> orel h' o r pl.
  Proof.
    intros E [H1 H2 H3 H4 H5 H6 H7]. constructor; auto. intros R. destruct (H6 R) as (V & Hv & Hb).
    split; [exact V|]. split.
    - apply (holds_ext h); [|exact Hv]. apply E. split; auto.
    - unfold buf_rel in *. destruct (o_buf o) as [[n b]|] eqn:Eb; [|exact Hb]. destruct Hb as (B1 & B2 & B3 & B4 & B5).
      assert (Ho : h' b = h b) by (apply E; split; eauto).
      split; [exact B1|]. split; [exact B2|]. split; [exact B3|]. split.
      + intros N. apply (holds_ext h); auto.
      + intros N. destruct (B5 N). split; [apply (holds_ext h); auto|assumption].
  Qed.

  (** the general step: object i is replaced, only its own and fresh storage changes *)
  Lemma inv_upd0 w s pl wis w' i o' r' p' wis' : Inv w s pl wis ->
    (forall j, w_obj _ w' j = fupd (w_obj _ w) i (Some o') j) -> (w_next _ w <= w_next _ w')%nat ->
    (forall b, b <> 0%nat -> (b < w_next _ w)%nat -> ~ oown (w_obj _ w i) b -> w_heap _ w' b = w_heap _ w b) ->
    orel (w_heap _ w') o' r' p' ->
    (forall b, owns o' b -> (oown (w_obj _ w i) b \/ (w_next _ w <= b)%nat) /\ (b < w_next _ w')%nat) ->
    (forall p, w_wis _ w' p = wis' p) ->
    Inv w' (fupd s i (Some r')) (fupd pl i p') wis'.
  Proof.
    intros I Eo En Eh R O Ew. destruct I as [I1 I2 I3 I4].
    assert (Own : forall j b, j <> i -> oown (w_obj _ w j) b -> (b < w_next _ w)%nat).
    { intros j b N Hj'. specialize (I3 j). destruct (w_obj _ w j) as [oj|]; [|destruct Hj'].
      destruct (s j); [|destruct I3]. apply (proj2 I3). exact Hj'. }
    constructor.
    - exact Ew.
    - lia.
    - intros j. rewrite Eo. destruct (Nat.eq_dec j i) as [->|N].
      + rewrite !fupd_same. split; [exact R|]. intros b Hb. apply (O b Hb).
      + rewrite !fupd_other by exact N. specialize (I3 j). destruct (w_obj _ w j) as [oj|] eqn:Ej; destruct (s j) as [rj|]; auto.
        destruct I3 as [Rj Bj]. split; [|intros b Hb; specialize (Bj b Hb); lia].
        apply (orel_frame (w_heap _ w)); [|exact Rj]. intros b Hb. apply Eh; [apply Hb|apply (Bj b Hb)|].
        intros Hi. apply N. apply (I4 j i b); [rewrite Ej; exact Hb|exact Hi].
    - intros j k b. rewrite !Eo. destruct (Nat.eq_dec j i) as [->|N], (Nat.eq_dec k i) as [->|N']; auto.
      + rewrite fupd_same, fupd_other by exact N'. cbn [oown]. intros Hi Hk. exfalso. destruct (proj1 (O b Hi)) as [H|H].
        * apply N'. apply (I4 k i b); assumption.
        * pose proof (Own k b N' Hk). lia.
      + rewrite fupd_same, fupd_other by exact N. cbn [oown]. intros Hk Hi. exfalso. destruct (proj1 (O b Hi)) as [H|H].
        * apply N. apply (I4 j i b); assumption.
        * pose proof (Own j b N Hk). lia.
      + rewrite !fupd_other by assumption. apply I4.
  Qed.
  Lemma inv_upd w s pl wis w' i o' r' p' wis' : Inv w s pl wis ->
    (forall j, w_obj _ w' j = fupd (w_obj _ w) i (Some o') j) -> (w_next _ w <= w_next _ w')%nat ->
    (forall b, (b < w_next _ w)%nat -> ~ oown (w_obj _ w i) b -> w_heap _ w' b = w_heap _ w b) ->
    orel (w_heap _ w') o' r' p' ->
    (forall b, owns o' b -> (oown (w_obj _ w i) b \/ (w_next _ w <= b)%nat) /\ (b < w_next _ w')%nat) ->
    (forall p, w_wis _ w' p = wis' p) ->
    Inv w' (fupd s i (Some r')) (fupd pl i p') wis'.
  Proof. intros I Eo En Eh R O Ew. apply (inv_upd0 w s pl wis w' i o' r' p' wis'); auto. Qed.
  Lemma inv_ext w s pl wis s' pl' wis' : (forall i, s' i = s i) -> (forall i, pl' i = pl i) -> (forall p, wis' p = wis p) ->
    Inv w s pl wis -> Inv w s' pl' wis'.
  Proof.
    intros E1 E2 E3 [I1 I2 I3 I4]. constructor; auto.
    - intros p. rewrite E3. apply I1.
    - intros i. rewrite E1, E2. apply I3.
  Qed.
  Lemma inv_get w s pl wis i r : Inv w s pl wis -> s i = Some r -> exists o, w_obj _ w i = Some o /\ get _ w i = Ok o /\
    orel (w_heap _ w) o r (pl i) /\ forall b, owns o b -> (b < w_next _ w)%nat.
  Proof.
    intros I E. pose proof (iv_obj _ _ _ _ I i) as H. rewrite E in H. unfold get. destruct (w_obj _ w i) as [o|]; [|destruct H].
    exists o. destruct H. auto.
  Qed.

  Lemma fit_spec w o r pl : orel (w_heap _ w) o r pl -> r_ret _ r = false -> (1 <= w_next _ w)%nat -> (forall b, owns o b -> (b < w_next _ w)%nat) ->
    exists w1 b rs, fit_buffer _ junk w o = (w1, (o_n o, b), rs) /\ w_obj _ w1 = w_obj _ w /\ (w_next _ w <= w_next _ w1)%nat /\ w_wis _ w1 = w_wis _ w /\
      (forall c, (c < w_next _ w)%nat -> ~ owns o c -> w_heap _ w1 c = w_heap _ w c) /\
      b <> 0%nat /\ b <> o_v o /\ (b < w_next _ w1)%nat /\ (owns o b \/ (w_next _ w <= b)%nat) /\
      holds (w_heap _ w1) b (o_n o) (other r) /\ holds (w_heap _ w1) (o_v o) (o_n o) (active r) /\
      (rs = true -> r_made _ r = None) /\ (r_made _ r <> None -> o_buf o = Some (o_n o, b)).
  Proof.
    intros R Hr Hn Ho. destruct (rl_live _ _ _ _ R Hr) as (V & Hv & Hb). pose proof (rl_pos _ _ _ _ R) as Np. pose proof (rl_fft _ _ _ _ R) as Rf.
    assert (Hvn : (o_v o < w_next _ w)%nat) by (apply Ho; split; auto).
    unfold fit_buffer, get_buffer, buf_rel in *. destruct (o_buf o) as [[n b]|] eqn:Eb.
    - destruct Hb as (B1 & B2 & B3 & B4 & B5). destruct (Z.eqb_spec n (o_n o)) as [->|N].
      + exists w, b, false. split; [reflexivity|]. split; [reflexivity|]. split; [lia|]. split; [reflexivity|]. split; [auto|].
        split; [exact B1|]. split; [exact B2|].
        assert (Ob : owns o b) by (split; eauto). split; [apply Ho; exact Ob|]. split; [left; exact Ob|].
        split; [apply B4; reflexivity|]. split; [exact Hv|]. split; [discriminate|auto].
      + destruct (B5 N) as [B6 B7]. cbn [alloc free].
        assert (Ob : owns o b) by (split; eauto). pose proof (Ho b Ob) as Hbn.
        eexists. exists (w_next _ w), true. split; [reflexivity|]. cbn. split; [reflexivity|]. split; [lia|]. split; [reflexivity|]. split.
        { intros c Hc Nc. rewrite !fupd_other; [reflexivity|intros ->; auto|lia]. }
        split; [lia|]. split; [lia|]. split; [lia|]. split; [right; lia|].
        split.
        { eexists. rewrite fupd_same. split; [reflexivity|]. split; [apply Hj; exact Np|]. rewrite B7. discriminate. }
        split.
        { apply (holds_ext (w_heap _ w)); [|exact Hv]. rewrite !fupd_other; [reflexivity|auto|lia]. }
        split.
        { intros _. unfold fft_rel in Rf. destruct (o_fft o), (r_made _ r); try tauto. destruct Rf as (_ & _ & _ & b' & E & _).
          rewrite Eb in E. congruence. }
        intros M. exfalso. unfold fft_rel in Rf. destruct (o_fft o), (r_made _ r); try tauto. destruct Rf as (_ & _ & _ & b' & E & _).
        rewrite Eb in E. congruence.
    - cbn [alloc]. rewrite Z.eqb_refl. eexists. exists (w_next _ w), false. split; [reflexivity|]. cbn. split; [reflexivity|]. split; [lia|]. split; [reflexivity|].
      split.
      { intros c Hc Nc. rewrite fupd_other; [reflexivity|lia]. }
      split; [lia|]. split; [lia|]. split; [lia|]. split; [right; lia|]. split.
      { eexists. rewrite fupd_same. split; [reflexivity|]. split; [apply Hj; exact Np|]. rewrite Hb. discriminate. }
      split.
      { apply (holds_ext (w_heap _ w)); [|exact Hv]. rewrite fupd_other; [reflexivity|lia]. }
      split; [discriminate|].
      intros M. exfalso. unfold fft_rel in Rf. destruct (o_fft o), (r_made _ r); try tauto. destruct Rf as (_ & _ & _ & b' & E & _).
      rewrite Eb in E. congruence.
  Qed.

  Lemma owns_mk o' v n b c : o_v o' = v -> o_buf o' = Some (n, b) -> owns o' c -> c = v \/ c = b.
  Proof. intros E1 E2 [_ [H|[m H]]]; [left; congruence|right; congruence]. Qed.

  Lemma is_kspace_spec w s pl wis i r k : Inv w s pl wis -> s i = Some r -> r_ret _ r = false ->
    exists w', is_kspace _ junk w i k = Ok w' /\ Inv w' (fupd s i (Some (set_k r k))) (fupd pl i (pl i)) wis.
  Proof.
    intros I Es Hr. destruct (inv_get _ _ _ _ _ _ I Es) as (o & Eo & Eg & R & Ho).
    unfold is_kspace. rewrite Eg. cbn [bind].
    destruct (fit_spec w o r (pl i) R Hr (iv_next _ _ _ _ I) Ho) as (w1 & b & rs & E & F1 & F2 & F3 & F4 & F5 & F6 & F7 & F8 & F9 & F10 & F11 & F12).
    rewrite E. eexists. split; [reflexivity|]. destruct (rl_live _ _ _ _ R Hr) as (V & Hv & _).
    pose proof (rl_k _ _ _ _ R) as Rk. pose proof (rl_fft _ _ _ _ R) as Rf.
    set (o' := if Bool.eqb (o_k o) k then _ else _).
    assert (Ov : forall c, owns o' c -> c = o_v o \/ c = b).
    { intros c Hc. unfold o' in Hc. destruct (Bool.eqb (o_k o) k).
      - eapply owns_mk; [| |exact Hc]; reflexivity.
      - apply or_comm. eapply owns_mk; [| |exact Hc]; reflexivity. }
    apply (inv_upd w s pl wis _ i o' _ _ wis I).
    - intros j. cbn. rewrite F1. reflexivity.
    - exact F2.
    - rewrite Eo. exact F4.
    - constructor; cbn [Spec.Repr.set_k r_dims r_ret r_k r_made r_pos r_mom].
      + unfold o'. destruct (Bool.eqb (o_k o) k); apply (rl_dims _ _ _ _ R).
      + unfold o'. destruct (Bool.eqb (o_k o) k); apply (rl_n _ _ _ _ R).
      + unfold o'. destruct (Bool.eqb (o_k o) k); apply (rl_pos _ _ _ _ R).
      + unfold o'. destruct (Bool.eqb (o_k o) k) eqn:Ek; [apply Bool.eqb_prop in Ek; exact Ek|reflexivity].
      + unfold fft_rel in *. cbn [Spec.Repr.set_k r_made r_dims r_ret]. unfold o'.
        destruct (Bool.eqb (o_k o) k) eqn:Ek; cbn [o_fft o_buf o_n o_k o_v]; (destruct (o_fft o) as [f|], (r_made _ r) as [c|]; auto;
          destruct Rf as (G1 & G2 & G3 & b' & G4 & G5); repeat (split; [assumption|])).
        * exists b'. assert (Eb : o_buf o = Some (o_n o, b)) by (apply F12; discriminate). rewrite G4 in Eb. injection Eb as ->. split; auto.
        * assert (Eb : o_buf o = Some (o_n o, b)) by (apply F12; discriminate). rewrite G4 in Eb. injection Eb as ->. exists (o_v o).
          split; [reflexivity|]. intros Rr. specialize (G5 Rr). destruct (o_k o), k; try discriminate Ek; exact G5.
      + intros _. unfold o'. destruct (Bool.eqb (o_k o) k) eqn:Ek; cbn [o_v o_n].
        * apply Bool.eqb_prop in Ek. split; [exact V|]. unfold Spec.Repr.active, other in *. cbn [Spec.Repr.set_k r_k r_pos r_mom]. rewrite <- Ek, Rk. split; [exact F10|].
          unfold buf_rel. cbn [o_buf o_n o_v]. repeat (split; [assumption|]). split; [apply (rl_pos _ _ _ _ R)|]. split; [|congruence].
          intros _. exact F9.
        * split; [exact F5|]. unfold Spec.Repr.active, other in *. cbn [Spec.Repr.set_k r_k r_pos r_mom].
          split; [destruct (r_k _ r), (o_k o), k; try discriminate; exact F9|].
          unfold buf_rel. cbn [o_buf o_n o_v]. split; [exact V|]. split; [auto|]. split; [apply (rl_pos _ _ _ _ R)|]. split; [|congruence].
          intros _. unfold other. cbn [Spec.Repr.set_k r_k r_pos r_mom]. destruct (r_k _ r), (o_k o), k; try discriminate; exact F10.
      + congruence.
    - intros c Hc. rewrite Eo. cbn [oown w_next put]. destruct (Ov c Hc) as [-> | ->].
      + assert (Ow : owns o (o_v o)) by (split; auto). split; [left; exact Ow|]. specialize (Ho _ Ow). lia.
      + split; [exact F8|exact F7].
    - intros p. cbn. rewrite F3. apply (iv_wis _ _ _ _ I).
  Qed.

  Lemma plan_spec w l p a b saved x y : l = flag \/ l = Pat -> a <> b -> saved = a \/ saved = b ->
    w_heap _ w a = Some x -> w_heap _ w b = Some y ->
    exists w', plan _ junk flag w l p a b saved = Ok w' /\ w_obj _ w' = w_obj _ w /\ w_next _ w' = w_next _ w /\
      (forall q, w_wis _ w' q = learn (w_wis _ w) p q) /\ (forall c, c <> a -> c <> b -> w_heap _ w' c = w_heap _ w c) /\
      (forall c z, c = a \/ c = b -> w_heap _ w c = Some z -> exists z', w_heap _ w' c = Some z' /\ zlen z' = zlen z /\
         (cov (w_wis _ w) p = true \/ c = saved -> z' = z)).
  Proof.
    intros Hl Nab Hs Ea Eb. unfold plan.
    destruct (wisdom_ok _ w l p) eqn:W.
    - exists w. assert (C : cov (w_wis _ w) p = true).
      { unfold wisdom_ok in W. destruct Hl as [-> | ->]; [|apply cov_pat; exact W]. unfold Spec.Repr.cov. destruct flag; auto. }
      split; [reflexivity|]. split; [reflexivity|]. split; [reflexivity|].
      split; [intros q; symmetry; apply learn_keep; exact C|]. split; [auto|]. intros c z _ E. exists z. auto.
    - assert (Es : exists z, w_heap _ w saved = Some z) by (destruct Hs as [-> | ->]; eauto). destruct Es as (z & Es).
      unfold rdb at 1. rewrite Es. cbn [bind].
      destruct (cov (w_wis _ w) p) eqn:C.
      + assert (E : fftw_plan _ junk flag w p a b = Ok w).
        { unfold Spec.Repr.cov in C. unfold fftw_plan, wisdom_ok. destruct flag; [reflexivity| |]; rewrite C; reflexivity. }
        rewrite E. cbn [bind]. unfold rdb. rewrite Es. cbn [bind]. eexists. split; [reflexivity|]. cbn. split; [reflexivity|]. split; [reflexivity|].
        split; [intros q; symmetry; apply learn_keep; exact C|]. split.
        * intros c Na Nb. rewrite fupd_other; [reflexivity|]. destruct Hs as [-> | ->]; assumption.
        * intros c t _ Et. exists t. unfold fupd. destruct (Nat.eqb_spec c saved) as [->|N]; [|auto]. rewrite Es in Et. injection Et as ->. auto.
      + assert (Nf : flag <> Est) by (intros E; unfold Spec.Repr.cov in C; rewrite E in C; discriminate).
        assert (E : fftw_plan _ junk flag w p a b =
             let w1 := wrb _ w a (junk (w_tick _ w) (zlen x)) in
             let w2 := wrb _ (tick _ w1) b (junk (S (w_tick _ w)) (zlen y)) in
             Ok (set_wis _ (tick _ w2) p flag)).
        { unfold Spec.Repr.cov in C. unfold fftw_plan, wisdom_ok, rdb. rewrite Ea, Eb. destruct flag; [congruence| |]; rewrite C; reflexivity. }
        rewrite E. cbn [bind]. unfold rdb. cbn [w_heap set_wis tick wrb].
        set (h := fupd (fupd (w_heap _ w) a _) b _).
        assert (Hz : exists t, h saved = Some t).
        { unfold h. destruct Hs as [-> | ->]; [rewrite fupd_other by auto|]; rewrite fupd_same; eauto. }
        destruct Hz as (t & Ht). rewrite Ht. cbn [bind]. eexists. split; [reflexivity|]. cbn. split; [reflexivity|]. split; [reflexivity|]. split.
        { intros q. unfold Spec.Repr.learn. rewrite C. destruct flag; [congruence|reflexivity|reflexivity]. }
        split.
        * intros c Na Nb. fold h. rewrite fupd_other by (destruct Hs as [-> | ->]; assumption). unfold h. rewrite !fupd_other by assumption. reflexivity.
        * intros c u Hc Eu. fold h. destruct (Nat.eq_dec c saved) as [->|N].
          { rewrite fupd_same. exists z. rewrite Es in Eu. injection Eu as ->. auto. }
          rewrite fupd_other by exact N. unfold h. destruct Hc as [-> | ->].
          { rewrite fupd_other by exact Nab. rewrite fupd_same. eexists. split; [reflexivity|]. rewrite Ea in Eu. injection Eu as ->.
            split; [apply Hj; unfold zlen; lia|]. intros [K|K]; [congruence|contradiction]. }
          { rewrite fupd_same. eexists. split; [reflexivity|]. rewrite Eb in Eu. injection Eu as ->.
            split; [apply Hj; unfold zlen; lia|]. intros [K|K]; [congruence|contradiction]. }
  Qed.

  (** both directions of a problem *)
  Lemma plan2_spec w l ds od a b saved na nb ca cb : l = flag \/ l = Pat -> a <> b -> saved = a \/ saved = b ->
    holds (w_heap _ w) a na ca -> holds (w_heap _ w) b nb cb ->
    exists w', (let* w := plan _ junk flag w l (ds, od, true) a b saved in plan _ junk flag w l (ds, od, false) b a saved) = Ok w' /\
      w_obj _ w' = w_obj _ w /\ w_next _ w' = w_next _ w /\
      (forall q, w_wis _ w' q = learn2 (w_wis _ w) ds od q) /\ (forall c, c <> a -> c <> b -> w_heap _ w' c = w_heap _ w c) /\
      holds (w_heap _ w') a na (if lost (w_wis _ w) ds od && negb (saved =? a)%nat then None else ca) /\
      holds (w_heap _ w') b nb (if lost (w_wis _ w) ds od && negb (saved =? b)%nat then None else cb).
  Proof.
    intros Hl Nab Hs (x & Ea & Za & Xa) (y & Eb & Zb & Xb).
    destruct (plan_spec w l (ds, od, true) a b saved x y Hl Nab Hs Ea Eb) as (w1 & P & Q1 & Q2 & Q3 & Q4 & Q5).
    rewrite P. cbn [bind].
    destruct (Q5 a x (or_introl eq_refl) Ea) as (x1 & Ea1 & Za1 & Xa1).
    destruct (Q5 b y (or_intror eq_refl) Eb) as (y1 & Eb1 & Zb1 & Xb1).
    destruct (plan_spec w1 l (ds, od, false) b a saved y1 x1 Hl (not_eq_sym Nab) (proj1 (or_comm _ _) Hs) Eb1 Ea1) as (w2 & P' & R1 & R2 & R3 & R4 & R5).
    exists w2. split; [exact P'|]. split; [congruence|]. split; [congruence|]. split.
    { intros q. rewrite R3. unfold Spec.Repr.learn2. apply learn_ext. exact Q3. }
    split; [intros c Na Nb; rewrite R4 by assumption; apply Q4; assumption|].
    destruct (R5 a x1 (or_intror eq_refl) Ea1) as (x2 & Ea2 & Za2 & Xa2).
    destruct (R5 b y1 (or_introl eq_refl) Eb1) as (y2 & Eb2 & Zb2 & Xb2).
    assert (C2 : cov (w_wis _ w1) (ds, od, false) = cov (learn (w_wis _ w) (ds, od, true)) (ds, od, false)) by (apply cov_ext; exact Q3).
    rewrite C2 in Xa2, Xb2.
    assert (G : forall c z z1 z2 n cc, (cov (w_wis _ w) (ds, od, true) = true \/ c = saved -> z1 = z) ->
        (cov (learn (w_wis _ w) (ds, od, true)) (ds, od, false) = true \/ c = saved -> z2 = z1) -> zlen z1 = zlen z -> zlen z2 = zlen z1 ->
        zlen z = n -> (forall t, cc = Some t -> z = t) -> w_heap _ w2 c = Some z2 ->
        holds (w_heap _ w2) c n (if lost (w_wis _ w) ds od && negb (saved =? c)%nat then None else cc)).
    { intros c z z1 z2 n cc H1 H2 L1 L2 Ln Hc E2. exists z2. split; [exact E2|]. split; [lia|]. intros t Ht.
      destruct (Nat.eqb_spec saved c) as [->|N].
      - rewrite andb_false_r in Ht. rewrite (H2 (or_intror eq_refl)), (H1 (or_intror eq_refl)). auto.
      - rewrite andb_true_r in Ht. destruct (lost (w_wis _ w) ds od) eqn:L; [discriminate|]. unfold Spec.Repr.lost in L. apply orb_false_iff in L.
        destruct L as [L3 L4]. apply negb_false_iff in L3, L4. rewrite (H2 (or_introl L4)), (H1 (or_introl L3)). auto. }
    split; [apply (G a x x1 x2)|apply (G b y y1 y2)]; auto.
  Qed.


  Lemma check_fft_spec w s pl wis i r : Inv w s pl wis -> s i = Some r -> r_ret _ r = false ->
    exists w', check_fft _ junk flag w i = Ok w' /\ Inv w' (fupd s i (Some (mfull wis r))) (fupd pl i (pfull r (pl i))) (wfull wis r).
  Proof.
    intros I Es Hr. destruct (inv_get _ _ _ _ _ _ I Es) as (o & Eo & Eg & R & Ho).
    unfold check_fft. rewrite Eg. cbn [bind].
    destruct (fit_spec w o r (pl i) R Hr (iv_next _ _ _ _ I) Ho) as (w1 & b & rs & E & F1 & F2 & F3 & F4 & F5 & F6 & F7 & F8 & F9 & F10 & F11 & F12).
    rewrite E. destruct (rl_live _ _ _ _ R Hr) as (V & Hv & _).
    pose proof (rl_k _ _ _ _ R) as Rk. pose proof (rl_fft _ _ _ _ R) as Rf. pose proof (rl_dims _ _ _ _ R) as Rd.
    assert (Ovn : (o_v o < w_next _ w)%nat) by (apply Ho; split; auto).
    unfold Spec.Repr.mfull, Spec.Repr.wfull, Spec.Repr.pfull. destruct (r_made _ r) as [c|] eqn:Em.
    - destruct rs; [specialize (F11 eq_refl); congruence|].
      unfold fft_rel in Rf. rewrite Em in Rf. destruct (o_fft o) as [f|]; [|destruct Rf]. destruct Rf as (G1 & G2 & G3 & b' & G4 & G5).
      assert (Eb : o_buf o = Some (o_n o, b)) by (apply F12; congruence). rewrite G4 in Eb. injection Eb as ->.
      eexists. split; [reflexivity|].
      apply (inv_upd w s pl wis _ i (mkW (o_dims o) (o_n o) (o_v o) (Some (o_n o, b)) (o_k o) (Some f)) r (pl i) wis I).
      + intros j. cbn. rewrite F1. reflexivity.
      + exact F2.
      + rewrite Eo. exact F4.
      + constructor; cbn [o_dims o_n o_v o_buf o_k o_fft]; try apply R.
        * unfold fft_rel; cbn [o_fft o_buf o_n o_k o_v]. rewrite Em. repeat (split; [assumption|]). exists b. split; [reflexivity|exact G5].
        * intros _. split; [exact V|]. split; [exact F10|]. unfold buf_rel; cbn [o_buf o_v o_n]. repeat (split; [assumption|]).
          split; [apply R|]. split; [intros _; exact F9|congruence].
        * congruence.
      + intros x Hx. rewrite Eo. cbn [oown w_next put]. assert (Hc : x = o_v o \/ x = b) by (eapply owns_mk; [| |exact Hx]; reflexivity). destruct Hc as [-> | ->].
        * split; [left; split; auto|lia].
        * split; [exact F8|exact F7].
      + intros p. cbn. rewrite F3. apply (iv_wis _ _ _ _ I).
    - assert (Ef : (if rs then None else o_fft o) = None).
      { destruct rs; [reflexivity|]. unfold fft_rel in Rf. rewrite Em in Rf. destruct (o_fft o); [destruct Rf|reflexivity]. }
      rewrite Ef. unfold new_fft.
      set (xb := if o_k o then (b, o_v o) else (o_v o, b)).
      assert (Hx : fst xb <> snd xb /\ holds (w_heap _ w1) (fst xb) (o_n o) (r_pos _ r) /\ holds (w_heap _ w1) (snd xb) (o_n o) (r_mom _ r)).
      { unfold xb, other, Spec.Repr.active in *. rewrite <- Rk in *. destruct (o_k o); cbn [fst snd]; auto. }
      destruct Hx as (Nx & Hx & Hk).
      destruct (plan2_spec w1 flag (o_dims o) None (fst xb) (snd xb) (fst xb) _ _ _ _ (or_introl eq_refl) Nx (or_introl eq_refl) Hx Hk)
        as (w2 & P & Q1 & Q2 & Q3 & Q4 & Q5 & Q6).
      replace (let '(x, k) := xb in _) with (let* w := (let* w := plan _ junk flag w1 flag (o_dims o, None, true) (fst xb) (snd xb) (fst xb) in
        plan _ junk flag w flag (o_dims o, None, false) (snd xb) (fst xb) (fst xb)) in Ok (w, mkF (fst xb) (snd xb) (o_k o) (o_dims o) [])).
      2:{ destruct xb as [x k]. cbn [fst snd]. destruct (plan _ junk flag w1 flag (o_dims o, None, true) x k x); reflexivity. }
      rewrite P. cbn [bind]. eexists. split; [reflexivity|].
      rewrite Nat.eqb_refl, andb_false_r in Q5. rewrite (proj2 (Nat.eqb_neq _ _) Nx), andb_true_r in Q6.
      assert (Ew : w_wis _ w1 = w_wis _ w) by exact F3. rewrite Ew in Q3, Q6.
      assert (EL : lost (w_wis _ w) (o_dims o) None = lost wis (r_dims _ r) None).
      { rewrite Rd. unfold Spec.Repr.lost. f_equal; f_equal; apply cov_ext; [|apply learn_ext]; apply (iv_wis _ _ _ _ I). }
      rewrite EL in Q6.
      apply (inv_upd w s pl wis _ i (mkW (o_dims o) (o_n o) (o_v o) (Some (o_n o, b)) (o_k o) (Some (mkF (fst xb) (snd xb) (o_k o) (o_dims o) []))) _ [] _ I).
      + intros j. cbn. rewrite Q1, F1. reflexivity.
      + cbn. rewrite Q2. exact F2.
      + rewrite Eo. cbn [w_heap put oown]. intros x Hxn No. rewrite Q4; [apply F4; assumption| |].
        * intros ->. unfold xb in No. destruct (o_k o); cbn [fst] in *.
          { destruct F8 as [F8|F8]; [contradiction|]. unfold xb in Hxn; cbn in Hxn. lia. }
          { apply No. split; auto. }
        * intros ->. unfold xb in No. destruct (o_k o); cbn [snd] in *.
          { apply No. split; auto. }
          { destruct F8 as [F8|F8]; [contradiction|]. unfold xb in Hxn; cbn in Hxn. lia. }
      + constructor; cbn [o_dims o_n o_v o_buf o_k o_fft r_dims r_k r_ret r_made r_pos r_mom]; try apply R.
        * unfold fft_rel; cbn [o_fft o_buf o_n o_k o_v r_made r_dims r_ret f_bufobj f_dims f_planned f_in f_out].
          split; [exact Rk|]. split; [exact Rd|]. split; [reflexivity|]. exists b. split; [reflexivity|]. intros _. unfold xb. destruct (o_k o); reflexivity.
        * intros _. split; [exact V|]. cbn [w_heap put]. unfold buf_rel, other, Spec.Repr.active; cbn [o_buf o_v o_n r_k r_pos r_mom].
          rewrite <- Rk. unfold xb in Q5, Q6. destruct (o_k o); cbn [fst snd] in *; (split; [assumption|]); (split; [assumption|]); (split; [assumption|]);
            (split; [apply R|]); (split; [intros _; assumption|congruence]).
        * congruence.
      + intros x Hx'. rewrite Eo. cbn [oown w_next put]. rewrite Q2. assert (Hc : x = o_v o \/ x = b) by (eapply owns_mk; [| |exact Hx']; reflexivity). destruct Hc as [-> | ->].
        * split; [left; split; auto|lia].
        * split; [exact F8|exact F7].
      + intros p. cbn. rewrite Q3, Rd. unfold Spec.Repr.learn2. apply learn_ext. intros q. apply learn_ext. apply (iv_wis _ _ _ _ I).
  Qed.

  Lemma inv_twice w s pl wis i r r' l l' : Inv w (fupd (fupd s i r) i r') (fupd (fupd pl i l) i l') wis -> Inv w (fupd s i r') (fupd pl i l') wis.
  Proof. apply inv_ext; intros j; [| |reflexivity]; unfold fupd; destruct (j =? i)%nat; reflexivity. Qed.


  Lemma put_same_inv w s pl wis i o : Inv w s pl wis -> w_obj _ w i = Some o -> Inv (put _ w i o) s pl wis.
  Proof.
    intros [I1 I2 I3 I4] E. assert (Eo : forall j, w_obj _ (put _ w i o) j = w_obj _ w j).
    { intros j. cbn. unfold fupd. destruct (Nat.eqb_spec j i) as [->|]; auto. }
    constructor; auto.
    - intros j. rewrite Eo. apply I3.
    - intros j k b. rewrite !Eo. apply I4.
  Qed.

  Lemma dim_spec w s pl wis i r c od : Inv w s pl wis -> s i = Some r -> r_ret _ r = false -> r_made _ r = Some c -> dim_ok _ r od = true ->
    exists o f w1 f', get _ w i = Ok o /\ o_fft o = Some f /\
      match od with
      | None => Ok (w, f)
      | Some d => if existsb (Nat.eqb d) (f_planned f) then Ok (w, f) else create_dim _ junk flag w o f d
      end = Ok (w1, f') /\
      Inv (put _ w1 i (mkW (o_dims o) (o_n o) (o_v o) (o_buf o) (o_k o) (Some f')))
          (fupd s i (Some (mdim wis (pl i) od r))) (fupd pl i (pdim (pl i) od)) (wdim wis (pl i) od (r_dims _ r)).
  Proof.
    intros I Es Hr Em Hd. destruct (inv_get _ _ _ _ _ _ I Es) as (o & Eo & Eg & R & Ho).
    destruct (rl_live _ _ _ _ R Hr) as (V & Hv & Hb).
    pose proof (rl_k _ _ _ _ R) as Rk. pose proof (rl_fft _ _ _ _ R) as Rf. pose proof (rl_dims _ _ _ _ R) as Rd.
    assert (Ovn : (o_v o < w_next _ w)%nat) by (apply Ho; split; auto).
    unfold fft_rel in Rf. rewrite Em in Rf. destruct (o_fft o) as [f|] eqn:Eff; [|destruct Rf]. destruct Rf as (G1 & G2 & G3 & b & G4 & G5).
    specialize (G5 Hr).
    assert (Same : Inv (put _ w i (mkW (o_dims o) (o_n o) (o_v o) (o_buf o) (o_k o) (Some f))) (fupd s i (Some r)) (fupd pl i (pl i)) wis).
    { rewrite <- Eff. replace (mkW _ _ _ _ _ _) with o by (destruct o; reflexivity).
      apply (inv_ext _ s pl wis); auto.
      - intros j. unfold fupd. destruct (Nat.eqb_spec j i) as [->|]; auto.
      - intros j. unfold fupd. destruct (Nat.eqb_spec j i) as [->|]; auto.
      - apply put_same_inv; assumption. }
    exists o, f. destruct od as [d|]; [|exists w, f; repeat (split; [auto; fail|]); exact Same].
    cbn [Spec.Repr.mdim Spec.Repr.wdim Spec.Repr.pdim]. rewrite G3. destruct (existsb (Nat.eqb d) (pl i)) eqn:Ex.
    { exists w, f. cbn [orb]. repeat (split; [auto; fail|]). exact Same. }
    cbn [orb]. unfold create_dim. cbn [dim_ok] in Hd. rewrite G2, Hd. cbn [negb]. rewrite G4. cbn [bind]. rewrite G1.
    unfold buf_rel in Hb. rewrite G4 in Hb. destruct Hb as (B1 & B2 & B3 & B4 & _). specialize (B4 eq_refl).
    assert (Ef : f_in f = fst (if o_k o then (b, o_v o) else (o_v o, b))) by (rewrite <- G5; reflexivity).
    assert (Eu : f_out f = snd (if o_k o then (b, o_v o) else (o_v o, b))) by (rewrite <- G5; reflexivity).
    assert (Hx : f_in f <> f_out f /\ holds (w_heap _ w) (f_in f) (o_n o) (r_pos _ r) /\ holds (w_heap _ w) (f_out f) (o_n o) (r_mom _ r)).
    { unfold other, Spec.Repr.active in *. rewrite Ef, Eu. rewrite <- Rk in *. destruct (o_k o); cbn [fst snd]; auto. }
    destruct Hx as (Nx & Hx & Hk).
    set (saved := if c then b else o_v o).
    assert (Hs : saved = f_in f \/ saved = f_out f) by (unfold saved; rewrite Ef, Eu; destruct c, (o_k o); auto).
    destruct (plan2_spec w Pat (r_dims _ r) (Some d) (f_in f) (f_out f) saved _ _ _ _ (or_intror eq_refl) Nx Hs Hx Hk)
      as (w2 & P & Q1 & Q2 & Q3 & Q4 & Q5 & Q6).
    assert (Bd : forall X (m : outcome world) (k : world -> outcome world) (h : world -> outcome X),
      (let* w := m in let* w := k w in h w) = (let* w := (let* w := m in k w) in h w)) by (intros; destruct m; reflexivity).
    rewrite Bd, P. cbn [bind]. exists w2. eexists. split; [exact Eg|]. split; [exact Eff|]. split; [reflexivity|].
    assert (EL : lost (w_wis _ w) (r_dims _ r) (Some d) = lost wis (r_dims _ r) (Some d)).
    { unfold Spec.Repr.lost. f_equal; f_equal; apply cov_ext; [|apply learn_ext]; apply (iv_wis _ _ _ _ I). }
    rewrite EL in Q5, Q6.
    assert (Si : (saved =? f_in f)%nat = Bool.eqb c (o_k o)).
    { unfold saved. rewrite Ef. destruct c, (o_k o); cbn [fst Bool.eqb]; [apply Nat.eqb_refl|apply Nat.eqb_neq; auto|apply Nat.eqb_neq; auto|apply Nat.eqb_refl]. }
    assert (So : (saved =? f_out f)%nat = negb (Bool.eqb c (o_k o))).
    { unfold saved. rewrite Eu. destruct c, (o_k o); cbn [snd Bool.eqb negb]; [apply Nat.eqb_neq; auto|apply Nat.eqb_refl|apply Nat.eqb_refl|apply Nat.eqb_neq; auto]. }
    rewrite Si in Q5. rewrite So, negb_involutive in Q6. rewrite Em, <- Rk.
    set (r' := if negb (lost _ _ _) then _ else _).
    assert (Er : r' = mkR _ (r_dims _ r) (if lost wis (r_dims _ r) (Some d) && negb (Bool.eqb c (o_k o)) then None else r_pos _ r)
                  (if lost wis (r_dims _ r) (Some d) && Bool.eqb c (o_k o) then None else r_mom _ r) (r_k _ r) (r_ret _ r) (r_made _ r)).
    { unfold r'. destruct (lost _ _ _), (Bool.eqb c (o_k o)); cbn; rewrite ?Rk, <- ?Em; destruct r; reflexivity. }
    clearbody r'. subst r'.
    apply (inv_upd w s pl wis _ i (mkW (o_dims o) (o_n o) (o_v o) (Some (o_n o, b)) (o_k o) (Some (mkF (f_in f) (f_out f) c (r_dims _ r) (d :: pl i)))) _ (d :: pl i) _ I).
    - intros j. cbn. rewrite Q1, G3. reflexivity.
    - cbn. lia.
    - rewrite Eo. cbn [w_heap put oown]. intros x _ No.
      assert (Ob : owns o b) by (split; eauto). assert (Ov : owns o (o_v o)) by (split; auto).
      apply Q4; [rewrite Ef|rewrite Eu]; destruct (o_k o); cbn [fst snd]; intros ->; auto.
    - constructor; cbn [o_dims o_n o_v o_buf o_k o_fft r_dims r_k r_ret r_made r_pos r_mom]; try apply R.
      + unfold fft_rel; cbn [o_fft o_buf o_n o_k o_v r_made r_dims r_ret f_bufobj f_dims f_planned f_in f_out]. rewrite Em.
        repeat (split; [reflexivity|]). exists b. split; [reflexivity|]. intros _. rewrite <- G5. destruct f; reflexivity.
      + intros _. split; [exact V|]. cbn [w_heap put]. rewrite Ef in Q5. rewrite Eu in Q6.
        unfold buf_rel, other, Spec.Repr.active; cbn [o_buf o_v o_n r_k r_pos r_mom].
        rewrite <- Rk. destruct (o_k o); cbn [fst snd] in *; (split; [assumption|]); (split; [assumption|]); (split; [assumption|]);
          (split; [assumption|]); (split; [intros _; assumption|congruence]).
      + congruence.
    - intros x Hx'. rewrite Eo. cbn [oown w_next put]. assert (Ob : owns o b) by (split; eauto). assert (Ov : owns o (o_v o)) by (split; auto).
      assert (Hc : x = o_v o \/ x = b) by (eapply owns_mk; [| |exact Hx']; reflexivity). rewrite Q2. destruct Hc as [-> | ->]; auto.
    - intros p. cbn. rewrite Q3. unfold Spec.Repr.learn2. apply learn_ext. intros q. apply learn_ext. apply (iv_wis _ _ _ _ I).
  Qed.

  Lemma exec_spec (w : world) (s : state) (pl : nat -> list nat) (wis : wisd) (i : nat) (r : rep) (c : bool) (o : wfo) (f : fobj) (fw : bool) (od : option nat) : Inv w s pl wis -> s i = Some r -> r_ret _ r = false -> r_made _ r = Some c ->
    w_obj _ w i = Some o -> o_fft o = Some f ->
    exists w', (if fw then execute _ trans w true (f_dims f) od (f_in f) (f_out f) else execute _ trans w false (f_dims f) od (f_out f) (f_in f)) = Ok w' /\
      Inv w' (fupd s i (Some (exec fw od r))) (fupd pl i (pl i)) wis.
  Proof.
    intros I Es Hr Em Eo Eff. destruct (inv_get _ _ _ _ _ _ I Es) as (o1 & Eo1 & Eg & R & Ho).
    rewrite Eo in Eo1. injection Eo1 as <-.
    destruct (rl_live _ _ _ _ R Hr) as (V & Hv & Hb).
    pose proof (rl_k _ _ _ _ R) as Rk. pose proof (rl_fft _ _ _ _ R) as Rf. pose proof (rl_dims _ _ _ _ R) as Rd. pose proof (rl_n _ _ _ _ R) as Rn.
    unfold fft_rel in Rf. rewrite Em, Eff in Rf. destruct Rf as (G1 & G2 & G3 & b & G4 & G5).
    specialize (G5 Hr).
    unfold buf_rel in Hb. rewrite G4 in Hb. destruct Hb as (B1 & B2 & B3 & B4 & _). specialize (B4 eq_refl).
    assert (Ef : f_in f = fst (if o_k o then (b, o_v o) else (o_v o, b))) by (rewrite <- G5; reflexivity).
    assert (Eu : f_out f = snd (if o_k o then (b, o_v o) else (o_v o, b))) by (rewrite <- G5; reflexivity).
    assert (Hx : f_in f <> f_out f /\ holds (w_heap _ w) (f_in f) (o_n o) (r_pos _ r) /\ holds (w_heap _ w) (f_out f) (o_n o) (r_mom _ r)).
    { unfold other, Spec.Repr.active in *. rewrite Ef, Eu. rewrite <- Rk in *. destruct (o_k o); cbn [fst snd]; auto. }
    destruct Hx as (Nx & (x & Ex & Zx & Cx) & (y & Ey & Zy & Cy)).
    assert (Ob : owns o b) by (split; eauto). assert (Ov : owns o (o_v o)) by (split; auto).
    assert (Oi : owns o (f_in f) /\ owns o (f_out f)) by (rewrite Ef, Eu; destruct (o_k o); auto). destruct Oi as [Oi Oo].
    set (dst := if fw then f_out f else f_in f). set (src := if fw then x else y).
    assert (E : (if fw then execute _ trans w true (f_dims f) od (f_in f) (f_out f) else execute _ trans w false (f_dims f) od (f_out f) (f_in f))
      = Ok (wrb _ w dst (trans fw (r_dims _ r) od src))).
    { unfold execute, rdb, dst, src. rewrite Ex, Ey, G2. cbn [bind]. rewrite Zx, Zy, Rn, Z.eqb_refl. destruct fw; reflexivity. }
    rewrite E. eexists. split; [reflexivity|].
    assert (Odst : owns o dst) by (unfold dst; destruct fw; assumption).
    assert (Hi : holds (w_heap _ (wrb _ w dst (trans fw (r_dims _ r) od src))) (f_in f) (o_n o) (r_pos _ (exec fw od r))).
    { unfold dst, src, Spec.Repr.exec. destruct fw; cbn [wrb w_heap r_pos].
      - exists x. rewrite fupd_other by exact Nx. auto.
      - eexists. rewrite fupd_same. split; [reflexivity|]. split; [rewrite Htr; lia|]. intros z Hz. destruct (r_mom _ r) as [m|]; [|discriminate].
        injection Hz as <-. rewrite (Cy m eq_refl). reflexivity. }
    assert (Hu : holds (w_heap _ (wrb _ w dst (trans fw (r_dims _ r) od src))) (f_out f) (o_n o) (r_mom _ (exec fw od r))).
    { unfold dst, src, Spec.Repr.exec. destruct fw; cbn [wrb w_heap r_mom].
      - eexists. rewrite fupd_same. split; [reflexivity|]. split; [rewrite Htr; lia|]. intros z Hz. destruct (r_pos _ r) as [m|]; [|discriminate].
        injection Hz as <-. rewrite (Cx m eq_refl). reflexivity.
      - exists y. rewrite fupd_other by auto. auto. }
    assert (Ex' : r_dims _ (exec fw od r) = r_dims _ r /\ r_k _ (exec fw od r) = r_k _ r /\ r_ret _ (exec fw od r) = r_ret _ r /\ r_made _ (exec fw od r) = r_made _ r)
      by (unfold Spec.Repr.exec; destruct fw; auto). destruct Ex' as (X1 & X2 & X3 & X4).
    apply (inv_upd w s pl wis _ i o _ (pl i) wis I).
    - intros j. cbn. unfold fupd. destruct (Nat.eqb_spec j i) as [->|]; auto.
    - cbn. lia.
    - rewrite Eo. cbn [w_heap wrb oown]. intros z _ No. apply fupd_other. intros ->. auto.
    - constructor; rewrite ?X1, ?X2, ?X3; try apply R.
      + unfold fft_rel. rewrite Eff, X4, Em, X1, X3. repeat (split; [assumption|]). exists b. split; [exact G4|]. intros _. exact G5.
      + intros _. split; [exact V|]. rewrite Ef in Hi. rewrite Eu in Hu. unfold buf_rel, other, Spec.Repr.active. rewrite G4, X2, <- Rk.
        destruct (o_k o); cbn [fst snd] in *; (split; [assumption|]); (split; [assumption|]); (split; [assumption|]);
          (split; [assumption|]); (split; [intros _; assumption|congruence]).
      + congruence.
    - intros z Hz. rewrite Eo. cbn [oown w_next wrb]. auto.
    - intros p. apply (iv_wis _ _ _ _ I).
  Qed.

  Lemma transform_spec w s pl wis i r c (fw : bool) od : Inv w s pl wis -> s i = Some r -> r_ret _ r = false -> r_made _ r = Some c -> dim_ok _ r od = true ->
    exists w', transform _ trans junk flag w i fw od = Ok w' /\
      Inv w' (fupd s i (Some (exec fw od (mdim wis (pl i) od r)))) (fupd pl i (pdim (pl i) od)) (wdim wis (pl i) od (r_dims _ r)).
  Proof.
    intros I Es Hr Em Hd. destruct (dim_spec _ _ _ _ _ _ _ _ I Es Hr Em Hd) as (o & f & w1 & f' & Eg & Ef & E & I').
    unfold transform. rewrite Eg. cbn [bind]. rewrite Ef. cbn [get_opt bind]. rewrite E. cbn [bind].
    set (r' := mdim wis (pl i) od r) in *.
    assert (Er : r_ret _ r' = false /\ r_made _ r' = Some c).
    { unfold r', Spec.Repr.mdim. destruct od; [|auto]. destruct (_ || _); [auto|]. destruct (Bool.eqb _ _); cbn; auto. }
    destruct Er as [Er1 Er2].
    edestruct (exec_spec _ _ _ _ i r' c (mkW (o_dims o) (o_n o) (o_v o) (o_buf o) (o_k o) (Some f')) f' fw od I') as (w' & E' & I2);
      [apply fupd_same|exact Er1|exact Er2|cbn; apply fupd_same|reflexivity|].
    exists w'. split; [exact E'|]. rewrite fupd_same in I2. apply inv_twice in I2. exact I2.
  Qed.

  Notation set_active := (set_active A).
  Lemma inv_pl w s pl wis i r : s i = Some r -> Inv w s pl wis -> forall r', Inv w (fupd s i (Some r')) (fupd pl i (pl i)) wis -> Inv w (fupd s i (Some r')) pl wis.
  Proof. intros _ _ r'. apply inv_ext; auto. intros j. unfold fupd. destruct (Nat.eqb_spec j i) as [->|]; auto. Qed.

  Lemma read_spec w s pl wis i r : Inv w s pl wis -> s i = Some r -> r_ret _ r = false ->
    exists o l, w_obj _ w i = Some o /\ get _ w i = Ok o /\ rdb _ w (o_v o) = Ok l /\ read_vec _ w i = Ok l /\ zlen l = o_n o /\ o_n o = grid_size (r_dims _ r) /\
      (forall x, active r = Some x -> l = x).
  Proof.
    intros I Es Hr. destruct (inv_get _ _ _ _ _ _ I Es) as (o & Eo & Eg & R & Ho). destruct (rl_live _ _ _ _ R Hr) as (V & (l & El & Zl & Cl) & _).
    assert (E : rdb _ w (o_v o) = Ok l) by (unfold rdb; rewrite El; reflexivity).
    exists o, l. repeat (split; [first [assumption|apply R]|]). split; [unfold read_vec; rewrite Eg; exact E|]. split; [exact Zl|]. split; [apply R|exact Cl].
  Qed.

  Lemma write_spec w s pl wis i r l c : Inv w s pl wis -> s i = Some r -> r_ret _ r = false -> zlen l = grid_size (r_dims _ r) -> (forall x, c = Some x -> l = x) ->
    exists w', write_vec _ w i l = Ok w' /\ Inv w' (fupd s i (Some (set_active r c))) pl wis.
  Proof.
    intros I Es Hr Zl Hc. destruct (read_spec _ _ _ _ _ _ I Es Hr) as (o & l0 & Eo & Eg & El & _ & Z0 & Zn & _).
    destruct (inv_get _ _ _ _ _ _ I Es) as (o1 & Eo1 & _ & R & Ho). rewrite Eo in Eo1. injection Eo1 as <-.
    destruct (rl_live _ _ _ _ R Hr) as (V & Hv & Hb).
    unfold write_vec. rewrite Eg. cbn [bind]. rewrite El. cbn [bind]. rewrite Zl, Zn, Z.eqb_refl. eexists. split; [reflexivity|].
    apply (inv_ext _ (fupd s i (Some (set_active r c))) (fupd pl i (pl i)) wis); auto.
    { intros j. unfold fupd. destruct (Nat.eqb_spec j i) as [->|]; auto. }
    assert (X : r_dims _ (set_active r c) = r_dims _ r /\ r_k _ (set_active r c) = r_k _ r /\ r_ret _ (set_active r c) = r_ret _ r /\ r_made _ (set_active r c) = r_made _ r /\
      active (set_active r c) = c /\ other (set_active r c) = other r).
    { unfold Spec.Repr.set_active, Spec.Repr.active, other. destruct r as [d p m [|] t md]; cbn; auto 10. }
    destruct X as (X1 & X2 & X3 & X4 & X5 & X6).
    apply (inv_upd w s pl wis _ i o _ (pl i) wis I).
    - intros j. cbn. unfold fupd. destruct (Nat.eqb_spec j i) as [->|]; auto.
    - cbn. lia.
    - rewrite Eo. cbn [w_heap wrb oown]. intros b _ No. apply fupd_other. intros ->. apply No. split; auto.
    - constructor; rewrite ?X1, ?X2, ?X3; try apply R.
      + pose proof (rl_fft _ _ _ _ R) as Rf. unfold fft_rel in *. rewrite X4, X1, X3. exact Rf.
      + intros _. split; [exact V|]. split.
        * exists l. cbn [wrb w_heap]. rewrite fupd_same. split; [reflexivity|]. split; [congruence|]. rewrite X5. exact Hc.
        * unfold buf_rel in *. rewrite X6. destruct (o_buf o) as [[n b]|]; [|exact Hb]. destruct Hb as (B1 & B2 & B3 & B4 & B5).
          assert (Eb : w_heap _ (wrb _ w (o_v o) l) b = w_heap _ w b) by (cbn; apply fupd_other; exact B2).
          repeat (split; [assumption|]). split; [intros N; apply (holds_ext (w_heap _ w)); auto|].
          intros N. destruct (B5 N). split; [apply (holds_ext (w_heap _ w)); auto|assumption].
      + congruence.
    - intros z Hz. rewrite Eo. cbn [oown w_next wrb]. auto.
    - intros p. apply (iv_wis _ _ _ _ I).
  Qed.

  Lemma combine_spec w s pl wis i j r q g c : Inv w s pl wis -> s i = Some r -> r_ret _ r = false -> s j = Some q -> r_ret _ q = false ->
    grid_size (r_dims _ r) = grid_size (r_dims _ q) ->
    (forall x y, zlen x = zlen y -> zlen (g x y) = zlen x) ->
    (forall x y z, (forall t, active r = Some t -> x = t) -> (forall t, active q = Some t -> y = t) -> c = Some z -> g x y = z) ->
    exists w', combine_vec _ w i j g = Ok w' /\ Inv w' (fupd s i (Some (set_active r c))) pl wis.
  Proof.
    intros I Er Hr Eq Hq Eg Hg Hc. destruct (read_spec _ _ _ _ _ _ I Er Hr) as (o & l & Eo & _ & _ & El & Zl & Zn & Cl).
    destruct (read_spec _ _ _ _ _ _ I Eq Hq) as (o' & l' & Eo' & _ & _ & El' & Zl' & Zn' & Cl').
    unfold combine_vec. rewrite El, El'. cbn [bind]. replace (zlen l =? zlen l') with true by (symmetry; apply Z.eqb_eq; lia).
    eapply write_spec; [exact I|exact Er|exact Hr|rewrite Hg; lia|]. intros z. apply Hc; assumption.
  Qed.

  Lemma copy_spec w s pl wis i j r q : Inv w s pl wis -> s i = Some r -> r_ret _ r = false -> s j = Some q -> r_ret _ q = false -> i <> j ->
    (r_made _ r <> None -> r_dims _ r = r_dims _ q) ->
    exists w', copy_grid_vec _ junk w i j = Ok w' /\
      Inv w' (fupd s i (Some (set_active (mkR _ (r_dims _ q) None None (r_k _ r) false (r_made _ r)) (active q)))) pl wis.
  Proof.
    intros I Er Hr Eq Hq N Hm. destruct (read_spec _ _ _ _ _ _ I Er Hr) as (o & l & Eo & Eg & Ei & _ & Zl & Zn & _).
    destruct (read_spec _ _ _ _ _ _ I Eq Hq) as (p & l' & Ep & Egp & El' & _ & Zl' & Zn' & Cl').
    destruct (inv_get _ _ _ _ _ _ I Er) as (o1 & Eo1 & _ & R & Ho). rewrite Eo in Eo1. injection Eo1 as <-.
    destruct (inv_get _ _ _ _ _ _ I Eq) as (p1 & Ep1 & _ & Rp & _). rewrite Ep in Ep1. injection Ep1 as <-.
    destruct (rl_live _ _ _ _ R Hr) as (V & Hv & Hb).
    pose proof (rl_fft _ _ _ _ R) as Rf.
    assert (Ovn : (o_v o < w_next _ w)%nat) by (apply Ho; split; auto).
    unfold copy_grid_vec. rewrite Eg, Egp. cbn [bind]. rewrite El'. cbn [bind]. rewrite (proj2 (Nat.eqb_neq i j) N).
    set (r' := mkR _ (r_dims _ q) None None (r_k _ r) false (r_made _ r)).
    assert (X : r_dims _ (set_active r' (active q)) = r_dims _ q /\ r_k _ (set_active r' (active q)) = r_k _ r /\ r_ret _ (set_active r' (active q)) = false /\
      r_made _ (set_active r' (active q)) = r_made _ r /\ active (set_active r' (active q)) = active q /\ other (set_active r' (active q)) = None).
    { unfold r', Spec.Repr.set_active, other. unfold Spec.Repr.active at 5. cbn [r_k]. destruct (r_k _ r); cbn; auto 10. }
    destruct X as (X1 & X2 & X3 & X4 & X5 & X6). clearbody r'.
    assert (Hbn : forall h n b, o_buf o = Some (n, b) -> h b = w_heap _ w b -> holds h b n None).
    { intros h n b E Eh. unfold buf_rel in Hb. rewrite E in Hb. destruct Hb as (_ & _ & _ & B4 & B5). destruct (Z.eq_dec n (o_n o)) as [->|D].
      - apply (holds_ext (w_heap _ w)); [exact Eh|]. eapply holds_weak. apply B4. reflexivity.
      - apply (holds_ext (w_heap _ w)); [exact Eh|]. apply (B5 D). }
    destruct (Z.eqb_spec (o_n o) (o_n p)) as [En|En].
    - rewrite Ei. cbn [bind]. eexists. split; [reflexivity|].
      apply (inv_ext _ (fupd s i (Some (set_active r' (active q)))) (fupd pl i (pl i)) wis); auto.
      { intros z. unfold fupd. destruct (Nat.eqb_spec z i) as [->|]; auto. }
      apply (inv_upd w s pl wis _ i (mkW (o_dims p) (o_n p) (o_v o) (o_buf o) (o_k o) (o_fft o)) _ (pl i) wis I).
      + intros z. reflexivity.
      + cbn. lia.
      + rewrite Eo. cbn [w_heap wrb put oown]. intros b _ No. apply fupd_other. intros ->. apply No. split; auto.
      + constructor; cbn [o_dims o_n o_v o_buf o_k o_fft]; rewrite ?X1, ?X2, ?X3.
        * apply Rp.
        * apply Rp.
        * apply Rp.
        * apply R.
        * unfold fft_rel in *. cbn [o_fft o_buf o_n o_k o_v]. rewrite X4, X1, X3. destruct (o_fft o) as [f|], (r_made _ r) as [c|]; auto.
          destruct Rf as (G1 & G2 & G3 & b & G4 & G5). rewrite <- Hm by discriminate. repeat (split; [assumption|]). exists b. rewrite <- En.
          split; [exact G4|]. intros _. apply G5. exact Hr.
        * intros _. split; [exact V|]. cbn [w_heap wrb put]. split.
          { exists l'. rewrite fupd_same. split; [reflexivity|]. split; [congruence|]. rewrite X5. exact Cl'. }
          unfold buf_rel in *. cbn [o_buf o_v o_n]. rewrite X6. destruct (o_buf o) as [[n b]|] eqn:Eb; [|reflexivity]. destruct Hb as (B1 & B2 & B3 & _).
          repeat (split; [assumption|]). split; [intros _|intros _; split; [|reflexivity]]; (apply Hbn; [reflexivity|apply fupd_other; exact B2]).
        * discriminate.
      + intros z Hz. rewrite Eo. cbn [oown w_next wrb put]. split; [left; exact Hz|apply Ho; exact Hz].
      + intros z. apply (iv_wis _ _ _ _ I).
    - assert (Mn : r_made _ r = None) by (destruct (r_made _ r); [|reflexivity]; exfalso; apply En; rewrite Zn, Zn', Hm by discriminate; reflexivity).
      cbn [alloc free]. eexists. split; [reflexivity|].
      apply (inv_ext _ (fupd s i (Some (set_active r' (active q)))) (fupd pl i (pl i)) wis); auto.
      { intros z. unfold fupd. destruct (Nat.eqb_spec z i) as [->|]; auto. }
      apply (inv_upd w s pl wis _ i (mkW (o_dims p) (o_n p) (w_next _ w) (o_buf o) (o_k o) (o_fft o)) _ (pl i) wis I).
      + intros z. reflexivity.
      + cbn. lia.
      + rewrite Eo. cbn. intros b Hbn' No. rewrite !fupd_other; [reflexivity| |lia|lia]. intros ->. apply No. split; auto.
      + constructor; cbn [o_dims o_n o_v o_buf o_k o_fft]; rewrite ?X1, ?X2, ?X3.
        * apply Rp.
        * apply Rp.
        * apply Rp.
        * apply R.
        * unfold fft_rel in *. cbn [o_fft o_buf o_n o_k o_v]. rewrite X4, Mn. rewrite Mn in Rf. destruct (o_fft o); [destruct Rf|exact I0 || exact Logic.I].
        * intros _. pose proof (iv_next _ _ _ _ I). split; [lia|]. cbn. split.
          { exists l'. rewrite fupd_same. split; [reflexivity|]. split; [exact Zl'|]. rewrite X5. exact Cl'. }
          unfold buf_rel in *. cbn [o_buf o_v o_n]. rewrite X6. destruct (o_buf o) as [[n b]|] eqn:Eb; [|reflexivity]. destruct Hb as (B1 & B2 & B3 & _).
          assert (Hbl : (b < w_next _ w)%nat) by (apply Ho; split; eauto).
          split; [exact B1|]. split; [lia|]. split; [exact B3|].
          split; [intros _|intros _; split; [|reflexivity]]; (apply Hbn; [reflexivity|rewrite !fupd_other; [reflexivity|exact B2|lia|lia]]).
        * discriminate.
      + intros z [Z0 Hz]. rewrite Eo. cbn. cbn in Hz. destruct Hz as [<-|[n Hz]]; [lia|].
        assert (Ob : owns o z) by (split; eauto). split; [left; exact Ob|]. specialize (Ho _ Ob). lia.
      + intros z. apply (iv_wis _ _ _ _ I).
  Qed.

  Lemma weak_spec w s pl wis i r : Inv w s pl wis -> s i = Some r -> Inv w (fupd s i (Some (set_active (mkR _ (r_dims _ r) None None (r_k _ r) (r_ret _ r) (r_made _ r)) (active r)))) pl wis.
  Proof.
    intros I Es. destruct (inv_get _ _ _ _ _ _ I Es) as (o & Eo & _ & R & Ho).
    set (r0 := mkR _ (r_dims _ r) None None (r_k _ r) (r_ret _ r) (r_made _ r)).
    assert (X : r_dims _ (set_active r0 (active r)) = r_dims _ r /\ r_k _ (set_active r0 (active r)) = r_k _ r /\ r_ret _ (set_active r0 (active r)) = r_ret _ r /\
      r_made _ (set_active r0 (active r)) = r_made _ r /\ active (set_active r0 (active r)) = active r /\ other (set_active r0 (active r)) = None /\
      (r_pos _ r = None -> r_mom _ r = None -> r_pos _ (set_active r0 (active r)) = None /\ r_mom _ (set_active r0 (active r)) = None)).
    { unfold r0, Spec.Repr.set_active, other, Spec.Repr.active. destruct r as [d p m [|] t md]; cbn; auto 10. }
    destruct X as (X1 & X2 & X3 & X4 & X5 & X6 & X7). clearbody r0.
    destruct I as [I1 I2 I3 I4]. constructor; auto. intros j. unfold fupd. destruct (Nat.eqb_spec j i) as [->|]; [|apply I3].
    rewrite Eo. split; [|exact Ho]. constructor; rewrite ?X1, ?X2, ?X3; try apply R.
    - pose proof (rl_fft _ _ _ _ R) as Rf. unfold fft_rel in *. rewrite X4, X1, X3. exact Rf.
    - intros Hr. destruct (rl_live _ _ _ _ R Hr) as (V & Hv & Hb). split; [exact V|]. rewrite X5. split; [exact Hv|].
      unfold buf_rel in *. rewrite X6. destruct (o_buf o) as [[n b]|]; [|reflexivity]. destruct Hb as (B1 & B2 & B3 & B4 & B5).
      repeat (split; [assumption|]). split; [intros E; eapply holds_weak; apply B4; exact E|]. intros E. split; [apply (B5 E)|reflexivity].
    - intros Hr. destruct (rl_ret _ _ _ _ R Hr) as (P1 & P2 & P3 & P4). destruct (X7 P1 P2). auto.
  Qed.

  Lemma new_spec w s pl wis i ds : Inv w s pl wis -> s i = None -> 0 <= grid_size ds ->
    exists w', new_wf _ junk w i ds = Ok w' /\ Inv w' (fupd s i (Some (mkR _ ds None None false false None))) pl wis.
  Proof.
    intros I Es Hg. pose proof (iv_obj _ _ _ _ I i) as Hi. rewrite Es in Hi. unfold new_wf. destruct (w_obj _ w i) as [|] eqn:Eo; [destruct Hi|].
    cbn [alloc]. eexists. split; [reflexivity|].
    apply (inv_ext _ (fupd s i (Some (mkR _ ds None None false false None))) (fupd pl i (pl i)) wis); auto.
    { intros z. unfold fupd. destruct (Nat.eqb_spec z i) as [->|]; auto. }
    pose proof (iv_next _ _ _ _ I) as Hn.
    apply (inv_upd w s pl wis _ i (mkW ds (grid_size ds) (w_next _ w) None false None) _ (pl i) wis I).
    - intros z. reflexivity.
    - cbn. lia.
    - cbn. intros b Hb _. apply fupd_other. lia.
    - constructor; cbn; auto; [|discriminate]. intros _. split; [lia|]. split; [|reflexivity].
      eexists. rewrite fupd_same. split; [reflexivity|]. split; [apply Hj; exact Hg|]. discriminate.
    - intros z [Z0 [Hz|[n Hz]]]; cbn in Hz; [|discriminate]. subst z. cbn. lia.
    - intros z. apply (iv_wis _ _ _ _ I).
  Qed.

  Lemma retire_spec w s pl wis i r : Inv w s pl wis -> s i = Some r ->
    exists w', Retire _ w i = Ok w' /\ Inv w' (fupd s i (Some (mkR _ (r_dims _ r) None None (r_k _ r) true (r_made _ r)))) pl wis.
  Proof.
    intros I Es. destruct (inv_get _ _ _ _ _ _ I Es) as (o & Eo & Eg & R & Ho). unfold Retire. rewrite Eg. cbn [bind]. eexists. split; [reflexivity|].
    apply (inv_ext _ (fupd s i (Some (mkR _ (r_dims _ r) None None (r_k _ r) true (r_made _ r)))) (fupd pl i (pl i)) wis); auto.
    { intros z. unfold fupd. destruct (Nat.eqb_spec z i) as [->|]; auto. }
    apply (inv_upd0 w s pl wis _ i (mkW (o_dims o) (o_n o) 0%nat (match o_buf o with Some (n, _) => Some (n, 0%nat) | None => None end) (o_k o) (o_fft o)) _ (pl i) wis I).
    - intros z. destruct (o_buf o) as [[n b]|]; reflexivity.
    - destruct (o_buf o) as [[n b]|]; cbn; lia.
    - rewrite Eo. cbn [oown w_heap put]. intros b B0 _ No.
      assert (Nv : b <> o_v o) by (intros ->; apply No; split; auto).
      destruct (o_buf o) as [[n c]|] eqn:Eb; cbn; rewrite ?fupd_other; auto. intros ->. apply No. split; eauto.
    - constructor; cbn [o_dims o_n o_v o_buf o_k o_fft r_dims r_k r_ret r_made r_pos r_mom]; try apply R.
      + pose proof (rl_fft _ _ _ _ R) as Rf. unfold fft_rel in *. cbn [o_dims o_n o_v o_buf o_k o_fft r_dims r_k r_ret r_made r_pos r_mom].
        destruct (o_fft o) as [f|], (r_made _ r) as [c|]; auto. destruct Rf as (G1 & G2 & G3 & b & G4 & G5). repeat (split; [assumption|]).
        rewrite G4. exists 0%nat. split; [reflexivity|discriminate].
      + discriminate.
      + intros _. repeat (split; [reflexivity|]). intros n b Hb. destruct (o_buf o) as [[m c]|] eqn:Eb; [|discriminate]. injection Hb as <- <-. split; [reflexivity|].
        destruct (r_ret _ r) eqn:Hr.
        * destruct (rl_ret _ _ _ _ R Hr) as (_ & _ & _ & P4). apply (P4 m c Eb).
        * destruct (rl_live _ _ _ _ R Hr) as (_ & _ & Hbr). unfold buf_rel in Hbr. rewrite Eb in Hbr. apply Hbr.
    - intros z [Z0 [Hz|[n Hz]]]; cbn in Hz; [congruence|]. destruct (o_buf o) as [[m c]|]; congruence.
    - intros z. destruct (o_buf o) as [[n b]|]; apply (iv_wis _ _ _ _ I).
  Qed.

  Lemma reaquire_spec w s pl wis i r : Inv w s pl wis -> s i = Some r ->
    exists w', Reaquire _ junk w i = Ok w' /\ Inv w' (fupd s i (Some (mkR _ (r_dims _ r) (r_pos _ r) (r_mom _ r) (r_k _ r) false (r_made _ r)))) pl wis.
  Proof.
    intros I Es. destruct (inv_get _ _ _ _ _ _ I Es) as (o & Eo & Eg & R & Ho). unfold Reaquire. rewrite Eg. cbn [bind].
    set (r' := mkR _ (r_dims _ r) (r_pos _ r) (r_mom _ r) (r_k _ r) false (r_made _ r)).
    pose proof (iv_next _ _ _ _ I) as Hn. pose proof (rl_pos _ _ _ _ R) as Np. pose proof (rl_fft _ _ _ _ R) as Rf. pose proof (rl_k _ _ _ _ R) as Rk.
    destruct (r_ret _ r) eqn:Hr.
    - destruct (rl_ret _ _ _ _ R Hr) as (P1 & P2 & P3 & P4). unfold reaquire_storage. rewrite P3, Nat.eqb_refl. cbn [alloc].
      assert (Hact : active r' = None /\ other r' = None).
      { unfold Spec.Repr.active, other, r'. cbn. rewrite P1, P2. destruct (r_k _ r); auto. }
      destruct Hact as [Ha Ht].
      destruct (o_buf o) as [[n b]|] eqn:Eb.
      + destruct (P4 n b eq_refl) as [-> Hn0]. cbn [Nat.eqb]. cbn [alloc w_heap w_next w_tick w_wis w_obj].
        set (w2 := mkWorld _ (fupd (fupd _ _ _) _ _) _ _ _ _).
        assert (Rel : forall f', (match o_fft o with Some f => Some (mkF (fst (if o_k o then (S (w_next _ w), w_next _ w) else (w_next _ w, S (w_next _ w))))
               (snd (if o_k o then (S (w_next _ w), w_next _ w) else (w_next _ w, S (w_next _ w)))) (f_bufobj f) (f_dims f) (f_planned f)) | None => None end) = f' ->
             Inv (put _ w2 i (mkW (o_dims o) (o_n o) (w_next _ w) (Some (n, S (w_next _ w))) (o_k o) f')) (fupd s i (Some r')) pl wis).
        { intros f' Ef'. apply (inv_ext _ (fupd s i (Some r')) (fupd pl i (pl i)) wis); auto.
          { intros z. unfold fupd. destruct (Nat.eqb_spec z i) as [->|]; auto. }
          apply (inv_upd w s pl wis _ i (mkW (o_dims o) (o_n o) (w_next _ w) (Some (n, S (w_next _ w))) (o_k o) f') _ (pl i) wis I).
          - intros z. reflexivity.
          - cbn. lia.
          - cbn. intros c Hc _. rewrite !fupd_other; [reflexivity|lia|lia].
          - constructor; cbn [o_dims o_n o_v o_buf o_k o_fft]; try apply R.
            + unfold fft_rel in *. cbn [o_fft o_buf o_n o_k o_v r' r_made r_dims r_ret]. rewrite <- Ef'.
              destruct (o_fft o) as [f|], (r_made _ r) as [c|]; auto. destruct Rf as (G1 & G2 & G3 & b & G4 & G5).
              cbn [f_bufobj f_dims f_planned f_in f_out]. repeat (split; [assumption|]). exists (S (w_next _ w)). rewrite Eb in G4. injection G4 as -> _.
              split; [reflexivity|]. intros _. destruct (o_k o); reflexivity.
            + intros _. split; [lia|]. cbn. rewrite Ha. split.
              * eexists. rewrite fupd_other by lia. rewrite fupd_same. split; [reflexivity|]. split; [apply Hj; exact Np|]. discriminate.
              * unfold buf_rel. cbn. rewrite Ht. split; [lia|]. split; [lia|]. split; [exact Hn0|].
                assert (Hh : holds (fupd (fupd (w_heap _ w) (w_next _ w) (Some (junk (w_tick _ w) (o_n o)))) (S (w_next _ w)) (Some (junk (S (w_tick _ w)) n))) (S (w_next _ w)) n None).
                { eexists. rewrite fupd_same. split; [reflexivity|]. split; [apply Hj; exact Hn0|]. discriminate. }
                auto.
            + discriminate.
          - intros z [Z0 [Hz|[m Hz]]]; cbn in Hz; [subst z; cbn; lia|]. injection Hz as _ <-. cbn. lia.
          - intros z. apply (iv_wis _ _ _ _ I). }
        cbn [o_fft o_k o_dims o_n o_v o_buf get_buffer]. destruct (o_fft o) as [f|] eqn:Ef.
        * destruct (o_k o); (eexists; split; [reflexivity|]; apply Rel; reflexivity).
        * eexists. split; [reflexivity|]. apply Rel. reflexivity.
      + assert (Nf : o_fft o = None /\ r_made _ r = None).
        { unfold fft_rel in Rf. destruct (o_fft o) as [f|], (r_made _ r) as [c|]; try tauto. destruct Rf as (_ & _ & _ & b & G4 & _). congruence. }
        destruct Nf as [Nf Nm]. cbn [o_fft]. rewrite Nf. eexists. split; [reflexivity|].
        apply (inv_ext _ (fupd s i (Some r')) (fupd pl i (pl i)) wis); auto.
        { intros z. unfold fupd. destruct (Nat.eqb_spec z i) as [->|]; auto. }
        apply (inv_upd w s pl wis _ i (mkW (o_dims o) (o_n o) (w_next _ w) None (o_k o) None) _ (pl i) wis I).
        * intros z. reflexivity.
        * cbn. lia.
        * cbn. intros c Hc _. rewrite !fupd_other; [reflexivity|lia].
        * constructor; cbn [o_dims o_n o_v o_buf o_k o_fft]; try apply R.
          { unfold fft_rel. cbn [o_fft r' r_made]. rewrite Nm. exact Logic.I. }
          { intros _. split; [lia|]. cbn. rewrite Ha. split; [|exact Ht]. eexists. rewrite fupd_same. split; [reflexivity|]. split; [apply Hj; exact Np|]. discriminate. }
          { discriminate. }
        * intros z [Z0 [Hz|[m Hz]]]; cbn in Hz; [subst z; cbn; lia|discriminate].
        * intros z. apply (iv_wis _ _ _ _ I).
    - assert (Er' : r' = r) by (unfold r'; destruct r; cbn in *; subst; reflexivity). rewrite Er'.
      destruct (rl_live _ _ _ _ R Hr) as (V & Hv & Hb). unfold reaquire_storage. rewrite (proj2 (Nat.eqb_neq _ _) V).
      assert (Same : Inv (put _ w i o) (fupd s i (Some r)) pl wis).
      { apply (inv_ext _ s pl wis); auto.
        - intros z. unfold fupd. destruct (Nat.eqb_spec z i) as [->|]; auto.
        - apply put_same_inv; assumption. }
      unfold buf_rel in Hb. unfold fft_rel in Rf. destruct (o_buf o) as [[n b]|] eqn:Eb.
      + destruct Hb as (B1 & _). rewrite (proj2 (Nat.eqb_neq _ _) B1). cbn [o_fft o_k o_dims o_n o_v o_buf get_buffer].
        destruct (o_fft o) as [f|] eqn:Ef.
        * destruct (r_made _ r) as [c|]; [|destruct Rf]. destruct Rf as (G1 & G2 & G3 & b' & G4 & G5). injection G4 as -> ->. specialize (G5 Hr).
          replace (if o_k o then (b', o_v o) else (o_v o, b')) with (f_in f, f_out f).
          eexists. split; [reflexivity|]. replace (mkW _ _ _ _ _ _) with o; [exact Same|]. destruct o, f; cbn in *; congruence.
        * eexists. split; [reflexivity|]. replace (mkW _ _ _ _ _ _) with o; [exact Same|]. destruct o; cbn in *; congruence.
      + cbn [o_fft]. destruct (o_fft o) as [f|] eqn:Ef.
        * destruct (r_made _ r) as [c|]; [|destruct Rf]. destruct Rf as (_ & _ & _ & b' & G4 & _). discriminate.
        * eexists. split; [reflexivity|]. replace (mkW _ _ _ _ _ _) with o; [exact Same|]. destruct o; cbn in *; congruence.
  Qed.

  Lemma live_spec (s : state) i r : live _ s i = Some r -> s i = Some r /\ r_ret _ r = false.
  Proof. unfold live. destruct (s i) as [q|]; [|discriminate]. destruct (r_ret _ q) eqn:E; [discriminate|]. intros H. injection H as <-. auto. Qed.
  Lemma grid_size_nonneg ds : forallb (Z.ltb 0) ds = true -> 0 <= grid_size ds.
  Proof.
    intros H. destruct ds as [|d ds]; [cbn; lia|]. rewrite grid_size_spec by discriminate. revert H. generalize (d :: ds). clear.
    induction l as [|a l IH]; cbn; [lia|]. intros H. apply andb_true_iff in H. destruct H as [Ha Hl]. apply Z.ltb_lt in Ha. specialize (IH Hl). unfold points in IH. nia.
  Qed.

  Lemma trans_spec w s pl wis i r (fw : bool) od k : Inv w s pl wis -> s i = Some r -> r_ret _ r = false -> dim_ok _ r od = true ->
    exists w', (let* w := check_fft _ junk flag w i in let* w := transform _ trans junk flag w i fw od in is_kspace _ junk w i k) = Ok w' /\
      Inv w' (fupd s i (Some (set_k (exec fw od (mdim (wfull wis r) (pfull r (pl i)) od (mfull wis r))) k)))
             (fupd pl i (pdim (pfull r (pl i)) od)) (wdim (wfull wis r) (pfull r (pl i)) od (r_dims _ r)).
  Proof.
    intros I Es Hr Hd. destruct (check_fft_spec _ _ _ _ _ _ I Es Hr) as (w1 & E1 & I1). rewrite E1. cbn [bind].
    assert (M : r_ret _ (mfull wis r) = false /\ r_dims _ (mfull wis r) = r_dims _ r /\ exists c, r_made _ (mfull wis r) = Some c).
    { unfold Spec.Repr.mfull. destruct (r_made _ r) eqn:Em; cbn; eauto. }
    destruct M as (M1 & M2 & c & M3).
    assert (Hd' : dim_ok _ (mfull wis r) od = true) by (unfold dim_ok in *; rewrite M2; exact Hd).
    destruct (transform_spec _ _ _ _ i _ c fw od I1 (fupd_same _ _ _) M1 M3 Hd') as (w2 & E2 & I2). rewrite E2. cbn [bind].
    rewrite fupd_same, M2 in I2. apply inv_twice in I2.
    assert (T : r_ret _ (exec fw od (mdim (wfull wis r) (pfull r (pl i)) od (mfull wis r))) = false).
    { unfold Spec.Repr.exec, Spec.Repr.mdim. destruct fw, od; cbn; auto; destruct (_ || _); cbn; auto; destruct (Bool.eqb _ _); cbn; auto. }
    destruct (is_kspace_spec _ _ _ _ i _ k I2 (fupd_same _ _ _) T) as (w3 & E3 & I3). exists w3. split; [exact E3|].
    rewrite fupd_same in I3. apply inv_twice in I3. exact I3.
  Qed.

  Lemma set_same {X} (f : nat -> X) i x : f i = x -> forall j, f j = fupd f i x j.
  Proof. intros E j. unfold fupd. destruct (Nat.eqb_spec j i) as [->|]; auto. Qed.

  Lemma m_sim w s pl wis c s' pl' wis' : Inv w s pl wis -> keeps _ c -> keeps_shape _ s c = true -> m_step _ trans flag (s, pl, wis) c = Some (s', pl', wis') ->
    exists w', step _ trans junk flag w c = Ok w' /\ Inv w' s' pl' wis'.
  Proof.
    intros I K KS E. destruct c as [i ds|i l|i j g|i j g|i k|fw i od|i j|i j|x i g|i|i]; cbn [m_step s_step] in E; cbn [step].
    - destruct (s i) eqn:Es; [discriminate|]. destruct (forallb (Z.ltb 0) ds) eqn:F; [|discriminate]. injection E as <- <- <-.
      apply new_spec; auto. apply grid_size_nonneg. exact F.
    - destruct (live _ s i) as [r|] eqn:L; [|discriminate]. destruct (zlen l =? _) eqn:Z; [|discriminate]. injection E as <- <- <-. apply Z.eqb_eq in Z.
      destruct (live_spec _ _ _ L) as [Es Hr]. apply write_spec; auto. intros x Hx. congruence.
    - destruct (live _ s i) as [r|] eqn:L; [|discriminate]. destruct (live _ s j) as [q|] eqn:Lq; [|discriminate].
      destruct (_ =? _) eqn:Z; [|discriminate]. injection E as <- <- <-. apply Z.eqb_eq in Z.
      destruct (live_spec _ _ _ L) as [Es Hr]. destruct (live_spec _ _ _ Lq) as [Eq Hq]. eapply combine_spec; eauto.
      + intros x y Exy. rewrite K. auto.
      + intros x y z _ Hy Hz. destruct (Spec.Repr.active _ q) as [t|]; [|discriminate]. rewrite (Hy t eq_refl). cbn in Hz. congruence.
    - destruct (live _ s i) as [r|] eqn:L; [|discriminate]. destruct (live _ s j) as [q|] eqn:Lq; [|discriminate].
      destruct (_ =? _) eqn:Z; [|discriminate]. injection E as <- <- <-. apply Z.eqb_eq in Z.
      destruct (live_spec _ _ _ L) as [Es Hr]. destruct (live_spec _ _ _ Lq) as [Eq Hq]. eapply combine_spec; eauto.
      intros x y z Hx Hy Hz. unfold lift2 in Hz. destruct (Spec.Repr.active _ r) as [u|]; [|discriminate]. destruct (Spec.Repr.active _ q) as [t|]; [|discriminate].
      rewrite (Hy t eq_refl), (Hx u eq_refl). congruence.
    - destruct (live _ s i) as [r|] eqn:L; [|discriminate]. injection E as <- <- <-. destruct (live_spec _ _ _ L) as [Es Hr].
      destruct (is_kspace_spec _ _ _ _ _ _ k I Es Hr) as (w' & E & I'). exists w'. split; [exact E|].
      unfold Spec.Repr.set_k in I'. rewrite Hr in I'. apply (inv_ext _ _ (fupd pl i (pl i)) wis _ _ _ (fun _ => eq_refl) (set_same pl i _ eq_refl) (fun _ => eq_refl) I').
    - destruct (live _ s i) as [r|] eqn:L; [|discriminate]. destruct (dim_ok _ r od) eqn:D; [|discriminate]. injection E as <- <- <-.
      destruct (live_spec _ _ _ L) as [Es Hr]. destruct fw; unfold Forward, Backward; apply trans_spec; auto.
    - destruct (live _ s i) as [r|] eqn:L; [|discriminate]. destruct (live _ s j) as [q|] eqn:Lq; [|discriminate]. injection E as <- <- <-.
      destruct (live_spec _ _ _ L) as [Es Hr]. destruct (live_spec _ _ _ Lq) as [Eq Hq].
      unfold assign_wf. destruct (inv_get _ _ _ _ _ _ I Eq) as (p & _ & Egp & Rp & _). rewrite Egp. cbn [bind]. rewrite (rl_k _ _ _ _ Rp).
      destruct (is_kspace_spec _ _ _ _ _ _ (r_k _ q) I Es Hr) as (w1 & E1 & I1). rewrite E1. cbn [bind].
      assert (I1' : Inv w1 (fupd s i (Some (set_k r (r_k _ q)))) pl wis)
        by exact (inv_ext _ _ (fupd pl i (pl i)) wis _ _ _ (fun _ => eq_refl) (set_same pl i _ eq_refl) (fun _ => eq_refl) I1).
      destruct (Nat.eq_dec i j) as [<-|N].
      + assert (q = r) by congruence. subst q. pose proof (weak_spec _ _ _ _ i _ I1' (fupd_same _ _ _)) as I2.
        destruct (read_spec _ _ _ _ i _ I1' (fupd_same _ _ _) Hr) as (o1 & l1 & _ & Eg1 & El1 & _).
        exists w1. split. { unfold copy_grid_vec. rewrite Eg1. cbn [bind]. rewrite El1. cbn [bind]. rewrite Nat.eqb_refl. reflexivity. }
        apply (inv_ext _ _ pl wis _ _ _ ) with (4 := I2); auto. intros z. unfold fupd, sset, Spec.Repr.set_k, fupd. destruct (z =? i)%nat; [|reflexivity].
        cbn. rewrite Hr. destruct r; reflexivity.
      + assert (Eq' : fupd s i (Some (set_k r (r_k _ q))) j = Some q) by (rewrite fupd_other; auto).
        destruct (copy_spec _ _ _ _ i j _ q I1' (fupd_same _ _ _) Hr Eq' Hq N) as (w2 & E2 & I2).
        { cbn. intros Mn. cbn [keeps_shape] in KS. rewrite L, Lq in KS. destruct (r_made _ r); [|congruence]. unfold dims_eqb in KS. destruct (list_eq_dec _ _ _); [assumption|discriminate]. }
        exists w2. split; [exact E2|]. apply (inv_ext _ _ pl wis _ _ _ ) with (4 := I2); auto. intros z. unfold fupd, sset, fupd. destruct (z =? i)%nat; reflexivity.
    - destruct (live _ s i) as [r|] eqn:L; [|discriminate]. destruct (live _ s j) as [q|] eqn:Lq; [|discriminate].
      destruct (Nat.eqb_spec i j) as [|N]; [discriminate|]. injection E as <- <- <-.
      destruct (live_spec _ _ _ L) as [Es Hr]. destruct (live_spec _ _ _ Lq) as [Eq Hq].
      unfold Restore. destruct (is_kspace_spec _ _ _ _ _ _ true I Es Hr) as (w1 & E1 & I1). rewrite E1. cbn [bind].
      assert (I1' : Inv w1 (fupd s i (Some (set_k r true))) pl wis)
        by exact (inv_ext _ _ (fupd pl i (pl i)) wis _ _ _ (fun _ => eq_refl) (set_same pl i _ eq_refl) (fun _ => eq_refl) I1).
      assert (Eq' : fupd s i (Some (set_k r true)) j = Some q) by (rewrite fupd_other; auto).
      destruct (copy_spec _ _ _ _ i j _ q I1' (fupd_same _ _ _) Hr Eq' Hq N) as (w2 & E2 & I2).
      { cbn. intros Mn. cbn [keeps_shape] in KS. rewrite L, Lq in KS. destruct (r_made _ r); [|congruence]. unfold dims_eqb in KS. destruct (list_eq_dec _ _ _); [assumption|discriminate]. }
      rewrite E2. cbn [bind]. cbn [Spec.Repr.set_k r_k r_made Spec.Repr.set_active r_dims r_pos r_mom r_ret] in I2.
      destruct (trans_spec _ _ _ _ i _ false None false I2 (fupd_same _ _ _) eq_refl eq_refl) as (w3 & E3 & I3).
      exists w3. split; [exact E3|]. cbn [Spec.Repr.mdim pdim wdim] in I3.
      apply (inv_ext _ _ _ _ _ _ _) with (4 := I3).
      + intros z. unfold fupd, sset, fupd. destruct (z =? i)%nat; reflexivity.
      + intros z. reflexivity.
      + intros z. reflexivity.
    - destruct (s x) eqn:Ex; [discriminate|]. destruct (live _ s i) as [r|] eqn:L; [|discriminate]. injection E as <- <- <-.
      destruct (live_spec _ _ _ L) as [Es Hr]. assert (N : i <> x) by congruence.
      unfold Reduce. destruct (inv_get _ _ _ _ _ _ I Es) as (o & _ & Eg & R & _). rewrite Eg. cbn [bind]. rewrite (rl_dims _ _ _ _ R).
      destruct (new_spec _ _ _ _ x (r_dims _ r) I Ex) as (w1 & E1 & I1). { rewrite <- (rl_n _ _ _ _ R). apply R. }
      rewrite E1. cbn [bind]. assert (Es1 : fupd s x (Some (mkR _ (r_dims _ r) None None false false None)) i = Some r) by (rewrite fupd_other; auto).
      destruct (trans_spec _ _ _ _ i r true None true I1 Es1 Hr eq_refl) as (w2 & E2 & I2).
      cbn [Spec.Repr.mdim pdim wdim] in I2. 
      assert (Bd : forall (m : outcome world) (k1 k2 k3 : world -> outcome world),
        (let* w := m in let* w := k1 w in let* w := k2 w in k3 w) = (let* w := (let* w := m in let* w := k1 w in k2 w) in k3 w))
        by (intros m0 ? ? ?; destruct m0 as [w0| |]; cbn; [destruct (k1 w0)|..]; reflexivity).
      rewrite Bd, E2. cbn [bind].
      set (r1 := exec true None (mfull wis r)) in *.
      assert (Hm : r_ret _ r1 = false /\ r_dims _ r1 = r_dims _ r).
      { unfold r1, Spec.Repr.exec, Spec.Repr.mfull. destruct (r_made _ r); auto. }
      destruct Hm as [Hm1 Hm2].
      assert (Ex2 : fupd (fupd s x (Some (mkR _ (r_dims _ r) None None false false None))) i (Some (set_k r1 true)) x = Some (mkR _ (r_dims _ r) None None false false None)).
      { rewrite fupd_other by auto. apply fupd_same. }
      destruct (combine_spec _ _ _ _ x i _ _ (fun _ y => g y) (option_map g (r_mom _ r1)) I2 Ex2 eq_refl (fupd_same _ _ _) Hm1) as (w3 & E3 & I3).
      { change (grid_size (r_dims _ r) = grid_size (r_dims _ r1)). rewrite Hm2. reflexivity. }
      { intros a b Eab. rewrite K. auto. }
      { intros a b z _ Hb Hz. change (active (set_k r1 true)) with (r_mom _ r1) in Hb. destruct (r_mom _ r1) as [t|]; [|discriminate]. rewrite (Hb t eq_refl). cbn in Hz. congruence. }
      rewrite E3. cbn [bind].
      edestruct (is_kspace_spec _ _ _ _ i (set_k r1 true) false I3) as (w4 & E4 & I4).
      { rewrite fupd_other by auto. apply fupd_same. }
      { exact Hm1. }
      exists w4. split; [exact E4|]. apply (inv_ext _ _ _ _ _ _ _) with (4 := I4).
      + intros z. unfold sset, fupd. destruct (Nat.eqb_spec z i) as [->|]; [reflexivity|]. destruct (z =? x)%nat; reflexivity.
      + intros z. unfold fupd. destruct (Nat.eqb_spec z i) as [->|]; [|reflexivity]. rewrite Nat.eqb_refl. reflexivity.
      + intros z. reflexivity.
    - destruct (s i) as [r|] eqn:Es; [|discriminate]. injection E as <- <- <-. apply retire_spec; auto.
    - destruct (s i) as [r|] eqn:Es; [|discriminate]. injection E as <- <- <-. apply reaquire_spec; auto.
  Qed.

  (** ** Careful programs lose nothing *)
  Lemma lost_false wis ds od : lost wis ds od = false <-> cov wis (ds, od, true) = true /\ cov wis (ds, od, false) = true.
  Proof.
    unfold Spec.Repr.lost. rewrite orb_false_iff, !negb_false_iff. split.
    - intros [H1 H2]. split; [exact H1|]. rewrite <- H2. apply cov_ext. intros q. symmetry. apply learn_keep. exact H1.
    - intros [H1 H2]. split; [exact H1|]. apply learn_cov. exact H2.
  Qed.
  Lemma lost_mono wis ds od es oe : lost wis ds od = false -> lost (learn2 wis es oe) ds od = false.
  Proof. rewrite !lost_false. unfold Spec.Repr.learn2. intros [H1 H2]. split; apply learn_cov, learn_cov; assumption. Qed.
  Lemma lost_self wis ds od : lost (learn2 wis ds od) ds od = false.
  Proof. rewrite lost_false. unfold Spec.Repr.learn2. split; [apply learn_cov|]; apply learn_self. Qed.
  Lemma lost_wfull wis r ds od : lost wis ds od = false -> lost (wfull wis r) ds od = false.
  Proof. unfold Spec.Repr.wfull. destruct (r_made _ r); auto. apply lost_mono. Qed.
  Lemma lost_wdim wis l oe es ds od : lost wis ds od = false -> lost (wdim wis l oe es) ds od = false.
  Proof. unfold Spec.Repr.wdim. destruct oe; auto. destruct (existsb _ _); auto. apply lost_mono. Qed.

  Definition Jp (p : prepared) (wis : wisd) : Prop := forall ds od, p ds od = true -> lost wis ds od = false.
  Definition Js (s : state) (pl : nat -> list nat) (wis : wisd) : Prop :=
    forall i r, s i = Some r -> r_made _ r <> None -> lost wis (r_dims _ r) None = false /\ forall d, existsb (Nat.eqb d) (pl i) = true -> lost wis (r_dims _ r) (Some d) = false.
  Lemma Js_upd s pl wis wis' i r l : Js s pl wis -> (forall ds od, lost wis ds od = false -> lost wis' ds od = false) ->
    (r_made _ r <> None -> lost wis' (r_dims _ r) None = false /\ forall d, existsb (Nat.eqb d) l = true -> lost wis' (r_dims _ r) (Some d) = false) ->
    Js (fupd s i (Some r)) (fupd pl i l) wis'.
  Proof.
    intros J Hw Hr j q. unfold fupd. destruct (Nat.eqb_spec j i) as [->|N].
    - intros E. injection E as <-. exact Hr.
    - intros E M. destruct (J j q E M) as [J1 J2]. split; auto.
  Qed.
  Lemma Js_ext s s' pl pl' wis : (forall i, s' i = s i) -> (forall i, pl' i = pl i) -> Js s pl wis -> Js s' pl' wis.
  Proof. intros E1 E2 J i r. rewrite E1, E2. apply J. Qed.
  Lemma Js_set s pl wis i r : Js s pl wis ->
    (r_made _ r <> None -> lost wis (r_dims _ r) None = false /\ forall d, existsb (Nat.eqb d) (pl i) = true -> lost wis (r_dims _ r) (Some d) = false) ->
    Js (fupd s i (Some r)) pl wis.
  Proof.
    intros J Hr. apply (Js_ext (fupd s i (Some r)) _ (fupd pl i (pl i)) _ wis); auto.
    - intros j. unfold fupd. destruct (Nat.eqb_spec j i) as [->|]; reflexivity.
    - apply (Js_upd s pl wis); auto.
  Qed.

  Lemma trans_eq p s pl wis i r (fw : bool) od : Jp p wis -> Js s pl wis -> s i = Some r -> r_ret _ r = false ->
    match r_made _ r with None => fw || p (r_dims _ r) None | Some _ => true end = true ->
    match od with
    | None => true
    | Some d => p (r_dims _ r) (Some d) || Bool.eqb fw (Bool.eqb (match r_made _ r with Some c => c | None => r_k _ r end) (r_k _ r))
    end = true ->
    set_k (exec fw od (mdim (wfull wis r) (pfull r (pl i)) od (mfull wis r))) fw = s_trans _ trans fw od r.
  Proof.
    intros P J Es Hr C1 C2.
    assert (MF : exists m, mfull wis r = mkR _ (r_dims _ r) (r_pos _ r) m (r_k _ r) (r_ret _ r) (made_now _ r) /\ (fw = false -> m = r_mom _ r)).
    { unfold Spec.Repr.mfull, made_now. destruct (r_made _ r) as [c|] eqn:Em; [exists (r_mom _ r); split; [rewrite <- Em; destruct r; reflexivity|reflexivity]|].
      eexists. split; [reflexivity|]. intros ->. cbn in C1. rewrite (P _ _ C1). reflexivity. }
    destruct MF as (m & -> & Hm).
    assert (MD : exists q n, mdim (wfull wis r) (pfull r (pl i)) od (mkR _ (r_dims _ r) (r_pos _ r) m (r_k _ r) (r_ret _ r) (made_now _ r)) =
       mkR _ (r_dims _ r) q n (r_k _ r) (r_ret _ r) (made_now _ r) /\ (fw = true -> q = r_pos _ r) /\ (fw = false -> n = m)).
    { unfold Spec.Repr.mdim. destruct od as [d|]; [|eexists _, _; split; [reflexivity|auto]]. cbn [r_dims r_pos r_mom r_k r_ret r_made].
      destruct (existsb (Nat.eqb d) (pfull r (pl i)) || negb (lost (wfull wis r) (r_dims _ r) (Some d))) eqn:Q; [eexists _, _; split; [reflexivity|auto]|].
      apply orb_false_iff in Q. destruct Q as [_ Q]. apply negb_false_iff in Q. apply orb_true_iff in C2. destruct C2 as [C2|C2].
      { apply P in C2. apply (lost_wfull wis r) in C2. congruence. }
      apply Bool.eqb_prop in C2. unfold made_now. destruct (r_made _ r) as [c|]; cbn [r_made];
        (destruct (Bool.eqb _ _); (eexists _, _; split; [reflexivity|split; [|]; intros; try reflexivity; congruence])). }
    destruct MD as (q & n & -> & Hq & Hn). unfold Spec.Repr.exec, Spec.Repr.set_k, s_trans. destruct fw; cbn.
    - rewrite (Hq eq_refl). reflexivity.
    - rewrite (Hn eq_refl), (Hm eq_refl). reflexivity.
  Qed.

  Lemma careful_shape p (s : state) (c : cmd A) : careful _ p s c = true -> keeps_shape _ s c = true.
  Proof.
    destruct c as [i ds|i l|i j g|i j g|i k|fw i od|i j|i j|x i g|i|i]; cbn; auto; destruct (live _ s i), (live _ s j); auto. destruct (r_made _ _); auto.
  Qed.
  Lemma padd_cases p ds od es oe : padd p ds od es oe = true -> (es = ds /\ oe = od) \/ p es oe = true.
  Proof.
    unfold padd, dims_eqb, od_eqb. intros H. apply orb_true_iff in H. destruct H as [H|H]; auto. left. apply andb_true_iff in H. destruct H as [H1 H2].
    destruct (list_eq_dec _ _ _); [|discriminate]. split; [assumption|]. destruct oe, od; try discriminate; auto. apply Nat.eqb_eq in H2. congruence.
  Qed.

  Lemma eq_step p (s : state) pl wis (c : cmd A) s' : Jp p wis -> Js s pl wis -> careful _ p s c = true -> s_step _ trans s c = Some s' ->
    exists pl' wis', m_step _ trans flag (s, pl, wis) c = Some (s', pl', wis') /\ Jp (p_step _ p s c) wis' /\ Js s' pl' wis'.
  Proof.
    intros P J C E. destruct c as [i ds|i l|i j g|i j g|i k|fw i od|i j|i j|x i g|i|i]; cbn [m_step p_step].
    - rewrite E. exists pl, wis. split; [reflexivity|]. split; [exact P|]. cbn in E. destruct (s i); [discriminate|]. destruct (forallb _ _); [|discriminate]. injection E as <-.
      apply Js_set; [exact J|cbn; congruence].
    - rewrite E. exists pl, wis. split; [reflexivity|]. split; [exact P|]. cbn in E. destruct (live _ s i) as [r|] eqn:L; [|discriminate]. destruct (_ =? _); [|discriminate].
      injection E as <-. apply live_spec in L. apply Js_set; auto. intros M. unfold Spec.Repr.set_active in *. destruct (r_k _ r); apply (J i r (proj1 L)); exact M.
    - rewrite E. exists pl, wis. split; [reflexivity|]. split; [exact P|]. cbn in E. destruct (live _ s i) as [r|] eqn:L; [|discriminate]. destruct (live _ s j); [|discriminate].
      destruct (_ =? _); [|discriminate]. injection E as <-. apply live_spec in L. apply Js_set; auto. intros M. unfold Spec.Repr.set_active in *. destruct (r_k _ r); apply (J i r (proj1 L)); exact M.
    - rewrite E. exists pl, wis. split; [reflexivity|]. split; [exact P|]. cbn in E. destruct (live _ s i) as [r|] eqn:L; [|discriminate]. destruct (live _ s j); [|discriminate].
      destruct (_ =? _); [|discriminate]. injection E as <-. apply live_spec in L. apply Js_set; auto. intros M. unfold Spec.Repr.set_active in *. destruct (r_k _ r); apply (J i r (proj1 L)); exact M.
    - rewrite E. exists pl, wis. split; [reflexivity|]. split; [exact P|]. cbn in E. destruct (live _ s i) as [r|] eqn:L; [|discriminate].
      injection E as <-. apply live_spec in L. apply Js_set; auto. intros M. apply (J i r (proj1 L)); exact M.
    - cbn in E, C. destruct (live _ s i) as [r|] eqn:L; [|discriminate]. destruct (dim_ok _ r od) eqn:D; [|discriminate]. injection E as <-.
      destruct (live_spec _ _ _ L) as [Es Hr]. apply andb_true_iff in C. destruct C as [C1 C2].
      rewrite (trans_eq p s pl wis i r fw od P J Es Hr C1 C2). eexists _, _. split; [reflexivity|].
      set (wis' := wdim (wfull wis r) (pfull r (pl i)) od (r_dims _ r)).
      assert (W : forall ds oe, lost wis ds oe = false -> lost wis' ds oe = false) by (intros; apply lost_wdim, lost_wfull; assumption).
      assert (LN : lost wis' (r_dims _ r) None = false).
      { apply lost_wdim. destruct (r_made _ r) as [c|] eqn:Em.
        - apply lost_wfull. apply (J i r Es). congruence.
        - unfold Spec.Repr.wfull. rewrite Em. apply lost_self. }
      assert (LD : forall d, existsb (Nat.eqb d) (pdim (pfull r (pl i)) od) = true -> lost wis' (r_dims _ r) (Some d) = false).
      { assert (B : forall d, existsb (Nat.eqb d) (pfull r (pl i)) = true -> lost wis' (r_dims _ r) (Some d) = false).
        { intros d Hd. unfold Spec.Repr.pfull in Hd. destruct (r_made _ r) as [c|] eqn:Em; [|discriminate]. apply W. apply (J i r Es); [congruence|exact Hd]. }
        intros d Hd. unfold pdim in Hd. destruct od as [d'|]; [|apply B; exact Hd]. destruct (existsb (Nat.eqb d') (pfull r (pl i))) eqn:Ex; [apply B; exact Hd|].
        cbn [existsb] in Hd. apply orb_true_iff in Hd. destruct Hd as [Hd|Hd]; [|apply B; exact Hd]. apply Nat.eqb_eq in Hd. subst d'.
        unfold wis', Spec.Repr.wdim. rewrite Ex. apply lost_self. }
      split.
      + intros es oe Hp. apply padd_cases in Hp. destruct Hp as [[-> ->]|Hp].
        * destruct od as [d|]; [|exact LN]. unfold pdim in LD. destruct (existsb (Nat.eqb d) (pfull r (pl i))) eqn:Ex; apply LD; [exact Ex|]. cbn. rewrite Nat.eqb_refl. reflexivity.
        * apply padd_cases in Hp. destruct Hp as [[-> ->]|Hp]; [exact LN|]. apply W, P. exact Hp.
      + apply (Js_upd s pl wis); auto. intros _. unfold s_trans. destruct fw; cbn [r_dims]; auto.
    - rewrite E. exists pl, wis. split; [reflexivity|]. split; [exact P|]. cbn in E, C. destruct (live _ s i) as [r|] eqn:L; [|discriminate]. destruct (live _ s j) as [q|] eqn:Lq; [|discriminate].
      injection E as <-. apply live_spec in L. apply Js_set; auto. intros M.
      assert (Mr : r_made _ r <> None) by (unfold Spec.Repr.set_active in M; cbn in M; destruct (r_k _ q); exact M).
      destruct (J i r (proj1 L) Mr) as [J1 J2]. assert (Ed : r_dims _ r = r_dims _ q).
      { destruct (r_made _ r); [|congruence]. unfold dims_eqb in C. destruct (list_eq_dec _ _ _); [assumption|discriminate]. }
      rewrite Ed in *. unfold Spec.Repr.set_active. cbn [r_k]. destruct (r_k _ q); cbn [r_dims]; auto.
    - cbn in E, C. destruct (live _ s i) as [r|] eqn:L; [|discriminate]. destruct (live _ s j) as [q|] eqn:Lq; [|discriminate].
      destruct (i =? j)%nat; [discriminate|]. injection E as <-.
      set (r0 := mkR _ (r_dims _ q) None (Spec.Repr.active _ q) true false (r_made _ r)).
      assert (Er : set_k (exec false None (mfull wis r0)) false = s_trans _ trans false None r0).
      { unfold Spec.Repr.mfull, r0. cbn [r_made]. unfold s_trans, made_now. destruct (r_made _ r) as [c|] eqn:Em; cbn; [reflexivity|]. rewrite (P _ _ C). reflexivity. }
      rewrite Er. eexists _, _. split; [reflexivity|].
      assert (W : forall ds oe, lost wis ds oe = false -> lost (wfull wis r0) ds oe = false) by (intros; apply lost_wfull; assumption).
      split; [intros ds od Hp; apply W, P; exact Hp|]. apply live_spec in L. destruct L as [Es Hr].
      apply (Js_upd s pl wis); auto. intros _. cbn [s_trans r_dims]. change (r_dims _ (s_trans _ trans false None r0)) with (r_dims _ q).
      unfold Spec.Repr.pfull, Spec.Repr.wfull. cbn [r_made r0]. destruct (r_made _ r) as [c|] eqn:Em.
      + unfold dims_eqb in C. destruct (list_eq_dec _ _ _) as [Ed|]; [|discriminate]. rewrite <- Ed. apply (J i r Es). congruence.
      + split; [apply lost_self|]. discriminate.
    - cbn in E. destruct (s x) eqn:Ex; [discriminate|]. destruct (live _ s i) as [r|] eqn:L; [|discriminate]. injection E as <-.
      assert (Er : exists m, exec true None (mfull wis r) = mkR _ (r_dims _ r) (r_pos _ r) (option_map (trans true (r_dims _ r) None) (r_pos _ r)) m (r_ret _ r) (made_now _ r) /\ m = r_k _ r).
      { eexists. split; [|reflexivity]. unfold Spec.Repr.exec, Spec.Repr.mfull, made_now. destruct (r_made _ r) eqn:Em; cbn; rewrite ?Em; reflexivity. }
      destruct Er as (m & -> & ->). apply live_spec in L. destruct L as [Es Hr].
      unfold Spec.Repr.set_k. cbn [r_dims r_pos r_mom r_ret r_made]. rewrite Hr. eexists _, _. split; [reflexivity|].
      assert (W : forall ds oe, lost wis ds oe = false -> lost (wfull wis r) ds oe = false) by (intros; apply lost_wfull; assumption).
      assert (LN : lost (wfull wis r) (r_dims _ r) None = false).
      { unfold Spec.Repr.wfull. destruct (r_made _ r) as [c|] eqn:Em; [apply (J i r Es); congruence|apply lost_self]. }
      split.
      + intros es oe Hp. apply padd_cases in Hp. destruct Hp as [[-> ->]|Hp]; [exact LN|]. apply W, P. exact Hp.
      + apply (Js_upd _ pl wis); auto.
        * apply Js_set; [exact J|cbn; congruence].
        * intros _. cbn [r_dims]. split; [exact LN|]. intros d Hd. unfold Spec.Repr.pfull in Hd. destruct (r_made _ r) as [c|] eqn:Em; [|discriminate]. apply W. apply (J i r Es); [congruence|exact Hd].
    - rewrite E. exists pl, wis. split; [reflexivity|]. split; [exact P|]. cbn in E. destruct (s i) as [r|] eqn:Es; [|discriminate].
      injection E as <-. apply Js_set; auto. intros M. apply (J i r Es); exact M.
    - rewrite E. exists pl, wis. split; [reflexivity|]. split; [exact P|]. cbn in E. destruct (s i) as [r|] eqn:Es; [|discriminate].
      injection E as <-. apply Js_set; auto. intros M. apply (J i r Es); exact M.
  Qed.

  Lemma m_run_sim cs : forall w s pl wis s' pl' wis', Inv w s pl wis -> Forall (keeps A) cs -> shapes_kept _ trans flag (s, pl, wis) cs ->
    m_run _ trans flag (s, pl, wis) cs = Some (s', pl', wis') -> exists w', run _ trans junk flag w cs = Ok w' /\ Inv w' s' pl' wis'.
  Proof.
    induction cs as [|c cs IH]; intros w s pl wis s' pl' wis' I K S E.
    - injection E as <- <- <-. exists w. split; [reflexivity|exact I].
    - cbn [m_run] in E. cbn [shapes_kept] in S. destruct S as [S1 S2]. inversion K as [|c0 cs0 Kc Kcs]; subst.
      destruct (m_step _ trans flag (s, pl, wis) c) as [[[s1 pl1] wis1]|] eqn:E1; [|discriminate].
      destruct (m_sim _ _ _ _ _ _ _ _ I Kc S1 E1) as (w1 & Ew & I1). unfold run. cbn [foldM]. rewrite Ew. cbn [bind].
      exact (IH _ _ _ _ _ _ _ I1 Kcs S2 E).
  Qed.
  Lemma careful_m cs : forall p s pl wis s', Jp p wis -> Js s pl wis -> careful_run _ trans p s cs -> s_run _ trans s cs = Some s' ->
    shapes_kept _ trans flag (s, pl, wis) cs /\ exists pl' wis', m_run _ trans flag (s, pl, wis) cs = Some (s', pl', wis').
  Proof.
    induction cs as [|c cs IH]; intros p s pl wis s' P J C E.
    - injection E as <-. split; [exact Logic.I|]. exists pl, wis. reflexivity.
    - cbn [s_run careful_run] in *. destruct C as [C1 C2]. destruct (s_step _ trans s c) as [s1|] eqn:E1; [|discriminate].
      destruct (eq_step _ _ _ _ _ _ P J C1 E1) as (pl1 & wis1 & E2 & P1 & J1). cbn [m_run shapes_kept]. rewrite E2.
      destruct (IH _ _ _ _ _ P1 J1 C2 E) as [S R]. split; [|exact R]. split; [apply (careful_shape p); exact C1|exact S].
  Qed.

  Notation seen := (seen A).
  Lemma start_inv pl wis : Inv (start _ wis) (nothing _) pl wis.
  Proof. constructor; cbn; auto. intros i j b []. Qed.

  Lemma inv_seen w s pl wis : Inv w s pl wis -> seen w s.
  Proof.
    intros I i r L. apply live_spec in L. destruct L as [Es Hr]. destruct (read_spec _ _ _ _ _ _ I Es Hr) as (o & l & Eo & Eg & _ & El & Zl & Zn & Cl).
    destruct (inv_get _ _ _ _ _ _ I Es) as (o1 & Eo1 & _ & R & _). rewrite Eo in Eo1. injection Eo1 as <-. exists o, l.
    split; [exact Eg|]. split; [apply R|]. split; [apply R|]. split; [exact El|]. split; [lia|exact Cl].
  Qed.

  Lemma repr_code wis cs s' pl' wis' pl : Forall (keeps A) cs -> shapes_kept _ trans flag (nothing _, pl, wis) cs ->
    m_run _ trans flag (nothing _, pl, wis) cs = Some (s', pl', wis') -> exists w', run _ trans junk flag (start _ wis) cs = Ok w' /\ seen w' s'.
  Proof.
    intros K S E. destruct (m_run_sim cs _ _ _ _ _ _ _ (start_inv pl wis) K S E) as (w' & Er & I). exists w'. split; [exact Er|]. exact (inv_seen _ _ _ _ I).
  Qed.
  Lemma repr_careful wis p cs s' : (forall ds od, p ds od = true -> flag = Est \/ forall fw, exists l, wis (ds, od, fw) = Some l /\ lvl_leb flag l = true) ->
    Forall (keeps A) cs -> careful_run _ trans p (nothing _) cs -> s_run _ trans (nothing _) cs = Some s' ->
    exists w', run _ trans junk flag (start _ wis) cs = Ok w' /\ seen w' s'.
  Proof.
    intros Hp K C E.
    assert (P : Jp p wis).
    { intros ds od H. apply lost_false. unfold Spec.Repr.cov. destruct (Hp _ _ H) as [->|W]; [auto|]. destruct (W true) as (l & -> & H1). destruct (W false) as (l' & -> & H2).
      rewrite H1, H2. destruct flag; auto. }
    destruct (careful_m cs p (nothing _) (fun _ => []) wis s' P) as [S (pl' & wis' & R)]; auto.
    { intros i r H. discriminate. }
    exact (repr_code wis cs s' pl' wis' _ K S R).
  Qed.
End P.
