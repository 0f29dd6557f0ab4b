(** Lemmas on the vector class. *)
From Coq Require Import List ZArith Lia Bool Arith.
From Verif Require Import Base Arrays Model.Vec Spec.Vec.
Import ListNotations.
Open Scope Z_scope.

Section P.
  Context {A : Type}.
  Notation vec := (vec). Notation heap := (heap A). Notation st := (st A). Notation abs := (abs A). Notation avec := (avec A).

  Definition cell (u : option A) (x : A) : Prop := match u with Some y => y = x | None => True end.
  Definition slot (h : heap) (p : option nat) (l : list (option A)) : Prop :=
    (p = None /\ l = []) \/ exists b c, p = Some b /\ nth_error h b = Some (Some c) /\ Forall2 cell l c.
  Definition alivev (vs : list (option vec)) (i : nat) : option vec := match nth_error vs i with Some x => x | None => None end.
  Definition ptr (vs : list (option vec)) (o k : nat) : option nat :=
    match alivev vs o with Some v => match nth_error (v_p v) k with Some p => p | None => None end | None => None end.
  Definition owner (a : abs) (o : nat) : Prop := match alive A a o with Some (Own _ _ _ _ _) => True | _ => False end.
  Definition shape (v : vec) (x : avec) : Prop :=
    v_n v = Z.of_nat (size A x) /\ v_str v = Z.of_nat (strides A x) /\ v_len v = Z.of_nat (stride_len A x) /\ length (v_p v) = strides A x /\ (1 <= strides A x)%nat /\
    match x with
    | Own _ lk s n d => v_obj v = repeat None s /\ v_lock v = lk /\ v_ref v = false
    | Ref _ lk n l linked => v_obj v = l /\ v_lock v = lk /\ v_ref v = true /\ (0 < n)%nat /\ length (v_src v) = length l /\
        (forall k m, nth_error l k = Some (Some m) -> nth_error (v_src v) k = Some 0) /\
        (forall k p, nth_error (v_p v) k = Some (Some p) -> linked = true /\ exists m, nth_error l k = Some (Some m))
    end.
  Record R (h : heap) (vs : list (option vec)) (a : abs) : Prop := mkR {
    r_len : length vs = length a;
    r_shape : forall i, match alive A a i, alivev vs i with Some x, Some v => shape v x | None, None => True | _, _ => False end;
    r_data : forall o lk s n d, alive A a o = Some (Own A lk s n d) -> (n = O -> forall k, ptr vs o k = None) /\
      match d with
      | None => forall k, ptr vs o k = None
      | Some D => length D = s /\ forall k l, nth_error D k = Some l -> length l = n /\ slot h (ptr vs o k) l
      end;
    r_inj : forall o o' k k' b, owner a o -> owner a o' -> ptr vs o k = Some b -> ptr vs o' k' = Some b -> o = o' /\ k = k';
    r_cover : forall b c, nth_error h b = Some (Some c) -> exists o k, owner a o /\ ptr vs o k = Some b;
    r_links : forall i lk n l linked k m, alive A a i = Some (Ref A lk n l linked) -> nth_error l k = Some (Some m) ->
      (m < length a)%nat /\ (alive A a m = None \/ exists lk' d, alive A a m = Some (Own A lk' 1 n d) /\ (linked = true -> d <> None /\ ptr vs i k = ptr vs m 0));
    r_uniq : forall i i' lk lk' n n' l l' q q' k k' m, alive A a i = Some (Ref A lk n l q) -> alive A a i' = Some (Ref A lk' n' l' q') ->
      nth_error l k = Some (Some m) -> nth_error l' k' = Some (Some m) -> i = i' /\ k = k' }.

  Lemma f2_len l c : Forall2 cell l c -> length l = length c.
  Proof. induction 1; cbn; congruence. Qed.
  (** ** objects *)
  Lemma alive_upd (a : abs) i x j : (i < length a)%nat -> alive A (upd a i x) j = if (j =? i)%nat then x else alive A a j.
  Proof.
    intros H. unfold alive. rewrite upd_nth. destruct (Nat.eqb_spec j i) as [->|]; [|reflexivity].
    destruct (nth_error a i) eqn:E; [reflexivity|]. apply nth_error_None in E. lia.
  Qed.
  Lemma alivev_upd (a : list (option vec)) i x j : (i < length a)%nat -> alivev (upd a i x) j = if (j =? i)%nat then x else alivev a j.
  Proof.
    intros H. unfold alivev. rewrite upd_nth. destruct (Nat.eqb_spec j i) as [->|]; [|reflexivity].
    destruct (nth_error a i) eqn:E; [reflexivity|]. apply nth_error_None in E. lia.
  Qed.
  Lemma alive_lt (a : abs) i x : alive A a i = Some x -> (i < length a)%nat.
  Proof. unfold alive. intros E. apply nth_error_Some. destruct (nth_error a i); congruence. Qed.
  Lemma alive_none (a : abs) i : (length a <= i)%nat -> alive A a i = None.
  Proof. intros H. unfold alive. rewrite (proj2 (nth_error_None a i)) by exact H. reflexivity. Qed.
  Lemma ptr_upd vs i x o k : (i < length vs)%nat ->
    ptr (upd vs i x) o k = if (o =? i)%nat then match x with Some v => match nth_error (v_p v) k with Some p => p | None => None end | None => None end else ptr vs o k.
  Proof. intros H. unfold ptr. rewrite alivev_upd by exact H. destruct (o =? i)%nat; reflexivity. Qed.
  Lemma obj_alive s i v : alivev (s_vecs A s) i = Some v -> obj A s i = Ok v.
  Proof. unfold alivev, obj. destruct (nth_error (s_vecs A s) i) as [[w|]|]; congruence. Qed.
  Lemma r_obj h vs a i x : R h vs a -> alive A a i = Some x -> exists v, alivev vs i = Some v /\ shape v x.
  Proof. intros H E. pose proof (r_shape h vs a H i) as S. rewrite E in S. destruct (alivev vs i) as [v|]; [eauto|destruct S]. Qed.
  Lemma r_live h vs a o k b : R h vs a -> owner a o -> ptr vs o k = Some b -> exists c, nth_error h b = Some (Some c).
  Proof.
    intros H O P. unfold owner in O. destruct (alive A a o) as [[lk s n d|]|] eqn:E; try contradiction.
    destruct (r_data h vs a H o lk s n d E) as [_ D]. destruct d as [D0|]; [|rewrite D in P; discriminate]. destruct D as [L D].
    destruct (r_obj h vs a o _ H E) as (v & Ev & (_ & _ & _ & Lp & _)). cbn in Lp.
    assert (Hk : (k < length (v_p v))%nat). { unfold ptr in P. rewrite Ev in P. apply nth_error_Some. destruct (nth_error (v_p v) k); congruence. }
    destruct (nth_error D0 k) as [l|] eqn:El; [|apply nth_error_None in El; lia].
    destruct (D k l El) as [_ [[Z _]|(b' & c & Eb & Hc & _)]]; [congruence|]. rewrite P in Eb. injection Eb as <-. eauto.
  Qed.

  (** ** cells *)
  Definition valid (a : abs) (c : nat * nat) (n : nat) : Prop :=
    exists lk s d, alive A a (fst c) = Some (Own A lk s n (Some d)) /\ nth_error d (snd c) = Some (seg A a c).
  Lemma nth_nth_error {B} (l : list B) k d x : nth_error l k = Some x -> nth k l d = x.
  Proof. apply nth_error_nth. Qed.
  Lemma masters_spec a l cs : masters A a l = Some cs -> length cs = length l /\
    forall k c, nth_error cs k = Some c -> exists m lk s n d, nth_error l k = Some (Some m) /\ c = (m, O) /\ alive A a m = Some (Own A lk s n (Some d)).
  Proof.
    revert cs; induction l as [|[m|] l IH]; intros cs E; cbn in E.
    - injection E as <-. split; [reflexivity|]. intros [|k] c; discriminate.
    - destruct (alive A a m) as [[lk s n [d|]|]|] eqn:Em; try discriminate. destruct (masters A a l) as [cs'|] eqn:E'; try discriminate. injection E as <-.
      destruct (IH cs' eq_refl) as [L IH']. split; [cbn; lia|]. intros [|k] c Hc; cbn in Hc.
      + injection Hc as <-. exists m, lk, s, n, d. auto.
      + cbn. apply IH'. exact Hc.
    - discriminate.
  Qed.
  Lemma cells_spec h vs a i cs : R h vs a -> cells A a i = Some cs -> exists x v, alive A a i = Some x /\ alivev vs i = Some v /\ shape v x /\ length cs = strides A x /\
    forall k c, nth_error cs k = Some c -> valid a c (stride_len A x) /\ nth_error (v_p v) k = Some (ptr vs (fst c) (snd c)).
  Proof.
    intros H E. unfold cells in E. destruct (alive A a i) as [x|] eqn:Ex; [|discriminate]. destruct (r_obj h vs a i x H Ex) as (v & Ev & Sh). exists x, v.
    split; [reflexivity|]. split; [exact Ev|]. split; [exact Sh|]. destruct x as [lk s n [d|]|lk n l [|]]; try discriminate.
    - injection E as <-. destruct (r_data h vs a H i lk s n (Some d) Ex) as (_ & L & D). split; [rewrite map_length, seq_length; reflexivity|].
      intros k c Hc. rewrite nth_error_map in Hc. destruct (nth_error (seq 0 s) k) as [k'|] eqn:Ek; [|discriminate]. injection Hc as <-.
      assert (Hk : (k < s)%nat) by (rewrite <- (seq_length s 0); apply nth_error_Some; congruence).
      assert (k' = k). { apply (nth_error_nth _ _ O) in Ek. rewrite seq_nth in Ek by exact Hk. lia. } subst k'.
      cbn [fst snd strides stride_len]. split.
      + exists lk, s, d. cbn [fst snd]. split; [exact Ex|]. unfold seg. cbn [fst snd]. rewrite Ex. rewrite (nth_error_nth' d []) by lia. reflexivity.
      + destruct Sh as (_ & _ & _ & Lp & _). cbn in Lp. unfold ptr. rewrite Ev. destruct (nth_error (v_p v) k) as [p|] eqn:Ep; [reflexivity|]. apply nth_error_None in Ep. lia.
    - destruct (masters_spec a l cs E) as [L M]. split; [exact L|]. intros k c Hc. destruct (M k c Hc) as (m & lk' & s & n' & d & Hl & -> & Em). cbn [fst snd stride_len].
      destruct (r_links h vs a H i lk n l true k m Ex Hl) as (_ & [Z|(lk2 & d2 & E2 & D2)]); [congruence|]. rewrite Em in E2. injection E2 as -> -> -> <-.
      destruct (D2 eq_refl) as [_ P]. destruct (r_data h vs a H m lk2 1%nat n (Some d) Em) as (_ & Ld & Dd). split.
      + exists lk2, 1%nat, d. cbn [fst snd]. split; [exact Em|]. unfold seg. cbn [fst snd]. rewrite Em. rewrite (nth_error_nth' d []) by lia. reflexivity.
      + rewrite <- P. destruct Sh as (_ & _ & _ & Lp & _). cbn in Lp. unfold ptr. rewrite Ev. destruct (nth_error (v_p v) k) as [p|] eqn:Ep; [reflexivity|]. apply nth_error_None in Ep.
        assert (k < length l)%nat by (apply nth_error_Some; congruence). lia.
  Qed.
  Lemma valid_slot h vs a c n : R h vs a -> valid a c n -> length (seg A a c) = n /\ slot h (ptr vs (fst c) (snd c)) (seg A a c).
  Proof. intros H (lk & s & d & E & Hd). destruct (r_data h vs a H (fst c) lk s n (Some d) E) as (_ & _ & D). apply D. exact Hd. Qed.
  Lemma valid_owner a c n : valid a c n -> owner a (fst c).
  Proof. intros (lk & s & d & E & _). unfold owner. rewrite E. exact I. Qed.
  Lemma valid_block h vs a c n : R h vs a -> valid a c n -> (0 < n)%nat -> exists b cc, ptr vs (fst c) (snd c) = Some b /\ nth_error h b = Some (Some cc) /\ Forall2 cell (seg A a c) cc /\ length cc = n.
  Proof.
    intros H V Hn. destruct (valid_slot h vs a c n H V) as [L [[_ Z]|(b & cc & Ep & Eh & F)]].
    - rewrite Z in L. cbn in L. lia.
    - exists b, cc. repeat split; auto. rewrite <- L. symmetry. apply (f2_len _ _ F).
  Qed.

  (** ** writing a cell *)
  Lemma alive_set_seg a c l n : valid a c n -> forall j, alive A (set_seg A a c l) j =
    match alive A a j with
    | Some (Own _ lk s n' (Some d)) => if (j =? fst c)%nat then Some (Own A lk s n' (Some (upd d (snd c) l))) else Some (Own A lk s n' (Some d))
    | x => x
    end.
  Proof.
    intros (lk & s & d & E & Hd) j. unfold set_seg. rewrite E. rewrite alive_upd by (eapply alive_lt; exact E).
    destruct (Nat.eqb_spec j (fst c)) as [->|N]; [rewrite E; reflexivity|]. destruct (alive A a j) as [[? ? ? [?|]|]|]; reflexivity.
  Qed.
  Lemma seg_set_seg a c l n c' : valid a c n -> seg A (set_seg A a c l) c' = if (fst c' =? fst c)%nat && (snd c' =? snd c)%nat then l else seg A a c'.
  Proof.
    intros V. unfold seg at 1. rewrite (alive_set_seg a c l n V). unfold seg. destruct V as (lk & s & d & E & Hd).
    destruct (Nat.eqb_spec (fst c') (fst c)) as [E1|N]; cbn [andb].
    - rewrite E1, E. destruct (Nat.eqb_spec (snd c') (snd c)) as [E2|N2].
      + rewrite E2. apply nth_error_nth. rewrite upd_nth, Nat.eqb_refl, Hd. reflexivity.
      + assert (X : forall k, nth k (upd d (snd c) l) [] = match nth_error (upd d (snd c) l) k with Some z => z | None => [] end).
        { intros k. destruct (nth_error (upd d (snd c) l) k) eqn:Q; [apply nth_error_nth; exact Q|]. apply nth_overflow. apply nth_error_None. exact Q. }
        rewrite X, upd_nth. destruct (Nat.eqb_spec (snd c') (snd c)); [contradiction|]. destruct (nth_error d (snd c')) eqn:Q; [symmetry; apply nth_error_nth; exact Q|].
        symmetry. apply nth_overflow. apply nth_error_None. exact Q.
    - destruct (alive A a (fst c')) as [[? ? ? [?|]|]|]; reflexivity.
  Qed.
  Lemma valid_set_seg a c l n c' n' : valid a c n -> valid a c' n' -> valid (set_seg A a c l) c' n'.
  Proof.
    intros V V'. pose proof (seg_set_seg a c l n c' V) as Sg. pose proof (alive_set_seg a c l n V (fst c')) as Al. destruct V' as (lk & s & d & E & Hd). rewrite E in Al.
    destruct (Nat.eqb_spec (fst c') (fst c)) as [E1|N]; cbn [andb] in Sg; [|exists lk, s, d; rewrite Sg; split; [exact Al|exact Hd]].
    exists lk, s, (upd d (snd c) l). split; [exact Al|]. rewrite Sg, upd_nth. destruct V as (lk0 & s0 & d0 & E0 & Hd0). rewrite <- E1, E in E0. injection E0 as <- <- <- <-.
    destruct (Nat.eqb_spec (snd c') (snd c)) as [E2|]; [|exact Hd]. rewrite Hd0. reflexivity.
  Qed.
  Lemma owner_set_seg a c l n o : valid a c n -> owner (set_seg A a c l) o <-> owner a o.
  Proof. intros V. unfold owner. rewrite (alive_set_seg a c l n V). destruct (alive A a o) as [[? ? ? [?|]|]|]; try tauto. destruct (o =? fst c)%nat; tauto. Qed.
  Lemma masters_set_seg a c l n ls : valid a c n -> masters A (set_seg A a c l) ls = masters A a ls.
  Proof.
    intros V. induction ls as [|[m|] ls IH]; [reflexivity| |reflexivity]. cbn. rewrite (alive_set_seg a c l n V), IH.
    destruct (alive A a m) as [[? ? ? [?|]|]|]; try reflexivity. destruct (m =? fst c)%nat; reflexivity.
  Qed.
  Lemma cells_set_seg a c l n i : valid a c n -> cells A (set_seg A a c l) i = cells A a i.
  Proof.
    intros V. unfold cells. rewrite (alive_set_seg a c l n V). destruct (alive A a i) as [[? ? ? [?|]|? ? ? [|]]|]; try reflexivity.
    - destruct (i =? fst c)%nat; reflexivity.
    - apply (masters_set_seg a c l n _ V).
  Qed.
  Lemma length_set_seg a c l : length (set_seg A a c l) = length a.
  Proof. unfold set_seg. destruct (alive A a (fst c)) as [[? ? ? [?|]|]|]; try reflexivity. apply upd_length. Qed.
  Lemma set_R h vs a c n l b cc : R h vs a -> valid a c n -> length l = n -> ptr vs (fst c) (snd c) = Some b -> Forall2 cell l cc ->
    R (upd h b (Some cc)) vs (set_seg A a c l).
  Proof.
    intros H V L P F. destruct (r_live h vs a (fst c) (snd c) b H (valid_owner a c n V) P) as [c0 Hb].
    assert (NE : forall b', nth_error (upd h b (Some cc)) b' = if (b' =? b)%nat then Some (Some cc) else nth_error h b') by (intros b'; rewrite upd_nth, Hb; reflexivity).
    assert (Ow : forall o, owner (set_seg A a c l) o <-> owner a o) by (intros o; apply (owner_set_seg a c l n o V)).
    constructor.
    - rewrite length_set_seg. apply H.
    - intros i. rewrite (alive_set_seg a c l n V). pose proof (r_shape h vs a H i) as Sh. destruct (alive A a i) as [[? ? ? [?|]|]|]; destruct (alivev vs i); try exact Sh.
      + destruct (i =? fst c)%nat; exact Sh.
      + destruct (i =? fst c)%nat; exact Sh.
    - intros o lk s n0 d E. rewrite (alive_set_seg a c l n V) in E. destruct (alive A a o) as [[lk1 s1 n1 [d1|]|]|] eqn:Eo; try discriminate.
      + destruct (r_data h vs a H o lk1 s1 n1 (Some d1) Eo) as (Z & Ld & D). pose proof (valid_owner a c n V) as Oc.
        assert (G : forall k l', nth_error d1 k = Some l' -> (o, k) <> c -> length l' = n1 /\ slot (upd h b (Some cc)) (ptr vs o k) l').
        { intros k l' Hl Nc. destruct (D k l' Hl) as [L' Sl]. split; [exact L'|]. destruct Sl as [Sl|(b' & c' & Ep & Eh & F')]; [left; exact Sl|]. right. exists b', c'. rewrite NE.
          destruct (Nat.eqb_spec b' b) as [->|]; [|auto]. exfalso. apply Nc. destruct (r_inj h vs a H o (fst c) k (snd c) b) as [-> ->]; auto; [unfold owner; rewrite Eo; exact I|]. destruct c; reflexivity. }
        destruct (Nat.eqb_spec o (fst c)) as [Eoc|No]; injection E as <- <- <- <-.
        * split; [exact Z|]. split; [rewrite upd_length; exact Ld|]. intros k l' Hl. rewrite upd_nth in Hl. destruct (Nat.eqb_spec k (snd c)) as [Ek|Nk].
          -- destruct (nth_error d1 (snd c)); [|discriminate]. injection Hl as <-. destruct V as (lk2 & s2 & d2 & E2 & _). rewrite <- Eoc, Eo in E2. injection E2 as _ _ -> _. split; [exact L|].
             right. exists b, cc. rewrite NE, Nat.eqb_refl. rewrite Ek, Eoc. auto.
          -- apply G; [exact Hl|]. intros Q. apply Nk. rewrite <- Q. reflexivity.
        * split; [exact Z|]. split; [exact Ld|]. intros k l' Hl. apply G; [exact Hl|]. intros Q. apply No. rewrite <- Q. reflexivity.
      + injection E as <- <- <- <-. exact (r_data h vs a H o lk1 s1 n1 None Eo).
    - intros o o' k k' b' O1 O2. apply Ow in O1, O2. apply (r_inj h vs a H); assumption.
    - intros b' c' Hb'. rewrite NE in Hb'. destruct (Nat.eqb_spec b' b) as [->|].
      + exists (fst c), (snd c). split; [apply Ow, (valid_owner a c n V)|exact P].
      + destruct (r_cover h vs a H b' c' Hb') as (o & k & O & Q). exists o, k. split; [apply Ow, O|exact Q].
    - intros i lk n0 ls linked k m E Hl. rewrite (alive_set_seg a c l n V) in E. destruct (alive A a i) as [[? ? ? [?|]|]|] eqn:Ei; try discriminate.
      + destruct (i =? fst c)%nat; discriminate.
      + injection E as -> -> -> ->. rewrite length_set_seg. destruct (r_links h vs a H i lk n0 ls linked k m Ei Hl) as [Lm [Dm|(lk' & d & Em & Q)]]; (split; [exact Lm|]).
        * left. rewrite (alive_set_seg a c l n V), Dm. reflexivity.
        * right. rewrite (alive_set_seg a c l n V), Em. destruct d as [d|].
          -- destruct (m =? fst c)%nat; eexists _, _; (split; [reflexivity|]); intros Y; (split; [discriminate|apply (Q Y)]).
          -- exists lk', None. split; [reflexivity|exact Q].
    - assert (X : forall i lk n0 ls q, alive A (set_seg A a c l) i = Some (Ref A lk n0 ls q) -> alive A a i = Some (Ref A lk n0 ls q)).
      { intros i lk n0 ls q E. rewrite (alive_set_seg a c l n V) in E. destruct (alive A a i) as [[? ? ? [?|]|]|]; try discriminate; [destruct (i =? fst c)%nat; discriminate|exact E]. }
      intros i i' lk lk' n0 n0' l1 l2 q q' k k' m E1 E2. apply (r_uniq h vs a H i i' lk lk' n0 n0' l1 l2 q q' k k' m); apply X; assumption.
  Qed.
  Lemma upd_same {B} (l : list B) k x : nth_error l k = Some x -> upd l k x = l.
  Proof. revert k; induction l as [|y l IH]; intros [|k] E; cbn in *; try discriminate; [congruence|]. f_equal. apply IH. exact E. Qed.
  Lemma set_seg_same a c n : valid a c n -> set_seg A a c (seg A a c) = a.
  Proof.
    intros (lk & s & d & E & Hd). unfold set_seg. rewrite E, (upd_same d _ _ Hd). apply upd_same. unfold alive in E. destruct (nth_error a (fst c)) as [x|]; [|discriminate]. f_equal. exact E.
  Qed.

  (** ** loops over one cell *)
  Lemma nth_error_ext' {B} (l l' : list B) : (forall k, nth_error l k = nth_error l' k) -> l = l'.
  Proof.
    revert l'; induction l as [|x l IH]; intros [|y l'] H; [reflexivity|specialize (H O); discriminate|specialize (H O); discriminate|].
    f_equal; [specialize (H O); cbn in H; congruence|]. apply IH. intros k. apply (H (S k)).
  Qed.
  Lemma nth_mix {B} (c c' : list B) k j : length c' = length c -> (k <= length c)%nat -> nth_error (firstn k c' ++ skipn k c) j = if (j <? k)%nat then nth_error c' j else nth_error c j.
  Proof.
    intros L Hk. destruct (Nat.ltb_spec j k) as [Hj|Hj].
    - rewrite nth_error_app1 by (rewrite firstn_length; lia). clear L Hk. revert k j Hj. induction c' as [|y t IH]; intros [|k] [|j] Hj; try lia; cbn; try reflexivity. apply IH. lia.
    - rewrite nth_error_app2 by (rewrite firstn_length; lia). rewrite firstn_length, Nat.min_l by lia. revert k j Hk Hj. clear L. induction c as [|y t IH]; intros [|k] j Hk Hj; cbn in *; try lia.
      + destruct (j - 0)%nat; destruct j; reflexivity.
      + f_equal. lia.
      + destruct j as [|j]; [lia|]. cbn. apply IH; lia.
  Qed.
  Lemma upd_upd {B} (l : list B) k x y : upd (upd l k x) k y = upd l k y.
  Proof. revert k; induction l as [|z l IH]; intros [|k]; cbn; try reflexivity. f_equal. apply IH. Qed.
  Lemma upd_mix {B} (c c' : list B) k y : length c' = length c -> nth_error c' k = Some y -> upd (firstn k c' ++ skipn k c) k y = firstn (S k) c' ++ skipn (S k) c.
  Proof.
    intros L Hy. assert (Hk : (k < length c)%nat) by (rewrite <- L; apply nth_error_Some; congruence). apply nth_error_ext'. intros j. rewrite upd_nth, !nth_mix by lia.
    destruct (Nat.eqb_spec j k) as [->|N].
    - destruct (Nat.ltb_spec k k); [lia|]. destruct (Nat.ltb_spec k (S k)); [|lia]. destruct (nth_error c k) eqn:Q; [congruence|]. apply nth_error_None in Q. lia.
    - destruct (Nat.ltb_spec j k), (Nat.ltb_spec j (S k)); try reflexivity; lia.
  Qed.
  Lemma store_ok (h : heap) b (c : list A) k x : nth_error h b = Some (Some c) -> 0 <= k < zlen c -> store A h (Some b) k x = Ok (upd h b (Some (upd c (Z.to_nat k) x))).
  Proof. intros E Hk. unfold store. rewrite E, wr_ok by exact Hk. reflexivity. Qed.
  Lemma rd_nth_error {B} (l : list B) k x : 0 <= k -> nth_error l (Z.to_nat k) = Some x <-> rd l k = Ok x.
  Proof. intros Hk. unfold rd. rewrite (proj2 (Z.leb_le 0 k)) by exact Hk. destruct (nth_error l (Z.to_nat k)); split; congruence. Qed.
  Lemma seg_loop (f : heap -> Z -> outcome A) (h : heap) b (c c' : list A) r : nth_error h b = Some (Some c) -> length c' = length c -> 0 <= r <= zlen c ->
    (forall k, (Z.to_nat r <= k)%nat -> nth_error c' k = nth_error c k) ->
    (forall k, 0 <= k < r -> exists y, rd c' k = Ok y /\ f (upd h b (Some (firstn (Z.to_nat k) c' ++ skipn (Z.to_nat k) c))) k = Ok y) ->
    foldM (fun h k => let* x := f h k in store A h (Some b) k x) (upto 0 r) h = Ok (upd h b (Some c')).
  Proof.
    intros Hb L Hr Ht Hf. destruct (foldM_upto (fun h k => let* x := f h k in store A h (Some b) k x) (fun k h' => h' = upd h b (Some (firstn (Z.to_nat k) c' ++ skipn (Z.to_nat k) c))) 0 r h) as (h' & E & ->).
    - lia.
    - cbn. symmetry. apply upd_same. exact Hb.
    - intros k h' Hk ->. destruct (Hf k Hk) as (y & Ey & Ef). rewrite Ef. cbn [bind]. unfold zlen in *.
      assert (Lm : length (firstn (Z.to_nat k) c' ++ skipn (Z.to_nat k) c) = length c) by (rewrite app_length, firstn_length, skipn_length; lia).
      rewrite (store_ok _ b (firstn (Z.to_nat k) c' ++ skipn (Z.to_nat k) c)).
      + eexists. split; [reflexivity|]. rewrite upd_upd, (upd_mix c c' (Z.to_nat k) y L).
        * replace (Z.to_nat (k + 1)) with (S (Z.to_nat k)) by lia. reflexivity.
        * apply (rd_nth_error c' k y); [lia|exact Ey].
      + rewrite upd_nth, Nat.eqb_refl, Hb. reflexivity.
      + unfold zlen. rewrite Lm. lia.
    - rewrite E. do 3 f_equal. apply nth_error_ext'. intros j. unfold zlen in *. rewrite nth_mix by lia. destruct (Nat.ltb_spec j (Z.to_nat r)); [reflexivity|]. symmetry. apply Ht. lia.
  Qed.
  Lemma seg_R h vs a c n l' (f : heap -> Z -> outcome A) r : R h vs a -> valid a c n -> length l' = n -> 0 <= r <= Z.of_nat n ->
    (forall k, (Z.to_nat r <= k)%nat -> nth_error l' k = nth_error (seg A a c) k) ->
    (forall b cc, ptr vs (fst c) (snd c) = Some b -> nth_error h b = Some (Some cc) -> Forall2 cell (seg A a c) cc ->
      forall k, 0 <= k < r -> exists y, (exists u, rd l' k = Ok u /\ cell u y) /\ forall cc', (nth_error cc' (Z.to_nat k) = nth_error cc (Z.to_nat k)) -> f (upd h b (Some cc')) k = Ok y) ->
    exists h', foldM (fun h k => let* x := f h k in store A h (ptr vs (fst c) (snd c)) k x) (upto 0 r) h = Ok h' /\ R h' vs (set_seg A a c l').
  Proof.
    intros H V L Hr Ht Hf. destruct (valid_slot h vs a c n H V) as [Ls Sl]. destruct Sl as [[Ep El]|(b & cc & Ep & Eh & F)].
    - rewrite El in Ls. cbn in Ls. subst n. rewrite upto_nil by lia. exists h. split; [reflexivity|].
      assert (l' = seg A a c) as -> by (rewrite El; destruct l'; [reflexivity|cbn in *; lia]). rewrite (set_seg_same a c _ V). exact H.
    - rewrite Ep. specialize (Hf b cc Ep Eh F). pose proof (f2_len _ _ F) as Lc. rewrite Ls in Lc.
      assert (X : exists cc', Forall2 cell l' cc' /\ (forall k, (Z.to_nat r <= k)%nat -> nth_error cc' k = nth_error cc k) /\
        forall k, 0 <= k < r -> exists y, rd cc' k = Ok y /\ forall c2, nth_error c2 (Z.to_nat k) = nth_error cc (Z.to_nat k) -> f (upd h b (Some c2)) k = Ok y).
      { assert (G : forall m, (m <= Z.to_nat r)%nat -> exists ys, Forall2 cell (firstn m l') ys /\ forall k, (k < m)%nat -> exists y, nth_error ys k = Some y /\ forall c2, nth_error c2 k = nth_error cc k -> f (upd h b (Some c2)) (Z.of_nat k) = Ok y).
        { induction m as [|m IH]; intros Hm; [exists []; split; [constructor|intros; lia]|]. destruct (IH ltac:(lia)) as (ys & Fy & Hy).
          destruct (Hf (Z.of_nat m) ltac:(lia)) as (y & (u & Eu & Cu) & Fu). apply rd_nth_error in Eu; [|lia]. rewrite Nat2Z.id in Eu, Fu. exists (ys ++ [y]).
          assert (Ly : length ys = m). { rewrite <- (f2_len _ _ Fy), firstn_length. lia. }
          assert (Ef : firstn (S m) l' = firstn m l' ++ [u]).
          { clear -Eu. revert m Eu. induction l' as [|z t IHt]; intros [|m] Eu; cbn in *; try discriminate; [congruence|]. f_equal. apply IHt. exact Eu. }
          split.
          - rewrite Ef. apply Forall2_app; [exact Fy|]. constructor; [exact Cu|constructor].
          - intros k Hk. destruct (Nat.eq_dec k m) as [->|].
            + exists y. split; [rewrite nth_error_app2 by lia; rewrite Ly, Nat.sub_diag; reflexivity|exact Fu].
            + destruct (Hy k ltac:(lia)) as (z & Ez & Fz). exists z. split; [rewrite nth_error_app1 by lia; exact Ez|exact Fz]. }
        destruct (G (Z.to_nat r) ltac:(lia)) as (ys & Fy & Hy). assert (Ly : length ys = Z.to_nat r). { rewrite <- (f2_len _ _ Fy), firstn_length. lia. }
        exists (ys ++ skipn (Z.to_nat r) cc). split; [|split].
        - rewrite <- (firstn_skipn (Z.to_nat r) l'). apply Forall2_app; [exact Fy|].
          assert (Es : skipn (Z.to_nat r) l' = skipn (Z.to_nat r) (seg A a c)).
          { apply nth_error_ext'. intros k. assert (N : forall (l0 : list (option A)) m, nth_error (skipn m l0) k = nth_error l0 (m + k)) by (clear; induction l0 as [|z t IHt]; intros [|m]; cbn; try reflexivity; [destruct k; reflexivity|apply IHt]). rewrite !N. apply Ht. lia. }
          rewrite Es. clear -F. revert F. generalize (Z.to_nat r) as m. generalize (seg A a c) as l0. intros l0 m F. revert m. induction F as [|u x l0 cc Hu F IHF]; intros [|m]; cbn; try constructor; auto.
        - intros k Hk. rewrite nth_error_app2 by lia. rewrite Ly. clear -Hk. revert k Hk. generalize (Z.to_nat r) as m. induction cc as [|z t IHt]; intros [|m] k Hk; cbn; try reflexivity.
          + destruct (k - 0)%nat, k; reflexivity.
          + destruct (k - S m)%nat, k; try lia; reflexivity.
          + replace (k - 0)%nat with k by lia. reflexivity.
          + destruct k as [|k]; [lia|]. cbn. apply IHt. lia.
        - intros k Hk. destruct (Hy (Z.to_nat k) ltac:(lia)) as (y & Ey & Fu). exists y. split.
          + apply rd_nth_error; [lia|]. rewrite nth_error_app1 by lia. exact Ey.
          + intros c2 Hc2. specialize (Fu c2 Hc2). rewrite Z2Nat.id in Fu by lia. exact Fu. }
      destruct X as (cc' & F' & Ht' & Hf'). pose proof (f2_len _ _ F') as Lc'. exists (upd h b (Some cc')). split.
      + apply (seg_loop f h b cc cc' r Eh); [lia|unfold zlen; lia|exact Ht'|]. intros k Hk. destruct (Hf' k Hk) as (y & Ey & Fu). exists y. split; [exact Ey|]. apply Fu.
        rewrite nth_mix by (unfold zlen in *; lia). destruct (Nat.ltb_spec (Z.to_nat k) (Z.to_nat k)); [lia|reflexivity].
      + apply (set_R h vs a c n l' b cc' H V L Ep F').
  Qed.
  (** copying from another cell *)
  Lemma f2_nth l c k y : Forall2 cell l c -> nth_error c k = Some y -> exists u, nth_error l k = Some u /\ cell u y.
  Proof. intros F. revert k. induction F as [|u x l c Hu F IHF]; intros [|k] Ey; cbn in *; try discriminate; [injection Ey as <-; eauto|]. apply IHF. exact Ey. Qed.
  Lemma other_block h vs a c c' n n' b : R h vs a -> valid a c n -> valid a c' n' -> c <> c' -> ptr vs (fst c) (snd c) = Some b -> ptr vs (fst c') (snd c') <> Some b.
  Proof.
    intros H V V' N P P'. destruct (r_inj h vs a H (fst c) (fst c') (snd c) (snd c') b (valid_owner _ _ _ V) (valid_owner _ _ _ V') P P') as [E1 E2]. apply N. destruct c, c'; cbn in *; congruence.
  Qed.
  Lemma load_upd (h : heap) b x p k : p <> Some b -> load A (upd h b x) p k = load A h p k.
  Proof. intros N. destruct p as [b'|]; [|reflexivity]. unfold load. rewrite upd_nth. destruct (Nat.eqb_spec b' b) as [->|]; [contradiction|reflexivity]. Qed.
  Lemma load_valid h vs a c n k : R h vs a -> valid a c n -> 0 <= k < Z.of_nat n -> exists y u, load A h (ptr vs (fst c) (snd c)) k = Ok y /\ rd (seg A a c) k = Ok u /\ cell u y.
  Proof.
    intros H V Hk. destruct (valid_block h vs a c n H V ltac:(lia)) as (b & cc & P & E & F & L).
    destruct (nth_error cc (Z.to_nat k)) as [y|] eqn:Ey; [|apply nth_error_None in Ey; lia]. destruct (f2_nth _ _ _ _ F Ey) as (u & Eu & Cu). exists y, u.
    rewrite P. unfold load. rewrite E. split; [apply rd_nth_error; [lia|exact Ey]|]. split; [apply rd_nth_error; [lia|exact Eu]|exact Cu].
  Qed.
  Lemma copy_cell h vs a c c' n : R h vs a -> valid a c n -> valid a c' n -> c <> c' ->
    exists h', foldM (fun h k => let* x := load A h (ptr vs (fst c') (snd c')) k in store A h (ptr vs (fst c) (snd c)) k x) (upto 0 (Z.of_nat n)) h = Ok h' /\ R h' vs (set_seg A a c (seg A a c')).
  Proof.
    intros H V V' N. destruct (valid_slot h vs a c' n H V') as [L' _]. destruct (valid_slot h vs a c n H V) as [L _].
    apply (seg_R h vs a c n (seg A a c') (fun h k => load A h (ptr vs (fst c') (snd c')) k) (Z.of_nat n) H V L'); [lia| |].
    - intros k Hk. rewrite (proj2 (nth_error_None _ _)) by lia. symmetry. apply nth_error_None. lia.
    - intros b cc P E F k Hk. destruct (load_valid h vs a c' n k H V' Hk) as (y & u & Ey & Eu & Cu). exists y. split; [exists u; auto|].
      intros cc' _. rewrite load_upd; [exact Ey|]. apply (other_block h vs a c c' n n b H V V' N P).
  Qed.
  (** changing a cell element by element *)
  Lemma map_cell h vs a c n (g : option A -> option A) (f : A -> A) : R h vs a -> valid a c n -> (forall u y, cell u y -> cell (g u) (f y)) ->
    exists h', foldM (fun h k => let* x := (let* y := load A h (ptr vs (fst c) (snd c)) k in Ok (f y)) in store A h (ptr vs (fst c) (snd c)) k x) (upto 0 (Z.of_nat n)) h = Ok h' /\ R h' vs (set_seg A a c (map g (seg A a c))).
  Proof.
    intros H V G. destruct (valid_slot h vs a c n H V) as [L _].
    apply (seg_R h vs a c n (map g (seg A a c)) (fun h k => let* y := load A h (ptr vs (fst c) (snd c)) k in Ok (f y)) (Z.of_nat n) H V); [rewrite map_length; exact L|lia| |].
    - intros k Hk. rewrite (proj2 (nth_error_None _ _)) by (rewrite map_length; lia). symmetry. apply nth_error_None. lia.
    - intros b cc P E F k Hk. pose proof (f2_len _ _ F) as Lc. destruct (nth_error cc (Z.to_nat k)) as [y|] eqn:Ey; [|apply nth_error_None in Ey; lia].
      destruct (f2_nth _ _ _ _ F Ey) as (u & Eu & Cu). exists (f y). split.
      + exists (g u). split; [apply rd_nth_error; [lia|]; rewrite nth_error_map, Eu; reflexivity|apply G; exact Cu].
      + intros cc' Ec. rewrite P. unfold load. rewrite upd_nth, Nat.eqb_refl, E. rewrite (proj1 (rd_nth_error cc' k y ltac:(lia)) Ec). reflexivity.
  Qed.
  Lemma fill_cell h vs a c n x : R h vs a -> valid a c n ->
    exists h', foldM (fun h k => let* x := Ok x in store A h (ptr vs (fst c) (snd c)) k x) (upto 0 (Z.of_nat n)) h = Ok h' /\ R h' vs (set_seg A a c (map (fun _ => Some x) (seg A a c))).
  Proof.
    intros H V. destruct (valid_slot h vs a c n H V) as [L _].
    apply (seg_R h vs a c n _ (fun _ _ => Ok x) (Z.of_nat n) H V); [rewrite map_length; exact L|lia| |].
    - intros k Hk. rewrite (proj2 (nth_error_None _ _)) by (rewrite map_length; lia). symmetry. apply nth_error_None. lia.
    - intros b cc P E F k Hk. exists x. split; [|reflexivity]. exists (Some x). split; [|reflexivity]. apply rd_nth_error; [lia|]. rewrite nth_error_map.
      destruct (nth_error (seg A a c) (Z.to_nat k)) eqn:Q; [reflexivity|]. apply nth_error_None in Q. lia.
  Qed.

  (** ** loops over the cells of a vector *)
  Lemma write_snoc a cs ls c l : length cs = length ls -> write A a (cs ++ [c]) (ls ++ [l]) = set_seg A (write A a cs ls) c l.
  Proof.
    intros L. unfold write. assert (E : combine (cs ++ [c]) (ls ++ [l]) = combine cs ls ++ [(c, l)]).
    { revert ls L; induction cs as [|x cs IH]; intros [|y ls] L; cbn in *; try discriminate; [reflexivity|]. f_equal. apply IH. lia. }
    rewrite E, fold_left_app. reflexivity.
  Qed.
  Lemma write_props a cs ls n : (forall c, In c cs -> valid a c n) -> length ls = length cs ->
    (forall c n', valid a c n' -> valid (write A a cs ls) c n') /\ (forall c, ~ In c cs -> seg A (write A a cs ls) c = seg A a c) /\ (forall i, cells A (write A a cs ls) i = cells A a i) /\
    (forall i, alive A (write A a cs ls) i = None <-> alive A a i = None) /\ length (write A a cs ls) = length a.
  Proof.
    revert a ls; induction cs as [|c cs IH]; intros a [|l ls] V L; try discriminate; [cbn; repeat split; auto|]. cbn [write combine fold_left fst snd].
    pose proof (V c (or_introl eq_refl)) as Vc. destruct (IH (set_seg A a c l) ls) as (I1 & I2 & I3 & I4 & I5).
    - intros c' Hc'. apply (valid_set_seg a c l n); [exact Vc|]. apply V. right; exact Hc'.
    - cbn in L. lia.
    - unfold write in *. split; [|split; [|split; [|split]]].
      + intros c' n' V'. apply I1. apply (valid_set_seg a c l n); assumption.
      + intros c' N. rewrite I2 by (intros Q; apply N; right; exact Q). rewrite (seg_set_seg a c l n c' Vc). destruct ((fst c' =? fst c)%nat && (snd c' =? snd c)%nat) eqn:Q; [|reflexivity].
        exfalso. apply N. left. apply andb_true_iff in Q. destruct Q as [Q1 Q2]. apply Nat.eqb_eq in Q1, Q2. destruct c, c'; cbn in *; congruence.
      + intros i. rewrite I3. apply (cells_set_seg a c l n i Vc).
      + intros i. rewrite I4, (alive_set_seg a c l n Vc). destruct (alive A a i) as [[? ? ? [?|]|]|]; try tauto. destruct (i =? fst c)%nat; split; discriminate.
      + rewrite I5. apply length_set_seg.
  Qed.
  Lemma cells_nodup h vs a i cs : R h vs a -> cells A a i = Some cs -> NoDup cs.
  Proof.
    intros H E. unfold cells in E. destruct (alive A a i) as [[lk s n [d|]|lk n l [|]]|] eqn:Ex; try discriminate.
    - injection E as <-. apply FinFun.Injective_map_NoDup; [intros x y Q; congruence|apply seq_NoDup].
    - destruct (masters_spec a l cs E) as [L M]. apply NoDup_nth_error. intros k k' Hk Q. destruct (nth_error cs k) as [c|] eqn:Ec; [|apply nth_error_None in Ec; lia]. symmetry in Q.
      destruct (M k c Ec) as (m & _ & _ & _ & _ & Hl & -> & _). destruct (M k' _ Q) as (m' & _ & _ & _ & _ & Hl' & Em & _). injection Em as <-.
      apply (r_uniq h vs a H i i lk lk n n l l true true k k' m Ex Ex Hl Hl').
  Qed.
  Lemma firstn_snoc {B} (l : list B) k x : nth_error l k = Some x -> firstn (S k) l = firstn k l ++ [x].
  Proof. revert k; induction l as [|y l IH]; intros [|k] E; cbn in *; try discriminate; [congruence|]. f_equal. apply IH. exact E. Qed.
  Lemma in_firstn {B} (l : list B) k x : In x (firstn k l) -> In x l.
  Proof. revert k; induction l as [|y l IH]; intros [|k] E; cbn in *; auto; [contradiction|]. destruct E as [->|E]; [left; reflexivity|right; apply (IH k E)]. Qed.
  Lemma nodup_firstn {B} (l : list B) k x : NoDup l -> nth_error l k = Some x -> ~ In x (firstn k l).
  Proof.
    intros N E Q. apply In_nth_error in Q. destruct Q as [j Q]. assert (Hj : (j < k)%nat). { assert (T : (j < length (firstn k l))%nat) by (apply nth_error_Some; congruence). rewrite firstn_length in T. lia. }
    assert (E2 : nth_error l j = Some x). { rewrite <- (firstn_skipn k l). rewrite nth_error_app1 by (apply nth_error_Some; congruence). exact Q. }
    rewrite NoDup_nth_error in N. rewrite <- E2 in E. apply N in E; [lia|]. assert (T : (k < length l)%nat) by (apply nth_error_Some; congruence). exact T.
  Qed.
  Lemma vec_loop h vs a cs ls n (body : heap -> Z -> outcome heap) : R h vs a -> (forall c, In c cs -> valid a c n) -> length ls = length cs ->
    (forall k c l h', nth_error cs k = Some c -> nth_error ls k = Some l -> let a' := write A a (firstn k cs) (firstn k ls) in R h' vs a' ->
      (forall c n', valid a c n' -> valid a' c n') -> (forall c, ~ In c (firstn k cs) -> seg A a' c = seg A a c) -> exists h'', body h' (Z.of_nat k) = Ok h'' /\ R h'' vs (set_seg A a' c l)) ->
    exists h', foldM body (upto 0 (Z.of_nat (length cs))) h = Ok h' /\ R h' vs (write A a cs ls).
  Proof.
    intros H V L Hb. destruct (foldM_upto body (fun k h' => R h' vs (write A a (firstn (Z.to_nat k) cs) (firstn (Z.to_nat k) ls))) 0 (Z.of_nat (length cs)) h) as (h' & E & H').
    - lia.
    - exact H.
    - intros k h' Hk Hr. destruct (nth_error cs (Z.to_nat k)) as [c|] eqn:Ec; [|apply nth_error_None in Ec; lia]. destruct (nth_error ls (Z.to_nat k)) as [l|] eqn:El; [|apply nth_error_None in El; lia].
      destruct (write_props a (firstn (Z.to_nat k) cs) (firstn (Z.to_nat k) ls) n) as (P1 & P2 & _).
      { intros c' Hc'. apply V. apply in_firstn in Hc'. exact Hc'. } { rewrite !firstn_length. lia. }
      destruct (Hb (Z.to_nat k) c l h' Ec El Hr P1 P2) as (h'' & E2 & H2). rewrite Z2Nat.id in E2 by lia. exists h''. split; [exact E2|].
      replace (Z.to_nat (k + 1)) with (S (Z.to_nat k)) by lia. rewrite (firstn_snoc cs _ c Ec), (firstn_snoc ls _ l El), write_snoc by (rewrite !firstn_length; lia). exact H2.
    - exists h'. split; [exact E|]. rewrite Nat2Z.id in H'. rewrite firstn_all in H'. rewrite (firstn_all2 ls) in H' by lia. exact H'.
  Qed.
  Lemma disjoint_spec c1 c2 : disjoint c1 c2 = true -> forall c, In c c1 -> ~ In c c2.
  Proof.
    unfold disjoint. intros D c H1 H2. rewrite forallb_forall in D. specialize (D c H1). rewrite forallb_forall in D. specialize (D c H2). rewrite !Nat.eqb_refl in D. discriminate.
  Qed.
  Lemma copy_all_R h vs a i j ci cj v w : R h vs a -> cells A a i = Some ci -> cells A a j = Some cj -> (forall c, In c ci -> ~ In c cj) -> alivev vs i = Some v -> alivev vs j = Some w ->
    v_str v = v_str w -> v_len v = v_len w -> exists h', copy_all A h v (v_p w) = Ok h' /\ R h' vs (write A a ci (map (seg A a) cj)).
  Proof.
    intros H Ei Ej Dj Ev Ew Es El. destruct (cells_spec h vs a i ci H Ei) as (x & v' & Ax & Av & Sh & Lc & Cc). rewrite Ev in Av. injection Av as <-.
    destruct (cells_spec h vs a j cj H Ej) as (y & w' & Ay & Aw & Shw & Lcw & Ccw). rewrite Ew in Aw. injection Aw as <-.
    destruct Sh as (_ & S2 & S3 & _). destruct Shw as (_ & T2 & T3 & _). unfold copy_all. rewrite S2, <- Lc.
    assert (Eln : stride_len A x = stride_len A y) by lia.
    apply (vec_loop h vs a ci (map (seg A a) cj) (stride_len A x)); [exact H| |rewrite map_length; lia|].
    - intros c Hc. apply In_nth_error in Hc. destruct Hc as [k Hk]. apply (Cc k c Hk).
    - intros k c l h' Hk Hl a' H' P1 P2. rewrite nth_error_map in Hl. destruct (nth_error cj k) as [c'|] eqn:Hk'; [|discriminate]. injection Hl as <-.
      destruct (Cc k c Hk) as [Vc Pc]. destruct (Ccw k c' Hk') as [Vc' Pc']. rewrite <- Eln in Vc'.
      assert (N : c <> c'). { intros ->. apply (Dj c'); [eapply nth_error_In; exact Hk|eapply nth_error_In; exact Hk']. }
      assert (Es' : seg A a' c' = seg A a c'). { apply P2. intros Q. apply (Dj c'); [eapply in_firstn; exact Q|eapply nth_error_In; exact Hk']. }
      destruct (copy_cell h' vs a' c c' (stride_len A x) H' (P1 _ _ Vc) (P1 _ _ Vc') N) as (h'' & E & H''). rewrite Es' in H''. exists h''. split; [|exact H''].
      rewrite S3. rewrite <- E. apply foldM_ext. intros z h0 _. rewrite (proj1 (rd_nth_error (v_p w) (Z.of_nat k) _ ltac:(lia))) by (rewrite Nat2Z.id; exact Pc'). cbn [bind].
      destruct (load A h0 (ptr vs (fst c') (snd c')) z); cbn [bind]; try reflexivity. rewrite (proj1 (rd_nth_error (v_p v) (Z.of_nat k) _ ltac:(lia))) by (rewrite Nat2Z.id; exact Pc). reflexivity.
  Qed.
End P.
