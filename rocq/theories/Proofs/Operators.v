(** Proofs about sums, products and lists of operators. *)
From Coq Require Import Ascii String List NArith ZArith Lia Bool.
From Verif Require Import Base Arrays Algebra Model.Operators Spec.Operators.
Import ListNotations.
Open Scope Z_scope.

Section P.
  Variable R : cring.
  Variable M : cmodule R.
  Variable junk : nat -> M.
  Notation acts := (acts R M).
  Notation oper := (oper R M).
  Notation implements := (implements R M).

  Lemma default_ad_ok c f : (forall n d s, exists n', c n d s = Ok (f s, n')) -> forall n d s, exists n', default_ad R M junk c n d s = Ok (madd d (f s), n').
  Proof. intros H n d s. unfold default_ad. destruct (H (S n) (junk n) s) as [n' ->]. exists n'. reflexivity. Qed.
  Lemma default_ip_ok c f : (forall n d s, exists n', c n d s = Ok (f s, n')) -> forall n p, exists n', default_ip R M c n p = Ok (f p, n').
  Proof. intros H n p. unfold default_ip. apply H. Qed.

  Lemma inherited_ok c f : (forall n d s, exists n', c n d s = Ok (f s, n')) -> implements (mkActs R M c (default_ip R M c) (default_ad R M junk c)) f.
  Proof. intros H. split; [exact H|]. split; [apply default_ip_ok; exact H|apply default_ad_ok; exact H]. Qed.

  Lemma get_nth {A} (l : list A) d i : 0 <= i < zlen l -> get l i = Ok (nth (Z.to_nat i) l d).
  Proof. intros H. unfold get. destruct (Z.leb_spec (zlen l) i); [lia|]. apply rd_nth. exact H. Qed.

  Definition nop : acts := mkActs R M (fun _ _ _ => UB) (fun _ _ => UB) (fun _ _ _ => UB).

  (** accumulating the remaining parts *)
  Lemma sum_tail (l : list acts) (fs : list (M -> M)) src : Forall2 implements l fs -> forall k n acc, 0 <= k <= zlen l ->
    exists n', foldM (fun r i => let* o := get l i in ad R M o (snd r) (fst r) src) (upto k (zlen l)) (acc, n) =
      Ok (madd acc (msum R M (map (fun f => f src) (skipn (Z.to_nat k) fs))), n').
  Proof.
    intros F k. remember (Z.to_nat (zlen l - k)) as m eqn:Em. revert k Em. induction m as [|m IH]; intros k Em n acc Hk.
    - rewrite upto_nil by lia. cbn [foldM]. exists n. assert (LE : length l = length fs) by (clear - F; induction F; cbn; congruence). rewrite (skipn_all2 fs) by (unfold zlen in *; lia).
      cbn [map msum]. rewrite madd_comm, madd_0. reflexivity.
    - rewrite upto_cons by lia. cbn [foldM]. rewrite (get_nth l nop) by lia. cbn [bind fst snd].
      assert (LE : length l = length fs) by (clear - F; induction F; cbn; congruence).
      destruct (nth_error fs (Z.to_nat k)) as [f|] eqn:Ef; [|apply nth_error_None in Ef; unfold zlen in *; lia].
      assert (I : implements (nth (Z.to_nat k) l nop) f).
      { clear - F Ef. revert Ef. generalize (Z.to_nat k). induction F as [|x y xs ys H F IH]; intros [|j] E; cbn in *; try discriminate; [injection E as <-; exact H|apply IH; exact E]. }
      destruct I as (_ & _ & I). destruct (I n acc src) as [n1 ->]. cbn [bind]. destruct (IH (k + 1) ltac:(lia) n1 (madd acc (f src)) ltac:(lia)) as [n2 ->]. exists n2.
      replace (Z.to_nat (k + 1)) with (S (Z.to_nat k)) by lia.
      assert (SK : skipn (Z.to_nat k) fs = f :: skipn (S (Z.to_nat k)) fs).
      { clear - Ef. revert Ef. generalize (Z.to_nat k). induction fs as [|x xs IHx]; intros [|j] E; cbn in *; try discriminate; [injection E as ->; reflexivity|apply IHx; exact E]. }
      rewrite SK. cbn [map msum]. rewrite madd_assoc. reflexivity.
  Qed.
  Lemma sum_ok l fs : l <> [] -> Forall2 implements l fs -> implements (sum_acts R M junk l) (fun x => msum R M (map (fun f => f x) fs)).
  Proof.
    intros N F. assert (C : forall n d s, exists n', sum_cp R M l n d s = Ok (msum R M (map (fun f => f s) fs), n')).
    { intros n d s. unfold sum_cp. destruct F as [|o f l' fs' Ho F']; [congruence|]. rewrite (get_nth _ nop) by (unfold zlen; cbn [length]; lia). cbn [bind Z.to_nat nth].
      destruct Ho as (Hc & Hi & Ha) eqn:EH. destruct (Hc n d s) as [n1 ->]. cbn [bind].
      destruct (sum_tail (o :: l') (f :: fs') s ltac:(constructor; [exact (conj Hc (conj Hi Ha))|exact F']) 1 n1 (f s) ltac:(unfold zlen; cbn [length]; lia)) as [n2 ->]. exists n2. reflexivity. }
    split; [exact C|]. split; [|apply default_ad_ok; exact C].
    intros n p. cbn [ip sum_acts]. unfold sum_ip. destruct F as [|o f l' fs' Ho F']; [congruence|]. rewrite (get_nth _ nop) by (unfold zlen; cbn [length]; lia). cbn [bind Z.to_nat nth].
    destruct Ho as (Hc & Hi & Ha). destruct (Hi (S n) p) as [n1 ->]. cbn [bind].
    destruct (sum_tail (o :: l') (f :: fs') p ltac:(constructor; [exact (conj Hc (conj Hi Ha))|exact F']) 1 n1 (f p) ltac:(unfold zlen; cbn [length]; lia)) as [n2 ->]. exists n2. reflexivity.
  Qed.

  (** the factors left of position k *)
  Lemma prod_tail (l : list acts) (fs : list (M -> M)) : Forall2 implements l fs -> forall k n x, (k <= length l)%nat ->
    exists n', foldM (fun r i => let* o := get l i in ip R M o (snd r) (fst r)) (downto (Z.of_nat k - 1) 0) (x, n) =
      Ok (fold_right (fun f y => f y) x (firstn k fs), n').
  Proof.
    intros F. assert (LE : length l = length fs) by (clear - F; induction F; cbn; congruence). induction k as [|k IH]; intros n x Hk.
    - unfold downto. rewrite upto_nil by lia. exists n. reflexivity.
    - unfold downto. replace (Z.of_nat (S k) - 1 + 1) with (Z.of_nat k + 1) by lia. rewrite upto_snoc by lia. rewrite rev_app_distr. cbn [rev app foldM].
      rewrite (get_nth l nop) by (unfold zlen; lia). rewrite Nat2Z.id. cbn [bind fst snd].
      destruct (nth_error fs k) as [f|] eqn:Ef; [|apply nth_error_None in Ef; lia].
      assert (I : implements (nth k l nop) f).
      { clear - F Ef. revert k Ef. induction F as [|a b xs ys H F IH]; intros [|j] E; cbn in *; try discriminate; [injection E as <-; exact H|apply IH; exact E]. }
      destruct I as (_ & I & _). destruct (I n x) as [n1 ->]. cbn [bind]. destruct (IH n1 (f x) ltac:(lia)) as [n2 E2]. unfold downto in E2. replace (Z.of_nat k - 1 + 1) with (Z.of_nat k) in E2 by lia. rewrite E2. exists n2.
      assert (FK : firstn (S k) fs = firstn k fs ++ [f]).
      { clear - Ef. revert k Ef. induction fs as [|a xs IHx]; intros [|j] E; cbn in *; try discriminate; [injection E as ->; reflexivity|rewrite <- (IHx j E); reflexivity]. }
      rewrite FK, fold_right_app. reflexivity.
  Qed.
  Lemma prod_ip_ok l fs : Forall2 implements l fs -> forall n p, exists n', prod_ip R M l n p = Ok (fold_right (fun f y => f y) p fs, n').
  Proof.
    intros F n p. unfold prod_ip, zlen. destruct (prod_tail l fs F (length l) n p (le_n _)) as [n' ->]. exists n'.
    assert (LE : length l = length fs) by (clear - F; induction F; cbn; congruence). rewrite LE, firstn_all. reflexivity.
  Qed.
  Lemma prod_ok l fs : l <> [] -> Forall2 implements l fs -> implements (prod_acts R M junk l) (fun x => fold_right (fun f y => f y) x fs).
  Proof.
    intros N F. assert (LE : length l = length fs) by (clear - F; induction F; cbn; congruence).
    assert (C : forall n d s, exists n', prod_cp R M l n d s = Ok (fold_right (fun f y => f y) s fs, n')).
    { intros n d s. unfold prod_cp. assert (L0 : (0 < length l)%nat) by (destruct l; [congruence|cbn; lia]).
      rewrite (get_nth l nop) by (unfold zlen; lia). cbn [bind]. replace (Z.to_nat (zlen l - 1)) with (length l - 1)%nat by (unfold zlen; lia).
      destruct (nth_error fs (length l - 1)) as [f|] eqn:Ef; [|apply nth_error_None in Ef; lia].
      assert (I : implements (nth (length l - 1) l nop) f).
      { clear - F Ef. revert Ef. generalize (length l - 1)%nat as k. induction F as [|a b xs ys H F IH]; intros [|j] E; cbn in *; try discriminate; [injection E as <-; exact H|apply IH; exact E]. }
      destruct I as (I & _). destruct (I n d s) as [n1 ->]. cbn [bind]. destruct (prod_tail l fs F (length l - 1) n1 (f s) ltac:(lia)) as [n2 E2].
      replace (Z.of_nat (length l - 1) - 1) with (zlen l - 2) in E2 by (unfold zlen; lia). rewrite E2. exists n2.
      assert (FK : fs = firstn (length l - 1) fs ++ [f]).
      { assert (K : forall k (xs : list (M -> M)) g, nth_error xs k = Some g -> firstn (S k) xs = firstn k xs ++ [g]).
        { clear. intros k xs g. revert k. induction xs as [|a xs IHx]; intros [|j] E; cbn in *; try discriminate; [injection E as ->; reflexivity|rewrite <- (IHx j E); reflexivity]. }
        rewrite <- (K _ _ _ Ef). replace (S (length l - 1)) with (length fs) by lia. rewrite firstn_all. reflexivity. }
      rewrite FK at 2. rewrite fold_right_app. reflexivity. }
    split; [exact C|]. split; [|apply default_ad_ok; exact C]. apply prod_ip_ok. exact F.
  Qed.

  (** nested operators *)
  Lemma oper_ind2 (P : oper -> Prop) : (forall f a, P (Leaf R M f a)) -> (forall l, Forall P l -> P (Sum R M l)) -> (forall l, Forall P l -> P (Prod R M l)) -> forall o, P o.
  Proof.
    intros HL HS HP. fix IH 1. intros [f a|l|l]; [apply HL|apply HS|apply HP]; induction l as [|x l IHl]; constructor; auto.
  Qed.
  Lemma implements_ext a f g : (forall x, f x = g x) -> implements a f -> implements a g.
  Proof.
    intros E (A & B & C). split; [|split]; intros.
    - destruct (A n d s) as [n' ->]. exists n'. rewrite E. reflexivity.
    - destruct (B n p) as [n' ->]. exists n'. rewrite E. reflexivity.
    - destruct (C n d s) as [n' ->]. exists n'. rewrite E. reflexivity.
  Qed.
  Lemma map_sound (l : list oper) : Forall (fun o => sound R M o -> implements (act R M junk o) (den R M o)) l -> Forall (sound R M) l ->
    Forall2 implements (map (act R M junk) l) (map (den R M) l).
  Proof. induction 1 as [|x t Hx Ht IH]; intros H; inversion H; subst; constructor; auto. Qed.
  Lemma act_ok o : sound R M o -> implements (act R M junk o) (den R M o).
  Proof.
    revert o. refine (oper_ind2 _ _ _ _).
    - intros f a H. inversion H; subst. assumption.
    - intros l IH H. inversion H as [|? N F|]; subst. cbn [act]. eapply implements_ext; [|apply (sum_ok _ _ (fun E => N (map_eq_nil _ _ E)) (map_sound l IH F))].
      intros x. cbn [den]. rewrite map_map. reflexivity.
    - intros l IH H. inversion H as [| |? N F]; subst. cbn [act]. eapply implements_ext; [|apply (prod_ok _ _ (fun E => N (map_eq_nil _ _ E)) (map_sound l IH F))].
      intros x. cbn [den]. clear. induction l as [|y l IHl]; [reflexivity|]. cbn [map fold_right]. rewrite IHl. reflexivity.
  Qed.

  (** empty containers *)
  Lemma sum_empty n d s p : sum_cp R M [] n d s = Throw /\ sum_ip R M [] n p = Throw.
  Proof. split; reflexivity. Qed.
  Lemma prod_empty n d s p : prod_cp R M [] n d s = UB /\ prod_ip R M [] n p = Ok (p, n).
  Proof. split; reflexivity. Qed.
End P.

(** * Lists *)
Section L.
  Variable O : Type.
  Notation olist := (olist O).

  Record wf (l : olist) : Prop := mkWf {
    w_len : zlen (o_tab O l) = max_ops;
    w_size : 0 <= o_size O l <= max_ops;
    w_full : forall i, 0 <= i < o_size O l -> exists o, rd (o_tab O l) i = Ok (Some o);
    w_names : forall n i, mget scmp (o_names O l) n = Some i -> 0 <= i < o_size O l }.

  Lemma wf_new : wf (o_new O).
  Proof.
    split; [reflexivity|cbn; unfold max_ops; lia|cbn; intros; lia|]. intros n i H. discriminate.
  Qed.
  Lemma wr_full (t : list (option O)) i o t' : wr t i (Some o) = Ok t' -> zlen t' = zlen t /\ (forall j : Z, rd t' j = if j =? i then Ok (Some o) else rd t j) /\ 0 <= i < zlen t.
  Proof.
    intros E. destruct (wr_inv t i (@Some O o) t' E) as [B ->]. split; [apply zlen_upd|]. split; [intros j; apply rd_upd; exact B|exact B].
  Qed.
  Lemma wf_step l c l' : wf l -> llegal O c -> lstep O l c = Ok l' -> wf l'.
  Proof.
    intros [W1 W2 W3 W4] Lg E.
    assert (ADD : forall o l', o_add O l o = Ok l' -> wf l' /\ o_size O l' = o_size O l + 1 /\ o_names O l' = o_names O l).
    { intros o l2 E2. unfold o_add in E2. destruct (Z.leb_spec max_ops (o_size O l)) as [L|L]; [discriminate|]. destruct o as [o|]; [|discriminate].
      destruct (wr (o_tab O l) (o_size O l) (Some o)) as [t| |] eqn:Ew; cbn [bind] in E2; try discriminate. injection E2 as <-. destruct (wr_full _ _ _ _ Ew) as (H1 & H2 & H3).
      split; [|split; reflexivity]. split; cbn; [lia|lia| |].
      - intros i Hi. rewrite H2. destruct (Z.eqb_spec i (o_size O l)); [eauto|]. apply W3. lia.
      - intros n i Hn. specialize (W4 n i Hn). lia. }
    assert (SET : forall i o t, 0 <= i < o_size O l -> wr (o_tab O l) i (Some o) = Ok t -> wf (mkOL O (o_size O l) t (o_names O l))).
    { intros i o t Hi Ew. destruct (wr_full _ _ _ _ Ew) as (H1 & H2 & H3). split; cbn; [lia|lia| |exact W4]. intros j Hj. rewrite H2. destruct (j =? i); [eauto|apply W3; exact Hj]. }
    destruct c as [o|n o|i o|n o]; cbn [lstep llegal] in *.
    - apply (ADD o l' E).
    - unfold o_add_named in E. destruct (mget scmp (o_names O l) n) eqn:En; [discriminate|]. destruct (o_add O l o) as [l1| |] eqn:E1; cbn [bind] in E; try discriminate. injection E as <-.
      destruct (ADD o l1 E1) as ([V1 V2 V3 V4] & S1 & N1). split; cbn; [exact V1|exact V2|exact V3|]. intros m i Hm. rewrite (mget_mset _ scmp_eq) in Hm. destruct (scmp m n); [injection Hm as <-; lia|exact (V4 m i Hm)|exact (V4 m i Hm)].
    - unfold o_set in E. destruct (Z.leb_spec (o_size O l) i) as [L|L]; [discriminate|]. destruct (wr (o_tab O l) i (Some o)) as [t| |] eqn:Ew; cbn [bind] in E; try discriminate. injection E as <-. apply (SET i o t); [lia|exact Ew].
    - unfold o_set_named, o_index in E. destruct (mget scmp (o_names O l) n) as [i|] eqn:En; cbn [bind] in E; [|discriminate]. destruct (wr (o_tab O l) i (Some o)) as [t| |] eqn:Ew; cbn [bind] in E; try discriminate. injection E as <-.
      apply (SET i o t); [exact (W4 n i En)|exact Ew].
  Qed.
  Lemma made_wf l : made O l -> wf l.
  Proof. induction 1 as [|l c l' H IH Lg E]; [exact wf_new|exact (wf_step l c l' IH Lg E)]. Qed.

  (** look-ups never leave the table *)
  Lemma get_safe l i : wf l -> 0 <= i -> (o_size O l <= i /\ o_get O l i = Throw) \/ (i < o_size O l /\ exists o, o_get O l i = Ok (Some o)).
  Proof.
    intros W Hi. unfold o_get. destruct (Z.leb_spec (o_size O l) i) as [L|L]; [left; auto|right]. split; [exact L|]. apply (w_full l W). lia.
  Qed.
  Lemma find_safe l n : wf l -> (o_exists O l n = false /\ o_find O l n = Throw) \/ (o_exists O l n = true /\ exists i o, 0 <= i < o_size O l /\ o_find O l n = Ok (Some o) /\ o_get O l i = Ok (Some o)).
  Proof.
    intros W. unfold o_exists, o_find, o_index. destruct (mget scmp (o_names O l) n) as [i|] eqn:En; cbn [bind]; [right|left; auto]. split; [reflexivity|].
    pose proof (w_names l W n i En) as Hi. destruct (w_full l W i Hi) as [o Eo]. exists i, o. split; [exact Hi|]. split; [exact Eo|]. unfold o_get. destruct (Z.leb_spec (o_size O l) i); [lia|exact Eo].
  Qed.

  Lemma add_one l o : wf l -> o_size O l < max_ops -> exists t, wr (o_tab O l) (o_size O l) (Some o) = Ok t /\ o_add O l (Some o) = Ok (mkOL O (o_size O l + 1) t (o_names O l)) /\
    (forall j : Z, rd t j = if j =? o_size O l then Ok (Some o) else rd (o_tab O l) j).
  Proof.
    intros [W1 W2 W3 W4] L. unfold o_add. rewrite (proj2 (Z.leb_gt _ _)) by exact L.
    destruct (wr (o_tab O l) (o_size O l) (Some o)) as [t| |] eqn:E.
    - exists t. split; [reflexivity|]. split; [reflexivity|]. apply (wr_full _ _ _ _ E).
    - exfalso. assert (B : 0 <= o_size O l < zlen (o_tab O l)) by lia. rewrite (wr_ok _ _ (Some o) B) in E. discriminate.
    - exfalso. assert (B : 0 <= o_size O l < zlen (o_tab O l)) by lia. rewrite (wr_ok _ _ (Some o) B) in E. discriminate.
  Qed.
  Lemma add_spec l : wf l ->
    o_add O l None = Throw /\
    (forall n o, o_exists O l n = true -> o_add_named O l n o = Throw) /\
    (forall o, o_size O l = 128 -> o_add O l o = Throw) /\
    (forall o, o_size O l < 128 -> exists l', o_add O l (Some o) = Ok l' /\ o_size O l' = o_size O l + 1 /\ o_get O l' (o_size O l) = Ok (Some o) /\
       (forall i, 0 <= i < o_size O l -> o_get O l' i = o_get O l i) /\ (forall n, o_exists O l' n = o_exists O l n /\ o_find O l' n = o_find O l n)) /\
    (forall n o, o_size O l < 128 -> o_exists O l n = false -> exists l', o_add_named O l n (Some o) = Ok l' /\ o_size O l' = o_size O l + 1 /\ o_get O l' (o_size O l) = Ok (Some o) /\
       (forall i, 0 <= i < o_size O l -> o_get O l' i = o_get O l i) /\ o_find O l' n = Ok (Some o) /\ (forall m, m <> n -> o_find O l' m = o_find O l m)).
  Proof.
    intros W. change 128 with max_ops. pose proof W as [W1 W2 W3 W4]. split; [unfold o_add; destruct (_ <=? _); reflexivity|]. split.
    { intros n o E. unfold o_exists in E. unfold o_add_named. destruct (mget scmp (o_names O l) n); [reflexivity|discriminate]. }
    split. { intros o E. unfold o_add. rewrite (proj2 (Z.leb_le _ _)) by lia. reflexivity. }
    assert (G : forall t nm, (forall j : Z, rd t j = if j =? o_size O l then Ok (Some nm) else rd (o_tab O l) j) -> forall ns,
      o_get O (mkOL O (o_size O l + 1) t ns) (o_size O l) = Ok (Some nm) /\ forall i, 0 <= i < o_size O l -> o_get O (mkOL O (o_size O l + 1) t ns) i = o_get O l i).
    { intros t o R ns. unfold o_get. cbn [o_size o_tab]. split.
      - rewrite (proj2 (Z.leb_gt _ _)) by lia. rewrite R, Z.eqb_refl. reflexivity.
      - intros i Hi. rewrite !(proj2 (Z.leb_gt _ _)) by lia. rewrite R, (proj2 (Z.eqb_neq _ _)) by lia. reflexivity. }
    assert (F : forall t o, (forall j : Z, rd t j = if j =? o_size O l then Ok (Some o) else rd (o_tab O l) j) -> forall n i, mget scmp (o_names O l) n = Some i -> rd t i = rd (o_tab O l) i).
    { intros t o R n i E. rewrite R. pose proof (W4 n i E). rewrite (proj2 (Z.eqb_neq _ _)) by lia. reflexivity. }
    split.
    - intros o L. destruct (add_one l o W L) as (t & _ & -> & R). eexists. split; [reflexivity|]. destruct (G t o R (o_names O l)) as [G1 G2]. split; [reflexivity|]. split; [exact G1|]. split; [exact G2|].
      intros n. split; [reflexivity|]. unfold o_find, o_index. cbn [o_names o_tab]. destruct (mget scmp (o_names O l) n) as [i|] eqn:E; [|reflexivity]. cbn [bind]. apply (F t o R n i E).
    - intros n o L N. destruct (add_one l o W L) as (t & _ & A & R). unfold o_add_named. unfold o_exists in N. destruct (mget scmp (o_names O l) n) eqn:E; [discriminate|]. rewrite A. cbn [bind o_size o_tab o_names].
      eexists. split; [reflexivity|]. destruct (G t o R (mset scmp (o_names O l) n (o_size O l + 1 - 1))) as [G1 G2]. split; [reflexivity|]. split; [exact G1|]. split; [exact G2|].
      unfold o_find, o_index. cbn [o_names o_tab]. split.
      + rewrite (mget_mset scmp scmp_eq). rewrite (proj2 (scmp_eq n n) eq_refl). cbn [bind]. rewrite R. rewrite (proj2 (Z.eqb_eq _ _)) by lia. reflexivity.
      + intros m Hm. rewrite (mget_mset scmp scmp_eq). destruct (scmp m n) eqn:Q; [apply scmp_eq in Q; contradiction| |]; destruct (mget scmp (o_names O l) m) as [i|] eqn:Em; try reflexivity; cbn [bind]; apply (F t o R m i Em).
  Qed.

  Variable dup : O -> O.
  Lemma copy_ok this r : wf this -> wf r -> exists l, o_copy O dup this r = Ok l /\ o_size O l = o_size O r /\ o_names O l = o_names O this /\ zlen (o_tab O l) = max_ops /\
    forall i, rd (o_tab O l) i = if (0 <=? i) && (i <? o_size O r) then match rd (o_tab O r) i with Ok (Some o) => Ok (Some (dup o)) | x => x end else rd (o_tab O this) i.
  Proof.
    intros [T1 T2 T3 T4] [W1 W2 W3 W4]. unfold o_copy.
    destruct (foldM_upto (fun t i => let* o := o_get O r i in match o with Some o => wr t i (Some (dup o)) | None => UB end)
      (fun k t => zlen t = max_ops /\ forall i, rd t i = if (0 <=? i) && (i <? k) then match rd (o_tab O r) i with Ok (Some o) => Ok (Some (dup o)) | x => x end else rd (o_tab O this) i)
      0 (o_size O r) (o_tab O this)) as (t & Et & Lt & Rt).
    - lia.
    - split; [exact T1|]. intros i. destruct (Z.leb_spec 0 i); cbn [andb]; [|reflexivity]. destruct (Z.ltb_spec i 0); [lia|reflexivity].
    - intros k t Hk (Lt & Rt). unfold o_get. destruct (Z.leb_spec (o_size O r) k); [lia|]. destruct (W3 k Hk) as [o Eo]. rewrite Eo. cbn [bind].
      exists (upd t (Z.to_nat k) (Some (dup o))). split; [apply wr_ok; lia|]. split; [rewrite zlen_upd; exact Lt|]. intros i. rewrite rd_upd by lia. destruct (Z.eqb_spec i k) as [->|N].
      + replace ((0 <=? k) && (k <? k + 1)) with true by (symmetry; apply andb_true_iff; split; [apply Z.leb_le|apply Z.ltb_lt]; lia). rewrite Eo. reflexivity.
      + rewrite Rt. replace (i <? k + 1) with (i <? k); [reflexivity|]. destruct (Z.ltb_spec i k), (Z.ltb_spec i (k + 1)); lia || reflexivity.
    - rewrite Et. cbn [bind]. eexists. split; [reflexivity|]. split; [reflexivity|]. split; [reflexivity|]. split; [exact Lt|exact Rt].
  Qed.
  Lemma copy_position this r l i : wf this -> wf r -> o_copy O dup this r = Ok l -> 0 <= i ->
    o_size O l = o_size O r /\
    o_get O l i = match o_get O r i with Ok (Some o) => Ok (Some (dup o)) | x => x end.
  Proof.
    intros T W E Hi. destruct (copy_ok this r T W) as (l2 & E2 & S2 & N2 & L2 & R2). assert (l2 = l) by congruence. subst l2. split; [exact S2|]. unfold o_get. rewrite S2.
    destruct (Z.leb_spec (o_size O r) i) as [L|L]; [reflexivity|]. rewrite R2. replace ((0 <=? i) && (i <? o_size O r)) with true by (symmetry; apply andb_true_iff; split; [apply Z.leb_le|apply Z.ltb_lt]; lia). reflexivity.
  Qed.
  Lemma copy_names this r l : wf this -> wf r -> o_copy O dup this r = Ok l -> forall n, o_exists O l n = o_exists O this n.
  Proof. intros T W E n. destruct (copy_ok this r T W) as (l2 & E2 & S2 & N2 & _). assert (l2 = l) by congruence. subst l2. unfold o_exists. rewrite N2. reflexivity. Qed.
End L.
