(** Proofs about the operator registry. *)
From Coq Require Import Ascii String List NArith ZArith Lia Bool Arith Sorted.
From Verif Require Import Base Arrays Model.Registry Spec.Registry.
Import ListNotations.
Open Scope Z_scope.

(** * Ordered maps *)
Lemma acmp_sym a b : acmp b a = CompOpp (acmp a b).
Proof. unfold acmp. apply N.compare_antisym. Qed.
Lemma scmp_sym a b : scmp b a = CompOpp (scmp a b).
Proof. revert b. induction a as [|x s IH]; intros [|y t]; cbn; try reflexivity. rewrite (acmp_sym x y). destruct (acmp x y); cbn; [apply IH|reflexivity|reflexivity]. Qed.
Lemma acmp_trans a b c : acmp a b = Lt -> acmp b c = Lt -> acmp a c = Lt.
Proof. unfold acmp. rewrite !N.compare_lt_iff. lia. Qed.
Lemma scmp_trans a b c : scmp a b = Lt -> scmp b c = Lt -> scmp a c = Lt.
Proof.
  revert b c. induction a as [|x s IH]; intros [|y t] [|z u]; cbn; try discriminate; try reflexivity.
  destruct (acmp x y) eqn:E1; destruct (acmp y z) eqn:E2; try discriminate; intros H1 H2.
  - apply acmp_eq in E1, E2. subst. rewrite (proj2 (acmp_eq z z) eq_refl). apply (IH t); assumption.
  - apply acmp_eq in E1. subst. rewrite E2. reflexivity.
  - apply acmp_eq in E2. subst. rewrite E1. reflexivity.
  - rewrite (acmp_trans x y z E1 E2). reflexivity.
Qed.
Definition slt (a b : str) : Prop := scmp a b = Lt.
Definition sorted {V} (m : list (str * V)) : Prop := StronglySorted slt (keys m).
Lemma sorted_nodup {V} (m : list (str * V)) : sorted m -> NoDup (keys m).
Proof.
  unfold sorted. induction (keys m) as [|a l IH]; intros H; [constructor|]. inversion H as [|x y S F]; subst. constructor; [|apply IH; exact S].
  intros I. rewrite Forall_forall in F. specialize (F a I). unfold slt in F. rewrite (proj2 (scmp_eq a a) eq_refl) in F. discriminate.
Qed.
Lemma mset_sorted {V} (m : list (str * V)) k v : sorted m -> sorted (mset scmp m k v).
Proof.
  unfold sorted. induction m as [|[a b] t IH]; cbn; intros H; [constructor; [constructor|constructor]|]. inversion H as [|x y S F]; subst. destruct (scmp k a) eqn:E; cbn.
  - exact H.
  - constructor; [exact H|]. constructor; [exact E|]. rewrite Forall_forall in F |- *. intros z Hz. apply (scmp_trans k a z E). apply F. exact Hz.
  - constructor; [apply IH; exact S|]. rewrite Forall_forall in F |- *. intros z Hz. change (In z (keys (mset scmp t k v))) in Hz. apply (keys_mset_in _ scmp_eq) in Hz. destruct Hz as [->|Hz]; [|apply F; exact Hz].
    unfold slt. rewrite scmp_sym, E. reflexivity.
Qed.
Lemma filter_sorted {V} (f : str * V -> bool) m : sorted m -> sorted (filter f m).
Proof.
  unfold sorted. induction m as [|a t IH]; cbn; intros H; [constructor|]. inversion H as [|x y S F]; subst. destruct (f a); cbn; [|apply IH; exact S].
  constructor; [apply IH; exact S|]. rewrite Forall_forall in F |- *. intros z Hz. apply F. unfold keys in *. apply in_map_iff in Hz. destruct Hz as (w & <- & Hw). apply filter_In in Hw. apply in_map. apply Hw.
Qed.
Lemma mget_filter {V} (f : str * V -> bool) m k : NoDup (keys m) -> mget scmp (filter f m) k = match mget scmp m k with Some v => if f (k, v) then Some v else None | None => None end.
Proof.
  intros N. destruct (mget scmp (filter f m) k) as [v|] eqn:E.
  - apply (mget_in _ scmp_eq) in E. apply filter_In in E. destruct E as [I Fv]. rewrite (in_mget _ scmp_eq m k v N I), Fv. reflexivity.
  - destruct (mget scmp m k) as [v|] eqn:E2; [|reflexivity]. destruct (f (k, v)) eqn:Fv; [|reflexivity]. apply (mget_in _ scmp_eq) in E2.
    apply (mget_none _ scmp_eq) in E. destruct E. unfold keys. apply in_map_iff. exists (k, v). split; [reflexivity|]. apply filter_In. split; assumption.
Qed.
Lemma mget_map {V} (g : V -> V) (m : list (str * V)) k : mget scmp (map (fun ke => (fst ke, g (snd ke))) m) k = option_map g (mget scmp m k).
Proof. induction m as [|[a b] t IH]; cbn; [reflexivity|]. destruct (scmp k a); [reflexivity|exact IH|exact IH]. Qed.
Lemma keys_map {V} (g : V -> V) (m : list (str * V)) : keys (map (fun ke => (fst ke, g (snd ke))) m) = keys m.
Proof. unfold keys. rewrite map_map. reflexivity. Qed.
Lemma mget_set_same {V} (m : list (str * V)) k v : mget scmp (mset scmp m k v) k = Some v.
Proof. rewrite (mget_mset _ scmp_eq), (proj2 (scmp_eq k k) eq_refl). reflexivity. Qed.
Lemma mget_set_other {V} (m : list (str * V)) k v k' : k' <> k -> mget scmp (mset scmp m k v) k' = mget scmp m k'.
Proof. intros N. rewrite (mget_mset _ scmp_eq). destruct (scmp k' k) eqn:E; [apply scmp_eq in E; contradiction|reflexivity|reflexivity]. Qed.

(** * Clearing *)
Definition keep (ke : str * entry) : bool := e_persist (snd ke).
Definition gone (m : list (str * entry)) : list event := map (fun ke => Deleted (e_op (snd ke))) (filter (fun ke => negb (keep ke)) m).
Lemma filter_all {A} (f : A -> bool) l : (forall i x, nth_error l i = Some x -> f x = true) -> filter f l = l.
Proof.
  induction l as [|a l IH]; intros H; [reflexivity|]. cbn. rewrite (H O a eq_refl). f_equal. apply IH. intros i x E. apply (H (S i) x). exact E.
Qed.
Lemma clear_correct fuel : forall pos m l m' l', (forall i ke, (i < pos)%nat -> nth_error m i = Some ke -> keep ke = true) ->
  clear_loop fuel pos m l = Some (m', l') -> m' = filter keep m /\ l' = (l ++ gone m)%list.
Proof.
  induction fuel as [|f IH]; intros pos m l m' l' P E; [discriminate|]. cbn [clear_loop] in E. destruct (nth_error m pos) as [[k e]|] eqn:N.
  - destruct (e_persist e) eqn:Q.
    + apply (IH (S pos) m l); [|exact E]. intros i ke Hi Hn. destruct (Nat.eq_dec i pos) as [->|]; [rewrite N in Hn; injection Hn as <-; exact Q|apply (P i); [lia|exact Hn]].
    + apply IH in E; [|intros i ke Hi; lia]. destruct E as [-> ->]. apply nth_error_split in N. destruct N as (l1 & l2 & -> & <-).
      assert (F : firstn (length l1) (l1 ++ (k, e) :: l2) = l1) by (rewrite firstn_app, firstn_all, Nat.sub_diag; cbn [firstn]; apply app_nil_r).
      assert (G : skipn (S (length l1)) (l1 ++ (k, e) :: l2) = l2) by (rewrite skipn_app, skipn_all2 by lia; replace (S (length l1) - length l1)%nat with 1%nat by lia; reflexivity).
      rewrite F, G. assert (A : filter keep l1 = l1 /\ filter (fun ke => negb (keep ke)) l1 = []).
      { assert (Ha : forall x, In x l1 -> keep x = true).
        { intros x Hx. apply In_nth_error in Hx. destruct Hx as [i Hx]. assert (i < length l1)%nat by (apply nth_error_Some; congruence).
          apply (P i); [lia|]. rewrite nth_error_app1 by lia. exact Hx. }
        clear - Ha. induction l1 as [|x t IHt]; [split; reflexivity|]. cbn. rewrite (Ha x (or_introl eq_refl)). cbn. destruct IHt as [I1 I2]; [intros y Hy; apply Ha; right; exact Hy|]. rewrite I1, I2. split; reflexivity. }
      destruct A as [A1 A2]. assert (K : keep (k, e) = false) by exact Q. unfold gone. rewrite !filter_app. cbn [filter]. rewrite K. cbn [negb]. rewrite A2. cbn [app map snd]. split; [reflexivity|]. rewrite <- app_assoc. reflexivity.
  - injection E as <- <-. assert (H : forall i ke, nth_error m i = Some ke -> keep ke = true).
    { intros i ke Hn. apply (P i); [|exact Hn]. apply nth_error_None in N. assert (i < length m)%nat by (apply nth_error_Some; congruence). lia. }
    rewrite (filter_all keep m H). split; [reflexivity|]. unfold gone. replace (filter (fun ke => negb (keep ke)) m) with (@nil (str * entry)); [cbn; rewrite app_nil_r; reflexivity|].
    symmetry. clear - H. induction m as [|x t IH]; [reflexivity|]. cbn. rewrite (H O x eq_refl). cbn. apply IH. intros i ke Hn. apply (H (S i)). exact Hn.
Qed.

Definition doomed (m : list (str * entry)) : nat := length (filter (fun ke => negb (keep ke)) m).
Lemma clear_ends fuel : forall pos m l, (doomed m * (length m + 2) + (length m - pos) < fuel)%nat -> exists r, clear_loop fuel pos m l = Some r.
Proof.
  induction fuel as [|f IH]; intros pos m l Hf; [lia|]. cbn [clear_loop]. destruct (nth_error m pos) as [[k e]|] eqn:N; [|eexists; reflexivity].
  assert (Hp : (pos < length m)%nat) by (apply nth_error_Some; congruence). destruct (e_persist e) eqn:Q; [apply IH; lia|]. apply IH. apply nth_error_split in N. destruct N as (l1 & l2 & -> & <-).
  assert (F : firstn (length l1) (l1 ++ (k, e) :: l2) = l1) by (rewrite firstn_app, firstn_all, Nat.sub_diag; cbn [firstn]; apply app_nil_r).
  assert (G : skipn (S (length l1)) (l1 ++ (k, e) :: l2) = l2) by (rewrite skipn_app, skipn_all2 by lia; replace (S (length l1) - length l1)%nat with 1%nat by lia; reflexivity).
  rewrite F, G. unfold doomed in *. rewrite !filter_app, !app_length in *. cbn [filter] in *. assert (K : keep (k, e) = false) by exact Q. rewrite K in Hf. cbn [negb] in Hf. cbn [length] in *. nia.
Qed.
Lemma clear_total s : exists f s', r_clear f s = Some s'.
Proof.
  exists (S (doomed (r_store s) * (length (r_store s) + 2) + (length (r_store s) - 0)))%nat. unfold r_clear.
  destruct (clear_ends (S (doomed (r_store s) * (length (r_store s) + 2) + (length (r_store s) - 0))) O (r_store s) (r_log s)) as [[m l] ->]; [lia|]. eexists. reflexivity.
Qed.
Lemma clear_spec f s s' : r_clear f s = Some s' -> r_store s' = filter keep (r_store s) /\ r_log s' = (r_log s ++ gone (r_store s))%list /\ r_anon s' = r_anon s.
Proof.
  unfold r_clear. destruct (clear_loop f 0 (r_store s) (r_log s)) as [[m l]|] eqn:E; [|discriminate]. intros Q. injection Q as <-. apply clear_correct in E; [|intros; lia]. cbn. destruct E. auto.
Qed.

(** * Labels *)
Definition labelled (label : str) (m : list (str * entry)) : list nat := map (fun ke => e_op (snd ke)) (filter (fun ke => str_eqb (e_label (snd ke)) label) m).
Lemma labels_ok label m : forall arr n max, 0 <= n < max -> max <= zlen arr ->
  exists a, labels_loop label m arr n max = Ok (a, n + zlen (firstn (Z.to_nat (max - n)) (labelled label m))) /\ zlen a = zlen arr /\
    forall i, rd a i = if (n <=? i) && (i <? n + zlen (firstn (Z.to_nat (max - n)) (labelled label m))) then rd (firstn (Z.to_nat (max - n)) (labelled label m)) (i - n) else rd arr i.
Proof.
  induction m as [|[k e] t IH]; intros arr n max Hn Hm.
  - exists arr. cbn [labels_loop labelled filter map]. rewrite firstn_nil. change (zlen (@nil nat)) with 0. rewrite Z.add_0_r. split; [reflexivity|]. split; [reflexivity|].
    intros i. destruct (Z.leb_spec n i), (Z.ltb_spec i n); cbn [andb]; try reflexivity. lia.
  - cbn [labels_loop]. unfold labelled. cbn [filter snd]. destruct (str_eqb (e_label e) label); fold (labelled label t).
    + rewrite wr_ok by lia. cbn [bind fst snd map]. fold (labelled label t). replace (Z.to_nat (max - n)) with (S (Z.to_nat (max - (n + 1)))) by lia. cbn [firstn].
      set (w := firstn (Z.to_nat (max - (n + 1))) (labelled label t)). assert (Zw : zlen (e_op e :: w) = zlen w + 1) by (unfold zlen; cbn [length]; lia). rewrite Zw.
      assert (R1 : forall i, n < i -> rd (e_op e :: w) (i - n) = rd w (i - (n + 1))).
      { intros i Hi. replace (i - (n + 1)) with (i - n - 1) by lia. unfold rd. destruct (Z.leb_spec 0 (i - n)), (Z.leb_spec 0 (i - n - 1)); try lia. replace (Z.to_nat (i - n)) with (S (Z.to_nat (i - n - 1))) by lia. reflexivity. }
      destruct (Z.eqb_spec (n + 1) max) as [E|E].
      * exists (upd arr (Z.to_nat n) (e_op e)). assert (w = []) as W by (unfold w; replace (Z.to_nat (max - (n + 1))) with O by lia; reflexivity). rewrite W. split; [reflexivity|]. split; [apply zlen_upd|].
        intros i. rewrite rd_upd by lia. change (zlen (@nil nat)) with 0. destruct (Z.eqb_spec i n) as [->|].
        -- rewrite Z.leb_refl. destruct (Z.ltb_spec n (n + (0 + 1))); [|lia]. cbn [andb]. rewrite Z.sub_diag. reflexivity.
        -- destruct (Z.leb_spec n i), (Z.ltb_spec i (n + (0 + 1))); cbn [andb]; try reflexivity. lia.
      * destruct (IH (upd arr (Z.to_nat n) (e_op e)) (n + 1) max) as (a & Ea & La & Ra); [lia|rewrite zlen_upd; lia|]. fold w in Ea, Ra. exists a. rewrite Ea. split; [do 2 f_equal; lia|]. split; [rewrite La; apply zlen_upd|].
        intros i. rewrite Ra, rd_upd by lia. assert (0 <= zlen w) by (unfold zlen; lia). destruct (Z.eqb_spec i n) as [->|].
        -- destruct (Z.leb_spec (n + 1) n); [lia|]. cbn [andb]. rewrite Z.leb_refl. destruct (Z.ltb_spec n (n + (zlen w + 1))); [|lia]. cbn [andb]. rewrite Z.sub_diag. reflexivity.
        -- destruct (Z.leb_spec (n + 1) i), (Z.leb_spec n i), (Z.ltb_spec i (n + 1 + zlen w)), (Z.ltb_spec i (n + (zlen w + 1))); cbn [andb]; try lia; try reflexivity. symmetry. apply R1. lia.
    + cbn [bind fst snd]. destruct (Z.eqb_spec n max); [lia|]. apply IH; assumption.
Qed.
Lemma labels_zero label s arr : r_get_labels s label arr 0 = match r_store s with (_, e) :: _ => if str_eqb (e_label e) label then let* a := wr arr 0 (e_op e) in labels_loop label (tl (r_store s)) a 1 0 else Ok (arr, 0) | [] => Ok (arr, 0) end.
Proof.
  unfold r_get_labels. destruct (r_store s) as [|[k e] t]; [reflexivity|]. cbn [labels_loop tl]. destruct (str_eqb (e_label e) label); [|reflexivity]. destruct (wr arr 0 (e_op e)); reflexivity.
Qed.

(** * Generated keys *)
Lemma last_hash a b d1 d2 : (a ++ "#"%char :: d1 = b ++ "#"%char :: d2)%list -> Forall (fun c => is_digit c = true) d1 -> Forall (fun c => is_digit c = true) d2 -> d1 = d2.
Proof.
  revert b. induction a as [|x a IH]; intros [|y b] E F1 F2; cbn in E.
  - injection E as E. exact E.
  - injection E as <- E. rewrite E in F1. apply Forall_app in F1. destruct F1 as [_ F1]. inversion F1; subst. discriminate.
  - injection E as -> E. rewrite <- E in F2. apply Forall_app in F2. destruct F2 as [_ F2]. inversion F2; subst. discriminate.
  - injection E as -> E. apply (IH b); assumption.
Qed.
Lemma dec_print_inj a b : dec_print a = dec_print b -> a = b.
Proof. intros E. rewrite <- (proj1 (dec_print_spec a)), <- (proj1 (dec_print_spec b)), E. reflexivity. Qed.
Section Reg.
  Variable name : nat -> str.
  Lemma anon_inj o1 o2 k1 k2 : 0 <= k1 -> 0 <= k2 -> anon_key name o1 k1 = anon_key name o2 k2 -> k1 = k2.
  Proof.
    intros H1 H2 E. unfold anon_key in E. apply app_inv_head in E. unfold dec_print_Z in E. destruct (Z.ltb_spec k1 0), (Z.ltb_spec k2 0); try lia. apply last_hash in E; [|apply dec_print_spec|apply dec_print_spec].
    apply dec_print_inj in E. lia.
  Qed.

  (** * Initialisation *)
  Definition ie (op psi : nat) (ke : str * entry) := init_entry op psi (snd ke).
  Lemma init_loop_eq op psi m : init_loop op psi m = (map (fun ke => (fst ke, fst (fst (ie op psi ke)))) m, flat_map (fun ke => snd (fst (ie op psi ke))) m, existsb (fun ke => snd (ie op psi ke)) m).
  Proof.
    unfold init_loop. assert (G : forall a b c, fold_left (fun acc ke => let '(m', l, f) := acc in let '(e, l', f') := init_entry op psi (snd ke) in ((m' ++ [(fst ke, e)])%list, (l ++ l')%list, f || f')) m (a, b, c)
      = ((a ++ map (fun ke => (fst ke, fst (fst (ie op psi ke)))) m)%list, (b ++ flat_map (fun ke => snd (fst (ie op psi ke))) m)%list, c || existsb (fun ke => snd (ie op psi ke)) m)).
    { induction m as [|ke t IH]; intros a b c; cbn [fold_left map flat_map existsb]; [rewrite !app_nil_r, orb_false_r; reflexivity|]. unfold ie at 1 3 5. destruct (init_entry op psi (snd ke)) as [[e l] f]. cbn [fst snd]. rewrite IH.
      rewrite <- !app_assoc, orb_assoc. reflexivity. }
    rewrite G. reflexivity.
  Qed.
  Lemma ie_other op psi m : (forall ke, In ke m -> e_op (snd ke) <> op) -> flat_map (fun ke => snd (fst (ie op psi ke))) m = [] /\ existsb (fun ke => snd (ie op psi ke)) m = false.
  Proof.
    induction m as [|ke t IH]; intros H; [split; reflexivity|]. cbn. unfold ie at 1 3. unfold init_entry. rewrite (proj2 (Nat.eqb_neq _ _)) by (apply H; left; reflexivity). cbn. apply IH. intros k Hk. apply H. right. exact Hk.
  Qed.
  Definition set_init (op : nat) (e : entry) : entry := if Nat.eqb (e_op e) op then mkEntry (e_op e) true (e_persist e) (e_label e) else e.
  Lemma ie_fst op psi ke : fst (fst (ie op psi ke)) = set_init op (snd ke).
  Proof. unfold ie, init_entry, set_init. destruct ke as [k [o i p l]]. cbn. destruct (Nat.eqb o op), i; reflexivity. Qed.

  Definition unique (m : list (str * entry)) : Prop := forall k1 k2 e1 e2, mget scmp m k1 = Some e1 -> mget scmp m k2 = Some e2 -> e_op e1 = e_op e2 -> k1 = k2.
  Lemma ie_one op psi m key e : NoDup (keys m) -> unique m -> mget scmp m key = Some e -> e_op e = op ->
    flat_map (fun ke => snd (fst (ie op psi ke))) m = (if e_init e then [] else [Inited op psi]) /\ existsb (fun ke => snd (ie op psi ke)) m = true.
  Proof.
    intros N U E Eo. pose proof (mget_in _ scmp_eq m key E) as I. apply in_split in I. destruct I as (l1 & l2 & ->).
    assert (O : forall ke, In ke l1 \/ In ke l2 -> e_op (snd ke) <> op).
    { intros [k e'] Hk Q. cbn in Q. assert (Hin : In (k, e') (l1 ++ (key, e) :: l2)) by (apply in_app_iff; destruct Hk; [left; assumption|right; right; assumption]).
      assert (k = key) by (apply (U k key e' e); [apply (in_mget _ scmp_eq); assumption|exact E|congruence]). subst k. unfold keys in N. rewrite map_app in N. cbn in N. apply NoDup_remove_2 in N. apply N. rewrite <- map_app. apply in_map_iff. exists (key, e'). split; [reflexivity|]. apply in_app_iff. exact Hk. }
    destruct (ie_other op psi l1) as [A1 B1]; [intros; apply O; left; assumption|]. destruct (ie_other op psi l2) as [A2 B2]; [intros; apply O; right; assumption|].
    rewrite flat_map_app, existsb_app. cbn [flat_map existsb]. rewrite A1, A2, B1, B2. unfold ie, init_entry. cbn [snd]. rewrite Eo, Nat.eqb_refl. destruct (e_init e); split; reflexivity.
  Qed.

  (** * Counting initialisations *)
  Lemma inits_app op n l1 l2 : inits op n (l1 ++ l2) = inits op (inits op n l1) l2.
  Proof. revert n. induction l1 as [|[o psi|o] t IH]; intros n; cbn; [reflexivity|apply IH|apply IH]. Qed.
  Lemma inits_gone op n ops : inits op n (map Deleted ops) = if existsb (Nat.eqb op) ops then 0 else n.
  Proof.
    revert n. induction ops as [|o t IH]; intros n; cbn; [reflexivity|]. rewrite IH. rewrite (Nat.eqb_sym op o). destruct (Nat.eqb o op); cbn; [destruct (existsb (Nat.eqb op) t); reflexivity|reflexivity].
  Qed.

  Definition tinv (s : reg) : Prop :=
    sorted (r_store s) /\ 0 <= r_anon s /\
    (forall t e, mget scmp (r_store s) (prefix ++ t) = Some e -> exists o k, prefix ++ t = anon_key name o k /\ 0 <= k < r_anon s)%list /\
    unique (r_store s) /\
    (forall key e, mget scmp (r_store s) key = Some e -> inits (e_op e) 0 (r_log s) = if e_init e then 1 else 0) /\
    (forall op, ~ registered s op -> inits op 0 (r_log s) = 0).
  Lemma anon_free s op : tinv s -> mget scmp (r_store s) (anon_key name op (r_anon s)) = None.
  Proof.
    intros (_ & A & P & _). destruct (mget scmp (r_store s) (anon_key name op (r_anon s))) as [e|] eqn:E; [|reflexivity]. destruct (P _ _ E) as (o & k & Q & Hk). change (anon_key name op (r_anon s) = anon_key name o k) in Q. apply anon_inj in Q; lia.
  Qed.
  Lemma registered_dec s op : NoDup (keys (r_store s)) -> registered s op \/ ~ registered s op.
  Proof.
    intros N. destruct (existsb (fun ke => Nat.eqb (e_op (snd ke)) op) (r_store s)) eqn:E.
    - left. apply existsb_exists in E. destruct E as ([k e] & I & Q). apply Nat.eqb_eq in Q. exists k, e. split; [apply (in_mget _ scmp_eq); assumption|exact Q].
    - right. intros (k & e & G & Q). apply (mget_in _ scmp_eq) in G. assert (X : existsb (fun ke => Nat.eqb (e_op (snd ke)) op) (r_store s) = true) by (apply existsb_exists; exists (k, e); split; [exact G|apply Nat.eqb_eq; exact Q]). congruence.
  Qed.
  (** adding an operator that is not registered under a key that is free *)
  Lemma set_inv s key op p n : tinv s -> ~ registered s op -> mget scmp (r_store s) key = None -> r_anon s <= n -> (forall t, key = prefix ++ t -> exists o k, key = anon_key name o k /\ 0 <= k < n)%list ->
    tinv (mkReg (mset scmp (r_store s) key (mkEntry op false p [])) n (r_log s)).
  Proof.
    intros (S & A & P & U & L1 & L2) Nr Nk Hn Hk. split; [apply mset_sorted; exact S|]. cbn [r_anon r_store r_log]. split; [lia|]. split; [|split; [|split]].
    - intros t e. rewrite (mget_mset _ scmp_eq). destruct (scmp (prefix ++ t) key) eqn:E; [apply scmp_eq in E; intros _; rewrite E; apply (Hk t); symmetry; exact E| |]; intros Q; destruct (P t e Q) as (o & k & Q1 & Q2); exists o, k; (split; [exact Q1|lia]).
    - assert (X : forall k e, mget scmp (r_store s) k = Some e -> e_op e <> op) by (intros k e G Q; apply Nr; exists k, e; split; assumption).
      intros k1 k2 e1 e2 G1 G2 Q. rewrite (mget_mset _ scmp_eq) in G1, G2. destruct (scmp k1 key) eqn:E1, (scmp k2 key) eqn:E2; try (apply scmp_eq in E1); try (apply scmp_eq in E2); subst; try reflexivity;
        try (injection G1 as <-; cbn in Q; exfalso; apply (X _ _ G2); congruence); try (injection G2 as <-; cbn in Q; exfalso; apply (X _ _ G1); congruence); apply (U k1 k2 e1 e2); assumption.
    - intros k e G. rewrite (mget_mset _ scmp_eq) in G. destruct (scmp k key) eqn:E; [injection G as <-; cbn; apply L2; exact Nr|apply (L1 k); exact G|apply (L1 k); exact G].
    - intros o No. apply L2. intros (k & e & G & Q). apply No. exists k, e. split; [|exact Q]. cbn [r_store]. rewrite mget_set_other; [exact G|]. intros ->. congruence.
  Qed.
  (** marking an entry as initialised, or labelling it *)
  Lemma mark_inv s key e i l lg : tinv s -> mget scmp (r_store s) key = Some e -> (i = e_init e \/ (e_init e = false /\ i = true)) ->
    (forall op, inits op 0 lg = inits op 0 (r_log s) + if Nat.eqb op (e_op e) then (if i then 1 else 0) - (if e_init e then 1 else 0) else 0) ->
    tinv (mkReg (mset scmp (r_store s) key (mkEntry (e_op e) i (e_persist e) l)) (r_anon s) lg).
  Proof.
    intros (S & A & P & U & L1 & L2) G Hi Hl. split; [apply mset_sorted; exact S|]. cbn [r_anon r_store r_log]. split; [lia|].
    assert (X : forall k e', mget scmp (mset scmp (r_store s) key (mkEntry (e_op e) i (e_persist e) l)) k = Some e' -> exists e0, mget scmp (r_store s) k = Some e0 /\ e_op e0 = e_op e').
    { intros k e' Q. rewrite (mget_mset _ scmp_eq) in Q. destruct (scmp k key) eqn:E; [apply scmp_eq in E; subst; injection Q as <-; exists e; split; [exact G|reflexivity]|exists e'; split; [exact Q|reflexivity]|exists e'; split; [exact Q|reflexivity]]. }
    split; [|split; [|split]].
    - intros t e' Q. destruct (X _ _ Q) as (e0 & Q0 & _). apply (P t e0 Q0).
    - intros k1 k2 e1 e2 G1 G2 Q. destruct (X _ _ G1) as (a1 & B1 & C1). destruct (X _ _ G2) as (a2 & B2 & C2). apply (U k1 k2 a1 a2); [exact B1|exact B2|congruence].
    - intros k e' Q. rewrite Hl. rewrite (mget_mset _ scmp_eq) in Q. destruct (scmp k key) eqn:E; [apply scmp_eq in E; subst; injection Q as <-; cbn [e_op e_init]; rewrite (L1 key e G), Nat.eqb_refl; lia| |];
        (rewrite (L1 k e' Q); destruct (Nat.eqb_spec (e_op e') (e_op e)) as [Eo|]; [|lia]; assert (k = key) by (apply (U k key e' e); assumption); subst; rewrite (proj2 (scmp_eq key key) eq_refl) in E; discriminate).
    - intros op No. rewrite Hl. assert (Nr : ~ registered s op).
      { intros (k & e' & Q & Qo). apply No. destruct (scmp k key) eqn:E.
        - apply scmp_eq in E; subst k. exists key. eexists. split; [apply mget_set_same|]. cbn. congruence.
        - exists k, e'. cbn [r_store]. rewrite (mget_mset _ scmp_eq), E. split; assumption.
        - exists k, e'. cbn [r_store]. rewrite (mget_mset _ scmp_eq), E. split; assumption. }
      rewrite (L2 op Nr). destruct (Nat.eqb_spec op (e_op e)) as [->|]; [|lia]. exfalso. apply Nr. exists key, e. split; [exact G|reflexivity].
  Qed.
  Lemma tidy_inv s : tidy name s -> tinv s.
  Proof.
    induction 1 as [|s c s' H IH T St].
    - split; [constructor|]. split; [cbn; lia|]. split; [discriminate|]. split; [discriminate|]. split; [discriminate|]. reflexivity.
    - destruct St as [s key op p k s' E|s key l s' E|s op psi s' E|s key psi s' E|s f s' E].
      + destruct T as [T1 T2]. unfold r_add in E. destruct (mget scmp (r_store s) key) eqn:G; [discriminate|]. destruct (Nat.eqb op 0) eqn:O; [discriminate|]. destruct (no_key key) eqn:Nk.
        * rewrite (anon_free s op IH) in E. injection E as <- <-. cbn [blank e_init e_label]. apply set_inv; [exact IH|exact T2|apply anon_free; exact IH|lia|]. intros t _. exists op, (r_anon s). split; [reflexivity|]. destruct IH as (_ & A & _). lia.
        * rewrite G in E. injection E as <- <-. cbn [blank e_init e_label]. apply set_inv; [exact IH|exact T2|exact G|lia|]. intros t Q. destruct (T1 t Q).
      + unfold r_label in E. destruct (mget scmp (r_store s) key) as [e|] eqn:G; [|discriminate]. injection E as <-. apply mark_inv; [exact IH|exact G|left; reflexivity|]. intros op. destruct (Nat.eqb op (e_op e)); lia.
      + unfold r_init_op in E. rewrite init_loop_eq in E. pose proof IH as (S & A & P & U & L1 & L2). pose proof (sorted_nodup _ S) as N.
        assert (M : map (fun ke => (fst ke, fst (fst (ie op psi ke)))) (r_store s) = map (fun ke => (fst ke, set_init op (snd ke))) (r_store s)) by (apply map_ext; intros ke; rewrite ie_fst; reflexivity). rewrite M in E. clear M.
        destruct (registered_dec s op N) as [(key & e & G & Eo)|Nr].
        * destruct (ie_one op psi (r_store s) key e N U G Eo) as [Fl Fe]. rewrite Fl, Fe in E. injection E as <-.
          assert (X : forall k e', mget scmp (map (fun ke => (fst ke, set_init op (snd ke))) (r_store s)) k = Some e' -> exists e0, mget scmp (r_store s) k = Some e0 /\ e' = set_init op e0).
          { intros k e' Q. rewrite mget_map in Q. destruct (mget scmp (r_store s) k) as [e0|]; [|discriminate]. injection Q as <-. exists e0. split; reflexivity. }
          assert (Y : forall e0, e_op (set_init op e0) = e_op e0) by (intros e0; unfold set_init; destruct (Nat.eqb (e_op e0) op); reflexivity).
          split; [unfold sorted; cbn [r_store]; rewrite keys_map; exact S|]. cbn [r_anon r_store r_log]. split; [exact A|]. split; [|split; [|split]].
          -- intros t e' Q. destruct (X _ _ Q) as (e0 & Q0 & _). apply (P t e0 Q0).
          -- intros k1 k2 e1 e2 G1 G2 Q. destruct (X _ _ G1) as (a1 & B1 & ->). destruct (X _ _ G2) as (a2 & B2 & ->). rewrite !Y in Q. apply (U k1 k2 a1 a2); assumption.
          -- intros k e' Q. destruct (X _ _ Q) as (e0 & Q0 & ->). rewrite Y, inits_app, (L1 k e0 Q0). unfold set_init. destruct (Nat.eqb_spec (e_op e0) op) as [Q1|Q1].
             ++ assert (k = key) by (apply (U k key e0 e); [exact Q0|exact G|congruence]). subst k. assert (e0 = e) by congruence. subst e0. cbn [e_init]. destruct (e_init e); cbn; [reflexivity|]. rewrite Q1, Nat.eqb_refl. reflexivity.
             ++ destruct (e_init e); cbn; [reflexivity|]. rewrite (proj2 (Nat.eqb_neq op (e_op e0))) by congruence. reflexivity.
          -- intros o No. assert (Nr : ~ registered s o).
             { intros (k & e' & Q & Qo). apply No. exists k, (set_init op e'). cbn [r_store]. rewrite mget_map, Q. split; [reflexivity|rewrite Y; exact Qo]. }
             rewrite inits_app, (L2 o Nr). destruct (e_init e); cbn; [reflexivity|]. destruct (Nat.eqb_spec op o) as [->|]; [|reflexivity]. exfalso. apply Nr. exists key, e. split; [exact G|exact Eo].
        * assert (O : forall ke, In ke (r_store s) -> e_op (snd ke) <> op) by (intros [k e] I Q; apply Nr; exists k, e; split; [apply (in_mget _ scmp_eq); assumption|exact Q]).
          destruct (ie_other op psi (r_store s) O) as [Fl Fe]. rewrite Fl, Fe in E.
          assert (M : map (fun ke => (fst ke, set_init op (snd ke))) (r_store s) = r_store s).
          { rewrite <- (map_id (r_store s)) at 2. apply map_ext_in. intros [k e] I. cbn. unfold set_init. rewrite (proj2 (Nat.eqb_neq _ _)) by (apply (O (k, e) I)). reflexivity. }
          rewrite M, app_nil_r in E. replace (mkReg (r_store s) (r_anon s) (r_log s)) with s in E by (destruct s; reflexivity). unfold r_add in E. destruct (mget scmp (r_store s) []) eqn:G0; [discriminate|]. destruct (Nat.eqb op 0) eqn:O0; [discriminate|]. cbn [no_key] in E.
          rewrite (anon_free s op IH) in E. cbn [bind blank e_init e_label r_store] in E. rewrite mget_set_same in E. cbn [e_op e_persist e_label r_anon r_log] in E. injection E as <-.
          assert (Ti : tinv (mkReg (mset scmp (r_store s) (anon_key name op (r_anon s)) (mkEntry op false false [])) (r_anon s + 1) (r_log s))).
          { apply set_inv; [exact IH|exact Nr|apply anon_free; exact IH|lia|]. intros t _. exists op, (r_anon s). split; [reflexivity|lia]. }
          pose proof (mark_inv _ (anon_key name op (r_anon s)) (mkEntry op false false []) true [] (r_log s ++ [Inited op psi])%list Ti) as Mk. cbn [r_store r_anon r_log e_op e_init e_persist] in Mk. apply Mk.
          -- apply mget_set_same.
          -- right. split; reflexivity.
          -- intros o. rewrite inits_app. cbn. rewrite (Nat.eqb_sym op o). destruct (Nat.eqb o op); lia.
      + unfold r_init_key in E. destruct (mget scmp (r_store s) key) as [e|] eqn:G; [|discriminate]. destruct (e_init e) eqn:Ei; injection E as <-; [exact IH|]. apply mark_inv; [exact IH|exact G|right; split; [exact Ei|reflexivity]|].
        intros o. rewrite inits_app, Ei. cbn. rewrite (Nat.eqb_sym (e_op e) o). destruct (Nat.eqb o (e_op e)); lia.
      + apply clear_spec in E. destruct E as (Es & El & Ea). pose proof IH as (S & A & P & U & L1 & L2). pose proof (sorted_nodup _ S) as N.
        assert (X : forall k e, mget scmp (r_store s') k = Some e -> mget scmp (r_store s) k = Some e /\ e_persist e = true).
        { intros k e. rewrite Es, mget_filter by exact N. destruct (mget scmp (r_store s) k) as [e0|]; [|discriminate]. unfold keep. cbn [snd]. destruct (e_persist e0) eqn:Q; [|discriminate]. intros H0. injection H0 as <-. split; [reflexivity|exact Q]. }
        assert (D : gone (r_store s) = map Deleted (map (fun ke => e_op (snd ke)) (filter (fun ke => negb (keep ke)) (r_store s)))) by (unfold gone; rewrite map_map; reflexivity).
        set (ops := map (fun ke => e_op (snd ke)) (filter (fun ke => negb (keep ke)) (r_store s))) in *.
        assert (Do : forall o, existsb (Nat.eqb o) ops = true -> exists k e, mget scmp (r_store s) k = Some e /\ e_op e = o /\ e_persist e = false).
        { intros o Q. apply existsb_exists in Q. destruct Q as (o' & I & Q). apply Nat.eqb_eq in Q. subst o'. unfold ops in I. apply in_map_iff in I. destruct I as ([k e] & Q & I). apply filter_In in I. destruct I as [I Kp]. exists k, e. split; [apply (in_mget _ scmp_eq); assumption|]. split; [exact Q|]. unfold keep in Kp. cbn in Kp. destruct (e_persist e); [discriminate|reflexivity]. }
        split; [rewrite Es; apply filter_sorted; exact S|]. rewrite Ea. split; [exact A|]. split; [|split; [|split]].
        * intros t e Q. apply X in Q. apply (P t e). apply Q.
        * intros k1 k2 e1 e2 G1 G2 Q. apply X in G1, G2. apply (U k1 k2 e1 e2); [apply G1|apply G2|exact Q].
        * intros k e Q. apply X in Q. destruct Q as [Q Pe]. rewrite El, D, inits_app, inits_gone. destruct (existsb (Nat.eqb (e_op e)) ops) eqn:Ex; [|apply (L1 k); exact Q].
          apply Do in Ex. destruct Ex as (k' & e' & G & Qo & Pf). assert (k' = k) by (apply (U k' k e' e); assumption). subst k'. congruence.
        * intros o No. rewrite El, D, inits_app, inits_gone. destruct (existsb (Nat.eqb o) ops) eqn:Ex; [reflexivity|]. apply L2. intros (k & e & G & Qo). destruct (e_persist e) eqn:Pe.
          -- apply No. exists k, e. rewrite Es, mget_filter, G by exact N. unfold keep. cbn [snd]. rewrite Pe. split; [reflexivity|exact Qo].
          -- assert (Z : existsb (Nat.eqb o) ops = true); [|congruence]. apply existsb_exists. exists o. split; [|apply Nat.eqb_refl]. unfold ops. apply in_map_iff. exists (k, e). split; [exact Qo|]. apply filter_In. split; [apply (mget_in _ scmp_eq); exact G|]. unfold keep. cbn. rewrite Pe. reflexivity.
  Qed.
  Lemma reached_sorted s : reached name s -> sorted (r_store s).
  Proof.
    induction 1 as [|s c s' H IH St]; [constructor|]. destruct St as [s key op p k s' E|s key l s' E|s op psi s' E|s key psi s' E|s f s' E].
    - unfold r_add in E. destruct (mget scmp (r_store s) key); [discriminate|]. destruct (Nat.eqb op 0); [discriminate|]. injection E as _ <-. apply mset_sorted. exact IH.
    - unfold r_label in E. destruct (mget scmp (r_store s) key); [|discriminate]. injection E as <-. apply mset_sorted. exact IH.
    - unfold r_init_op in E. rewrite init_loop_eq in E.
      assert (S0 : sorted (map (fun ke => (fst ke, fst (fst (ie op psi ke)))) (r_store s))) by (unfold sorted, keys; rewrite map_map; exact IH).
      destruct (existsb _ (r_store s)); [injection E as <-; exact S0|]. unfold r_add in E. cbn [r_store no_key] in E. destruct (mget scmp _ []); [discriminate|]. destruct (Nat.eqb op 0); [discriminate|]. cbn [bind r_store] in E.
      rewrite mget_set_same in E. injection E as <-. apply mset_sorted, mset_sorted. exact S0.
    - unfold r_init_key in E. destruct (mget scmp (r_store s) key) as [e|]; [|discriminate]. destruct (e_init e); injection E as <-; [exact IH|]. apply mset_sorted. exact IH.
    - apply clear_spec in E. destruct E as [-> _]. apply filter_sorted. exact IH.
  Qed.
  Lemma once s op : tidy name s -> 0 <= inits op 0 (r_log s) <= 1.
  Proof.
    intros T. apply tidy_inv in T. destruct T as (S & A & P & U & L1 & L2). destruct (registered_dec s op (sorted_nodup _ S)) as [(k & e & G & <-)|N]; [rewrite (L1 k e G); destruct (e_init e); lia|rewrite (L2 op N); lia].
  Qed.
  Lemma add_fresh s key op p k s' : tidy name s -> r_add name s key op p = Ok (k, s') -> mget scmp (r_store s) k = None.
  Proof.
    intros T E. apply tidy_inv in T. unfold r_add in E. destruct (mget scmp (r_store s) key) eqn:G; [discriminate|]. destruct (Nat.eqb op 0); [discriminate|]. destruct (no_key key); [|injection E as <- _; exact G].
    rewrite (anon_free s op T) in E. injection E as <- _. apply anon_free. exact T.
  Qed.
End Reg.

(** * label test *)
Lemma mget_in {V} (m : list (str * V)) k v : mget scmp m k = Some v -> In (k, v) m.
Proof.
  induction m as [|[k' v'] m IH]; cbn; [discriminate|]. destruct (scmp k k') eqn:E; intros H; [|right; auto|right; auto].
  apply scmp_eq in E. injection H as ->. left. congruence.
Qed.
Lemma check_first op label m : check_loop op label m = true <->
  exists a key e b, m = (a ++ (key, e) :: b)%list /\ e_op e = op /\ e_label e = label /\ forall k' e', In (k', e') a -> e_op e' <> op.
Proof.
  induction m as [|[k e] m IH]; cbn [check_loop].
  - split; [discriminate|]. intros ([|] & ? & ? & ? & E & _); discriminate.
  - destruct (Nat.eqb (e_op e) op) eqn:E; [apply Nat.eqb_eq in E|apply Nat.eqb_neq in E].
    + split.
      * intros L. apply str_eqb_true in L. exists [], k, e, m. repeat (split; [solve [auto]|]). intros ? ? [].
      * intros (a & k1 & e1 & b & Em & Ho & Hl & Hn). destruct a as [|[ka ea] a]; cbn in Em; injection Em; intros; subst.
        -- apply str_eqb_refl.
        -- exfalso. apply (Hn ka ea (or_introl eq_refl)). reflexivity.
    + rewrite IH. split.
      * intros (a & k1 & e1 & b & Em & Ho & Hl & Hn). exists ((k, e) :: a), k1, e1, b. rewrite Em. repeat split; auto.
        intros k' e' [H|H]; [injection H as <- <-; exact E|eauto].
      * intros (a & k1 & e1 & b & Em & Ho & Hl & Hn). destruct a as [|[ka ea] a]; cbn in Em; injection Em; intros; subst; [congruence|].
        exists a, k1, e1, b. repeat split; auto. intros k' e' H'. apply (Hn k' e'). right. exact H'.
Qed.
Lemma check_finds op label m : (exists k e, In (k, e) m /\ e_op e = op) -> exists k e, In (k, e) m /\ e_op e = op /\ check_loop op label m = str_eqb (e_label e) label.
Proof.
  induction m as [|[k e] m IH]; intros (k1 & e1 & H & Ho); [destruct H|]. cbn [check_loop].
  destruct (Nat.eqb (e_op e) op) eqn:E; [apply Nat.eqb_eq in E; exists k, e; cbn; auto|apply Nat.eqb_neq in E].
  destruct H as [H|H]; [injection H as <- <-; contradiction|]. destruct IH as (k2 & e2 & H2 & H3 & H4); [eauto|]. exists k2, e2. cbn. auto.
Qed.
Lemma check_spec s op label :
  (r_check s op label = true <-> exists a key e b, r_store s = (a ++ (key, e) :: b)%list /\ e_op e = op /\ e_label e = label /\ forall k' e', In (k', e') a -> e_op e' <> op) /\
  (forall key e, mget scmp (r_store s) key = Some e -> e_op e = op -> (forall k' e', In (k', e') (r_store s) -> e_op e' = op -> e' = e) ->
     (r_check s op label = true <-> e_label e = label)).
Proof.
  split; [apply check_first|]. intros key e G Ho U. apply mget_in in G. unfold r_check.
  destruct (check_finds op label (r_store s)) as (k2 & e2 & H2 & H3 & ->); [eauto|]. rewrite (U _ _ H2 H3). split; [apply str_eqb_true|intros ->; apply str_eqb_refl].
Qed.
