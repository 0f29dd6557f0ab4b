(** Proofs about multi state operators. *)
From Coq Require Import List NArith ZArith Lia Bool.
From Verif Require Import Base Arrays Algebra Model.Operators Spec.Operators Model.Multistate Model.OMultistate Spec.OMultistate.
Import ListNotations.
Open Scope Z_scope.

Section P.
  Variable R : cring.
  Variable M : cmodule R.

  Lemma madd_0r (x : M) : madd x m0 = x.
  Proof. rewrite madd_comm. apply madd_0. Qed.
  Lemma msum_app (l1 l2 : list M) : msum R M (l1 ++ l2) = madd (msum R M l1) (msum R M l2).
  Proof. induction l1 as [|x l IH]; cbn [app msum]; [rewrite madd_0; reflexivity|]. rewrite IH, madd_assoc. reflexivity. Qed.

  Section T.
  Variable A : Type.
  Notation mat := (Z -> Z -> option A).

  Lemma inside_ok i j : 0 <= i < max_states -> 0 <= j < max_states -> inside i j = true.
  Proof. intros H1 H2. unfold inside. rewrite !andb_true_iff, !Z.leb_le, !Z.ltb_lt. lia. Qed.
  Lemma cell_ok (m : mat) i j : 0 <= i < max_states -> 0 <= j < max_states -> cell A m i j = Ok (m i j).
  Proof. intros H1 H2. unfold cell. rewrite inside_ok by assumption. reflexivity. Qed.
  Lemma setcell_ok (m : mat) i j x : 0 <= i < max_states -> 0 <= j < max_states -> setcell A m i j x = Ok (fun a b => if (a =? i) && (b =? j) then x else m a b).
  Proof. intros H1 H2. unfold setcell. rewrite inside_ok by assumption. reflexivity. Qed.

  (** the element of a hermitian matrix *)
  Definition merged (m : mat) (a b : Z) : option A :=
    if a =? b then m a b else match m (Z.min a b) (Z.max a b) with Some x => Some x | None => m (Z.max a b) (Z.min a b) end.
  Definition done (k l a b : Z) : bool := (0 <=? Z.min a b) && ((Z.max a b <? k) || ((Z.max a b =? k) && (Z.min a b <? l))).
  Definition inv (m0 : mat) k l (m : mat) : Prop := forall a b, m a b = if done k l a b then merged m0 a b else m0 a b.

  Lemma done_true k l a b : done k l a b = true <-> 0 <= Z.min a b /\ (Z.max a b < k \/ (Z.max a b = k /\ Z.min a b < l)).
  Proof. unfold done. rewrite andb_true_iff, orb_true_iff, andb_true_iff, Z.leb_le, !Z.ltb_lt, Z.eqb_eq. reflexivity. Qed.
  Lemma done_step k l a b : done k (l + 1) a b = done k l a b || ((a =? k) && (b =? l) || (a =? l) && (b =? k)) && (0 <=? l) && (l <=? k).
  Proof.
    apply eq_true_iff_eq. rewrite orb_true_iff, !andb_true_iff, orb_true_iff, !andb_true_iff, !done_true, !Z.eqb_eq, !Z.leb_le. lia.
  Qed.
  Lemma mirror_step m0 k l m : 0 <= l <= k -> k < max_states -> inv m0 k l m -> exists m', mirror A m k l = Ok m' /\ inv m0 k (l + 1) m'.
  Proof.
    intros Hl Hk I.
    assert (D1 : done k l l k = false). { apply not_true_iff_false. rewrite done_true. lia. }
    assert (D2 : done k l k l = false). { apply not_true_iff_false. rewrite done_true. lia. }
    assert (E1 : m l k = m0 l k) by (rewrite I, D1; reflexivity). assert (E2 : m k l = m0 k l) by (rewrite I, D2; reflexivity).
    unfold mirror. destruct (Z.eqb_spec k l) as [->|N]; cbn [negb].
    - cbn [bind]. rewrite cell_ok by lia. cbn [bind]. assert (IM : inv m0 l (l + 1) m).
      { intros a b. rewrite done_step, I. destruct (done l l a b) eqn:D; cbn [orb]; [reflexivity|]. destruct ((a =? l) && (b =? l)) eqn:Q; cbn [orb].
        - apply andb_true_iff in Q. rewrite !Z.eqb_eq in Q. destruct Q as [-> ->]. unfold merged. rewrite Z.eqb_refl. destruct (_ && _); reflexivity.
        - reflexivity. }
      destruct (m l l); exists m; split; try reflexivity; exact IM.
    - rewrite cell_ok by lia. cbn [bind].
      assert (MN : Z.min k l = l /\ Z.max k l = k) by lia.
      assert (MK : merged m0 k l = match m0 l k with Some x => Some x | None => m0 k l end). { unfold merged. rewrite (proj2 (Z.eqb_neq k l) N). destruct MN as [-> ->]. reflexivity. }
      assert (ML : merged m0 l k = merged m0 k l). { rewrite MK. unfold merged. rewrite (proj2 (Z.eqb_neq l k) ltac:(lia)). rewrite Z.min_comm, Z.max_comm. destruct MN as [-> ->]. reflexivity. }
      assert (FIN : forall m', (forall a b, m' a b = if ((a =? k) && (b =? l) || (a =? l) && (b =? k)) then merged m0 k l else m a b) -> inv m0 k (l + 1) m').
      { intros m' Hm a b. rewrite Hm, done_step. replace ((0 <=? l) && (l <=? k)) with true by (symmetry; apply andb_true_iff; rewrite !Z.leb_le; lia). rewrite <- andb_assoc.
        replace ((0 <=? l) && (l <=? k)) with true by (symmetry; apply andb_true_iff; rewrite !Z.leb_le; lia). rewrite andb_true_r.
        destruct ((a =? k) && (b =? l)) eqn:Q1; cbn [orb].
        - apply andb_true_iff in Q1. rewrite !Z.eqb_eq in Q1. destruct Q1 as [-> ->]. rewrite orb_true_r. reflexivity.
        - destruct ((a =? l) && (b =? k)) eqn:Q2; [|rewrite orb_false_r; apply I].
          apply andb_true_iff in Q2. rewrite !Z.eqb_eq in Q2. destruct Q2 as [-> ->]. rewrite orb_true_r. symmetry. exact ML. }
      rewrite E1. destruct (m0 l k) as [x|] eqn:EU.
      + rewrite setcell_ok by lia. cbn [bind]. rewrite cell_ok by lia. cbn [bind]. rewrite !Z.eqb_refl. cbn [andb]. rewrite setcell_ok by lia. eexists. split; [reflexivity|].
        apply FIN. intros a b. rewrite MK. destruct ((a =? l) && (b =? k)) eqn:Q2; [rewrite orb_true_r; reflexivity|]. rewrite orb_false_r. reflexivity.
      + cbn [bind]. rewrite cell_ok by lia. cbn [bind]. rewrite E2. destruct (m0 k l) as [y|] eqn:EL.
        * rewrite setcell_ok by lia. eexists. split; [reflexivity|]. apply FIN. intros a b. rewrite MK. destruct ((a =? l) && (b =? k)) eqn:Q2; [rewrite orb_true_r; reflexivity|]. rewrite orb_false_r.
          destruct ((a =? k) && (b =? l)) eqn:Q1; [|reflexivity]. apply andb_true_iff in Q1. rewrite !Z.eqb_eq in Q1. destruct Q1 as [-> ->]. exact E2.
        * exists m. split; [reflexivity|]. apply FIN. intros a b. rewrite MK. destruct ((a =? k) && (b =? l)) eqn:Q1; cbn [orb].
          -- apply andb_true_iff in Q1. rewrite !Z.eqb_eq in Q1. destruct Q1 as [-> ->]. exact E2.
          -- destruct ((a =? l) && (b =? k)) eqn:Q2; [|reflexivity]. apply andb_true_iff in Q2. rewrite !Z.eqb_eq in Q2. destruct Q2 as [-> ->]. exact E1.
  Qed.
  Lemma mirror_all m0 n : 0 <= n <= max_states -> exists m', foldM (fun m i => foldM (fun m j => mirror A m i j) (upto 0 (i + 1)) m) (upto 0 n) m0 = Ok m' /\ inv m0 n 0 m'.
  Proof.
    intros Hn. apply (foldM_upto (fun m i => foldM (fun m j => mirror A m i j) (upto 0 (i + 1)) m) (fun k m => inv m0 k 0 m)).
    - lia.
    - intros a b. replace (done 0 0 a b) with false; [reflexivity|]. symmetry. apply not_true_iff_false. rewrite done_true. lia.
    - intros k m Hk I. destruct (foldM_upto (fun m j => mirror A m k j) (fun l m => inv m0 k l m) 0 (k + 1) m) as (m' & E & I'); [lia|exact I| |].
      + intros l m1 Hl I1. apply mirror_step; [lia|lia|exact I1].
      + exists m'. split; [exact E|]. intros a b. rewrite I'. replace (done (k + 1) 0 a b) with (done k (k + 1) a b); [reflexivity|]. apply eq_true_iff_eq. rewrite !done_true. lia.
  Qed.

  Definition in_range (s : oms A) : Prop := 0 <= o_n A s <= max_states.
  Lemma init_herm s : in_range s -> o_herm A s = true -> o_buf A s = false -> 1 <= o_n A s -> exists s', o_init A s (o_n A s) = Ok s' /\ o_n A s' = o_n A s /\ o_unity A s' = o_unity A s /\ o_herm A s' = true /\ o_buf A s' = true /\
    (forall i j, 0 <= i < o_n A s -> 0 <= j < o_n A s -> o_mat A s' i j = merged (o_mat A s) i j) /\ (forall i j, o_n A s <= i \/ o_n A s <= j -> o_mat A s' i j = o_mat A s i j).
  Proof.
    intros Hr Hh Hb Hn. unfold o_init. rewrite Z.eqb_refl, Hh, Hb. cbn [negb]. destruct (Z.ltb_spec (o_n A s) 1); [lia|]. destruct (mirror_all (o_mat A s) (o_n A s) Hr) as (m & -> & I). cbn [bind].
    eexists. split; [reflexivity|]. cbn. repeat (split; [reflexivity|]). split; intros i j; rewrite I.
    - intros Hi Hj. replace (done (o_n A s) 0 i j) with true; [reflexivity|]. symmetry. apply done_true. lia.
    - intros H'. replace (done (o_n A s) 0 i j) with false; [reflexivity|]. symmetry. apply not_true_iff_false. rewrite done_true. lia.
  Qed.
  Lemma merged_sym m a b : merged m a b = merged m b a.
  Proof. unfold merged. rewrite Z.eqb_sym, Z.min_comm, Z.max_comm. destruct (Z.eqb_spec b a) as [->|]; reflexivity. Qed.

  (** not hermitian *)
  Lemma init_gen s : 1 <= o_n A s < max_states -> o_herm A s = false -> o_buf A s = false -> (forall i, 0 <= i < o_n A s -> o_mat A s i (o_n A s) = None) ->
    o_init A s (o_n A s) = Ok (mkOms A false (o_n A s) (o_unity A s) true (o_mat A s)).
  Proof.
    intros Hn Hh Hb Hl. unfold o_init. rewrite Z.eqb_refl, Hh, Hb. cbn [negb]. destruct (Z.ltb_spec (o_n A s) 1); [lia|].
    match goal with |- bind ?f _ = _ => assert (E : exists u, f = Ok u /\ True) end.
    { apply (foldM_upto _ (fun _ _ => True)); [lia|exact I|]. intros i u Hi _.
      apply (foldM_upto _ (fun _ _ => True)); [lia|exact I|]. intros j v Hj _. rewrite cell_ok by lia. cbn [bind]. destruct (o_mat A s i j) as [a|] eqn:Ec; [|exists tt; auto].
      destruct (Z.ltb_spec j (o_n A s)); [exists tt; auto|]. assert (j = o_n A s) by lia. subst j. rewrite Hl in Ec by exact Hi. discriminate. }
    destruct E as (u & -> & _). reflexivity.
  Qed.
  Lemma init_gen_full s : o_n A s = max_states -> o_herm A s = false -> o_buf A s = false -> o_init A s (o_n A s) = UB.
  Proof.
    intros Hn Hh Hb. unfold o_init. rewrite Z.eqb_refl, Hh, Hb, Hn. cbn [negb]. change (max_states <? 1) with false. cbn iota.
    rewrite (upto_cons 0 max_states) by (unfold max_states; lia). cbn [foldM].
    match goal with |- bind (bind ?f _) _ = _ => assert (E : f = UB) end; [|rewrite E; reflexivity].
    rewrite upto_snoc by (unfold max_states; lia). rewrite foldM_app.
    match goal with |- bind ?f _ = _ => assert (E : exists u, f = Ok u /\ True) end.
    { apply (foldM_upto _ (fun _ _ => True)); [unfold max_states; lia|exact I|]. intros j v Hj _. rewrite cell_ok by (unfold max_states in *; lia). cbn [bind]. destruct (o_mat A s 0 j); [|exists tt; auto].
      destruct (Z.ltb_spec j max_states); [exists tt; auto|lia]. }
    destruct E as (u & -> & _). reflexivity.
  Qed.

  (** adding *)
  Lemma add_ok s o r c : in_range s -> 0 <= r -> 0 <= c -> exists ok s', o_add A s o r c = Ok (ok, s') /\ in_range s' /\
    (ok = false -> o_mat A s' = o_mat A s) /\
    (ok = true -> r < max_states /\ c < max_states /\ o_mat A s r c = None /\ o_n A s' = Z.max (Z.max (o_n A s) (r + 1)) (c + 1) /\
       o_herm A s' = (if r =? c then o_herm A s else match o_mat A s c r with Some _ => false | None => o_herm A s end) /\
       forall i j, o_mat A s' i j = if (i =? r) && (j =? c) then Some o else o_mat A s i j).
  Proof.
    intros Hr H1 H2. unfold o_add. destruct (Z.leb_spec max_states r) as [L|L]; cbn [orb].
    - exists false, s. split; [reflexivity|]. split; [exact Hr|]. split; [reflexivity|discriminate].
    - destruct (Z.leb_spec max_states c) as [L2|L2].
      + exists false, s. split; [reflexivity|]. split; [exact Hr|]. split; [reflexivity|discriminate].
      + cbn [o_mat o_n o_herm o_unity o_buf]. rewrite cell_ok by lia. cbn [bind]. unfold in_range in *. destruct (o_mat A s r c) as [x|] eqn:Ec.
        * eexists. eexists. split; [reflexivity|]. cbn. split; [lia|]. split; [reflexivity|discriminate].
        * rewrite setcell_ok by lia. cbn [bind]. rewrite !cell_ok by lia. cbn [bind]. eexists. eexists. split; [reflexivity|]. cbn. split; [lia|]. split; [discriminate|]. intros _. split; [exact L|]. split; [exact L2|]. split; [reflexivity|]. split; [reflexivity|]. split; [|reflexivity].
          rewrite !Z.eqb_refl. cbn [andb]. destruct (Z.eqb_spec r c) as [->|Nrc]; [rewrite Z.eqb_refl; reflexivity|]. rewrite (proj2 (Z.eqb_neq c r)) by lia. cbn [andb negb].
          destruct (o_mat A s c r); reflexivity.
  Qed.
  Lemma add_negative s o r c : r < max_states -> c < max_states -> r < 0 \/ c < 0 -> o_add A s o r c = UB.
  Proof.
    intros H1 H2 H3. unfold o_add. rewrite (proj2 (Z.leb_gt max_states r)), (proj2 (Z.leb_gt max_states c)) by lia. cbn [orb o_mat]. unfold cell, inside.
    destruct H3 as [H3|H3]; [rewrite (proj2 (Z.leb_gt 0 r)) by lia; reflexivity|]. rewrite (proj2 (Z.leb_gt 0 c)) by lia. cbn [andb]. rewrite andb_false_r. reflexivity.
  Qed.
  End T.

  Section T2.
  Variable A : Type.
  Variable a_act : A -> acts R M.

  (** application *)
  Lemma apply_ok (s : oms A) G n dest psi : 0 <= o_n A s <= max_states -> represents R M A a_act (o_mat A s) (o_n A s) G -> zlen dest = o_n A s -> zlen psi = o_n A s ->
    exists dest' n', o_apply R M A a_act s n dest psi = Ok (dest', n') /\ zlen dest' = o_n A s /\
      forall i, 0 <= i < o_n A s -> rd dest' i = Ok (row R M G (o_unity A s) (o_n A s) (fun j => nth (Z.to_nat j) psi m0) i).
  Proof.
    intros Hn Rp Ld Lp. unfold o_apply.
    match goal with |- exists dest' n', foldM ?f _ _ = _ /\ _ => destruct (foldM_upto f (fun k r => zlen (fst r) = o_n A s /\
       forall i, 0 <= i < k -> rd (fst r) i = Ok (row R M G (o_unity A s) (o_n A s) (fun j => nth (Z.to_nat j) psi m0) i)) 0 (o_n A s) (map (fun _ => m0) dest, n)) as ((d' & n') & E & L & P) end.
    - lia.
    - cbn [fst]. split; [rewrite zlen_map; exact Ld|intros; lia].
    - intros i (d & k) Hi (L & P). cbn [fst snd] in *. rewrite wr_ok by lia. cbn [bind]. set (d1 := upd d (Z.to_nat i) m0).
      match goal with |- exists s', foldM ?g0 _ _ = _ /\ _ => destruct (foldM_upto g0 (fun l r => zlen (fst r) = o_n A s /\
        (forall a, a <> i -> rd (fst r) a = rd d a) /\
        rd (fst r) i = Ok (msum R M (map (fun j => match G i j with Some f => f (nth (Z.to_nat j) psi m0) | None => if (i =? j) && o_unity A s then nth (Z.to_nat j) psi m0 else m0 end) (upto 0 l))))
        0 (o_n A s) (d1, k)) as ((d2 & k2) & E2 & L2 & Q2 & S2) end.
      + lia.
      + cbn [fst]. unfold d1. rewrite zlen_upd. split; [exact L|]. split; [intros a Ha; rewrite rd_upd by lia; rewrite (proj2 (Z.eqb_neq a i) Ha); reflexivity|]. rewrite rd_upd by lia. rewrite Z.eqb_refl. reflexivity.
      + intros j (dj & kj) Hj (Lj & Qj & Sj). cbn [fst snd] in *. rewrite cell_ok by (unfold max_states in *; lia). cbn [bind]. specialize (Rp i j Hi ltac:(lia)).
        rewrite upto_snoc by lia. rewrite map_app, msum_app. cbn [map msum]. rewrite madd_0r.
        destruct (o_mat A s i j) as [a|], (G i j) as [f|]; try contradiction.
        * rewrite Sj. cbn [bind]. rewrite (rd_nth psi j m0) by lia. cbn [bind]. destruct Rp as (_ & _ & Ra).
          match goal with |- context [ad R M (a_act a) kj ?x ?y] => destruct (Ra kj x y) as [k' ->] end. cbn [bind fst snd]. rewrite wr_ok by lia. cbn [bind]. eexists. split; [reflexivity|]. cbn [fst snd]. rewrite zlen_upd. split; [exact Lj|].
          split; [intros b Hb; rewrite rd_upd by lia; rewrite (proj2 (Z.eqb_neq b i) Hb); apply Qj; exact Hb|]. rewrite rd_upd by lia. rewrite Z.eqb_refl. reflexivity.
        * destruct ((i =? j) && o_unity A s).
          -- rewrite Sj. cbn [bind]. rewrite (rd_nth psi j m0) by lia. cbn [bind]. rewrite wr_ok by lia. cbn [bind]. eexists. split; [reflexivity|]. cbn [fst snd]. rewrite zlen_upd. split; [exact Lj|].
             split; [intros b Hb; rewrite rd_upd by lia; rewrite (proj2 (Z.eqb_neq b i) Hb); apply Qj; exact Hb|]. rewrite rd_upd by lia. rewrite Z.eqb_refl. reflexivity.
          -- eexists. split; [reflexivity|]. cbn [fst snd]. split; [exact Lj|]. split; [exact Qj|]. rewrite madd_0r. exact Sj.
      + exists (d2, k2). split; [exact E2|]. cbn [fst] in *. split; [exact L2|]. intros a Ha. destruct (Z.eq_dec a i) as [->|Na]; [exact S2|]. rewrite Q2 by exact Na. apply P. lia.
    - exists d', n'. split; [exact E|]. cbn [fst] in *. split; [exact L|exact P].
  Qed.

  Variable dup : A -> A.
  (** copying into a new operator *)
  Definition after (m0 : Z -> Z -> option A) (k l : Z) (herm : bool) (n : Z) (m : Z -> Z -> option A) : Prop :=
    forall a b, 0 <= a < n -> 0 <= b < n ->
      m a b = if (if herm then done k l a b else (a <? k) || ((a =? k) && (b <? l))) then option_map dup (m0 a b) else None.
  Lemma copy_ok (o : oms A) : 0 <= o_n A o <= max_states -> o_buf A o = true ->
    (o_herm A o = true -> forall i j, 0 <= i < o_n A o -> 0 <= j < o_n A o -> o_mat A o i j = o_mat A o j i) ->
    exists s, o_copy A dup (o_new A) o = Ok s /\ o_n A s = o_n A o /\ o_unity A s = false /\ forall i j, 0 <= i < o_n A o -> 0 <= j < o_n A o -> o_mat A s i j = option_map dup (o_mat A o i j).
  Proof.
    intros Hn Hb Hs. unfold o_copy. rewrite Hb. cbn [negb]. set (n := o_n A o) in *.
    match goal with |- exists s, bind (foldM ?f _ _) _ = _ /\ _ => destruct (foldM_upto f (fun k m => after (o_mat A o) k 0 (o_herm A o) n m) 0 n (o_mat A (o_new A))) as (m & -> & I) end.
    - lia.
    - intros a b Ha Hb'. destruct (o_herm A o).
      + replace (done 0 0 a b) with false; [reflexivity|]. symmetry. apply not_true_iff_false. rewrite done_true. lia.
      + replace ((a <? 0) || ((a =? 0) && (b <? 0))) with false; [reflexivity|]. symmetry. apply not_true_iff_false. rewrite orb_true_iff, andb_true_iff, !Z.ltb_lt. lia.
    - intros i m Hi I.
      assert (STEP : forall j mj, 0 <= j < n -> (o_herm A o = true -> j <= i) -> after (o_mat A o) i j (o_herm A o) n mj -> exists m',
        (let* c := cell A (o_mat A o) i j in match c with Some a => let* m := setcell A mj i j (Some (dup a)) in if o_herm A o && negb (i =? j) then setcell A m j i (Some (dup a)) else Ok m | None => Ok mj end) = Ok m' /\ after (o_mat A o) i (j + 1) (o_herm A o) n m').
      { intros j mj Hj Hle Ij. rewrite cell_ok by lia. cbn [bind]. destruct (o_herm A o) eqn:Hh; cbn [andb].
        - specialize (Hle eq_refl). specialize (Hs eq_refl).
          assert (DS : forall a b, done i (j + 1) a b = done i j a b || ((a =? i) && (b =? j) || (a =? j) && (b =? i))).
          { intros a b. rewrite done_step. replace (0 <=? j) with true by (symmetry; apply Z.leb_le; lia). replace (j <=? i) with true by (symmetry; apply Z.leb_le; lia). rewrite !andb_true_r. reflexivity. }
          destruct (o_mat A o i j) as [x|] eqn:Ex.
          + rewrite setcell_ok by lia. cbn [bind]. destruct (Z.eqb_spec i j) as [->|Nij]; cbn [negb].
            * eexists. split; [reflexivity|]. intros a b Ha Hb'. rewrite DS. destruct ((a =? j) && (b =? j)) eqn:Q; cbn [orb].
              -- apply andb_true_iff in Q. rewrite !Z.eqb_eq in Q. destruct Q as [-> ->]. rewrite orb_true_r, Ex. reflexivity.
              -- rewrite orb_false_r. apply Ij; assumption.
            * rewrite setcell_ok by lia. eexists. split; [reflexivity|]. intros a b Ha Hb'. rewrite DS. destruct ((a =? j) && (b =? i)) eqn:Q.
              -- apply andb_true_iff in Q. rewrite !Z.eqb_eq in Q. destruct Q as [-> ->]. rewrite !orb_true_r. rewrite Hs by lia. rewrite Ex. reflexivity.
              -- destruct ((a =? i) && (b =? j)) eqn:Q1; cbn [orb].
                 ++ apply andb_true_iff in Q1. rewrite !Z.eqb_eq in Q1. destruct Q1 as [-> ->]. rewrite orb_true_r, Ex. reflexivity.
                 ++ rewrite orb_false_r. apply Ij; assumption.
          + exists mj. split; [reflexivity|]. intros a b Ha Hb'. rewrite DS. rewrite Ij by assumption. destruct (done i j a b); cbn [orb]; [reflexivity|]. destruct ((a =? i) && (b =? j)) eqn:Q1; cbn [orb].
            * apply andb_true_iff in Q1. rewrite !Z.eqb_eq in Q1. destruct Q1 as [-> ->]. rewrite Ex. reflexivity.
            * destruct ((a =? j) && (b =? i)) eqn:Q; [|reflexivity]. apply andb_true_iff in Q. rewrite !Z.eqb_eq in Q. destruct Q as [-> ->]. rewrite Hs by lia. rewrite Ex. reflexivity.
        - assert (DS : forall a b, ((a <? i) || ((a =? i) && (b <? j + 1))) = ((a <? i) || ((a =? i) && (b <? j))) || ((a =? i) && (b =? j))).
          { intros a b. apply eq_true_iff_eq. rewrite !orb_true_iff, !andb_true_iff, !Z.ltb_lt, !Z.eqb_eq. lia. }
          destruct (o_mat A o i j) as [x|] eqn:Ex.
          + rewrite setcell_ok by lia. cbn [bind]. eexists. split; [reflexivity|]. intros a b Ha Hb'. rewrite DS. destruct ((a =? i) && (b =? j)) eqn:Q1.
            * apply andb_true_iff in Q1. rewrite !Z.eqb_eq in Q1. destruct Q1 as [-> ->]. rewrite orb_true_r, Ex. reflexivity.
            * rewrite orb_false_r. apply Ij; assumption.
          + exists mj. split; [reflexivity|]. intros a b Ha Hb'. rewrite DS. rewrite Ij by assumption. destruct ((a <? i) || ((a =? i) && (b <? j))); cbn [orb]; [reflexivity|]. destruct ((a =? i) && (b =? j)) eqn:Q1; [|reflexivity].
            apply andb_true_iff in Q1. rewrite !Z.eqb_eq in Q1. destruct Q1 as [-> ->]. rewrite Ex. reflexivity. }
      destruct (o_herm A o) eqn:Hh.
      + match goal with |- exists s', foldM ?f _ _ = _ /\ _ => destruct (foldM_upto f (fun l m => after (o_mat A o) i l true n m) 0 (i + 1) m) as (m' & E & I') end; [lia|exact I| |].
        * intros j mj Hj Ij. apply STEP; [lia|lia|exact Ij].
        * exists m'. split; [exact E|]. intros a b Ha Hb'. rewrite I' by assumption. replace (done (i + 1) 0 a b) with (done i (i + 1) a b); [reflexivity|]. apply eq_true_iff_eq. rewrite !done_true. lia.
      + match goal with |- exists s', foldM ?f _ _ = _ /\ _ => destruct (foldM_upto f (fun l m => after (o_mat A o) i l false n m) 0 n m) as (m' & E & I') end; [lia|exact I| |].
        * intros j mj Hj Ij. apply STEP; [lia|discriminate|exact Ij].
        * exists m'. split; [exact E|]. intros a b Ha Hb'. rewrite I' by assumption. replace ((a <? i + 1) || ((a =? i + 1) && (b <? 0))) with ((a <? i) || ((a =? i) && (b <? n))); [reflexivity|].
          apply eq_true_iff_eq. rewrite !orb_true_iff, !andb_true_iff, !Z.ltb_lt, !Z.eqb_eq. lia.
    - cbn [bind]. eexists. split; [reflexivity|]. cbn. split; [reflexivity|]. split; [reflexivity|]. intros a b Ha Hb'. rewrite I by assumption. destruct (o_herm A o).
      + replace (done n 0 a b) with true; [reflexivity|]. symmetry. apply done_true. lia.
      + replace ((a <? n) || ((a =? n) && (b <? 0))) with true; [reflexivity|]. symmetry. rewrite orb_true_iff, Z.ltb_lt. lia.
  Qed.
  Lemma represents_copy m n G m2 : represents R M A a_act m n G -> (forall a f, implements R M (a_act a) f -> implements R M (a_act (dup a)) f) ->
    (forall i j, 0 <= i < n -> 0 <= j < n -> m2 i j = option_map dup (m i j)) -> represents R M A a_act m2 n G.
  Proof. intros H D E i j Hi Hj. rewrite E by assumption. specialize (H i j Hi Hj). destruct (m i j), (G i j); cbn; auto. Qed.
  End T2.

  (** histories *)
  Section T3.
  Variable A : Type.
  Lemma range_step (s : oms A) c s' : in_range A s -> mlegal A c -> mstep A s c = Ok s' -> in_range A s'.
  Proof.
    intros Hr Lg E. destruct c as [o r c|h u st|st]; cbn [mstep mlegal] in *.
    - destruct (add_ok A s o r c Hr (proj1 Lg) (proj2 Lg)) as (ok & s2 & E2 & R2 & _). rewrite E2 in E. cbn [bind snd] in E. injection E as <-. exact R2.
    - unfold o_params in E. unfold in_range in *. destruct st as [k|]; [|injection E as <-; exact Hr]. destruct (Z.ltb_spec max_states k); [discriminate|]. injection E as <-. cbn. lia.
    - unfold o_init in E. destruct (o_n A s <? 1); [discriminate|]. destruct (negb _); [discriminate|]. destruct (o_buf A s); [injection E as <-; exact Hr|].
      destruct (o_herm A s).
      + match type of E with bind ?f _ = _ => destruct f as [m| |] end; cbn [bind] in E; try discriminate. injection E as <-. exact Hr.
      + match type of E with bind ?f _ = _ => destruct f as [m| |] end; cbn [bind] in E; try discriminate. injection E as <-. exact Hr.
  Qed.
  Lemma setup_range (s : oms A) : setup A s -> in_range A s /\ o_buf A s = false.
  Proof.
    induction 1 as [|s c s' H [IH1 IH2] Lg Nc E]; [split; [unfold in_range, max_states; cbn; lia|reflexivity]|]. split; [exact (range_step s c s' IH1 Lg E)|].
    destruct c as [o r c|h u st|st]; [| |contradiction]; cbn [mstep mlegal] in *.
    - unfold o_add in E. destruct (_ || _); [cbn in E; injection E as <-; exact IH2|]. cbn [o_mat] in E. destruct (cell A (o_mat A s) r c) as [[x|]| |]; cbn [bind] in E; try discriminate; [injection E as <-; exact IH2|].
      destruct (setcell A (o_mat A s) r c (Some o)) as [m| |]; cbn [bind] in E; try discriminate. destruct (cell A m r c) as [x| |]; cbn [bind] in E; try discriminate. destruct (cell A m c r) as [y| |]; cbn [bind] in E; try discriminate. injection E as <-. exact IH2.
    - unfold o_params in E. destruct st as [k|]; [|injection E as <-; exact IH2]. destruct (_ <? _); [discriminate|]. injection E as <-. exact IH2.
  Qed.
  Lemma made_range (s : oms A) : made_ms A s -> in_range A s.
  Proof. induction 1 as [|s c s' H IH Lg E]; [unfold in_range, max_states; cbn; lia|exact (range_step s c s' IH Lg E)]. Qed.
  End T3.
End P.
