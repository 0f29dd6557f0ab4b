(** Lemmas on the vector class: what is written is read back. *)
From Coq Require Import List ZArith Lia Bool Arith.
From Verif Require Import Base Arrays Model.Vec Spec.Vec Proofs.Vec Proofs.VecOps Proofs.VecStore Proofs.VecRun Proofs.VecRetire.
Import ListNotations.
Open Scope Z_scope.

Section P.
  Context {A : Type}.
  Notation st := (st A). Notation abs := (abs A).
  Notation at_cell_of ci n k := (nth (k / n)%nat ci (O, O)).

  Lemma elem_set (s : st) (a : abs) i ci x k u cj n' k' : Rs s a -> alive A a i = Some x -> cells A a i = Some ci -> 0 <= k < Z.of_nat (size A x) ->
    elem A (set_elem A a ci (stride_len A x) (Z.to_nat k) u) cj n' k' =
    let c := at_cell_of ci (stride_len A x) (Z.to_nat k) in let c' := at_cell_of cj n' k' in
    if (fst c' =? fst c)%nat && (snd c' =? snd c)%nat && (k' mod n' =? Z.to_nat k mod stride_len A x)%nat then u else elem A a cj n' k'.
  Proof.
    intros H Ax E Hk. destruct (at_cell s a i ci x k H Ax E Hk) as (v & _ & _ & V & Hm). cbv zeta. unfold elem at 1, set_elem. cbv zeta. rewrite (seg_set_seg a _ _ _ _ V). unfold elem.
    set (c := at_cell_of ci (stride_len A x) (Z.to_nat k)) in *. set (c' := at_cell_of cj n' k').
    destruct (Nat.eqb_spec (fst c') (fst c)) as [E1|]; cbn [andb]; [|reflexivity]. destruct (Nat.eqb_spec (snd c') (snd c)) as [E2|]; cbn [andb]; [|reflexivity].
    assert (Ec : c' = c) by (destruct c', c; cbn in *; congruence). rewrite Ec. destruct (valid_slot _ _ a c _ H V) as [Lc _].
    destruct (Nat.eqb_spec (k' mod n') (Z.to_nat k mod stride_len A x)) as [E3|N3].
    - rewrite E3. apply nth_error_nth. rewrite upd_nth, Nat.eqb_refl. destruct (nth_error (seg A a c) (Z.to_nat k mod stride_len A x)) eqn:Q; [reflexivity|]. apply nth_error_None in Q. lia.
    - rewrite <- !nth_default_eq. unfold nth_default. rewrite upd_nth. destruct (Nat.eqb_spec (k' mod n') (Z.to_nat k mod stride_len A x)); [contradiction|reflexivity].
  Qed.
  Lemma pos_inj n k k' : (0 < n)%nat -> (k / n = k' / n)%nat -> (k mod n = k' mod n)%nat -> k = k'.
  Proof. intros Hn E1 E2. rewrite (Nat.div_mod_eq k n), (Nat.div_mod_eq k' n), E1, E2. reflexivity. Qed.
  Lemma alive_set_elem (s : st) (a : abs) i ci x k u j : Rs s a -> alive A a i = Some x -> cells A a i = Some ci -> 0 <= k < Z.of_nat (size A x) ->
    cells A (set_elem A a ci (stride_len A x) (Z.to_nat k) u) j = cells A a j /\
    match alive A a j, alive A (set_elem A a ci (stride_len A x) (Z.to_nat k) u) j with Some y, Some y' => size A y = size A y' /\ stride_len A y = stride_len A y' | None, None => True | _, _ => False end.
  Proof.
    intros H Ax E Hk. destruct (at_cell s a i ci x k H Ax E Hk) as (v & _ & _ & V & _). unfold set_elem. cbv zeta. split; [apply (cells_set_seg a _ _ _ j V)|]. rewrite (alive_set_seg a _ _ _ V). destruct (alive A a j) as [[lk s0 n [d|]|]|]; auto. destruct (j =? _)%nat; auto.
  Qed.
  Section Run.
    Variables (add mul : A -> A -> A).
    Notation astep := (astep A add mul).
    Lemma set_get (s : st) (a a' : abs) i j k k' v r u : Rs s a -> astep a (Set_ A i k v) = Some (a', r) -> astep a (Get A j k') = Some (a, AVal A u) ->
      exists x y ci cj, alive A a i = Some x /\ alive A a j = Some y /\ cells A a i = Some ci /\ cells A a j = Some cj /\ 0 <= k < Z.of_nat (size A x) /\ 0 <= k' < Z.of_nat (size A y) /\
        astep a' (Get A j k') = Some (a', AVal A
          (let c := at_cell_of ci (stride_len A x) (Z.to_nat k) in let c' := at_cell_of cj (stride_len A y) (Z.to_nat k') in
           if (fst c' =? fst c)%nat && (snd c' =? snd c)%nat && (Z.to_nat k' mod stride_len A y =? Z.to_nat k mod stride_len A x)%nat then Some v else u)).
    Proof.
      intros H Es Eg. cbn -[Z.to_nat] in Es, Eg. unfold with1, with_cells, guard in Es, Eg. destruct (alive A a i) as [x|] eqn:Ax; [|discriminate]. destruct (cells A a i) as [ci|] eqn:Ci; [|discriminate]. destruct ((0 <=? k) && (k <? Z.of_nat (size A x))) eqn:Gk; [|discriminate].
      destruct (alive A a j) as [y|] eqn:Ay; [|discriminate]. destruct (cells A a j) as [cj|] eqn:Cj; [|discriminate]. destruct ((0 <=? k') && (k' <? Z.of_nat (size A y))) eqn:Gk'; [|discriminate].
      assert (Hk : 0 <= k < Z.of_nat (size A x)) by (apply andb_prop in Gk; lia). assert (Hk' : 0 <= k' < Z.of_nat (size A y)) by (apply andb_prop in Gk'; lia). injection Es as <- <-. injection Eg as <-.
      exists x, y, ci, cj. do 4 (split; [reflexivity|]). split; [exact Hk|]. split; [exact Hk'|]. cbn -[Z.to_nat]. unfold with1, with_cells, guard. destruct (alive_set_elem s a i ci x k (Some v) j H Ax Ci Hk) as [Ec Al]. rewrite Ay in Al.
      destruct (alive A (set_elem A a ci (stride_len A x) (Z.to_nat k) (Some v)) j) as [y'|]; [|destruct Al]. destruct Al as [Q1 Q2]. rewrite Ec, Cj, <- Q1, Gk', <- Q2. rewrite (elem_set s a i ci x k (Some v) cj _ _ H Ax Ci Hk). reflexivity.
    Qed.
    (** the same vector *)
    Lemma set_get_same (s : st) (a a' : abs) i k k' v r u : Rs s a -> astep a (Set_ A i k v) = Some (a', r) -> astep a (Get A i k') = Some (a, AVal A u) -> astep a' (Get A i k') = Some (a', AVal A (if k =? k' then Some v else u)).
    Proof.
      intros H Es Eg. destruct (set_get s a a' i i k k' v r u H Es Eg) as (x & y & ci & cj & Ax & Ay & Ci & Cj & Hk & Hk' & E). rewrite Ax in Ay. injection Ay as <-. rewrite Ci in Cj. injection Cj as <-. rewrite E. do 3 f_equal. cbv zeta.
      destruct (cells_spec _ _ a i ci H Ci) as (x' & w & Ax' & _ & _ & Lc & _). rewrite Ax in Ax'. injection Ax' as <-. unfold size in Hk, Hk'. rewrite <- Lc in Hk, Hk'.
      destruct (Z.eqb_spec k k') as [->|N]; [rewrite !Nat.eqb_refl; reflexivity|]. destruct (_ && _) eqn:G; [|reflexivity]. exfalso. apply andb_prop in G. destruct G as [G G3]. apply andb_prop in G. destruct G as [G1 G2]. apply Nat.eqb_eq in G1, G2, G3.
      set (n := stride_len A x) in *. destruct (pos_cell ci n (Z.to_nat k) ltac:(lia)) as (Hn & Hq & Hc & _). destruct (pos_cell ci n (Z.to_nat k') ltac:(lia)) as (_ & Hq' & Hc' & _).
      assert (Ec : nth (Z.to_nat k' / n) ci (O, O) = nth (Z.to_nat k / n) ci (O, O)) by (destruct (nth (Z.to_nat k' / n) ci (O, O)), (nth (Z.to_nat k / n) ci (O, O)); cbn in *; congruence).
      pose proof (cells_nodup _ _ a i ci H Ci) as Nd. pose proof (proj1 (NoDup_nth ci (O, O)) Nd _ _ Hq' Hq Ec) as Eq. apply N. apply Z2Nat.inj; [lia|lia|]. symmetry. apply (pos_inj n); auto.
    Qed.
    (** two vectors with storage of their own *)
    Lemma set_get_other (s : st) (a a' : abs) i j k k' v r u x y : Rs s a -> i <> j -> alive A a i = Some x -> alive A a j = Some y -> is_own A x = true -> is_own A y = true ->
      astep a (Set_ A i k v) = Some (a', r) -> astep a (Get A j k') = Some (a, AVal A u) -> astep a' (Get A j k') = Some (a', AVal A u).
    Proof.
      intros H N Ax Ay Ox Oy Es Eg. destruct (set_get s a a' i j k k' v r u H Es Eg) as (x' & y' & ci & cj & Ax' & Ay' & Ci & Cj & Hk & Hk' & E). rewrite Ax in Ax'. injection Ax' as <-. rewrite Ay in Ay'. injection Ay' as <-. rewrite E. do 3 f_equal. cbv zeta.
      destruct (cells_spec _ _ a i ci H Ci) as (x1 & w & A1 & _ & _ & Lc & _). rewrite Ax in A1. injection A1 as <-. destruct (cells_spec _ _ a j cj H Cj) as (y1 & w' & A2 & _ & _ & Lc' & _). rewrite Ay in A2. injection A2 as <-. unfold size in Hk, Hk'. rewrite <- Lc in Hk. rewrite <- Lc' in Hk'.
      destruct (pos_cell ci (stride_len A x) (Z.to_nat k) ltac:(lia)) as (Hn & Hq & Hc & _). destruct (pos_cell cj (stride_len A y) (Z.to_nat k') ltac:(lia)) as (_ & Hq' & Hc' & _).
      assert (F : forall o z cz q, alive A a o = Some z -> is_own A z = true -> cells A a o = Some cz -> (q < length cz)%nat -> fst (nth q cz (O, O)) = o).
      { intros o z cz q Eo Iz Cz Hz. unfold cells in Cz. rewrite Eo in Cz. destruct z as [lk s0 n [d|]|]; try discriminate. injection Cz as <-. apply (nth_In _ (O, O)) in Hz. apply in_map_iff in Hz. destruct Hz as (p & <- & _). reflexivity. }
      rewrite (F i x ci _ Ax Ox Ci Hq), (F j y cj _ Ay Oy Cj Hq'). destruct (Nat.eqb_spec j i); [congruence|]. reflexivity.
    Qed.
    (** a vector of references writes into its masters *)
    Lemma set_get_master (s : st) (a a' : abs) i k v r lk n l q j : Rs s a -> alive A a i = Some (Ref A lk n l q) -> nth_error l (Z.to_nat k / n) = Some (Some j) ->
      astep a (Set_ A i k v) = Some (a', r) -> astep a' (Get A j (Z.of_nat (Z.to_nat k mod n))) = Some (a', AVal A (Some v)).
    Proof.
      intros H Ax Hl Es. assert (Es' := Es). cbn -[Z.to_nat] in Es'. unfold with1, with_cells, guard in Es'. rewrite Ax in Es'. destruct (cells A a i) as [ci|] eqn:Ci; [|discriminate]. destruct ((0 <=? k) && (k <? Z.of_nat (size A (Ref A lk n l q)))) eqn:Gk; [|discriminate]. clear Es'.
      assert (Hk : 0 <= k < Z.of_nat (size A (Ref A lk n l q))) by (apply andb_prop in Gk; lia). unfold size in Hk. cbn [strides stride_len] in Hk.
      destruct (pos_cell (repeat (O, O) (length l)) n (Z.to_nat k) ltac:(rewrite repeat_length; lia)) as (Hn & Hq & _ & Hm). rewrite repeat_length in Hq.
      assert (Q : q = true) by (unfold cells in Ci; rewrite Ax in Ci; destruct q; [reflexivity|discriminate]). subst q.
      assert (Cm : masters A a l = Some ci) by (unfold cells in Ci; rewrite Ax in Ci; exact Ci). destruct (masters_spec a l ci Cm) as [Lc M].
      destruct (nth_error ci (Z.to_nat k / n)) as [c|] eqn:Ec; [|apply nth_error_None in Ec; lia]. destruct (M _ _ Ec) as (m & lk' & s0 & n' & d & Hl' & -> & Em). rewrite Hl in Hl'. injection Hl' as <-.
      destruct (r_links _ _ a H i lk n l true _ j Ax Hl) as (_ & [Z|(lk2 & d2 & E2 & _)]); [congruence|]. rewrite Em in E2. injection E2 as -> -> -> <-.
      assert (Cj : cells A a j = Some [(j, O)]) by (unfold cells; rewrite Em; reflexivity).
      assert (Eg : astep a (Get A j (Z.of_nat (Z.to_nat k mod n))) = Some (a, AVal A (elem A a [(j, O)] n (Z.to_nat (Z.of_nat (Z.to_nat k mod n)))))).
      { cbn -[Z.to_nat]. unfold with1, with_cells, guard. rewrite Em, Cj. unfold size. cbn [strides stride_len]. destruct (Z.leb_spec 0 (Z.of_nat (Z.to_nat k mod n))); [|lia]. destruct (Z.ltb_spec (Z.of_nat (Z.to_nat k mod n)) (Z.of_nat (1 * n))); [reflexivity|lia]. }
      destruct (set_get s a a' i j k _ v r _ H Es Eg) as (x & y & ci' & cj & Ax' & Ay & Ci' & Cj' & _ & _ & E). rewrite Ax in Ax'. injection Ax' as <-. rewrite Em in Ay. injection Ay as <-. rewrite Ci in Ci'. injection Ci' as <-. rewrite Cj in Cj'. injection Cj' as <-. rewrite E. do 3 f_equal. cbv zeta. cbn [stride_len].
      rewrite Nat2Z.id. rewrite (nth_error_nth _ _ (O, O) Ec). rewrite Nat.div_small, Nat.mod_small by lia. cbn [nth fst snd]. rewrite !Nat.eqb_refl. reflexivity.
    Qed.
  End Run.
  Lemma reach (junk : nat -> Z -> A) (add mul : A -> A -> A) l (a : abs) rs : arun A add mul [] l = Some (a, rs) -> exists s, Rs (A := A) s a.
  Proof. intros E. destruct (run_good junk add mul l (start A) [] a rs (start_R) E) as (s & _ & _ & H & _). eauto. Qed.
End P.
