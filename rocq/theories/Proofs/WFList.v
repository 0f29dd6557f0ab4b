(** Proofs about the list of wave functions (C98). *)
From Coq Require Import Ascii String List NArith ZArith Lia Bool Arith Sorted.
From Verif Require Import Base Arrays Model.Collector Spec.Collector Proofs.Collector Model.Registry Proofs.Registry Model.WFList Spec.WFList.
Import ListNotations.
Open Scope Z_scope.

(** * counting entries *)
Definition cnt (m : list (str * (nat * bool))) (p : nat) : nat := length (filter (fun ke => Nat.eqb (fst (snd ke)) p) m).
Definition one (b : bool) : nat := if b then 1%nat else 0%nat.
Lemma cnt_cons k e m p : cnt ((k, e) :: m) p = (one (Nat.eqb (fst e) p) + cnt m p)%nat.
Proof. unfold cnt. cbn. destruct (Nat.eqb (fst e) p); reflexivity. Qed.
Lemma cnt_app a b p : cnt (a ++ b) p = (cnt a p + cnt b p)%nat.
Proof. unfold cnt. rewrite filter_app, app_length. reflexivity. Qed.
Lemma cnt_in m k p b : In (k, (p, b)) m -> (0 < cnt m p)%nat.
Proof. intros I. apply in_split in I. destruct I as (a & c & ->). rewrite cnt_app, cnt_cons. cbn. rewrite Nat.eqb_refl. cbn. lia. Qed.
Lemma cnt_pos m p : (0 < cnt m p)%nat -> exists k b, In (k, (p, b)) m.
Proof.
  unfold cnt. intros H. destruct (filter _ m) as [|[k [q b]] t] eqn:E; [cbn in H; lia|]. assert (I : In (k, (q, b)) (filter (fun ke => Nat.eqb (fst (snd ke)) p) m)) by (rewrite E; left; reflexivity).
  apply filter_In in I. destruct I as [I Q]. apply Nat.eqb_eq in Q. cbn in Q. subst. eauto.
Qed.
Lemma mget_above {V} (m : list (str * V)) k a b : sorted ((a, b) :: m) -> scmp k a = Lt -> mget scmp m k = None.
Proof.
  intros S L. apply (mget_none _ scmp_eq). intros I. inversion S as [|x y _ F]; subst. rewrite Forall_forall in F. specialize (F k I). unfold slt in F.
  rewrite (scmp_sym k a), L in F. discriminate F.
Qed.
Lemma cnt_set m k e q : sorted m ->
  (cnt (mset scmp m k e) q + match mget scmp m k with Some e' => one (Nat.eqb (fst e') q) | None => 0 end = cnt m q + one (Nat.eqb (fst e) q))%nat.
Proof.
  induction m as [|[a b] t IH]; intros S; [cbn [mset mget]; rewrite cnt_cons; lia|]. cbn [mset mget]. destruct (scmp k a) eqn:E.
  - rewrite !cnt_cons. lia.
  - rewrite (mget_above t k a b S E). rewrite !cnt_cons. lia.
  - rewrite !cnt_cons. inversion S as [|x y S' F]; subst. specialize (IH S'). lia.
Qed.

(** * the collector *)
Lemma reg_look c p : cinv c -> p <> 0%nat -> cinv (register c p) /\ forall q, look (register c p) q = look c q + Z.of_nat (one (Nat.eqb p q)).
Proof.
  intros I N. destruct (step_spec c (Reg p) (fun q => Z.to_nat (look c q)) I) as (A & B & _).
  { intros q. rewrite Z2Nat.id; [reflexivity|apply look_nonneg; exact I]. }
  split; [exact A|]. intros q. change (register c p) with (fst (cstep c (Reg p))). rewrite B. cbn [refs_step]. pose proof (look_nonneg c q I). apply Nat.eqb_neq in N. rewrite N. destruct (Nat.eqb p q); cbn; lia.
Qed.
Lemma del_look c p : cinv c -> p <> 0%nat -> 0 < look c p -> cinv (fst (delete c p)) /\ (forall q, look (fst (delete c p)) q = look c q - Z.of_nat (one (Nat.eqb p q))) /\
  (snd (delete c p) = [] <-> 1 < look c p).
Proof.
  intros I N P. destruct (step_spec c (Del p) (fun q => Z.to_nat (look c q)) I) as (A & B & _ & D).
  { intros q. rewrite Z2Nat.id; [reflexivity|apply look_nonneg; exact I]. }
  change (cstep c (Del p)) with (delete c p) in *. split; [exact A|]. split.
  - intros q. rewrite B. cbn [refs_step]. pose proof (look_nonneg c q I). destruct (Nat.eqb_spec p q) as [->|]; cbn; lia.
  - split; intros H.
    + destruct (Z.eq_dec (look c p) 1) as [E|E]; [|lia]. assert (X : In p (snd (delete c p))) by (apply D; split; [reflexivity|rewrite E; reflexivity]). rewrite H in X. destruct X.
    + destruct (snd (delete c p)) as [|x l] eqn:E; [reflexivity|]. destruct (proj1 (D x) (or_introl eq_refl)) as [<- Y]. lia.
Qed.

Lemma wl_key_inj n1 n2 k1 k2 : 0 <= k1 -> 0 <= k2 -> wl_key n1 k1 = wl_key n2 k2 -> k1 = k2.
Proof. intros A B E. apply (anon_inj (fun o => match o with O => n1 | _ => n2 end) 0 1 k1 k2 A B). exact E. Qed.

Section Proofs.
  Context {V : Type}.
  Notation wl := (wl V).

  Record base (s : wl) : Prop := {
    b_sorted : sorted (l_store s);
    b_coll : cinv (l_coll s);
    b_alive : forall p, alive s p <-> 0 < look (l_coll s) p;
    b_next : forall p, (l_next s <= p)%nat -> look (l_coll s) p = 0;
    b_pos : (0 < l_next s)%nat;
    b_null : look (l_coll s) 0 = 0 }.
  Definition counts (s : wl) (own leak : nat -> nat) : Prop := forall p, look (l_coll s) p = Z.of_nat (own p + cnt (l_store s) p + leak p).
  (** contents only change by destruction *)
  Definition keeps (s s' : wl) : Prop := forall p, alive s' p -> l_val s' p = l_val s p.

  Ltac bs B := first [exact (b_sorted _ B)|exact (b_coll _ B)|exact (b_alive _ B)|exact (b_next _ B)|exact (b_pos _ B)|exact (b_null _ B)].
  Lemma alive_null s : base s -> ~ alive s 0.
  Proof. intros B A. apply (b_alive s B) in A. rewrite (b_null s B) in A. lia. Qed.
  Lemma drop_ok s p : base s -> 0 < look (l_coll s) p -> exists s', wl_drop s p = Ok s' /\ base s' /\ l_store s' = l_store s /\ l_anon s' = l_anon s /\ l_next s' = l_next s /\
    (forall q, look (l_coll s') q = look (l_coll s) q - Z.of_nat (one (Nat.eqb p q))) /\ keeps s s'.
  Proof.
    intros B P. assert (N : p <> 0%nat) by (intros ->; rewrite (b_null s B) in P; lia). destruct (del_look (l_coll s) p (b_coll s B) N P) as (C & L & D).
    unfold wl_drop. destruct (delete (l_coll s) p) as [c d]. cbn [fst snd] in C, L, D. destruct d as [|x d].
    - eexists. split; [reflexivity|]. split; [|cbn; repeat split; try reflexivity; exact L]. constructor; cbn; try bs B; try assumption.
      + intros q. change (alive s q <-> 0 < look c q). rewrite L, (b_alive s B q). destruct (Nat.eqb_spec p q) as [<-|]; cbn; [|lia]. assert (1 < look (l_coll s) p) by (apply D; reflexivity). lia.
      + intros q Q. rewrite L, (b_next s B q Q). destruct (Nat.eqb_spec p q) as [<-|]; [|reflexivity]. rewrite (b_next s B p Q) in P. lia.
      + rewrite L, (b_null s B). apply Nat.eqb_neq in N. rewrite N. reflexivity.
    - assert (E : look (l_coll s) p = 1). { destruct (Z_lt_dec 1 (look (l_coll s) p)) as [X|X]; [apply D in X; discriminate X|lia]. }
      pose proof (proj2 (b_alive s B p) P) as A. unfold alive in A. destruct (l_val s p) as [v|] eqn:Ev; [|contradiction]. eexists. split; [reflexivity|].
      split; [|cbn; repeat split; try reflexivity; [exact L|]].
      + constructor; cbn; try bs B; try assumption.
        * intros q. rewrite L. unfold alive. cbn. rewrite (Nat.eqb_sym p q). destruct (Nat.eqb_spec q p) as [->|Q]; cbn.
          -- split; [congruence|lia].
          -- pose proof (b_alive s B q) as W. unfold alive in W. rewrite Z.sub_0_r. exact W.
        * intros q Q. rewrite L, (b_next s B q Q). destruct (Nat.eqb_spec p q) as [<-|]; [|reflexivity]. rewrite (b_next s B p Q) in P. lia.
        * rewrite L, (b_null s B). apply Nat.eqb_neq in N. rewrite N. reflexivity.
      + intros q. unfold alive. cbn. destruct (Nat.eqb q p); [congruence|reflexivity].
  Qed.
  Lemma hold_ok s p : base s -> alive s p -> base (wl_hold s p) /\ (forall q, look (l_coll (wl_hold s p)) q = look (l_coll s) q + Z.of_nat (one (Nat.eqb p q))).
  Proof.
    intros B A. assert (N : p <> 0%nat) by (intros ->; exact (alive_null s B A)). destruct (reg_look (l_coll s) p (b_coll s B) N) as [C L]. split; [|exact L].
    pose proof (proj1 (b_alive s B p) A) as P. constructor; cbn; try bs B; try assumption.
    - intros q. change (alive s q <-> 0 < look (register (l_coll s) p) q). rewrite L. rewrite (b_alive s B q). destruct (Nat.eqb_spec p q) as [<-|]; cbn; lia.
    - intros q Q. rewrite L, (b_next s B q Q). destruct (Nat.eqb_spec p q) as [<-|]; [|reflexivity]. rewrite (b_next s B p Q) in P. lia.
    - rewrite L, (b_null s B). apply Nat.eqb_neq in N. rewrite N. reflexivity.
  Qed.
  Lemma put_ok s key p b : base s -> base (wl_put s key p b).
  Proof. intros B. constructor; cbn; try bs B. apply mset_sorted. bs B. Qed.
  Lemma make_ok s v : base s -> base (snd (wl_make s v)) /\ (forall q, look (l_coll (snd (wl_make s v))) q = look (l_coll s) q + Z.of_nat (one (Nat.eqb (l_next s) q))) /\ ~ alive s (l_next s).
  Proof.
    intros B. pose proof (b_pos s B) as P. destruct (reg_look (l_coll s) (l_next s) (b_coll s B)) as [C L]; [lia|]. pose proof (b_next s B (l_next s) (le_n _)) as Z0. split; [|split; [exact L|intros A; apply (b_alive s B) in A; lia]].
    constructor; cbn; try bs B; try assumption; try lia.
    - intros q. rewrite L. unfold alive. cbn. rewrite (Nat.eqb_sym (l_next s) q). destruct (Nat.eqb_spec q (l_next s)) as [->|Q]; cbn.
      + split; [lia|discriminate].
      + pose proof (b_alive s B q) as W. unfold alive in W. rewrite Z.add_0_r. exact W.
    - intros q Q. rewrite L, (b_next s B q) by lia. destruct (Nat.eqb_spec (l_next s) q); [lia|reflexivity].
    - rewrite L, (b_null s B). destruct (Nat.eqb_spec (l_next s) 0); [lia|reflexivity].
  Qed.

  (** * clearing *)
  Definition lasting (ke : str * (nat * bool)) : bool := snd (snd ke).
  Lemma split_at {A} (l1 l2 : list A) x : firstn (length l1) (l1 ++ x :: l2) = l1 /\ skipn (S (length l1)) (l1 ++ x :: l2) = l2.
  Proof.
    split; [rewrite firstn_app, firstn_all, Nat.sub_diag; cbn [firstn]; apply app_nil_r|].
    rewrite skipn_app, skipn_all2 by lia. replace (S (length l1) - length l1)%nat with 1%nat by lia. reflexivity.
  Qed.
  Lemma sorted_cut {W} (a b : list (str * W)) x : sorted (a ++ x :: b) -> sorted (a ++ b).
  Proof.
    unfold sorted, keys. rewrite !map_app. cbn [map]. induction (map fst a) as [|y l IH]; cbn; intros H; inversion H as [|u v S F]; subst; [exact S|]. constructor; [apply IH; exact S|].
    rewrite Forall_forall in F |- *. intros z Z. apply F. apply in_app_iff in Z. apply in_app_iff. destruct Z; [left; assumption|right; right; assumption].
  Qed.
  Lemma clear_run own leak f : forall pos s r, (forall i ke, (i < pos)%nat -> nth_error (l_store s) i = Some ke -> lasting ke = true) -> base s -> counts s own leak ->
    wl_clear f pos s = Some r -> exists s', r = Ok s' /\ base s' /\ counts s' own leak /\ l_store s' = filter lasting (l_store s) /\ l_anon s' = l_anon s /\ l_next s' = l_next s /\ keeps s s'.
  Proof.
    induction f as [|f IH]; intros pos s r P B C E; [discriminate E|]. cbn [wl_clear] in E. destruct (nth_error (l_store s) pos) as [[k [p b]]|] eqn:N.
    - destruct b.
      + apply (IH (S pos) s r); try assumption. intros i ke Hi Hn. destruct (Nat.eq_dec i pos) as [->|]; [rewrite N in Hn; injection Hn as <-; reflexivity|apply (P i); [lia|exact Hn]].
      + apply nth_error_split in N. destruct N as (l1 & l2 & Es & <-). assert (Q : 0 < look (l_coll s) p) by (rewrite C, Es, cnt_app, cnt_cons; cbn; rewrite Nat.eqb_refl; cbn; lia).
        destruct (drop_ok s p B Q) as (s1 & E1 & B1 & S1 & A1 & N1 & L1 & K1). rewrite E1 in E. rewrite S1, Es in E. destruct (split_at l1 l2 (k, (p, false))) as [F G]. rewrite F, G in E. clear F G.
        apply IH in E.
        * destruct E as (s' & -> & B' & C' & S' & A' & N' & K'). cbn in S', A', N'. exists s'. split; [reflexivity|]. split; [exact B'|]. split; [exact C'|]. split; [|split; [congruence|split; [congruence|]]].
          -- rewrite S', Es, !filter_app. reflexivity.
          -- intros q Aq. rewrite (K' q Aq). cbn. apply K1. pose proof (K' q Aq) as X. cbn in X. unfold alive in *. congruence.
        * intros i ke Hi. exfalso. lia.
        * constructor; cbn; try bs B1. pose proof (b_sorted s B) as X. rewrite Es in X. exact (sorted_cut _ _ _ X).
        * intros q. cbn [l_coll l_store]. rewrite L1, C, Es, !cnt_app, cnt_cons. cbn [fst]. lia.
    - injection E as <-. exists s. split; [reflexivity|]. split; [exact B|]. split; [exact C|]. split; [|repeat split]. symmetry. apply filter_all. intros i ke Hn. apply (P i); [|exact Hn].
      apply nth_error_None in N. assert (i < length (l_store s))%nat by (apply nth_error_Some; congruence). lia.
  Qed.
  Definition gone (m : list (str * (nat * bool))) : nat := length (filter (fun ke => negb (lasting ke)) m).
  Lemma clear_stops f : forall pos (s : wl), (gone (l_store s) * (length (l_store s) + 2) + (length (l_store s) - pos) < f)%nat -> exists r, wl_clear f pos s = Some r.
  Proof.
    induction f as [|f IH]; intros pos s H; [lia|]. cbn [wl_clear]. destruct (nth_error (l_store s) pos) as [[k [p b]]|] eqn:N; [|eexists; reflexivity].
    assert (Hp : (pos < length (l_store s))%nat) by (apply nth_error_Some; congruence). destruct b; [apply IH; lia|].
    destruct (wl_drop s p) as [s1| |] eqn:D; [|eexists; reflexivity|eexists; reflexivity]. assert (S1 : l_store s1 = l_store s).
    { unfold wl_drop in D. destruct (delete (l_coll s) p) as [c [|x d]]; [injection D as <-; reflexivity|]. destruct (l_val s p); [injection D as <-; reflexivity|discriminate D]. }
    apply IH. cbn [l_store]. rewrite S1. apply nth_error_split in N. destruct N as (l1 & l2 & Es & <-). rewrite Es in H |- *. destruct (split_at l1 l2 (k, (p, false))) as [F G]. rewrite F, G.
    unfold gone in *. rewrite !filter_app, !app_length in *. cbn [filter lasting snd negb] in H. cbn [length] in *. nia.
  Qed.

  Variable nm : V -> str.
  (** * adding *)
  Lemma add_ok s own leak key p b : base s -> counts s own leak -> (0 < own p)%nat ->
    (wl_add nm s key p b = Throw /\ mget scmp (l_store s) key <> None) \/
    exists s' key', wl_add nm s key p b = Ok s' /\ mget scmp (l_store s) key = None /\ base s' /\ l_store s' = mset scmp (l_store s) key' (p, b) /\ l_val s' = l_val s /\ l_next s' = l_next s /\
      ((no_key key = false /\ key' = key /\ l_anon s' = l_anon s) \/ (no_key key = true /\ (exists n, key' = wl_key n (l_anon s)) /\ l_anon s' = l_anon s + 1)) /\
      exists leak', counts s' own leak' /\ (mget scmp (l_store s) key' = None -> forall q, leak' q = leak q).
  Proof.
    intros B C O. assert (P : 0 < look (l_coll s) p) by (rewrite C; lia). pose proof (proj2 (b_alive s B p) P) as A. unfold wl_add. destruct (mget scmp (l_store s) key) as [e|] eqn:G; [left; split; [reflexivity|discriminate]|]. right.
    assert (N : p <> 0%nat) by (intros ->; exact (alive_null s B A)). rewrite (proj2 (Nat.eqb_neq p 0) N).
    assert (K : forall k' a, exists leak', counts (wl_put (wl_hold (mkWL (l_store s) a (l_coll s) (l_val s) (l_next s)) p) k' p b) own leak' /\ (mget scmp (l_store s) k' = None -> forall q, leak' q = leak q)).
    { intros k' a. destruct (hold_ok s p B A) as [_ L]. exists (fun q => leak q + match mget scmp (l_store s) k' with Some e' => one (Nat.eqb (fst e') q) | None => 0 end)%nat. split.
      - intros q. unfold wl_put, wl_hold. cbn [l_coll l_store l_anon l_val l_next]. change (register (l_coll s) p) with (l_coll (wl_hold s p)). rewrite L, C. pose proof (cnt_set (l_store s) k' (p, b) q (b_sorted s B)) as X. cbn [fst] in X. lia.
      - intros -> q. lia. }
    destruct (no_key key) eqn:Nk.
    - pose proof A as A'. unfold alive in A'. destruct (l_val s p) as [v|] eqn:Ev; [|contradiction]. eexists. exists (wl_key (nm v) (l_anon s)). split; [reflexivity|]. split; [reflexivity|]. split.
      { apply put_ok. apply (hold_ok (mkWL (l_store s) (l_anon s + 1) (l_coll s) (l_val s) (l_next s)) p); [constructor; cbn; bs B|exact A]. }
      split; [reflexivity|]. split; [reflexivity|]. split; [reflexivity|]. split; [right; split; [reflexivity|split; [eexists; reflexivity|reflexivity]]|]. apply (K _ (l_anon s + 1)).
    - eexists. exists key. split; [reflexivity|]. split; [reflexivity|]. split; [apply put_ok; apply (hold_ok s p B A)|]. split; [reflexivity|]. split; [reflexivity|]. split; [reflexivity|]. split; [left; repeat split|].
      destruct s as [st an co va ne]. apply (K key an).
  Qed.
  (** * replacing *)
  Lemma set_ok s own leak key p e : base s -> counts s own leak -> (0 < own p)%nat -> mget scmp (l_store s) key = Some e ->
    exists s', wl_set nm s key p = Ok s' /\ base s' /\ l_store s' = mset scmp (l_store s) key (p, snd e) /\ l_anon s' = l_anon s /\ l_next s' = l_next s /\ counts s' own leak /\ keeps s s'.
  Proof.
    intros B C O G. unfold wl_set. rewrite G. assert (P : 0 < look (l_coll s) (fst e)).
    { rewrite C. apply mget_in in G. destruct e as [q b]. apply cnt_in in G. cbn [fst]. lia. }
    destruct (drop_ok s (fst e) B P) as (s1 & E1 & B1 & S1 & A1 & N1 & L1 & K1). rewrite E1. cbn [bind]. assert (A : alive s1 p).
    { apply (b_alive s1 B1). rewrite L1, C. destruct (Nat.eqb_spec (fst e) p) as [Ep|]; cbn; [|lia]. apply mget_in in G. destruct e as [q b]. apply cnt_in in G. cbn [fst] in *. subst q. lia. }
    destruct (hold_ok s1 p B1 A) as [B2 L2]. eexists. split; [reflexivity|]. split; [apply put_ok; exact B2|]. cbn. rewrite S1. split; [reflexivity|]. split; [exact A1|]. split; [exact N1|]. split; [|exact K1].
    intros q. change (l_coll (wl_put (wl_hold s1 p) key p (snd e))) with (l_coll (wl_hold s1 p)). rewrite L2, L1, C. change (l_store (wl_put (wl_hold s1 p) key p (snd e))) with (mset scmp (l_store s1) key (p, snd e)). rewrite S1.
    pose proof (cnt_set (l_store s) key (p, snd e) q (b_sorted s B)) as X. rewrite G in X. cbn [fst] in X. lia.
  Qed.
  (** * histories *)
  Definition numbered (s : wl) : Prop := 0 <= l_anon s /\ forall key t, In key (keys (l_store s)) -> key = (prefix ++ t)%list -> exists n k, key = wl_key n k /\ 0 <= k < l_anon s.
  Lemma numbered_free s n : numbered s -> mget scmp (l_store s) (wl_key n (l_anon s)) = None.
  Proof.
    intros [P N]. apply (mget_none _ scmp_eq). intros I. destruct (N _ _ I eq_refl) as (n' & k & E & K). apply wl_key_inj in E; lia.
  Qed.
  Lemma numbered_set s st key e a : numbered s -> l_store st = mset scmp (l_store s) key e -> l_anon st = a -> l_anon s <= a -> (unlike key \/ exists n k, key = wl_key n k /\ 0 <= k < a) -> numbered st.
  Proof.
    intros [P N] S A L K. split; [lia|]. intros key' t I E. rewrite S in I. apply (keys_mset_in _ scmp_eq) in I. rewrite A. destruct I as [->|I].
    - destruct K as [K|K]; [destruct (K t E)|exact K].
    - destruct (N key' t I E) as (n & k & X & Y). exists n, k. split; [exact X|lia].
  Qed.
  Lemma history_inv plain s own : history nm held plain s own -> base s /\ exists leak, counts s own leak /\ ((forall k, plain k -> unlike k) -> numbered s /\ forall p, leak p = 0%nat).
  Proof.
    intros H. induction H as [|s own v H [B (leak & C & T)]|s own p s' H [B (leak & C & T)] O E|s own key p b s' H [B (leak & C & T)] O Pl E|s own key p s' H [B (leak & C & T)] O Pl E|s own key p s' H [B (leak & C & T)] E|s own f s' H [B (leak & C & T)] E].
    - split; [constructor; cbn; try reflexivity; try lia; [constructor|split; [constructor|intros e []]|intros p; unfold alive; cbn; split; [congruence|intros X; unfold look in X; cbn in X; lia]]|].
      exists (fun _ => 0%nat). split; [intros p; reflexivity|]. intros _. split; [split; [cbn; lia|intros key t []]|reflexivity].
    - destruct (make_ok s v B) as (B' & L & _). split; [exact B'|]. exists leak. split; [|exact T]. intros q. rewrite L, C. cbn [wl_make fst snd l_store]. unfold more. rewrite (Nat.eqb_sym q). destruct (Nat.eqb (l_next s) q); cbn; lia.
    - assert (P : 0 < look (l_coll s) p) by (rewrite C; lia). destruct (drop_ok s p B P) as (s1 & E1 & B1 & S1 & A1 & N1 & L1 & K1). rewrite E in E1. injection E1 as <-. split; [exact B1|]. exists leak. split.
      + intros q. rewrite L1, C, S1. unfold less. rewrite (Nat.eqb_sym q). destruct (Nat.eqb_spec p q) as [<-|]; cbn; lia.
      + intros U. destruct (T U) as [N Z0]. split; [|exact Z0]. destruct N as [N0 N]. split; [congruence|]. rewrite S1, A1. exact N.
    - destruct (add_ok s own leak key p b B C O) as [[X _]|(s1 & key' & E1 & G & B1 & S1 & V1 & N1 & K & leak' & C1 & L1)]; [congruence|]. rewrite E in E1. injection E1 as <-. split; [exact B1|]. exists leak'. split; [exact C1|].
      intros U. destruct (T U) as [N Z0]. assert (M : mget scmp (l_store s) key' = None). { destruct K as [(_ & -> & _)|(_ & (n & ->) & _)]; [exact G|apply numbered_free; exact N]. }
      split; [|intros q; rewrite (L1 M); apply Z0]. destruct K as [(_ & -> & A)|(_ & (n & ->) & A)].
      + apply (numbered_set s s' key (p, b) _ N S1 A (Z.le_refl _)). left. apply U. exact Pl.
      + apply (numbered_set s s' _ (p, b) _ N S1 A); [lia|]. right. exists n, (l_anon s). split; [reflexivity|destruct N; lia].
    - destruct (mget scmp (l_store s) key) as [e|] eqn:G.
      + destruct (set_ok s own leak key p e B C O G) as (s1 & E1 & B1 & S1 & A1 & N1 & C1 & _). rewrite E in E1. injection E1 as <-. split; [exact B1|]. exists leak. split; [exact C1|]. intros U. destruct (T U) as [N Z0]. split; [|exact Z0].
        apply (numbered_set s s' key (p, snd e) _ N S1 A1 (Z.le_refl _)). left. apply U. exact Pl.
      + unfold wl_set in E. rewrite G in E. destruct (add_ok s own leak key p true B C O) as [[X _]|(s1 & key' & E1 & _ & B1 & S1 & V1 & N1 & K & leak' & C1 & L1)]; [congruence|]. rewrite E in E1. injection E1 as <-. split; [exact B1|]. exists leak'. split; [exact C1|].
        intros U. destruct (T U) as [N Z0]. assert (M : mget scmp (l_store s) key' = None). { destruct K as [(_ & -> & _)|(_ & (n & ->) & _)]; [exact G|apply numbered_free; exact N]. }
        split; [|intros q; rewrite (L1 M); apply Z0]. destruct K as [(_ & -> & A)|(_ & (n & ->) & A)].
        * apply (numbered_set s s' key (p, true) _ N S1 A (Z.le_refl _)). left. apply U. exact Pl.
        * apply (numbered_set s s' _ (p, true) _ N S1 A); [lia|]. right. exists n, (l_anon s). split; [reflexivity|destruct N; lia].
    - unfold wl_copy in E. destruct (wl_get s key) as [q| |]; try discriminate E. cbn [bind] in E. destruct (l_val s q) as [v|]; [|discriminate E]. injection E as <- <-. destruct (make_ok s v B) as (B' & L & _). split; [exact B'|]. exists leak. split; [|exact T].
      intros q'. change (l_coll (mkWL _ _ ?c _ _)) with c. pose proof (L q') as L'. cbn in L'. rewrite L', C. cbn [l_store]. unfold more. rewrite (Nat.eqb_sym q'). destruct (Nat.eqb (l_next s) q'); cbn; lia.
    - destruct (clear_run own leak f 0 s (Ok s') (fun i ke Hi => match Nat.nlt_0_r i Hi with end) B C E) as (s1 & [= <-] & B1 & C1 & S1 & A1 & N1 & _). split; [exact B1|]. exists leak. split; [exact C1|]. intros U. destruct (T U) as [[N0 N] Z0]. split; [|exact Z0].
      split; [lia|]. intros k t I Ek. rewrite A1. apply (N k t); [|exact Ek]. rewrite S1 in I. unfold keys in *. apply in_map_iff in I. destruct I as (x & X & I). apply filter_In in I. apply in_map_iff. exists x. split; [exact X|apply I].
  Qed.
End Proofs.

Section Laws.
  Context {V : Type} (nm : V -> str).
  Notation wl := (wl V).
  Lemma stored_in (s : wl) key p b : stored s key p b -> (0 < cnt (l_store s) p)%nat.
  Proof. intros H. apply mget_in in H. exact (cnt_in _ _ _ _ H). Qed.
  Lemma in_stored (s : wl) p : sorted (l_store s) -> (0 < cnt (l_store s) p)%nat -> exists key b, stored s key p b.
  Proof. intros S H. apply cnt_pos in H. destruct H as (k & b & I). exists k, b. apply (in_mget _ scmp_eq); [apply sorted_nodup; exact S|exact I]. Qed.
  Lemma referred_alive (s : wl) own leak p : base s -> counts s own leak -> referred s own p -> alive s p.
  Proof. intros B C [H|(key & b & H)]; apply (b_alive s B); rewrite C; [lia|]. apply stored_in in H. lia. Qed.
  Lemma alive_referred (s : wl) own leak p : base s -> counts s own leak -> (forall q, leak q = 0%nat) -> alive s p -> referred s own p.
  Proof.
    intros B C L A. apply (b_alive s B) in A. rewrite C, L in A. destruct (own p) as [|n] eqn:E; [|left; lia]. right. apply in_stored; [apply B|lia].
  Qed.
  Lemma safe s own : history nm held any s own ->
    (forall p, referred s own p -> alive s p) /\
    (forall key p b, (0 < own p)%nat -> wl_add nm s key p b <> UB) /\ (forall key p, (0 < own p)%nat -> wl_set nm s key p <> UB) /\
    (forall key, wl_copy s key <> UB) /\ (forall p, (0 < own p)%nat -> wl_drop s p <> UB) /\ (forall f, wl_clear f 0 s <> Some UB).
  Proof.
    intros H. apply history_inv in H. destruct H as [B (leak & C & _)]. split; [|split; [|split; [|split; [|split]]]].
    - intros p. exact (referred_alive s own leak p B C).
    - intros key p b O. destruct (add_ok nm s own leak key p b B C O) as [[X _]|(s' & k & X & _)]; rewrite X; discriminate.
    - intros key p O. destruct (mget scmp (l_store s) key) as [e|] eqn:G.
      + destruct (set_ok nm s own leak key p e B C O G) as (s' & X & _). rewrite X. discriminate.
      + unfold wl_set. rewrite G. destruct (add_ok nm s own leak key p true B C O) as [[X _]|(s' & k & X & _)]; rewrite X; discriminate.
    - intros key. unfold wl_copy, wl_get. destruct (mget scmp (l_store s) key) as [[p b]|] eqn:G; [|discriminate]. cbn [bind fst].
      assert (A : alive s p) by (apply (referred_alive s own leak p B C); right; exists key, b; exact G). unfold alive in A. destruct (l_val s p); [discriminate|contradiction].
    - intros p O. destruct (drop_ok s p B) as (s' & X & _); [rewrite C; lia|]. rewrite X. discriminate.
    - intros f E. destruct (clear_run own leak f 0 s UB (fun i ke Hi => match Nat.nlt_0_r i Hi with end) B C E) as (s' & X & _). discriminate X.
  Qed.
  Lemma no_leak s own : history nm held unlike s own -> forall p, alive s p <-> referred s own p.
  Proof.
    intros H p. apply history_inv in H. destruct H as [B (leak & C & T)]. destruct (T (fun k U => U)) as [_ Z0]. split; [exact (alive_referred s own leak p B C Z0)|exact (referred_alive s own leak p B C)].
  Qed.
  Lemma add_named s key p b s' : no_key key = false -> wl_add nm s key p b = Ok s' -> stored s' key p b /\ (forall k, k <> key -> wl_get s' k = wl_get s k) /\ l_val s' = l_val s.
  Proof.
    intros N E. unfold wl_add in E. destruct (mget scmp (l_store s) key) eqn:G; [discriminate E|]. destruct (Nat.eqb p 0); [discriminate E|]. rewrite N in E. injection E as <-. split; [apply mget_set_same|].
    split; [|reflexivity]. intros k K. unfold wl_get. cbn [l_store wl_put wl_hold]. rewrite mget_set_other by exact K. reflexivity.
  Qed.
  Lemma set_named s key p s' : no_key key = false -> wl_set nm s key p = Ok s' ->
    stored s' key p (match mget scmp (l_store s) key with Some e => snd e | None => true end) /\ (forall k, k <> key -> wl_get s' k = wl_get s k).
  Proof.
    intros N E. unfold wl_set in E. destruct (mget scmp (l_store s) key) as [e|] eqn:G.
    - destruct (wl_drop s (fst e)) as [s1| |] eqn:D; try discriminate E. cbn [bind] in E. injection E as <-. assert (S1 : l_store s1 = l_store s).
      { unfold wl_drop in D. destruct (delete (l_coll s) (fst e)) as [c [|x d]]; [injection D as <-; reflexivity|]. destruct (l_val s (fst e)); [injection D as <-; reflexivity|discriminate D]. }
      split; [apply mget_set_same|]. intros k K. unfold wl_get. cbn [l_store wl_put wl_hold]. rewrite mget_set_other by exact K. rewrite S1. reflexivity.
    - destruct (add_named s key p true s' N E) as (A & B & _). split; assumption.
  Qed.
  Lemma add_unnamed s own p b s' : history nm held unlike s own -> (0 < own p)%nat -> wl_add nm s [] p b = Ok s' ->
    (forall k e, mget scmp (l_store s) k = Some e -> mget scmp (l_store s') k = Some e) /\ (exists k, mget scmp (l_store s) k = None /\ stored s' k p b).
  Proof.
    intros H O E. apply history_inv in H. destruct H as [B (leak & C & T)]. destruct (T (fun k U => U)) as [N _].
    destruct (add_ok nm s own leak [] p b B C O) as [[X _]|(s1 & key' & E1 & G & B1 & S1 & V1 & N1 & K & _)]; [congruence|]. rewrite E in E1. injection E1 as <-.
    destruct K as [(X & _)|(_ & (n & ->) & _)]; [discriminate X|]. pose proof (numbered_free s n N) as F. split.
    - intros k e Hk. rewrite S1, mget_set_other; [exact Hk|]. intros ->. congruence.
    - exists (wl_key n (l_anon s)). split; [exact F|]. unfold stored. rewrite S1. apply mget_set_same.
  Qed.
  Lemma add_refused s key p b : wl_add nm s key p b = Throw <-> mget scmp (l_store s) key <> None \/ p = 0%nat.
  Proof.
    unfold wl_add. destruct (mget scmp (l_store s) key) eqn:G; [split; [left; discriminate|reflexivity]|]. destruct (Nat.eqb_spec p 0) as [->|N].
    - split; [right; reflexivity|reflexivity].
    - split; [|intros [X|X]; congruence]. destruct (no_key key); [destruct (l_val s p)|]; discriminate.
  Qed.
  Lemma clear_law s own f s' : history nm held any s own -> wl_clear f 0 s = Some (Ok s') ->
    (forall key p b, stored s' key p b <-> stored s key p b /\ b = true) /\ (forall p, alive s' p -> l_val s' p = l_val s p).
  Proof.
    intros H E. apply history_inv in H. destruct H as [B (leak & C & _)]. destruct (clear_run own leak f 0 s (Ok s') (fun i ke Hi => match Nat.nlt_0_r i Hi with end) B C E) as (s1 & [= <-] & B1 & C1 & S1 & _ & _ & K).
    split; [|exact K]. intros key p b. unfold stored. rewrite S1, mget_filter by (apply sorted_nodup; apply B). unfold lasting. destruct (mget scmp (l_store s) key) as [[q c]|]; [|split; [discriminate|intros [X _]; discriminate X]].
    cbn. destruct c; split.
    - intros [= <- <-]. split; reflexivity.
    - intros [[= <- <-] _]. reflexivity.
    - discriminate.
    - intros [[= <- <-] X]. discriminate X.
  Qed.
  Lemma clear_free s own f s' : history nm held unlike s own -> wl_clear f 0 s = Some (Ok s') -> forall p, alive s' p <-> (0 < own p)%nat \/ exists key, stored s key p true.
  Proof.
    intros H E p. pose proof (h_clear nm held unlike s own f s' H E) as H'. rewrite (no_leak s' own H' p). unfold referred.
    assert (Ha : history nm held any s own) by (clear - H; induction H; [apply h_start|apply h_make; assumption|eapply h_drop; eassumption|eapply h_add; try eassumption; exact I|eapply h_set; try eassumption; exact I|eapply h_copy; eassumption|eapply h_clear; eassumption]).
    destruct (clear_law s own f s' Ha E) as [L _]. split; (intros [X|X]; [left; exact X|right]).
    - destruct X as (key & b & X). apply L in X. destruct X as [X ->]. exists key. exact X.
    - destruct X as (key & X). exists key, true. apply L. split; [exact X|reflexivity].
  Qed.
  Lemma clear_ends s own : history nm held any s own -> exists f s', wl_clear f 0 s = Some (Ok s').
  Proof.
    intros H. destruct (clear_stops (S (gone (l_store s) * (length (l_store s) + 2) + (length (l_store s) - 0))) 0 s) as [r E]; [lia|]. apply history_inv in H. destruct H as [B (leak & C & _)].
    destruct (clear_run own leak _ 0 s r (fun i ke Hi => match Nat.nlt_0_r i Hi with end) B C E) as (s' & -> & _). eexists. eexists. exact E.
  Qed.
  Lemma copy_law s own key p s' : history nm held any s own -> wl_copy s key = Ok (p, s') ->
    exists q, wl_get s key = Ok q /\ ~ alive s p /\ l_val s' p = l_val s q /\ l_val s q <> None /\ (forall r, r <> p -> l_val s' r = l_val s r) /\ l_store s' = l_store s.
  Proof.
    intros H E. apply history_inv in H. destruct H as [B _]. unfold wl_copy in E. destruct (wl_get s key) as [q| |]; try discriminate E. cbn [bind] in E. destruct (l_val s q) as [v|] eqn:Ev; [|discriminate E]. injection E as <- <-.
    exists q. split; [reflexivity|]. split; [apply (make_ok s v B)|]. cbn. rewrite Nat.eqb_refl. split; [congruence|]. split; [congruence|]. split; [|reflexivity]. intros r R. apply Nat.eqb_neq in R. rewrite R. reflexivity.
  Qed.
End Laws.
