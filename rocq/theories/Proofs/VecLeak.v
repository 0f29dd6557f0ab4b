(** Lemmas on the vector class: the pointer arrays. *)
From Coq Require Import List ZArith Lia Bool Arith.
From Verif Require Import Base Arrays Model.Vec Spec.Vec Proofs.Vec.
Import ListNotations.
Open Scope Z_scope.

Section P.
  Context {A : Type}.
  Notation st := (st A).
  Definition plain (x : option vec) : Prop := match x with Some v => v_ref v = false | None => True end.
  Definition Inv (s : st) : Prop := Forall plain (s_vecs A s) /\ s_arrays A s = living (s_vecs A s).

  Lemma bindE {B C} (x : outcome B) (f : B -> outcome C) y : bind x f = Ok y -> exists z, x = Ok z /\ f z = Ok y.
  Proof. destruct x; cbn; try discriminate. eauto. Qed.
  Lemma living_app {B} (l l' : list (option B)) : living (l ++ l') = living l + living l'.
  Proof. unfold living. rewrite filter_app, app_length. lia. Qed.
  Lemma living_put {B} (l : list (option B)) i x y : nth_error l i = Some (Some x) -> living (upd l i (Some y)) = living l.
  Proof. revert i; induction l as [|z l IH]; intros [|i] E; cbn in *; try discriminate; [injection E as ->; reflexivity|]. specialize (IH i E). unfold living in *. cbn. destruct z; cbn; lia. Qed.
  Lemma living_drop {B} (l : list (option B)) i x : nth_error l i = Some (Some x) -> living (upd l i None) = living l - 1.
  Proof. revert i; induction l as [|z l IH]; intros [|i] E; cbn in *; try discriminate; [injection E as ->; unfold living; cbn [filter length]; lia|]. specialize (IH i E). unfold living in *. cbn [filter upd]. destruct z; cbn [length]; lia. Qed.
  Lemma Forall_upd {B} (P : B -> Prop) l i x : Forall P l -> P x -> Forall P (upd l i x).
  Proof. revert i; induction l as [|z l IH]; intros [|i] H Hx; cbn; inversion H; subst; auto. Qed.
  Lemma objE (s : st) i v : obj A s i = Ok v -> nth_error (s_vecs A s) i = Some (Some v).
  Proof. unfold obj. destruct (nth_error (s_vecs A s) i) as [[x|]|]; congruence. Qed.
  Lemma obj_plain (s : st) i v : Inv s -> obj A s i = Ok v -> v_ref v = false.
  Proof. intros [H _] E. apply objE, nth_error_In in E. rewrite Forall_forall in H. exact (H _ E). Qed.
  (** a living object is changed in place *)
  Lemma put_inv (s : st) i v v' h : Inv s -> obj A s i = Ok v -> v_ref v' = v_ref v -> Inv (put A (with_heap A s h) i v').
  Proof. intros H E Er. pose proof (obj_plain s i v H E) as Ep. destruct H as [H1 H2]. split; cbn; [apply Forall_upd; [exact H1|cbn; congruence]|rewrite (living_put _ i v) by (apply objE; exact E); exact H2]. Qed.
  Lemma heap_inv (s : st) h : Inv s -> Inv (with_heap A s h).
  Proof. intros H; exact H. Qed.
  Lemma init_inv junk (s s1 : st) N k v : initialize A junk s N k = Ok (s1, v) -> s_vecs A s1 = s_vecs A s /\ s_arrays A s1 = s_arrays A s + 1 /\ v_ref v = false.
  Proof. unfold initialize. destruct (k =? 0); [discriminate|]. destruct (k <? 0); [discriminate|]. cbv zeta. destruct (Z.quot N k <? 0); [discriminate|]. destruct (storage _ _ _ _ _) as [h ps]. intros E. injection E as <- <-. auto. Qed.
  Lemma destroy_inv (s s1 : st) v : destroy A s v = Ok s1 -> s_vecs A s1 = s_vecs A s /\ s_arrays A s1 = s_arrays A s - 1.
  Proof. unfold destroy. intros E. apply bindE in E. destruct E as (h & _ & E). injection E as <-. auto. Qed.
  (** the storage of a living object is replaced *)
  Lemma renew_inv junk (s s1 s2 : st) i v N k v' h : Inv s -> obj A s i = Ok v -> (if v_ref v then Ok s else destroy A s v) = Ok s1 -> initialize A junk s1 N k = Ok (s2, v') -> Inv (put A (with_heap A s2 h) i v').
  Proof.
    intros H E Ed Ei. rewrite (obj_plain s i v H E) in Ed. destruct (destroy_inv _ _ _ Ed) as [V1 A1]. destruct (init_inv _ _ _ _ _ _ Ei) as (V2 & A2 & P2). destruct H as [H1 H2]. split; cbn.
    - apply Forall_upd; [rewrite V2, V1; exact H1|exact P2].
    - rewrite V2, V1, A2, A1, (living_put _ i v) by (apply objE; exact E). lia.
  Qed.
  Lemma foldM_keep {B S} (f : S -> B -> outcome S) (P : S -> Prop) l : (forall x y s, f s x = Ok y -> P s -> P y) -> forall s s', foldM f l s = Ok s' -> P s -> P s'.
  Proof. intros Hf. induction l as [|x l IH]; intros s s' E H; cbn in E; [injection E as <-; exact H|]. apply bindE in E. destruct E as (z & E1 & E2). eauto. Qed.
  Lemma set_inv (s s' : st) i k x : Inv s -> Vec.set A s i k x = Ok s' -> Inv s'.
  Proof. intros H E. unfold Vec.set in E. apply bindE in E. destruct E as (v & E1 & E). apply bindE in E. destruct E as ((p & m) & E2 & E). apply bindE in E. destruct E as (h & E3 & E). injection E as <-. exact H. Qed.
  Lemma retire_inv f : forall (s s' : st) i, retire A f s i = Ok s' -> Inv s -> Inv s'.
  Proof.
    induction f as [|f IH]; intros s s' i E; cbn [retire] in E; [discriminate|]. apply bindE in E. destruct E as (v & Ev & E). destruct (v_lock v); [injection E as <-; auto|]. revert E. apply foldM_keep. clear - IH. intros k y s E H.
    apply bindE in E. destruct E as (v & E1 & E). apply bindE in E. destruct E as (o & E2 & E). apply bindE in E. destruct E as (s1 & E3 & E). apply bindE in E. destruct E as (v1 & E4 & E). apply bindE in E. destruct E as (ps & E5 & E). injection E as <-.
    assert (H1 : Inv s1). { destruct o as [m|]; [eapply IH; eassumption|]. apply bindE in E3. destruct E3 as (p & _ & E3). apply bindE in E3. destruct E3 as (h & _ & E3). injection E3 as <-. exact H. }
    replace s1 with (with_heap A s1 (s_heap A s1)) at 1 by (destruct s1; reflexivity). eapply put_inv; [exact H1|exact E4|reflexivity].
  Qed.
  Lemma reaquire_inv junk f : forall (s s' : st) i, reaquire A junk f s i = Ok s' -> Inv s -> Inv s'.
  Proof.
    induction f as [|f IH]; intros s s' i E; cbn [reaquire] in E; [discriminate|]. apply bindE in E. destruct E as (v & Ev & E). destruct (v_lock v); [injection E as <-; auto|]. revert E. apply foldM_keep. clear - IH. intros k y s E H.
    apply bindE in E. destruct E as (v & E1 & E). apply bindE in E. destruct E as (p & E2 & E). destruct p; [injection E as <-; exact H|]. apply bindE in E. destruct E as (o & E3 & E). apply bindE in E. destruct E as ((s1 & p1) & E4 & E). apply bindE in E. destruct E as (v1 & E5 & E). apply bindE in E. destruct E as (ps & E6 & E). injection E as <-.
    assert (H1 : Inv s1). { destruct o as [m|]; [|unfold alloc in E4; injection E4 as <- _; exact H]. apply bindE in E4. destruct E4 as (s2 & E4 & E7). apply bindE in E7. destruct E7 as (w & _ & E7). apply bindE in E7. destruct E7 as (src & _ & E7). apply bindE in E7. destruct E7 as (q & _ & E7). injection E7 as <- _. eapply IH; eassumption. }
    replace s1 with (with_heap A s1 (s_heap A s1)) at 1 by (destruct s1; reflexivity). eapply put_inv; [exact H1|exact E5|reflexivity].
  Qed.
  Lemma same_heap (s : st) : s = with_heap A s (s_heap A s).
  Proof. destruct s; reflexivity. Qed.
  Lemma step_inv junk add mul (s s' : st) o r : no_ref o -> Inv s -> step A junk add mul s o = Ok (s', r) -> Inv s'.
  Proof.
    intros No H E. destruct o; cbn [step quiet answer no_ref] in *; try contradiction; unfold quiet, answer in E; apply bindE in E; destruct E as (s1 & E & Er); try (match type of s1 with (_ * bool)%type => destruct s1 as [s1 b1] end); injection Er as <- _.
    - unfold create in E. apply bindE in E. destruct E as ((s2 & v) & E & E2). injection E2 as <-. destruct (init_inv _ _ _ _ _ _ E) as (V & Ar & P). destruct H as [H1 H2]. split; cbn; rewrite V; [apply Forall_app; split; [exact H1|constructor; [exact P|constructor]]|]. rewrite living_app, Ar, H2. reflexivity.
    - unfold clone in E. apply bindE in E. destruct E as (w & _ & E). apply bindE in E. destruct E as ((s2 & v) & E & E2). apply bindE in E2. destruct E2 as (h & _ & E2). injection E2 as <-. destruct (init_inv _ _ _ _ _ _ E) as (V & Ar & P). destruct H as [H1 H2].
      split; cbn; rewrite V; [apply Forall_app; split; [exact H1|constructor; [exact P|constructor]]|]. rewrite living_app, Ar, H2. reflexivity.
    - unfold remove in E. apply bindE in E. destruct E as (v & Ev & E). apply bindE in E. destruct E as (s2 & Ed & E). injection E as <-. destruct (destroy_inv _ _ _ Ed) as [V Ar]. destruct H as [H1 H2]. split; cbn; rewrite V; [apply Forall_upd; [exact H1|exact I]|].
      rewrite (living_drop _ i v) by (apply objE; exact Ev). lia.
    - unfold newsize1 in E. apply bindE in E. destruct E as (v & Ev & E). destruct (v_n v =? N); [injection E as <-; exact H|]. apply bindE in E. destruct E as (s2 & E1 & E). apply bindE in E. destruct E as ((s3 & v') & E2 & E). injection E as <-. rewrite (same_heap s3). eapply renew_inv; eassumption.
    - unfold newsize in E. apply bindE in E. destruct E as (v & Ev & E). destruct (_ && _); [injection E as <-; exact H|]. apply bindE in E. destruct E as (s2 & E1 & E). apply bindE in E. destruct E as ((s3 & v') & E2 & E). injection E as <-. rewrite (same_heap s3). eapply renew_inv; [exact H|exact Ev| |exact E2]. rewrite (obj_plain s i v H Ev). exact E1.
    - unfold assign in E. apply bindE in E. destruct E as (v & Ev & E). apply bindE in E. destruct E as (w & Ew & E). destruct (i =? j)%nat; [injection E as <-; exact H|]. destruct (_ && _); apply bindE in E; destruct E as (s2 & E1 & E); [injection E as <-; exact H|].
      apply bindE in E. destruct E as ((s3 & v') & E2 & E). apply bindE in E. destruct E as (h & E3 & E). injection E as <-. eapply renew_inv; eassumption.
    - unfold fast_copy in E. apply bindE in E. destruct E as (v & Ev & E). apply bindE in E. destruct E as (w & Ew & E). cbv zeta in E. destruct (_ && _); apply bindE in E; destruct E as (s2 & E1 & E); [injection E as <-; exact H|].
      apply bindE in E. destruct E as ((s3 & v') & E2 & E). apply bindE in E. destruct E as (h & E3 & E). injection E as <-. eapply renew_inv; eassumption.
    - unfold swap in E. apply bindE in E. destruct E as (v & Ev & E). apply bindE in E. destruct E as (w & Ew & E). destruct (negb _); [injection E as <- _; exact H|]. destruct (Nat.eqb_spec i j) as [|Nij]; [injection E as <- _; exact H|]. apply bindE in E. destruct E as ((pv & pw) & _ & E). injection E as <- _.
      match goal with |- Inv (put A (put A s i ?x) j ?y) => set (X := x); set (Y := y) end. rewrite (same_heap (put A s i X)). eapply (put_inv _ j w); [|unfold obj; cbn; rewrite upd_nth; destruct (Nat.eqb_spec j i); [congruence|]; rewrite (objE _ _ _ Ew); reflexivity|reflexivity].
      rewrite (same_heap s). eapply put_inv; [exact H|exact Ev|reflexivity].
    - unfold stride_copy in E. apply bindE in E. destruct E as (v & Ev & E). apply bindE in E. destruct E as (w & Ew & E). destruct (_ || _); [injection E as <- _; exact H|]. apply bindE in E. destruct E as (h & _ & E). injection E as <- _. exact H.
    - unfold copy_sub in E. apply bindE in E. destruct E as (v & Ev & E). apply bindE in E. destruct E as (w & Ew & E). destruct (i =? j)%nat; [injection E as <-; exact H|]. cbv zeta in E. destruct (_ <? _); [injection E as <-; exact H|]. destruct (_ && _); apply bindE in E; destruct E as (s2 & E1 & E); [injection E as <-; exact H|].
      apply bindE in E. destruct E as ((s3 & v') & E2 & E). apply bindE in E. destruct E as (h & E3 & E). injection E as <-. eapply renew_inv; eassumption.
    - unfold fill in E. apply bindE in E. destruct E as (v & Ev & E). apply bindE in E. destruct E as (h & _ & E). injection E as <-. exact H.
    - unfold scale in E. apply bindE in E. destruct E as (v & Ev & E). apply bindE in E. destruct E as (h & _ & E). injection E as <-. exact H.
    - unfold add_to in E. apply bindE in E. destruct E as (v & Ev & E). apply bindE in E. destruct E as (w & Ew & E). revert E H. apply foldM_keep. intros k y s2 E H2. apply bindE in E. destruct E as (y1 & _ & E). apply bindE in E. destruct E as (x1 & _ & E). eapply set_inv; eassumption.
    - exact H.
    - eapply set_inv; eassumption.
    - eapply retire_inv; eassumption.
    - eapply reaquire_inv; eassumption.
    - unfold lock in E. apply bindE in E. destruct E as (v & Ev & E). injection E as <-. rewrite (same_heap s). eapply put_inv; [exact H|exact Ev|reflexivity].
    - unfold downsize in E. apply bindE in E. destruct E as (v & Ev & E). destruct (N <=? v_n v); injection E as <-; [|exact H]. rewrite (same_heap s). eapply put_inv; [exact H|exact Ev|reflexivity].
  Qed.
  Lemma run_inv junk add mul l : forall (s s' : st) rs, Forall no_ref l -> Inv s -> run A junk add mul s l = Ok (s', rs) -> Inv s'.
  Proof.
    induction l as [|o l IH]; intros s s' rs F H E; cbn [run] in E; [injection E as <- _; exact H|]. apply bindE in E. destruct E as ((s1 & r) & E1 & E). apply bindE in E. destruct E as ((s2 & rs2) & E2 & E). injection E as <- _. inversion F; subst. eapply IH; [assumption| |exact E2]. eapply step_inv; eassumption.
  Qed.
  Lemma start_inv : Inv (start A).
  Proof. split; [constructor|reflexivity]. Qed.
End P.
