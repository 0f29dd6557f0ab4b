From Coq Require Import Ascii String List NArith ZArith Lia Bool Arith.
From Verif Require Import Base Model.Params Model.Getopt Spec.Params Proofs.Params Spec.Getopt.
Import ListNotations.

Lemma acmp_refl c : acmp c c = Eq. Proof. apply acmp_eq; reflexivity. Qed.
Lemma mget_set (m : list (ascii * str)) k v k' :
  mget acmp (mset acmp m k v) k' = if ascii_dec k' k then Some v else mget acmp m k'.
Proof.
  rewrite (mget_mset acmp acmp_eq). destruct (ascii_dec k' k) as [->|H]; [rewrite acmp_refl; reflexivity|].
  destruct (acmp k' k) eqn:E; try reflexivity. apply acmp_eq in E. contradiction.
Qed.
Lemma mget_touch m k k' :
  mget acmp (touch m k) k' = if ascii_dec k' k then Some (getd m k) else mget acmp m k'.
Proof.
  unfold touch, getd. destruct (mget acmp m k) eqn:E.
  - destruct (ascii_dec k' k) as [->|]; [assumption|reflexivity].
  - rewrite mget_set. reflexivity.
Qed.
Lemma getd_touch m k k' : getd (touch m k) k' = getd m k'.
Proof. unfold getd at 1. rewrite mget_touch. destruct (ascii_dec k' k) as [->|]; reflexivity. Qed.

(** the tables other than value_map never change *)
Definition same_tables (g g' : gopt) : Prop :=
  helps g' = helps g /\ pars g' = pars g /\ reqs g' = reqs g /\ defs g' = defs g /\ argv g' = argv g /\ optind g' = optind g.
Lemma same_refl g : same_tables g g. Proof. repeat split. Qed.
Lemma same_trans a b c : same_tables a b -> same_tables b c -> same_tables a c.
Proof. unfold same_tables; intuition congruence. Qed.
Lemma same_with g v : same_tables g (with_values g v). Proof. repeat split. Qed.

Lemma same_checked g g' c : same_tables g g' -> checked g' c <-> checked g c.
Proof. intros (A & B & C & D & _). unfold checked. rewrite A, B, C, D. reflexivity. Qed.
Lemma same_flag g g' c : same_tables g g' -> flag_with_default g' c <-> flag_with_default g c.
Proof. intros (A & B & C & D & _). unfold flag_with_default. rewrite A, B, D. reflexivity. Qed.

Record check_eff (g : gopt) (l : list ascii) (g' : gopt) : Prop := {
  ce_same : same_tables g g';
  ce_keep : forall c, present g c = true -> present g' c = true;
  ce_new : forall c, present g' c = true -> present g c = true \/
      (In c l /\ ((getd (pars g) c <> [] /\ getb (reqs g) c = true) \/ (getd (pars g) c = [] /\ getd (defs g) c <> [])));
  ce_val : forall c, ~ (In c l /\ getd (pars g) c = [] /\ getd (defs g) c <> []) -> getd (values g') c = getd (values g) c }.

Lemma present_with g v c : present (with_values g v) c = match mget acmp v c with Some _ => true | None => false end.
Proof. reflexivity. Qed.

Lemma check_loop_eff l : forall g, check_eff g l (fst (check_loop g l)).
Proof.
  induction l as [|c t IH]; intros g; cbn [check_loop].
  - constructor; auto using same_refl.
  - destruct (match getd (pars g) c with [] => false | _ => getb (reqs g) c end) eqn:E1.
    + assert (P : getd (pars g) c <> [] /\ getb (reqs g) c = true).
      { destruct (getd (pars g) c); [discriminate|]. split; [discriminate|assumption]. }
      set (g1 := with_values g (touch (values g) c)).
      assert (K : forall x, present g x = true -> present g1 x = true).
      { intros x Hx. unfold g1. rewrite present_with, mget_touch. destruct (ascii_dec x c); [reflexivity|exact Hx]. }
      assert (N : forall x, present g1 x = true -> present g x = true \/ x = c).
      { intros x Hx. unfold g1 in Hx. rewrite present_with, mget_touch in Hx.
        destruct (ascii_dec x c); [right; assumption|left; exact Hx]. }
      assert (Gd : forall x, getd (values g1) x = getd (values g) x) by (intros x; apply getd_touch).
      destruct (getd (values g1) c) eqn:E2.
      * cbn [fst]. constructor; [apply same_with|exact K| |].
        -- intros x Hx. destruct (N x Hx) as [H| ->]; [left; exact H|]. right. split; [left; reflexivity|left; exact P].
        -- intros x _. apply Gd.
      * specialize (IH g1). destruct IH as [S Kk Nn V]. constructor.
        -- exact (same_trans _ _ _ (same_with g _) S).
        -- intros x Hx. apply Kk, K, Hx.
        -- intros x Hx. destruct (Nn x Hx) as [H|[H1 H2]].
           ++ destruct (N x H) as [H'| ->]; [left; exact H'|]. right. split; [left; reflexivity|left; exact P].
           ++ right. split; [right; exact H1|exact H2].
        -- intros x Hx. rewrite V; [apply Gd|]. intros [H1 H2]. apply Hx. split; [right; exact H1|exact H2].
    + assert (Skip : check_eff g (c :: t) (fst (check_loop g t))).
      { destruct (IH g) as [S K N V]. constructor; auto.
        - intros x Hx. destruct (N x Hx) as [H|[H1 H2]]; [left; exact H|right; split; [right; exact H1|exact H2]].
        - intros x Hx. apply V. intros [H1 H2]. apply Hx. split; [right; exact H1|exact H2]. }
      destruct (getd (pars g) c) eqn:E3; [|exact Skip]. destruct (getd (defs g) c) eqn:E4; [exact Skip|].
      set (g1 := with_values g _). destruct (IH g1) as [S K N V]. constructor.
      * exact (same_trans _ _ _ (same_with g _) S).
      * intros x Hx. apply K. unfold g1. rewrite present_with, mget_set. destruct (ascii_dec x c); [reflexivity|exact Hx].
      * intros x Hx. destruct (N x Hx) as [H|[H1 H2]].
        -- unfold g1 in H. rewrite present_with, mget_set in H. destruct (ascii_dec x c) as [->|]; [|left; exact H].
           right. split; [left; reflexivity|]. right. rewrite E3, E4. split; [reflexivity|discriminate].
        -- right. split; [right; exact H1|exact H2].
      * intros x Hx. rewrite V.
        -- unfold g1, getd. cbn [values with_values]. rewrite mget_set. destruct (ascii_dec x c) as [->|]; [|reflexivity].
           exfalso. apply Hx. rewrite E3, E4. repeat split; [left; reflexivity|discriminate].
        -- intros [H1 H2]. apply Hx. split; [right; exact H1|exact H2].
Qed.

Lemma check_eff_all g : check_eff g (map fst (helps g)) (fst (check_options g)).
Proof.
  unfold check_options. destruct (present g "h"%char); [|apply check_loop_eff].
  constructor; auto using same_refl.
Qed.

Lemma get_string_eff g c : let g' := fst (get_string g c) in
  same_tables g g' /\ (forall x, present g' x = if ascii_dec x c then true else present g x) /\
  (forall x, getd (values g') x = getd (values g) x) /\
  snd (get_string g c) = match getd (values g) c with [] => getd (defs g) c | v => v end.
Proof.
  cbn [fst snd get_string]. split; [apply same_with|]. split; [|split].
  - intros x. rewrite present_with, mget_touch. destruct (ascii_dec x c); reflexivity.
  - intros x. apply getd_touch.
  - cbn [with_values values]. rewrite getd_touch. reflexivity.
Qed.

Lemma fst_char g c : fst (get_char g c) = fst (get_string g c). Proof. reflexivity. Qed.
Lemma fst_int g c o : fst (get_int_opt g c o) = fst (get_string g c). Proof. reflexivity. Qed.

Definition read_dec (q : query) (c : ascii) : bool :=
  match q with QString x | QChar x | QInt x _ => Ascii.eqb x c | _ => false end.
Lemma read_dec_ok q c : read_dec q c = true <-> reads q c.
Proof.
  unfold reads. destruct q; cbn; try rewrite Ascii.eqb_eq; split; intros H;
    repeat match goal with H : _ \/ _ |- _ => destruct H | H : exists _, _ |- _ => destruct H end; subst; try discriminate;
    try congruence; eauto.
Qed.

(** effect of one query *)
Lemma qstep_eff g q : let g' := qstep g q in
  same_tables g g' /\
  (forall c, present g c = true -> present g' c = true) /\
  (forall c, reads q c -> present g' c = true) /\
  (forall c, present g' c = true -> present g c = true \/ reads q c \/ (q = QCheck /\ checked g c)) /\
  (forall c, ~ (q = QCheck /\ flag_with_default g c) -> getd (values g') c = getd (values g) c).
Proof.
  assert (R : forall a, let g' := fst (get_string g a) in
    same_tables g g' /\ (forall c, present g c = true -> present g' c = true) /\
    (present g' a = true) /\ (forall c, present g' c = true -> present g c = true \/ c = a) /\
    (forall c, getd (values g') c = getd (values g) c)).
  { intros a. destruct (get_string_eff g a) as (A & B & C & _). cbv zeta. split; [exact A|]. split; [|split; [|split; [|exact C]]].
    - intros c H. rewrite B. destruct (ascii_dec c a); auto.
    - rewrite B. destruct (ascii_dec a a); congruence.
    - intros c. rewrite B. destruct (ascii_dec c a); auto. }
  destruct q as [c|c|c|c o|]; cbn [qstep].
  - split; [apply same_refl|]. split; [auto|]. split; [|auto].
    intros x Hx. apply read_dec_ok in Hx. discriminate.
  - destruct (R c) as (A & B & C & D & E). repeat (split; [assumption|]). split; [|split; [|auto]].
    + intros x Hx. apply read_dec_ok in Hx. cbn in Hx. apply Ascii.eqb_eq in Hx; subst. exact C.
    + intros x Hx. destruct (D x Hx) as [H| ->]; [auto|]. right; left. unfold reads; auto.
  - rewrite fst_char. destruct (R c) as (A & B & C & D & E). repeat (split; [assumption|]). split; [|split; [|auto]].
    + intros x Hx. apply read_dec_ok in Hx. cbn in Hx. apply Ascii.eqb_eq in Hx; subst. exact C.
    + intros x Hx. destruct (D x Hx) as [H| ->]; [auto|]. right; left. unfold reads; auto.
  - rewrite fst_int. destruct (R c) as (A & B & C & D & E). repeat (split; [assumption|]). split; [|split; [|auto]].
    + intros x Hx. apply read_dec_ok in Hx. cbn in Hx. apply Ascii.eqb_eq in Hx; subst. exact C.
    + intros x Hx. destruct (D x Hx) as [H| ->]; [auto|]. right; left. unfold reads; eauto.
  - destruct (check_eff_all g) as [S K N V]. split; [exact S|]. split; [exact K|]. split; [|split].
    + intros x Hx. apply read_dec_ok in Hx. discriminate.
    + intros x Hx. destruct (N x Hx) as [H|H]; auto.
    + intros x Hx. apply V. intros H. apply Hx. split; [reflexivity|exact H].
Qed.

Lemma qrun_eff qs : forall g, let g' := qrun g qs in
  same_tables g g' /\
  (forall c, present g c = true -> present g' c = true) /\
  (forall c q, In q qs -> reads q c -> present g' c = true) /\
  (forall c, present g' c = true -> present g c = true \/ (exists q, In q qs /\ reads q c) \/ (In QCheck qs /\ checked g c)) /\
  (forall c, ~ (In QCheck qs /\ flag_with_default g c) -> getd (values g') c = getd (values g) c).
Proof.
  induction qs as [|q qs IH]; intros g.
  - cbn. split; [apply same_refl|]. repeat split; auto.
  - change (qrun g (q :: qs)) with (qrun (qstep g q) qs). destruct (qstep_eff g q) as (S & K & R & N & V).
    destruct (IH (qstep g q)) as (S' & K' & R' & N' & V'). cbv zeta. split; [|split; [|split; [|split]]].
    + exact (same_trans _ _ _ S S').
    + auto.
    + intros c q' [<-|Hi] Hr; [apply K', R; exact Hr|exact (R' c q' Hi Hr)].
    + intros c H. destruct (N' c H) as [H1|[(q' & H1 & H2)|[H1 H2]]].
      * destruct (N c H1) as [H2|[H2|[-> H2]]]; [auto|right; left; exists q; cbn; auto|right; right; cbn; auto].
      * right; left; exists q'; cbn; auto.
      * right; right. split; [right; exact H1|]. apply (same_checked _ _ c S). exact H2.
    + intros c H. rewrite V'.
      * apply V. intros [-> H2]. apply H. cbn; auto.
      * intros [H1 H2]. apply H. split; [right; exact H1|]. apply (same_flag _ _ c S). exact H2.
Qed.

(** the value map after reading the arguments *)
Lemma given_dec opts c : {given opts c} + {~ given opts c}.
Proof.
  destruct (in_dec ascii_dec c (map fst opts)) as [H|H].
  - left. apply in_map_iff in H. destruct H as ([x v] & <- & H). exists v. exact H.
  - right. intros [v Hv]. apply H. apply in_map_iff. exists (c, v). auto.
Qed.

Lemma fold_get opts : forall m c,
  (forall v, last_value opts c v -> mget acmp (fold_left (fun m o => mset acmp m (fst o) (snd o)) opts m) c = Some v) /\
  (~ given opts c -> mget acmp (fold_left (fun m o => mset acmp m (fst o) (snd o)) opts m) c = mget acmp m c).
Proof.
  assert (A : forall opts m c, ~ given opts c -> mget acmp (fold_left (fun m o => mset acmp m (fst o) (snd o)) opts m) c = mget acmp m c).
  { clear. induction opts as [|[x v] t IH]; intros m c H; [reflexivity|]. cbn [fold_left fst snd]. rewrite IH.
    - rewrite mget_set. destruct (ascii_dec c x) as [->|]; [|reflexivity]. exfalso. apply H. exists v. left; reflexivity.
    - intros [w Hw]. apply H. exists w. right; exact Hw. }
  intros m c. split; [|apply A]. intros v H. inversion H as [a b c' v' Hn E1 E2 E3]; subst.
  rewrite fold_left_app. cbn [fold_left fst snd]. rewrite A by exact Hn. rewrite mget_set. destruct (ascii_dec c c); congruence.
Qed.

Lemma given_last opts c : given opts c -> exists v, last_value opts c v.
Proof.
  induction opts as [|[x w] t IH]; intros [v Hv]; [destruct Hv|].
  destruct (given_dec t c) as [H|H].
  - destruct (IH H) as [u Hu]. exists u. inversion Hu; subst. exact (lv_here ((x, w) :: a) b c u H0).
  - destruct Hv as [E|Hv]; [|exfalso; apply H; exists v; exact Hv]. injection E as -> ->.
    exists v. exact (lv_here [] t c v H).
Qed.
Lemma last_given opts c v : last_value opts c v -> given opts c.
Proof. intros H. inversion H; subst. exists v. apply in_app_iff. right; left; reflexivity. Qed.
Lemma last_fun opts c v w : last_value opts c v -> last_value opts c w -> v = w.
Proof. intros A B. pose proof (proj1 (fold_get opts [] c) v A). pose proof (proj1 (fold_get opts [] c) w B). congruence. Qed.

Lemma setup_values g : setup g -> values g = [].
Proof. induction 1; cbn; auto. Qed.

Lemma parsed_present g opts av oi c : setup g -> (present (parse_args g opts av oi) c = true <-> given opts c).
Proof.
  intros S. unfold present. cbn [parse_args values]. rewrite (setup_values g S).
  destruct (given_dec opts c) as [H|H].
  - destruct (given_last opts c H) as [v Hv]. rewrite (proj1 (fold_get opts [] c) v Hv). tauto.
  - rewrite (proj2 (fold_get opts [] c) H). cbn. split; [discriminate|tauto].
Qed.

Lemma parsed_text g opts av oi c : setup g ->
  (exists v, last_value opts c v /\ getd (values (parse_args g opts av oi)) c = v) \/
  (~ given opts c /\ getd (values (parse_args g opts av oi)) c = []).
Proof.
  intros S. unfold getd. cbn [parse_args values]. rewrite (setup_values g S). destruct (given_dec opts c) as [H|H].
  - destruct (given_last opts c H) as [v Hv]. left. exists v. rewrite (proj1 (fold_get opts [] c) v Hv). auto.
  - right. rewrite (proj2 (fold_get opts [] c) H). auto.
Qed.

Lemma presence g opts av oi qs c : setup g ->
  let g0 := parse_args g opts av oi in
  (given opts c -> present (qrun g0 qs) c = true) /\
  (present (qrun g0 qs) c = true -> given opts c \/ (exists q, In q qs /\ reads q c) \/ (In QCheck qs /\ checked g c)).
Proof.
  intros S g0. destruct (qrun_eff qs g0) as (Sm & K & R & N & V). split.
  - intros H. apply K. apply parsed_present; assumption.
  - intros H. destruct (N c H) as [H1|H1]; [left; apply (parsed_present g opts av oi c S); exact H1|right; exact H1].
Qed.

Lemma presence_reads g opts av oi qs c : setup g -> ~ In QCheck qs ->
  (present (qrun (parse_args g opts av oi) qs) c = true <-> given opts c \/ exists q, In q qs /\ reads q c).
Proof.
  intros S NC. split.
  - intros H. destruct (proj2 (presence g opts av oi qs c S) H) as [A|[A|[A _]]]; tauto.
  - intros [H|(q & A & B)]; [apply presence; assumption|].
    destruct (qrun_eff qs (parse_args g opts av oi)) as (_ & _ & R & _). exact (R c q A B).
Qed.

Lemma text_stable g opts av oi qs c : setup g -> ~ (In QCheck qs /\ flag_with_default g c) ->
  option_text g opts c (snd (get_string (qrun (parse_args g opts av oi) qs) c)).
Proof.
  intros S NF. destruct (qrun_eff qs (parse_args g opts av oi)) as ((_ & _ & _ & Dd & _) & _ & _ & _ & V).
  destruct (get_string_eff (qrun (parse_args g opts av oi) qs) c) as (_ & _ & _ & E). rewrite E, Dd, (V c NF).
  cbn [defs parse_args]. unfold option_text.
  destruct (parsed_text g opts av oi c S) as [(v & Hv & Ev)|[Hn Ev]]; rewrite Ev.
  - destruct v as [|a v].
    + right. auto.
    + left. exists (a :: v). repeat split; auto. discriminate.
  - right. auto.
Qed.

Lemma check_loop_ok l : forall g,
  snd (check_loop g l) = true <->
  forall c, In c l -> getd (pars g) c <> [] -> getb (reqs g) c = true -> getd (values g) c <> [].
Proof.
  induction l as [|c t IH]; intros g; cbn [check_loop]; [split; [intros _ c []|reflexivity]|].
  destruct (match getd (pars g) c with [] => false | _ => getb (reqs g) c end) eqn:E1.
  - assert (P : getd (pars g) c <> [] /\ getb (reqs g) c = true).
    { destruct (getd (pars g) c); [discriminate|]. split; [discriminate|assumption]. }
    cbn [with_values values]. rewrite getd_touch. destruct (getd (values g) c) eqn:E2.
    + cbn. split; [discriminate|]. intros H. exfalso. apply (H c); auto. tauto. tauto.
    + rewrite IH. cbn [with_values values pars reqs]. split.
      * intros H x [<-|Hx] A B; [rewrite E2; discriminate|]. specialize (H x Hx A B). rewrite getd_touch in H. exact H.
      * intros H x Hx A B. rewrite getd_touch. apply H; auto. right; assumption.
  - assert (Q : forall x, In x (c :: t) -> getd (pars g) x <> [] -> getb (reqs g) x = true -> In x t \/ x <> c).
    { intros x _ A B. right. intros ->. destruct (getd (pars g) c); [contradiction|congruence]. }
    assert (Skip : snd (check_loop g t) = true <->
        forall x, In x (c :: t) -> getd (pars g) x <> [] -> getb (reqs g) x = true -> getd (values g) x <> []).
    { rewrite IH. split; intros H x Hx A B.
      - destruct (Q x Hx A B) as [Ht|Hn]; [exact (H x Ht A B)|]. destruct Hx as [<-|Ht]; [contradiction|exact (H x Ht A B)].
      - apply H; auto. right; assumption. }
    destruct (getd (pars g) c) eqn:E3; [|exact Skip]. destruct (getd (defs g) c) eqn:E4; [exact Skip|].
    rewrite IH. cbn [with_values values pars reqs].
    assert (Gn : forall x, getd (pars g) x <> [] -> getd (mset acmp (values g) c (a :: s)) x = getd (values g) x).
    { intros x Hx. unfold getd at 1. rewrite mget_set. destruct (ascii_dec x c) as [->|]; [contradiction|reflexivity]. }
    split; intros H x Hx A B.
    + destruct (Q x Hx A B) as [Ht|Hn].
      * specialize (H x Ht A B). rewrite Gn in H by exact A. exact H.
      * destruct Hx as [<-|Ht]; [contradiction|]. specialize (H x Ht A B). rewrite Gn in H by exact A. exact H.
    + rewrite Gn by exact A. apply H; auto. right; assumption.
Qed.

Lemma check_answer g opts av oi qs : setup g ->
  (forall q, In q qs -> ~ reads q "h"%char) -> ~ checked g "h"%char ->
  (snd (check_options (qrun (parse_args g opts av oi) qs)) = true <-> acceptable g opts).
Proof.
  intros S NR NC. set (g0 := parse_args g opts av oi). destruct (qrun_eff qs g0) as ((Hh & Hp & Hr & Hd & _) & K & _ & N & V).
  assert (Ph : present (qrun g0 qs) "h"%char = true <-> given opts "h"%char).
  { split.
    - intros H. destruct (N _ H) as [H1|[(q & A & B)|[_ B]]].
      + apply (parsed_present g opts av oi _ S). exact H1.
      + exfalso. exact (NR q A B).
      + contradiction.
    - intros H. apply K. apply (parsed_present g opts av oi _ S). exact H. }
  unfold check_options, acceptable. destruct (present (qrun g0 qs) "h"%char) eqn:E.
  - cbn. split; [discriminate|]. intros [H _]. exfalso. apply H, Ph. reflexivity.
  - rewrite check_loop_ok, Hh, Hp, Hr. cbn [g0 parse_args helps pars reqs].
    assert (NG : ~ given opts "h"%char) by (intros H; apply Ph in H; discriminate).
    assert (Q : forall c, getd (pars g) c <> [] ->
       (getd (values (qrun g0 qs)) c <> [] <-> exists v, last_value opts c v /\ v <> [])).
    { intros c A. rewrite V.
      2:{ intros [_ (_ & B & _)]. exact (A B). }
      destruct (parsed_text g opts av oi c S) as [(v & Hv & Ev)|[Hn Ev]]; fold g0 in Ev; rewrite Ev.
      - split; [intros H; exists v; auto|]. intros (w & Hw & Hne). rewrite (last_fun _ _ _ _ Hv Hw). exact Hne.
      - split; [contradiction|]. intros (w & Hw & _). exfalso. apply Hn. exact (last_given _ _ _ Hw). }
    split.
    + intros H. split; [exact NG|]. intros c A B C. apply Q; auto.
    + intros [_ H] c A B C. apply Q; auto.
Qed.

(** non-option arguments *)
Lemma non_option_spec g i : non_option g i = nth_error (skipn (optind g) (argv g)) i.
Proof.
  unfold non_option. assert (S : forall (l : list str) n, nth_error (skipn n l) i = nth_error l (n + i)).
  { induction l as [|a l IH]; intros [|n]; cbn; try reflexivity; [destruct i; reflexivity|apply IH]. }
  rewrite S. destruct (optind g + i <? length (argv g)) eqn:E.
  - apply Nat.ltb_lt in E. symmetry. apply nth_error_nth'. exact E.
  - apply Nat.ltb_ge in E. symmetry. apply nth_error_None. exact E.
Qed.
Lemma non_option_buf_spec g i len : length (values g) + 1 = optind g ->
  non_option_buf g i len = Ok (option_map (firstn len) (nth_error (skipn (optind g) (argv g)) i)).
Proof.
  intros H. rewrite <- non_option_spec. unfold non_option_buf, non_option. rewrite H.
  destruct (optind g + i <? length (argv g)); reflexivity.
Qed.

(** * typed reads *)
Lemma get_char_text g c : exists s, snd (get_string g c) = s /\ snd (get_char g c) = match s with a :: _ => a | [] => nul end.
Proof. unfold get_char. destruct (get_string g c) as [g' s]. exists s. split; [reflexivity|]. destruct s; reflexivity. Qed.
Lemma get_int_text g c old : snd (get_int_opt g c old) = let* r := scan_int (snd (get_string g c)) in Ok (match r with Some z => z | None => old end).
Proof. unfold get_int_opt. destruct (get_string g c) as [g' s]. reflexivity. Qed.

Lemma typed_values g opts av oi qs c : setup g -> ~ (In QCheck qs /\ flag_with_default g c) ->
  let g0 := qrun (parse_args g opts av oi) qs in
  exists s, option_text g opts c s /\ (forall a t, s = a :: t -> snd (get_char g0 c) = a) /\ (s = [] -> snd (get_char g0 c) = "000"%char) /\
  forall old, (forall z, begins_with_int s z -> int32 z -> snd (get_int_opt g0 c old) = Ok z) /\
    (forall z, begins_with_int s z -> ~ int32 z -> snd (get_int_opt g0 c old) = UB) /\
    ((forall z, ~ begins_with_int s z) -> snd (get_int_opt g0 c old) = Ok old).
Proof.
  intros S NF g0. pose proof (text_stable g opts av oi qs c S NF) as H. fold g0 in H.
  destruct (get_char_text g0 c) as (s & E & F). rewrite E in H. exists s. split; [exact H|]. rewrite F.
  split; [intros a t ->; reflexivity|]. split; [intros ->; reflexivity|].
  intros old. rewrite get_int_text, E. repeat split.
  - intros z B I. apply in_int_iff in I. rewrite (scan_int_begins _ z B), I. reflexivity.
  - intros z B I. rewrite (scan_int_begins _ z B). destruct (in_int z) eqn:Q; [|reflexivity]. apply in_int_iff in Q. tauto.
  - intros N. destruct (scan_int_cases s) as [(z & B)|(Q & _)]; [destruct (N z B)|]. rewrite Q. reflexivity.
Qed.
