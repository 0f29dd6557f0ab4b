From Coq Require Import List ZArith Bool Arith Lia.
From Verif Require Import Base Model.Shared Spec.Shared.
Import ListNotations.
Open Scope Z_scope.
Open Scope list_scope.

Definition pending (t : thread) : list op := match at_ t with Stored _ | Released _ => tl (todo t) | _ => todo t end.
Definition got (t : thread) (x : Z) : Prop := In (Get, x) (results t) \/ (exists r, todo t = Get :: r /\ (at_ t = Stored x \/ at_ t = Released x)).

Definition inv (v0 : Z) (progs : list (list op)) (log : list (nat * op)) (s : state) : Prop :=
  value s = serial v0 log /\ length (threads s) = length progs /\ (forall e, In e log -> (fst e < length progs)%nat) /\
  forall i t, nth_error (threads s) i = Some t ->
    of_thread i log ++ pending t = nth i progs [] /\ (holds t = true -> lock s = Some i) /\ (forall x, at_ t = Loaded x -> x = value s) /\ (forall x, got t x -> held v0 log x).

Lemma nth_mid {A} (a : list A) x b : nth_error (a ++ x :: b) (length a) = Some x.
Proof. rewrite nth_error_app2 by lia. rewrite Nat.sub_diag. reflexivity. Qed.
Lemma nth_other {A} (a : list A) x y b i t : i <> length a -> nth_error (a ++ y :: b) i = Some t -> nth_error (a ++ x :: b) i = Some t.
Proof.
  intros N. destruct (Nat.lt_ge_cases i (length a)).
  - rewrite !nth_error_app1 by lia. exact (fun H => H).
  - rewrite !nth_error_app2 by lia. destruct (i - length a)%nat eqn:E; [lia|]. exact (fun H => H).
Qed.
Lemma effect_ok o x : effect o x = meaning o x.
Proof. destruct o; cbn; lia. Qed.
Lemma serial_snoc v log e : serial v (log ++ [e]) = effect (snd e) (serial v log).
Proof. rewrite effect_ok. unfold serial. rewrite fold_left_app. reflexivity. Qed.
Lemma thread_snoc i log j o : of_thread i (log ++ [(j, o)]) = of_thread i log ++ (if Nat.eqb j i then [o] else []).
Proof. unfold of_thread. rewrite filter_app, map_app. cbn. destruct (Nat.eqb j i); reflexivity. Qed.
Lemma held_more v log e x : held v log x -> held v (log ++ [e]) x.
Proof. intros (l1 & l2 & -> & H). exists l1, (l2 ++ [e]). rewrite app_assoc. split; [reflexivity|exact H]. Qed.
Lemma held_now v log : held v log (serial v log).
Proof. exists log, []. rewrite app_nil_r. split; reflexivity. Qed.

Lemma inv_step v0 progs log s s' : inv v0 progs log s -> step true s s' -> exists log', inv v0 progs log' s'.
Proof.
  intros (V & L & B & H) S. destruct S as [v l a o t r b F|v l a o t r b|v l a o t r b x|v l a o t r b x|v l a o t r b x]; cbn [value lock threads] in *.
  - specialize (F eq_refl). subst l. exists log. split; [exact V|]. split; [cbn [threads]; rewrite <- L, !app_length; reflexivity|]. split; [exact B|]. intros i u E. cbn [threads lock value] in *.
    destruct (Nat.eq_dec i (length a)) as [->|N].
    + rewrite nth_mid in E. injection E as <-. destruct (H _ _ (nth_mid a _ b)) as (P & _ & _ & G). split; [exact P|]. split; [reflexivity|]. split; [discriminate|].
      intros x [K|(q & _ & [K|K])]; [apply G; left; exact K|discriminate K..].
    + destruct (H i u (nth_other _ _ _ _ _ _ N E)) as (P & K & Q & G). split; [exact P|]. split; [|split; [exact Q|exact G]]. intros X. apply K in X. discriminate X.
  - exists log. split; [exact V|]. split; [cbn [threads]; rewrite <- L, !app_length; reflexivity|]. split; [exact B|]. intros i u E. cbn [threads lock value] in *.
    destruct (Nat.eq_dec i (length a)) as [->|N].
    + rewrite nth_mid in E. injection E as <-. destruct (H _ _ (nth_mid a _ b)) as (P & K & _ & G). split; [exact P|]. split; [intros _; apply K; reflexivity|]. split; [intros x [= <-]; reflexivity|].
      intros x [X|(q & _ & [X|X])]; [apply G; left; exact X|discriminate X..].
    + exact (H i u (nth_other _ _ _ _ _ _ N E)).
  - destruct (H _ _ (nth_mid a _ b)) as (P & K & Q & G). specialize (Q x eq_refl). specialize (K eq_refl). subst x l. cbn [pending at_ todo] in P.
    exists (log ++ [(length a, o)]). split; [cbn [value]; rewrite serial_snoc; cbn [snd]; rewrite <- V; destruct o; reflexivity|]. split; [cbn [threads]; rewrite <- L, !app_length; reflexivity|].
    split; [intros e X; apply in_app_or in X; destruct X as [X|[<-|[]]]; [apply B, X|cbn [fst]; rewrite <- L, app_length; cbn [length]; lia]|].
    intros i u E. cbn [threads lock value] in *. destruct (Nat.eq_dec i (length a)) as [->|N].
    + rewrite nth_mid in E. injection E as <-. rewrite thread_snoc, Nat.eqb_refl. split; [rewrite <- app_assoc; exact P|]. split; [reflexivity|]. split; [discriminate|].
      intros x [X|(q & T & [X|X])]; [apply held_more, G; left; exact X| |discriminate X]. cbn [at_] in X. injection X as <-. apply held_more. rewrite V. apply held_now.
    + destruct (H i u (nth_other _ _ _ _ _ _ N E)) as (P' & K' & Q' & G'). rewrite thread_snoc. destruct (Nat.eqb_spec (length a) i) as [X|_]; [elim N; symmetry; exact X|]. rewrite app_nil_r.
      split; [exact P'|]. split; [exact K'|]. split; [|intros x X; apply held_more, G', X]. intros x X. assert (Y : holds u = true) by (unfold holds; rewrite X; reflexivity). apply K' in Y. injection Y as Y. elim N. symmetry. exact Y.
  - destruct (H _ _ (nth_mid a _ b)) as (P & K & Q & G). specialize (K eq_refl). subst l. cbn [pending at_ todo] in P.
    exists log. split; [exact V|]. split; [cbn [threads]; rewrite <- L, !app_length; reflexivity|]. split; [exact B|]. intros i u E. cbn [threads lock value] in *. destruct (Nat.eq_dec i (length a)) as [->|N].
    + rewrite nth_mid in E. injection E as <-. split; [exact P|]. split; [discriminate|]. split; [discriminate|].
      intros y [X|(q & T & [X|X])]; [apply G; left; exact X|discriminate X|]. cbn [at_] in X. injection X as <-. apply G. right. exists q. split; [exact T|left; reflexivity].
    + destruct (H i u (nth_other _ _ _ _ _ _ N E)) as (P' & K' & Q' & G'). split; [exact P'|]. split; [|split; [exact Q'|exact G']]. intros X. apply K' in X. injection X as X. elim N. symmetry. exact X.
  - destruct (H _ _ (nth_mid a _ b)) as (P & K & Q & G). cbn [pending at_ todo tl] in P.
    exists log. split; [exact V|]. split; [cbn [threads]; rewrite <- L, !app_length; reflexivity|]. split; [exact B|]. intros i u E. cbn [threads lock value] in *. destruct (Nat.eq_dec i (length a)) as [->|N].
    + rewrite nth_mid in E. injection E as <-. split; [exact P|]. split; [discriminate|]. split; [discriminate|].
      intros y [X|(q & T & [X|X])]; [|discriminate X..]. cbn [results] in X. apply in_app_or in X. destruct X as [X|[X|[]]]; [apply G; left; exact X|]. injection X as Xo Xv. subst o. cbn [is_get] in Xv. subst y.
      apply G. right. exists t. split; [reflexivity|right; reflexivity].
    + exact (H i u (nth_other _ _ _ _ _ _ N E)).
Qed.

Lemma inv_start v progs : inv v progs [] (start v progs).
Proof.
  split; [reflexivity|]. split; [apply map_length|]. split; [intros e []|]. intros i t E. cbn [start threads] in E. rewrite nth_error_map in E.
  destruct (nth_error progs i) as [p|] eqn:F; [|discriminate]. injection E as <-. split; [cbn; symmetry; apply nth_error_nth, F|]. split; [discriminate|]. split; [discriminate|].
  intros x [[]|(r & _ & [X|X])]; discriminate X.
Qed.
Lemma inv_steps v progs s0 s : s0 = start v progs -> steps true s0 s -> exists log, inv v progs log s.
Proof. intros E H. induction H as [s|s s' s'' H IH S]; [subst; exists []; apply inv_start|]. destruct (IH E) as (log & I). exact (inv_step _ _ _ _ _ I S). Qed.

Lemma absent i log : (forall e, In e log -> fst e <> i) -> of_thread i log = [].
Proof.
  unfold of_thread. induction log as [|e l IH]; intros H; [reflexivity|]. cbn. destruct (Nat.eqb_spec (fst e) i) as [X|_]; [elim (H e (or_introl eq_refl) X)|]. apply IH. intros e' K. apply H. right. exact K.
Qed.
Lemma linear v progs s : steps true (start v progs) s -> finished s -> exists log, order_of progs log /\ value s = serial v log /\
  forall t x, In t (threads s) -> In (Get, x) (results t) -> held v log x.
Proof.
  intros R F. destruct (inv_steps v progs _ s eq_refl R) as (log & V & L & B & H). exists log. split; [|split; [exact V|]].
  - intros i. destruct (nth_error (threads s) i) as [t|] eqn:E.
    + destruct (H i t E) as (P & _). unfold finished in F. rewrite Forall_forall in F. specialize (F t (nth_error_In _ _ E)). unfold pending in P. rewrite F in P. rewrite <- P. destruct (at_ t); cbn [tl]; rewrite app_nil_r; reflexivity.
    + apply nth_error_None in E. rewrite nth_overflow by lia. apply absent. intros e K. apply B in K. lia.
  - intros t x I G. apply In_nth_error in I. destruct I as (i & E). destruct (H i t E) as (_ & _ & _ & Q). apply Q. left. exact G.
Qed.
Lemma exclusive v progs s i j t u : steps true (start v progs) s -> nth_error (threads s) i = Some t -> nth_error (threads s) j = Some u ->
  holds t = true -> holds u = true -> i = j.
Proof.
  intros R E F X Y. destruct (inv_steps v progs _ s eq_refl R) as (log & _ & _ & _ & H). destruct (H i t E) as (_ & K & _). destruct (H j u F) as (_ & K' & _). apply K in X. apply K' in Y. congruence.
Qed.

(** sums *)
Lemma serial_adds v log : Forall (fun e => exists k, snd e = Plus k) log -> serial v log = v + total (map snd log).
Proof.
  unfold serial. revert v. induction log as [|e l IH]; intros v H; cbn [fold_left map total]; [lia|]. inversion_clear H as [|? ? (k & E) T]. rewrite IH by exact T. rewrite E. cbn [meaning total]. lia.
Qed.
Lemma sum_zero (l : list nat) : all_of (map (fun _ => 0) l) = 0.
Proof. induction l as [|i l IH]; [reflexivity|]. cbn [map all_of]. lia. Qed.
Lemma sum_one (f : nat -> Z) n j c : (j < n)%nat -> all_of (map (fun i => (if Nat.eqb j i then c else 0) + f i) (seq 0 n)) = c + all_of (map f (seq 0 n)).
Proof.
  intros J. assert (G : forall m k, all_of (map (fun i => (if Nat.eqb j i then c else 0) + f i) (seq k m)) = (if ((k <=? j) && (j <? k + m))%nat then c else 0) + all_of (map f (seq k m))).
  { induction m as [|m IH]; intros k; cbn [seq map all_of].
    - destruct (Nat.leb_spec k j); [|reflexivity]. destruct (Nat.ltb_spec j (k + 0)); [lia|reflexivity].
    - rewrite IH. destruct (Nat.eqb_spec j k), (Nat.leb_spec (S k) j), (Nat.leb_spec k j), (Nat.ltb_spec j (S k + m)), (Nat.ltb_spec j (k + S m)); cbn [andb]; lia. }
  rewrite G. destruct (Nat.leb_spec 0 j); [|lia]. destruct (Nat.ltb_spec j (0 + n)); [reflexivity|lia].
Qed.
Lemma total_cons o l : total (o :: l) = weight o + total l.
Proof. destruct o; reflexivity. Qed.
Lemma total_split n log : (forall e, In e log -> (fst e < n)%nat) -> total (map snd log) = all_of (map (fun i => total (of_thread i log)) (seq 0 n)).
Proof.
  induction log as [|[j o] l IH]; intros H; [cbn; symmetry; apply sum_zero|]. cbn [map snd]. rewrite total_cons, IH by (intros e K; apply H; right; exact K).
  rewrite <- (sum_one (fun i => total (of_thread i l)) n j (weight o)) by (apply (H (j, o)); left; reflexivity). f_equal. apply map_ext. intros i. unfold of_thread. cbn [filter fst].
  destruct (Nat.eqb j i); [cbn [map snd]; rewrite total_cons; reflexivity|reflexivity].
Qed.
Lemma nths (progs : list (list op)) : map (fun i => nth i progs []) (seq 0 (length progs)) = progs.
Proof. induction progs as [|p l IH]; [reflexivity|]. cbn [length seq map nth]. f_equal. rewrite <- seq_shift, map_map. exact IH. Qed.
Lemma in_thread e log : In e log -> In (snd e) (of_thread (fst e) log).
Proof. intros H. unfold of_thread. apply in_map, filter_In. split; [exact H|apply Nat.eqb_refl]. Qed.
Lemma sum v progs s : Forall (Forall (fun o => exists k, o = Plus k)) progs -> steps true (start v progs) s -> finished s -> value s = v + all_of (map total progs).
Proof.
  intros A R F. destruct (linear v progs s R F) as (log & O & V & _).
  assert (B : forall e, In e log -> (fst e < length progs)%nat).
  { intros e K. apply in_thread in K. rewrite O in K. destruct (Nat.lt_ge_cases (fst e) (length progs)) as [X|X]; [exact X|]. rewrite nth_overflow in K by exact X. elim K. }
  rewrite V, serial_adds.
  - rewrite (total_split (length progs) log B). f_equal. f_equal. rewrite <- (nths progs) at 2. rewrite map_map. apply map_ext. intros i. rewrite O. reflexivity.
  - rewrite Forall_forall. intros e K. pose proof (B e K) as X. apply in_thread in K. rewrite O in K. rewrite Forall_forall in A. specialize (A _ (nth_In progs [] X)). rewrite Forall_forall in A. apply A, K.
Qed.
Lemma two_orders l : order_of [[Plus 1]; [Plus 2]] l -> l = [(0%nat, Plus 1); (1%nat, Plus 2)] \/ l = [(1%nat, Plus 2); (0%nat, Plus 1)].
Proof.
  intros O. assert (B : forall e, In e l -> fst e = 0%nat /\ snd e = Plus 1 \/ fst e = 1%nat /\ snd e = Plus 2).
  { intros e K. apply in_thread in K. rewrite O in K. destruct (fst e) as [|[|[|n]]]; cbn in K; [left|right|contradiction|contradiction]; destruct K as [K|[]]; auto. }
  pose proof (O 0%nat) as P. pose proof (O 1%nat) as Q. cbn [nth] in P, Q.
  destruct l as [|[i o] [|[j p] [|[k q] l]]].
  - discriminate P.
  - destruct (B _ (or_introl eq_refl)) as [[E F]|[E F]]; cbn in E, F; subst; [discriminate Q|discriminate P].
  - destruct (B _ (or_introl eq_refl)) as [[E F]|[E F]]; cbn in E, F; subst; destruct (B _ (or_intror (or_introl eq_refl))) as [[E F]|[E F]]; cbn in E, F; subst; auto; [discriminate P|discriminate P].
  - exfalso. destruct (B _ (or_introl eq_refl)) as [[E F]|[E F]]; cbn in E, F; subst; destruct (B _ (or_intror (or_introl eq_refl))) as [[E F]|[E F]]; cbn in E, F; subst;
    destruct (B _ (or_intror (or_intror (or_introl eq_refl)))) as [[E F]|[E F]]; cbn in E, F; subst; unfold of_thread in P, Q; cbn in P, Q; discriminate P || discriminate Q.
Qed.

(** progress *)
Definition alive (s : state) : Prop :=
  (forall i, lock s = Some i -> exists t, nth_error (threads s) i = Some t /\ holds t = true) /\
  (forall i t, nth_error (threads s) i = Some t -> at_ t <> Idle -> todo t <> []).
Lemma alive_step s s' : alive s -> step true s s' -> alive s'.
Proof.
  intros [A B] S. destruct S as [v l a o t r b F|v l a o t r b|v l a o t r b x|v l a o t r b x|v l a o t r b x]; cbn [lock threads] in A, B; split; cbn [lock threads].
  all: try (intros i u E N; destruct (Nat.eq_dec i (length a)) as [->|M]; [rewrite nth_mid in E; injection E as <-; discriminate || (elim N; reflexivity)|exact (B i u (nth_other _ _ _ _ _ _ M E) N)]).
  - intros i [= <-]. eexists. split; [apply nth_mid|reflexivity].
  - intros i E. destruct (A i E) as (u & H & K). destruct (Nat.eq_dec i (length a)) as [->|M]; [eexists; split; [apply nth_mid|reflexivity]|exists u; split; [exact (nth_other _ _ _ _ _ _ M H)|exact K]].
  - intros i E. destruct (A i E) as (u & H & K). destruct (Nat.eq_dec i (length a)) as [->|M]; [eexists; split; [apply nth_mid|reflexivity]|exists u; split; [exact (nth_other _ _ _ _ _ _ M H)|exact K]].
  - discriminate.
  - intros i E. destruct (A i E) as (u & H & K). destruct (Nat.eq_dec i (length a)) as [->|M]; [rewrite nth_mid in H; injection H as <-; discriminate K|exists u; split; [exact (nth_other _ _ _ _ _ _ M H)|exact K]].
Qed.
Lemma alive_start v progs : alive (start v progs).
Proof.
  split; [discriminate|]. intros i t E N. cbn [start threads] in E. rewrite nth_error_map in E. destruct (nth_error progs i); [|discriminate]. injection E as <-. elim N. reflexivity.
Qed.
Lemma alive_steps v progs s0 s : s0 = start v progs -> steps true s0 s -> alive s.
Proof. intros E H. induction H as [s|s s' s'' H IH S]; [subst; apply alive_start|]. exact (alive_step _ _ (IH E) S). Qed.
Lemma runs s i t : alive s -> nth_error (threads s) i = Some t -> todo t <> [] -> lock s = None \/ holds t = true -> exists s', step true s s'.
Proof.
  intros [A B] E N H. destruct s as [v l ts]. cbn [threads lock] in *. destruct (nth_error_split _ _ E) as (a & b & -> & L). destruct t as [[|o q] p r]; [elim N; reflexivity|].
  destruct p as [| |x|x|x]; eexists; [apply s_lock; destruct H as [H|H]; [intros _; exact H|discriminate H]|apply s_load|apply s_store|apply s_unlock|apply s_return].
Qed.
Lemma done_dec t : {todo t = []} + {todo t <> []}.
Proof. destruct (todo t); [left; reflexivity|right; discriminate]. Qed.
Lemma progress v progs s : steps true (start v progs) s -> finished s \/ exists s', step true s s'.
Proof.
  intros R. pose proof (alive_steps v progs _ s eq_refl R) as A.
  destruct (Forall_dec (fun t => todo t = []) done_dec (threads s)) as [F|F]; [left; exact F|right].
  apply neg_Forall_Exists_neg in F; [|intros t; destruct (done_dec t); [left|right]; assumption]. apply Exists_exists in F. destruct F as (t & I1 & N). apply In_nth_error in I1. destruct I1 as (i & E).
  destruct (lock s) as [j|] eqn:L.
  - destruct (proj1 A j L) as (u & H & K). apply (runs s j u A H); [|right; exact K]. apply (proj2 A j u H). intros X. unfold holds in K. rewrite X in K. discriminate K.
  - exact (runs s i t A E N (or_introl L)).
Qed.

(** length of executions *)
Definition rest (t : thread) : nat := (5 * length (todo t) - match at_ t with Idle => 0 | Held => 1 | Loaded _ => 2 | Stored _ => 3 | Released _ => 4 end)%nat.
Fixpoint rests (l : list thread) : nat := match l with [] => 0%nat | t :: r => (rest t + rests r)%nat end.
Lemma rests_app a b : rests (a ++ b) = (rests a + rests b)%nat.
Proof. induction a as [|t a IH]; [reflexivity|]. cbn [app rests]. rewrite IH. lia. Qed.
Lemma step_rests locks s s' : step locks s s' -> rests (threads s) = S (rests (threads s')).
Proof. intros S. destruct S; cbn [threads]; rewrite !rests_app; cbn [rests rest todo at_ length]; unfold rest; cbn [todo at_ length]; lia. Qed.
Lemma rests_start v progs : rests (threads (start v progs)) = (5 * operations progs)%nat.
Proof. cbn [start threads]. induction progs as [|p l IH]; [reflexivity|]. cbn [map rests operations]. rewrite IH. unfold rest. cbn [todo at_]. lia. Qed.
Lemma exec_rests locks n s s' : exec locks n s s' -> (n + rests (threads s') = rests (threads s))%nat.
Proof. intros H. induction H as [s|n s s' s'' H IH S]; [reflexivity|]. apply step_rests in S. lia. Qed.
Lemma rests_done l : Forall (fun t => todo t = []) l -> rests l = 0%nat.
Proof. induction 1 as [|t l E H IH]; [reflexivity|]. cbn [rests]. rewrite IH. unfold rest. rewrite E. reflexivity. Qed.
Lemma bounded locks v progs n s : exec locks n (start v progs) s -> (n <= 5 * operations progs)%nat /\ (finished s -> n = (5 * operations progs)%nat).
Proof. intros H. apply exec_rests in H. rewrite rests_start in H. split; [lia|]. intros F. rewrite (rests_done _ F) in H. lia. Qed.
Lemma exec_steps locks n s s' : exec locks n s s' -> steps locks s s'.
Proof. induction 1 as [s|n s s' s'' H IH S]; [apply steps_none|exact (steps_more _ _ _ _ IH S)]. Qed.
