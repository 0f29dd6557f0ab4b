From Coq Require Import List ZArith QArith Qround SpecFloat Bool Lia.
From Verif Require Import Base Model.Clock Spec.Clock.
Import ListNotations.
Open Scope Z_scope.

Lemma as_int_ok z n : as_int z = Ok n -> n = z /\ in_int z = true.
Proof. unfold as_int. destruct (in_int z); [intros [= <-]; auto|discriminate]. Qed.

Section Run.
  Context {T : Type}.
  Lemma run_shown dt0 n0 s0 os (h : list (call T)) c c' :
    k_dt c = shown_dt dt0 h -> k_nsteps c = shown_steps n0 h -> k_step c = shown_step n0 s0 h ->
    run c os = Ok c' ->
    k_dt c' = shown_dt dt0 (rev os ++ h) /\ k_nsteps c' = shown_steps n0 (rev os ++ h) /\ k_step c' = shown_step n0 s0 (rev os ++ h).
  Proof.
    revert h c; induction os as [|o os IH]; intros h c Hd Hn Hs E; cbn in E.
    - injection E as <-. auto.
    - destruct (do c o) as [c1| |] eqn:E1; try discriminate. cbn [rev]. rewrite <- app_assoc. cbn [app].
      apply (IH (o :: h) c1); auto; clear IH E; destruct o; cbn in E1 |- *;
        try (injection E1 as <-; cbn; congruence).
      all: unfold to_end, incr, decr in E1; destruct (as_int _) eqn:A; try discriminate; apply as_int_ok in A as [-> _];
        injection E1 as <-; cbn; try congruence; lia.
  Qed.

  Lemma time_shown fromZ (mul : T -> T -> T) steps dt os c' : run (new_clock steps dt) os = Ok c' ->
    time fromZ mul c' = mul (fromZ (shown_step steps 0 (rev os))) (shown_dt dt (rev os)).
  Proof.
    intros H. destruct (run_shown dt steps 0 os [] (new_clock steps dt) c' eq_refl eq_refl eq_refl H) as (A & _ & B).
    unfold time. rewrite A, B, app_nil_r. reflexivity.
  Qed.
End Run.

Lemma qwhole_spec x n : qwhole (Some x) = Some n <-> (x == inject_Z n)%Q.
Proof.
  unfold qwhole. destruct (Qeq_bool x (inject_Z (Qfloor x))) eqn:E.
  - apply Qeq_bool_iff in E. split.
    + intros [= <-]. exact E.
    + intros H. f_equal. rewrite H in E at 1. rewrite (Qfloor_comp _ _ H), Qfloor_Z. reflexivity.
  - split; [discriminate|]. intros H. assert (x == inject_Z (Qfloor x))%Q.
    { rewrite (Qfloor_comp _ _ H), Qfloor_Z. exact H. }
    apply Qeq_bool_iff in H0. congruence.
Qed.

Lemma sync_exact n0 n1 s0 s1 (d e : Q) :
  let c := mkClock (Some d) n0 s0 in let m := mkClock (Some e) n1 s1 in
  let multiple n := ~ d == 0 /\ inject_Z s1 * e == inject_Z n * d in
  (forall c', sync_q c m = Ok c' <-> exists n, multiple n /\ in_int n = true /\ c' = set_step c n) /\
  (sync_q c m = Throw <-> ~ exists n, multiple n) /\
  (forall c', sync_q c m = Ok c' -> exists t t', time_q c' = Some t' /\ time_q m = Some t /\ t' == t)%Q.
Proof.
  intros c m multiple.
  assert (U : forall n n', multiple n -> multiple n' -> n = n').
  { intros n n' [Nd H] [_ H']. apply inject_Z_injective. apply (Qmult_inj_r _ _ d Nd). rewrite <- H. exact H'. }
  assert (M : forall n, qwhole (odiv (time_q m) (Some d)) = Some n <-> multiple n).
  { intros n. unfold time_q, time, m, odiv, qdiv, multiple. cbn [k_step k_dt omul].
    destruct (Qeq_bool d 0) eqn:E.
    - apply Qeq_bool_iff in E. split; [discriminate|]. intros [H _]. contradiction.
    - apply Qeq_bool_neq in E. rewrite qwhole_spec. split.
      + intros H. split; [exact E|]. rewrite <- H. field. exact E.
      + intros [_ H]. rewrite H. field. exact E. }
  assert (OKs : forall c', sync_q c m = Ok c' <-> exists n, multiple n /\ in_int n = true /\ c' = set_step c n).
  { intros c'. unfold sync_q, sync. change (k_dt c) with (Some d). fold time_q.
    destruct (qwhole (odiv (time_q m) (Some d))) as [n|] eqn:E in |- *.
    - apply M in E. unfold as_int. destruct (in_int n) eqn:I; cbn [bind].
      + split; [intros [= <-]; eauto|]. intros (n' & A & _ & ->). rewrite (U _ _ A E). reflexivity.
      + split; [discriminate|]. intros (n' & A & B & _). rewrite (U _ _ A E) in B. congruence.
    - split; [discriminate|]. intros (n & A & _). apply M in A. congruence. }
  split; [exact OKs|]. split.
  - unfold sync_q, sync. change (k_dt c) with (Some d). fold time_q.
    destruct (qwhole (odiv (time_q m) (Some d))) as [n|] eqn:E in |- *.
    + apply M in E. split; [unfold as_int; destruct (in_int n); discriminate|]. intros H. exfalso. eauto.
    + split; [|reflexivity]. intros _ (n & A). apply M in A. congruence.
  - intros c' H. apply OKs in H. destruct H as (n & [Nd A] & _ & ->). cbn. eexists. eexists. split; [reflexivity|]. split; [reflexivity|].
    rewrite A. reflexivity.
Qed.

(** * overflow *)
Lemma as_int_ub z : as_int z = UB <-> ~ (- 2 ^ 31 <= z < 2 ^ 31).
Proof. unfold as_int, in_int. destruct (Z.leb_spec (- 2 ^ 31) z), (Z.ltb_spec z (2 ^ 31)); cbn [andb]; split; intros; try discriminate; try lia; reflexivity. Qed.
Lemma do_total {T} (c : clock T) o : do c o <> Throw.
Proof. destruct o; cbn [do]; unfold to_end, incr, decr, as_int, bind; repeat destruct (in_int _); discriminate. Qed.
Lemma do_overflow {T} (c : clock T) : (do c (CInc (T:=T)) = UB <-> ~ (- 2 ^ 31 <= k_step c + 1 < 2 ^ 31)) /\
  (do c (CDec (T:=T)) = UB <-> ~ (- 2 ^ 31 <= k_step c - 1 < 2 ^ 31)) /\
  (do c (CEnd (T:=T)) = UB <-> ~ (- 2 ^ 31 <= k_nsteps c - 1 < 2 ^ 31)) /\
  (forall o, do c o = UB -> o = CInc (T:=T) \/ o = CDec (T:=T) \/ o = CEnd (T:=T)).
Proof.
  assert (H : forall z (f : Z -> clock T), bind (as_int z) (fun s => Ok (f s)) = UB <-> as_int z = UB).
  { intros z f. destruct (as_int z); cbn; split; congruence. }
  cbn [do]. unfold incr, decr, to_end. rewrite !H, !as_int_ub. repeat split; try tauto.
  intros []; cbn [do]; auto; discriminate.
Qed.
