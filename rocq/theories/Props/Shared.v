(** C113: variables shared by threads. *)
From Coq Require Import List ZArith Bool Arith Lia.
From Verif Require Import Base Model.Shared Spec.Shared Proofs.Shared.
Import ListNotations.
Open Scope Z_scope.
Open Scope list_scope.

(** [steps locks s s']: some interleaving leads from s to s'; locks: SetLock and UnSetLock are locks; [serial v log]: the operations of log one after the other;
    [order_of progs log]: log has the operations of each thread in their order; [held v log x]: x is the value between two operations *)

(** ** With locks the operations act as if one came after the other *)
Theorem C113_linear : forall v progs s, steps true (start v progs) s -> finished s -> exists log, order_of progs log /\ value s = serial v log /\
  forall t x, In t (threads s) -> In (Get, x) (results t) -> held v log x.
Proof. exact linear. Qed.
Print Assumptions C113_linear.
(** additions are not lost *)
Theorem C113_sum : forall v progs s, Forall (Forall (fun o => exists k, o = Plus k)) progs -> steps true (start v progs) s -> finished s -> value s = v + all_of (map total progs).
Proof. exact sum. Qed.
Print Assumptions C113_sum.
(** never two threads behind SetLock *)
Theorem C113_exclusive : forall v progs s i j t u, steps true (start v progs) s -> nth_error (threads s) i = Some t -> nth_error (threads s) j = Some u ->
  holds t = true -> holds u = true -> i = j.
Proof. exact exclusive. Qed.
Print Assumptions C113_exclusive.

(** nobody waits for ever: until all have finished somebody can go on, *)
Theorem C113_progress : forall v progs s, steps true (start v progs) s -> finished s \/ exists s', step true s s'.
Proof. exact progress. Qed.
Print Assumptions C113_progress.
(** and that is so after five steps for each operation *)
Theorem C113_bounded : forall locks v progs n s, exec locks n (start v progs) s -> (n <= 5 * operations progs)%nat /\ (finished s -> n = (5 * operations progs)%nat).
Proof. exact bounded. Qed.
Print Assumptions C113_bounded.

(** the first thread adds 1 and the second 2; between UnSetLock and return of the first the second does all of its work *)
Lemma overtaken : steps true (start 0 [[Plus 1]; [Plus 2]]) (mkS 3 None [mkT [] Idle [(Plus 1, 3)]; mkT [] Idle [(Plus 2, 3)]]).
Proof.
  eapply steps_more; [|exact (s_return true 3 None [] (Plus 1) [] [] [mkT [] Idle [(Plus 2, 3)]] 0)].
  eapply steps_more; [|exact (s_return true 3 None [mkT [Plus 1] (Released 0) []] (Plus 2) [] [] [] 1)].
  eapply steps_more; [|exact (s_unlock true 3 (Some 1%nat) [mkT [Plus 1] (Released 0) []] (Plus 2) [] [] [] 1)].
  eapply steps_more; [|exact (s_store true 1 (Some 1%nat) [mkT [Plus 1] (Released 0) []] (Plus 2) [] [] [] 1)].
  eapply steps_more; [|exact (s_load true 1 (Some 1%nat) [mkT [Plus 1] (Released 0) []] (Plus 2) [] [] [])].
  eapply steps_more; [|exact (s_lock true 1 None [mkT [Plus 1] (Released 0) []] (Plus 2) [] [] [] (fun _ => eq_refl))].
  eapply steps_more; [|exact (s_unlock true 1 (Some 0%nat) [] (Plus 1) [] [] [mkT [Plus 2] Idle []] 0)].
  eapply steps_more; [|exact (s_store true 0 (Some 0%nat) [] (Plus 1) [] [] [mkT [Plus 2] Idle []] 0)].
  eapply steps_more; [|exact (s_load true 0 (Some 0%nat) [] (Plus 1) [] [] [mkT [Plus 2] Idle []])].
  eapply steps_more; [|exact (s_lock true 0 None [] (Plus 1) [] [] [mkT [Plus 2] Idle []] (fun _ => eq_refl))].
  apply steps_none.
Qed.
Example C113_linear_ex : exists s, steps true (start 0 [[Plus 1]; [Plus 2]]) s /\ finished s /\ value s = 3.
Proof. eexists. split; [exact overtaken|]. split; [repeat constructor|reflexivity]. Qed.
Example C113_exclusive_ex : exists s t, steps true (start 0 [[Plus 1]; [Plus 2]]) s /\ nth_error (threads s) 0 = Some t /\ holds t = true.
Proof. eexists _, _. split; [eapply steps_more; [apply steps_none|exact (s_lock true 0 None [] (Plus 1) [] [] [mkT [Plus 2] Idle []] (fun _ => eq_refl))]|]. split; reflexivity. Qed.

(** ** An operation returns the value it made *)
Definition C113_result : Prop := forall v progs s, steps true (start v progs) s -> finished s -> exists log, order_of progs log /\ value s = serial v log /\
  forall i t o x, nth_error (threads s) i = Some t -> In (o, x) (results t) -> exists a b, log = a ++ (i, o) :: b /\ x = meaning o (serial v a).
(** no: the value is read again behind UnSetLock, so that of another thread may be returned; two additions to 0 that both return 3 *)
Theorem C113_result_refuted : ~ C113_result.
Proof.
  intros H. destruct (H 0 [[Plus 1]; [Plus 2]] _ overtaken) as (log & O & _ & R); [repeat constructor|].
  destruct (R 0%nat _ (Plus 1) 3 eq_refl (or_introl eq_refl)) as (a & b & E & X). destruct (R 1%nat _ (Plus 2) 3 eq_refl (or_introl eq_refl)) as (a' & b' & E' & X').
  assert (N : forall l, order_of [[Plus 1]; [Plus 2]] l -> l = [(0%nat, Plus 1); (1%nat, Plus 2)] \/ l = [(1%nat, Plus 2); (0%nat, Plus 1)]) by (apply two_orders).
  destruct (N log O) as [-> | ->].
  - destruct a as [|p a]; [vm_compute in X; discriminate X|]. destruct a as [|p' a]; [discriminate E|]. destruct a; discriminate E.
  - destruct a' as [|p a']; [vm_compute in X'; discriminate X'|]. destruct a' as [|p' a']; [discriminate E'|]. destruct a'; discriminate E'.
Qed.
Print Assumptions C113_result_refuted.

(** ** Without OpenMP there are no locks, and additions are lost *)
Definition C113_unlocked : Prop := forall v progs s, Forall (Forall (fun o => exists k, o = Plus k)) progs -> steps false (start v progs) s -> finished s -> value s = v + all_of (map total progs).
Theorem C113_unlocked_refuted : ~ C113_unlocked.
Proof.
  intros H. specialize (H 0 [[Plus 1]; [Plus 2]] (mkS 2 None [mkT [] Idle [(Plus 1, 2)]; mkT [] Idle [(Plus 2, 2)]])). cbn in H. enough (2 = 3) by discriminate. apply H.
  - repeat constructor; [exists 1|exists 2]; reflexivity.
  - eapply steps_more; [|exact (s_return false 2 None [] (Plus 1) [] [] [mkT [] Idle [(Plus 2, 2)]] 0)].
    eapply steps_more; [|exact (s_return false 2 None [mkT [Plus 1] (Released 0) []] (Plus 2) [] [] [] 0)].
    eapply steps_more; [|exact (s_unlock false 2 None [mkT [Plus 1] (Released 0) []] (Plus 2) [] [] [] 0)].
    eapply steps_more; [|exact (s_store false 1 None [mkT [Plus 1] (Released 0) []] (Plus 2) [] [] [] 0)].
    eapply steps_more; [|exact (s_unlock false 1 None [] (Plus 1) [] [] [mkT [Plus 2] (Loaded 0) []] 0)].
    eapply steps_more; [|exact (s_store false 0 None [] (Plus 1) [] [] [mkT [Plus 2] (Loaded 0) []] 0)].
    eapply steps_more; [|exact (s_load false 0 None [] (Plus 1) [] [] [mkT [Plus 2] (Loaded 0) []])].
    eapply steps_more; [|exact (s_load false 0 None [mkT [Plus 1] Held []] (Plus 2) [] [] [])].
    eapply steps_more; [|exact (s_lock false 0 None [mkT [Plus 1] Held []] (Plus 2) [] [] [] (fun e => match Bool.diff_false_true e with end))].
    eapply steps_more; [|exact (s_lock false 0 None [] (Plus 1) [] [] [mkT [Plus 2] Idle []] (fun e => match Bool.diff_false_true e with end))].
    apply steps_none.
  - repeat constructor.
Qed.
Print Assumptions C113_unlocked_refuted.

(** ** With OpenMP no variable can be made *)
Definition C113_create : Prop := forall openmp v, create openmp v = Ok v.
Theorem C113_create_refuted : ~ C113_create.
Proof. intros H. specialize (H true 0). discriminate. Qed.
Print Assumptions C113_create_refuted.
Theorem C113_create_code : forall v, create true v = UB /\ create false v = Ok v.
Proof. intros v. split; reflexivity. Qed.
Print Assumptions C113_create_code.
(** one addition: five steps *)
Example C113_bounded_ex : exec true 5 (start 0 [[Plus 1]]) (mkS 1 None [mkT [] Idle [(Plus 1, 1)]]).
Proof.
  eapply exec_more; [|exact (s_return true 1 None [] (Plus 1) [] [] [] 0)]. eapply exec_more; [|exact (s_unlock true 1 (Some 0%nat) [] (Plus 1) [] [] [] 0)].
  eapply exec_more; [|exact (s_store true 0 (Some 0%nat) [] (Plus 1) [] [] [] 0)]. eapply exec_more; [|exact (s_load true 0 (Some 0%nat) [] (Plus 1) [] [] [])].
  eapply exec_more; [|exact (s_lock true 0 None [] (Plus 1) [] [] [] (fun _ => eq_refl))]. apply exec_none.
Qed.
