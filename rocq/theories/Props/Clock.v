(** Property C57: clocks. *)
From Coq Require Import List ZArith QArith SpecFloat Bool Lia.
From Verif Require Import Base Model.Clock Spec.Clock Proofs.Clock.
Import ListNotations.
Open Scope Z_scope.

(** Time is step times step size after every history, in any arithmetic. *)
Theorem C57_time : forall T fromZ (mul : T -> T -> T) steps dt os c', run (new_clock steps dt) os = Ok c' ->
  time fromZ mul c' = mul (fromZ (shown_step steps 0 (rev os))) (shown_dt dt (rev os)).
Proof. exact @time_shown. Qed.
Print Assumptions C57_time.

(** Synchronisation as stated, for an arithmetic with conversion, product, quotient and integer test. *)
Definition C57_full (T : Type) (fromZ : Z -> T) (mul div : T -> T -> T) (whole : T -> option Z) (eqv : T -> T -> Prop) : Prop :=
  forall (c m c' : clock T), sync fromZ mul div whole c m = Ok c' -> eqv (time fromZ mul c') (time fromZ mul m).

(** In exact arithmetic synchronisation succeeds iff the master's time is a multiple, and then both times agree. *)
Theorem C57_sync_partial : forall n0 n1 s0 s1 (d e : Q),
  let c := mkClock (Some d) n0 s0 in let m := mkClock (Some e) n1 s1 in
  let multiple n := (~ d == 0 /\ inject_Z s1 * e == inject_Z n * d)%Q in
  (forall c', sync_q c m = Ok c' <-> exists n, multiple n /\ in_int n = true /\ c' = set_step c n) /\
  (sync_q c m = Throw <-> ~ exists n, multiple n) /\
  (forall c', sync_q c m = Ok c' -> exists t t', time_q c' = Some t' /\ time_q m = Some t /\ (t' == t)%Q).
Proof. exact sync_exact. Qed.
Print Assumptions C57_sync_partial.

Example C57_example :
  sync_q (new_clock 10 (Some (1#10)%Q)) (set_step (new_clock 10 (Some (3#10)%Q)) 4) = Ok (set_step (new_clock 10 (Some (1#10)%Q)) 12) /\
  sync_q (new_clock 10 (Some (2#10)%Q)) (set_step (new_clock 10 (Some (3#10)%Q)) 1) = Throw /\
  sync_q (new_clock 10 (Some 0%Q)) (set_step (new_clock 10 (Some (3#10)%Q)) 1) = Throw /\
  run (new_clock 10 (1#2)%Q) [CEnd; CInc; CInc; CDec; CDt (1#4)%Q] = Ok (mkClock (1#4)%Q 10 10).
Proof. vm_compute. auto. Qed.

(** In double precision the times can differ after a successful synchronisation: master at 1 * 1.8, own step 0.6. *)
Theorem C57_double_refuted : ~ C57_full spec_float d_of_Z d_mul d_div d_whole eq.
Proof.
  intros H. specialize (H (new_clock 10 (d_lit 6 10)) (set_step (new_clock 10 (d_lit 18 10)) 1)
    (set_step (new_clock 10 (d_lit 6 10)) 3) ltac:(vm_compute; reflexivity)). vm_compute in H. discriminate.
Qed.
Print Assumptions C57_double_refuted.

(** 3 * 0.6 is not 1.8 for doubles, yet 1.8 / 0.6 is 3 *)
Example C57_double :
  d_whole (d_div (d_lit 18 10) (d_lit 6 10)) = Some 3 /\
  d_mul (d_of_Z 3) (d_lit 6 10) = S754_finite false 8106479329266892 (-52) /\ d_lit 18 10 = S754_finite false 8106479329266893 (-52).
Proof. vm_compute. auto. Qed.

(** Moving the clock out of the range of int is undefined; nothing else is, and no call fails otherwise. *)
Theorem C57_overflow_code : forall T (c : clock T),
  (do c (CInc (T:=T)) = UB <-> ~ (- 2 ^ 31 <= k_step c + 1 < 2 ^ 31)) /\
  (do c (CDec (T:=T)) = UB <-> ~ (- 2 ^ 31 <= k_step c - 1 < 2 ^ 31)) /\
  (do c (CEnd (T:=T)) = UB <-> ~ (- 2 ^ 31 <= k_nsteps c - 1 < 2 ^ 31)) /\
  (forall o, do c o = UB -> o = CInc (T:=T) \/ o = CDec (T:=T) \/ o = CEnd (T:=T)).
Proof. exact @do_overflow. Qed.
Print Assumptions C57_overflow_code.

Example C57_overflow_ex : run (new_clock 10 (1#2)%Q) [CStep (2 ^ 31 - 1); CInc] = UB /\ run (new_clock (- 2 ^ 31) (1#2)%Q) [CEnd] = UB /\
  run (new_clock 10 (1#2)%Q) [CStep (2 ^ 31 - 2); CInc] = Ok (mkClock (1#2)%Q 10 (2 ^ 31 - 1)).
Proof. vm_compute. auto. Qed.
