(** Property C68: correlation functions. *)
From Coq Require Import Ascii String List NArith ZArith Lia Bool Arith.
From Verif Require Import Base Arrays Model.Params Spec.Params Model.Cfun Spec.Cfun Proofs.Params Proofs.Cfun.
Import ListNotations.
Open Scope Z_scope.

(** wave functions that record what has been applied to them, 0 standing for the propagator *)
Definition tr := list (nat * Z).
Definition ex_U (n : Z) (v : tr) : tr := v ++ [(0%nat, n)].
Definition ex_op (i : nat) (n : Z) (v : tr) : tr := v ++ [(i, n)].
Definition ex_run := run_wf tr (option (tr * tr)) (fun a b => Some (a, b)) None ex_U.
Definition u (n : Z) := (0%nat, n).

(** * One time *)
Definition C68_one_full : Prop := forall V K ip zero U steps w si psi0 k0 s (B : option (list (Z -> V -> V))) l t, 1 <= w -> 1 <= steps -> s <> [] ->
  run_wf V K ip zero U steps w si psi0 (map Some k0 ++ None :: map Some s) (match B with Some b0 => map Some b0 ++ [None] | None => [] end) = Ok l -> 0 <= t < steps / w ->
  rd l t = Ok (one_time V K ip U w k0 s (match B with Some b0 => b0 | None => k0 end) psi0 t).
(** With nothing in front of the propagator and no definition of the bra the values are right. *)
Theorem C68_one_partial : forall V K ip zero U steps w si psi0 s, 1 <= w -> 1 <= steps -> s <> [] ->
  exists l, run_wf V K ip zero U steps w si psi0 (None :: map Some s) [] = Ok l /\ zlen l = steps / w /\
    forall t, 0 <= t < steps / w -> rd l t = Ok (one_time V K ip U w [] s [] psi0 t).
Proof. intros V K ip zero U steps w si psi0 s Hw Hs S. exact (one_time_code V K ip zero U steps w si psi0 [] s None Hw Hs S). Qed.
Print Assumptions C68_one_partial.
Example C68_one_ex : ex_run 5 2 0 [] [None; Some (ex_op 7); Some (ex_op 8)] [] = Ok [Some ([], [(7%nat, 0); (8%nat, 0)]); Some ([u 0; u 1], [u 0; u 1; (7%nat, 2); (8%nat, 2)])].
Proof. vm_compute. reflexivity. Qed.
(** In general: a bra that is given is one value ahead, its operators act at the last time, and operators in front of the propagator of the ket take the place of
    the signal operators. *)
Theorem C68_one_code : forall V K ip zero U steps w si psi0 k0 s (B : option (list (Z -> V -> V))), 1 <= w -> 1 <= steps -> s <> [] ->
  exists l, run_wf V K ip zero U steps w si psi0 (map Some k0 ++ None :: map Some s) (match B with Some b0 => map Some b0 ++ [None] | None => [] end) = Ok l /\ zlen l = steps / w /\
    forall t, 0 <= t < steps / w -> rd l t =
      Ok (ip match B with Some b0 => evolve V U 0 ((t + 1) * w) (acting V (steps - 1) b0 psi0) | None => evolve V U 0 (t * w) (acting V 0 k0 psi0) end
             (acting V (t * w) (match k0 with [] => s | _ => k0 end) (evolve V U 0 (t * w) (acting V 0 k0 psi0)))).
Proof. exact one_time_code. Qed.
Print Assumptions C68_one_code.
Example C68_one_bra_ex : ex_run 2 1 0 [] [None; Some (ex_op 7)] [Some (ex_op 5); None] = Ok [Some ([(5%nat, 1); u 0], [(7%nat, 0)]); Some ([(5%nat, 1); u 0; u 1], [u 0; (7%nat, 1)])].
Proof. vm_compute. reflexivity. Qed.
Example C68_one_first_ex : ex_run 1 1 0 [] [Some (ex_op 6); None; Some (ex_op 7)] [] = Ok [Some ([(6%nat, 0)], [(6%nat, 0); (6%nat, 0)])].
Proof. vm_compute. reflexivity. Qed.
Theorem C68_one_bra_refuted : ~ C68_one_full.
Proof.
  intros F. assert (E : ex_run 1 1 0 [] [None; Some (ex_op 7)] [None] = Ok [Some ([u 0], [(7%nat, 0)])]) by (vm_compute; reflexivity).
  specialize (F tr (option (tr * tr)) (fun a b => Some (a, b)) None ex_U 1 1 0 [] [] [ex_op 7] (Some []) _ 0 ltac:(lia) ltac:(lia) ltac:(discriminate) E ltac:(vm_compute; split; [discriminate|reflexivity])). vm_compute in F. discriminate.
Qed.
Print Assumptions C68_one_bra_refuted.
Theorem C68_one_first_refuted : ~ C68_one_full.
Proof.
  intros F. assert (E : ex_run 1 1 0 [] [Some (ex_op 6); None; Some (ex_op 7)] [] = Ok [Some ([(6%nat, 0)], [(6%nat, 0); (6%nat, 0)])]) by (vm_compute; reflexivity).
  specialize (F tr (option (tr * tr)) (fun a b => Some (a, b)) None ex_U 1 1 0 [] [ex_op 6] [ex_op 7] None _ 0 ltac:(lia) ltac:(lia) ltac:(discriminate) E ltac:(vm_compute; split; [discriminate|reflexivity])). vm_compute in F. discriminate.
Qed.
Print Assumptions C68_one_first_refuted.

(** * Two times, the first operators on the ket *)
Definition C68_two_full : Prop := forall V K ip zero U steps w si psi0 k0 a s (B : option (list (Z -> V -> V))) l t1 t2, 1 <= w -> 1 <= steps -> a <> [] -> s <> [] ->
  run_wf V K ip zero U steps w si psi0 (map Some k0 ++ None :: map Some a ++ None :: map Some s) (match B with Some b0 => map Some b0 ++ [None] | None => [] end) = Ok l ->
  0 <= t1 < steps / w -> 0 <= t2 < steps / w ->
  (wanted si t1 t2 -> rd l (t1 * (steps / w) + t2) = Ok (two_times_ket V K ip U w k0 a s (match B with Some b0 => b0 | None => k0 end) psi0 t1 t2)) /\
  (~ wanted si t1 t2 -> rd l (t1 * (steps / w) + t2) = Ok zero).
(** With one operator at the first time and no definition of the bra the values wanted are right, those with the second time first are zero. *)
Theorem C68_two_partial : forall V K ip zero U steps w si psi0 k0 a s, 1 <= w -> 1 <= steps -> s <> [] -> (steps / w) * (steps / w) <= 2147483647 ->
  exists l, run_wf V K ip zero U steps w si psi0 (map Some k0 ++ None :: Some a :: None :: map Some s) [] = Ok l /\ zlen l = (steps / w) * (steps / w) /\
    forall t1 t2, 0 <= t1 < steps / w -> 0 <= t2 < steps / w ->
      (wanted si t1 t2 -> rd l (t1 * (steps / w) + t2) = Ok (two_times_ket V K ip U w k0 [a] s k0 psi0 t1 t2)) /\
      (t2 < t1 -> rd l (t1 * (steps / w) + t2) = Ok zero).
Proof.
  intros V K ip zero U steps w si psi0 k0 a s Hw Hs S M. destruct (two_ket_code V K ip zero U steps w si psi0 k0 [] s a None Hw Hs S M) as (l & E & L & A & Z0).
  exists l. split; [exact E|]. split; [exact L|]. intros t1 t2 H1 H2. split.
  - intros [W1 W2]. apply A; [lia|lia|]. unfold window. lia.
  - intros Lt. apply Z0; [exact H1|exact H2|left; exact Lt].
Qed.
Print Assumptions C68_two_partial.
Example C68_two_ex : ex_run 3 1 0 [] [None; Some (ex_op 6); None; Some (ex_op 7)] [] =
  Ok [Some ([], [(6%nat, 0); (7%nat, 0)]); Some ([u 0], [(6%nat, 0); u 0; (7%nat, 1)]); Some ([u 0; u 1], [(6%nat, 0); u 0; u 1; (7%nat, 2)]);
      None; Some ([u 0], [u 0; (6%nat, 1); (7%nat, 1)]); Some ([u 0; u 1], [u 0; (6%nat, 1); u 1; (7%nat, 2)]);
      None; None; Some ([u 0; u 1], [u 0; u 1; (6%nat, 2); (7%nat, 2)])].
Proof. vm_compute. reflexivity. Qed.
(** In general: only the last operator in front of the second propagator acts at the first time, a bra that is given is one value ahead, and one value more than the
    limit asks for is computed. *)
Theorem C68_two_code : forall V K ip zero U steps w si psi0 k0 a' s a (B : option (list (Z -> V -> V))), 1 <= w -> 1 <= steps -> s <> [] -> (steps / w) * (steps / w) <= 2147483647 ->
  exists l, run_wf V K ip zero U steps w si psi0 (map Some k0 ++ None :: map Some (a' ++ [a]) ++ None :: map Some s) (match B with Some b0 => map Some b0 ++ [None] | None => [] end) = Ok l /\
    zlen l = (steps / w) * (steps / w) /\
    (forall t1 t2, 0 <= t1 -> t1 <= t2 < steps / w -> (si <= 0 \/ t2 - t1 <= si + 1) ->
       rd l (t1 * (steps / w) + t2) =
         Ok (ip match B with Some b0 => evolve V U (t1 * w) (t2 * w) (evolve V U 0 ((t1 + 1) * w) (acting V (steps - 1) b0 psi0)) | None => evolve V U 0 (t2 * w) (acting V 0 k0 psi0) end
                (acting V (t2 * w) s (evolve V U (t1 * w) (t2 * w) (acting V (t1 * w) [a] (evolve V U 0 (t1 * w) (acting V 0 k0 psi0))))))) /\
    (forall t1 t2, 0 <= t1 < steps / w -> 0 <= t2 < steps / w -> (t2 < t1 \/ ~ (si <= 0 \/ t2 - t1 <= si + 1)) -> rd l (t1 * (steps / w) + t2) = Ok zero).
Proof. exact two_ket_code. Qed.
Print Assumptions C68_two_code.
Example C68_two_code_ex : ex_run 3 1 1 [] [None; Some (ex_op 5); Some (ex_op 6); None; Some (ex_op 7)] [None] =
  Ok [Some ([u 0], [(6%nat, 0); (7%nat, 0)]); Some ([u 0; u 0], [(6%nat, 0); u 0; (7%nat, 1)]); Some ([u 0; u 0; u 1], [(6%nat, 0); u 0; u 1; (7%nat, 2)]);
      None; Some ([u 0; u 1], [u 0; (6%nat, 1); (7%nat, 1)]); Some ([u 0; u 1; u 1], [u 0; (6%nat, 1); u 1; (7%nat, 2)]);
      None; None; Some ([u 0; u 1; u 2], [u 0; u 1; (6%nat, 2); (7%nat, 2)])].
Proof. vm_compute. reflexivity. Qed.
Theorem C68_two_operators_refuted : ~ C68_two_full.
Proof.
  intros F. assert (E : ex_run 1 1 0 [] [None; Some (ex_op 5); Some (ex_op 6); None; Some (ex_op 7)] [] = Ok [Some ([], [(6%nat, 0); (7%nat, 0)])]) by (vm_compute; reflexivity).
  destruct (F tr (option (tr * tr)) (fun a b => Some (a, b)) None ex_U 1 1 0 [] [] [ex_op 5; ex_op 6] [ex_op 7] None _ 0 0 ltac:(lia) ltac:(lia) ltac:(discriminate) ltac:(discriminate) E ltac:(vm_compute; split; [discriminate|reflexivity]) ltac:(vm_compute; split; [discriminate|reflexivity])) as [H _].
  specialize (H ltac:(split; lia)). vm_compute in H. discriminate.
Qed.
Print Assumptions C68_two_operators_refuted.
Theorem C68_two_bra_given_refuted : ~ C68_two_full.
Proof.
  intros F. assert (E : ex_run 1 1 0 [] [None; Some (ex_op 6); None; Some (ex_op 7)] [None] = Ok [Some ([u 0], [(6%nat, 0); (7%nat, 0)])]) by (vm_compute; reflexivity).
  destruct (F tr (option (tr * tr)) (fun a b => Some (a, b)) None ex_U 1 1 0 [] [] [ex_op 6] [ex_op 7] (Some []) _ 0 0 ltac:(lia) ltac:(lia) ltac:(discriminate) ltac:(discriminate) E ltac:(vm_compute; split; [discriminate|reflexivity]) ltac:(vm_compute; split; [discriminate|reflexivity])) as [H _].
  specialize (H ltac:(split; lia)). vm_compute in H. discriminate.
Qed.
Print Assumptions C68_two_bra_given_refuted.
(** the limit for the second time *)
Theorem C68_two_limit_refuted : ~ C68_two_full.
Proof.
  intros F. destruct (two_ket_code tr (option (tr * tr)) (fun a b => Some (a, b)) None ex_U 3 1 1 [] [] [] [ex_op 7] (ex_op 6) None ltac:(lia) ltac:(lia) ltac:(discriminate) ltac:(vm_compute; discriminate)) as (l & E & _ & A & _).
  destruct (F tr (option (tr * tr)) (fun a b => Some (a, b)) None ex_U 3 1 1 [] [] [ex_op 6] [ex_op 7] None l 0 2 ltac:(lia) ltac:(lia) ltac:(discriminate) ltac:(discriminate) E ltac:(vm_compute; split; [discriminate|reflexivity]) ltac:(vm_compute; split; [discriminate|reflexivity])) as [_ H].
  specialize (A 0 2 ltac:(lia) ltac:(vm_compute; split; [discriminate|reflexivity]) ltac:(right; lia)). rewrite H in A; [discriminate|]. unfold wanted. lia.
Qed.
Print Assumptions C68_two_limit_refuted.

(** * Two times, the first operators on the bra *)
Definition C68_bra_full : Prop := forall V K ip zero U steps w si psi0 k0 s b0 (a : list (Z -> V -> V)) l t1 t2, 1 <= w -> 1 <= steps -> a <> [] -> s <> [] ->
  run_wf V K ip zero U steps w si psi0 (map Some k0 ++ None :: map Some s) (map Some b0 ++ None :: map Some a ++ [None]) = Ok l ->
  0 <= t1 < steps / w -> 0 <= t2 < steps / w -> wanted si t1 t2 -> rd l (t2 * (steps / w) + t1) = Ok (two_times_bra V K ip U w k0 s b0 a psi0 t1 t2).
(** The bra is one value ahead, only the last operator of each kind acts. *)
Theorem C68_bra_code : forall V K ip zero U steps w si psi0 k0 s' b0 a' s (a : Z -> V -> V), 1 <= w -> 1 <= steps -> (steps / w) * (steps / w) <= 2147483647 ->
  exists l, run_wf V K ip zero U steps w si psi0 (map Some k0 ++ None :: map Some (s' ++ [s])) (map Some b0 ++ None :: map Some (a' ++ [a]) ++ [None]) = Ok l /\
    zlen l = (steps / w) * (steps / w) /\
    (forall t1 t2, 0 <= t1 -> t1 <= t2 < steps / w -> (si <= 0 \/ t2 - t1 <= si + 1) ->
       rd l (t2 * (steps / w) + t1) =
         Ok (ip (evolve V U (t1 * w) (t2 * w) (acting V (t1 * w) [a] (evolve V U 0 ((t1 + 1) * w) (acting V (steps - 1) b0 psi0))))
                (acting V (t2 * w) [s] (evolve V U 0 (t2 * w) (acting V 0 k0 psi0))))) /\
    (forall t1 t2, 0 <= t1 < steps / w -> 0 <= t2 < steps / w -> (t2 < t1 \/ ~ (si <= 0 \/ t2 - t1 <= si + 1)) -> rd l (t2 * (steps / w) + t1) = Ok zero).
Proof. exact two_bra_code. Qed.
Print Assumptions C68_bra_code.
Example C68_bra_ex : ex_run 2 1 0 [] [None; Some (ex_op 7)] [None; Some (ex_op 6); None] =
  Ok [Some ([u 0; (6%nat, 0)], [(7%nat, 0)]); None; Some ([u 0; (6%nat, 0); u 0], [u 0; (7%nat, 1)]); Some ([u 0; u 1; (6%nat, 1)], [u 0; (7%nat, 1)])].
Proof. vm_compute. reflexivity. Qed.
Theorem C68_bra_refuted : ~ C68_bra_full.
Proof.
  intros F. assert (E : ex_run 1 1 0 [] [None; Some (ex_op 7)] [None; Some (ex_op 6); None] = Ok [Some ([u 0; (6%nat, 0)], [(7%nat, 0)])]) by (vm_compute; reflexivity).
  specialize (F tr (option (tr * tr)) (fun a b => Some (a, b)) None ex_U 1 1 0 [] [] [ex_op 7] [] [ex_op 6] _ 0 0 ltac:(lia) ltac:(lia) ltac:(discriminate) ltac:(discriminate) E ltac:(vm_compute; split; [discriminate|reflexivity]) ltac:(vm_compute; split; [discriminate|reflexivity]) ltac:(split; lia)).
  vm_compute in F. discriminate.
Qed.
Print Assumptions C68_bra_refuted.
(** If the last operator is the only one of its kind and the bra is constant, the values are right nevertheless. *)
Theorem C68_bra_partial : forall V K ip zero U steps w si psi0 k0 s (a : Z -> V -> V), (forall n, U n psi0 = psi0) -> 1 <= w -> 1 <= steps -> (steps / w) * (steps / w) <= 2147483647 ->
  exists l, run_wf V K ip zero U steps w si psi0 (map Some k0 ++ [None; Some s]) [None; Some a; None] = Ok l /\
    forall t1 t2, 0 <= t1 < steps / w -> 0 <= t2 < steps / w -> wanted si t1 t2 -> rd l (t2 * (steps / w) + t1) = Ok (two_times_bra V K ip U w k0 [s] [] [a] psi0 t1 t2).
Proof.
  intros V K ip zero U steps w si psi0 k0 s a Hu Hw Hs M. destruct (two_bra_code V K ip zero U steps w si psi0 k0 [] [] [] s a Hw Hs M) as (l & E & _ & A & _).
  exists l. split; [exact E|]. intros t1 t2 H1 H2 [W1 W2]. rewrite A; [|lia|lia|unfold window; lia]. unfold two_times_bra.
  assert (C : forall x y, evolve V U x y psi0 = psi0) by (intros x y; unfold evolve; induction (upto x y) as [|j q IH]; [reflexivity|]; cbn [fold_left]; rewrite Hu; exact IH).
  cbn [acting fold_left]. rewrite !C. reflexivity.
Qed.
Print Assumptions C68_bra_partial.
Example C68_bra_partial_ex : forall n : Z, (fun (n : Z) (v : Z) => 2 * v - 3) n 3 = 3.
Proof. intros n. reflexivity. Qed.

(** * Limits *)
(** More than 46340 values for each time overflow. *)
Theorem C68_size_code : forall V K ip zero U steps w si last psi0 ket bra buf, 1 <= w -> 0 <= steps -> 2147483647 < (steps / w) * (steps / w) ->
  run_c2 V K ip zero U steps w si last psi0 ket bra buf = UB.
Proof.
  intros V K ip zero U steps w si last psi0 ket bra buf Hw Hs H. unfold run_c2. rewrite (points_pos V) by assumption. cbn [bind]. change int_max with 2147483647.
  rewrite (proj2 (Z.ltb_lt _ _)) by exact H. reflexivity.
Qed.
Print Assumptions C68_size_code.
Example C68_size_ex : 2147483647 < (46341 / 1) * (46341 / 1) /\ (46340 / 1) * (46340 / 1) <= 2147483647.
Proof. split; vm_compute; [reflexivity|discriminate]. Qed.
(** A write cycle of zero divides by zero. *)
Theorem C68_cycle_code : forall V K ip zero U steps si psi0 s, s <> [] -> run_wf V K ip zero U steps 0 si psi0 (None :: map Some s) [] = UB.
Proof.
  intros V K ip zero U steps si psi0 s S. unfold run_wf, run.
  assert (R : exists o t, @rev (option (op V)) (None :: map Some s) = Some o :: t) by exact (rev_last V s [None] S). destruct R as (o & t & ->).
  assert (C : count_u V (None :: map Some s) = 1%nat) by (cbn [count_u]; f_equal; exact (count_map_end V s)). rewrite C.
  cbn [length Nat.ltb Nat.leb bind rev Nat.add]. destruct (Z.to_nat (steps - 1)); reflexivity.
Qed.
Print Assumptions C68_cycle_code.
(** Definitions of other shapes are refused: an operator at the end of the bra, a propagator at the end of the ket, or another number of propagators.  An empty definition
    of the ket is not checked. *)
Theorem C68_shape : forall V K ip zero U steps w si psi0 (ket bra : def V), 1 <= w ->
  ((exists o b, bra = b ++ [Some o]) -> run_wf V K ip zero U steps w si psi0 ket bra = Throw) /\
  ((bra = [] \/ exists b, bra = b ++ [None]) -> (exists k, ket = k ++ [None]) -> run_wf V K ip zero U steps w si psi0 ket bra = Throw) /\
  ((bra = [] \/ exists b, bra = b ++ [None]) -> (exists k o, ket = k ++ [Some o]) ->
     let n := length (filter (fun x => match x with None => true | Some _ => false end) (ket ++ match bra with [] => [None] | _ => bra end)) in
     n <> 2%nat -> n <> 3%nat -> run_wf V K ip zero U steps w si psi0 ket bra = Throw).
Proof. exact shapes. Qed.
Print Assumptions C68_shape.
Example C68_shape_ex : ex_run 3 1 0 [] [None; Some (ex_op 7)] [None; Some (ex_op 6)] = Throw /\ ex_run 3 1 0 [] [None; Some (ex_op 7); None] [] = Throw /\ ex_run 3 1 0 [] [Some (ex_op 7)] [] = Throw /\
  ex_run 3 1 0 [] [] [] = UB.
Proof. repeat split; vm_compute; reflexivity. Qed.
(** A series that has been written can not be read again: the name of the cycle in the meta file differs, and so do the names of the files. *)
Definition C68_read_full : Prop := forall V K ip zero U steps w c si ket bra (series : list V), 1 <= w -> 1 <= steps -> get_value c (lit "wcycle") = None ->
  run_read V K ip zero U (series_meta steps w c) si ket bra series <> UB.
Theorem C68_read_code : forall V K ip zero U steps w c si ket bra (series : list V), int32 steps -> get_value c (lit "wcycle") = None ->
  run_read V K ip zero U (series_meta steps w c) si ket bra series = UB.
Proof.
  intros V K ip zero U steps w c si ket bra series Hs Hc. unfold run_read.
  assert (N : exists b n, get_int (series_meta steps w c) (lit "Nt") 0 = Ok (b, n)).
  { pose proof (int_roundtrip c (lit "Nt") steps 0 Hs) as E. exists true, steps. rewrite <- E. unfold get_int, series_meta, set_int. rewrite !get_value_set.
    destruct (str_eq_dec (lit "Nt") (lit "Wcycle")) as [X|_]; [discriminate X|]. destruct (str_eq_dec (lit "Nt") (lit "WFBaseName")) as [X|_]; [discriminate X|].
    destruct (str_eq_dec (lit "Nt") (lit "Nt")) as [_|X]; [reflexivity|congruence]. }
  destruct N as (b & n & ->). cbn [bind].
  assert (W : get_int (series_meta steps w c) (lit "wcycle") 0 = Ok (false, 0)).
  { unfold get_int, series_meta, set_int. rewrite !get_value_set. destruct (str_eq_dec (lit "wcycle") (lit "Wcycle")) as [E|_]; [discriminate E|].
    destruct (str_eq_dec (lit "wcycle") (lit "WFBaseName")) as [E|_]; [discriminate E|]. destruct (str_eq_dec (lit "wcycle") (lit "Nt")) as [E|_]; [discriminate E|].
    destruct (str_eq_dec (lit "wcycle") (lit "CLASS")) as [E|_]; [discriminate E|]. rewrite Hc. reflexivity. }
  rewrite W. reflexivity.
Qed.
Print Assumptions C68_read_code.
Theorem C68_read_refuted : ~ C68_read_full.
Proof.
  intros F. apply (F tr (option (tr * tr)) (fun a b => Some (a, b)) None ex_U 3 1 empty_c 0 [None; Some (ex_op 7)] [] [[]; [u 0]; [u 0; u 1]] ltac:(lia) ltac:(lia) eq_refl).
  apply C68_read_code; [split; lia|reflexivity].
Qed.
Print Assumptions C68_read_refuted.
(** The parameters are in the file under these names. *)
Theorem C68_meta : forall steps w c, int32 steps -> int32 w ->
  get_int (series_meta steps w c) (lit "Nt") 0 = Ok (true, steps) /\ get_int (series_meta steps w c) (lit "Wcycle") 0 = Ok (true, w) /\
  get_value (series_meta steps w c) (lit "CLASS") = Some (lit "Propagation") /\ get_value (series_meta steps w c) (lit "WFBaseName") = Some (lit "WF").
Proof. exact meta_values. Qed.
Print Assumptions C68_meta.
Theorem C68_read_names_code : forall dir, read_base dir <> written_base dir.
Proof. intros dir E. unfold read_base, written_base in E. apply (f_equal (@length _)) in E. rewrite app_length in E. cbn in E. lia. Qed.
Print Assumptions C68_read_names_code.
(** A series that is read (with the names put right) is used as it is when both sides start with the propagator; without a definition of the bra an element of an
    empty list is accessed. *)
Theorem C68_series_code : forall V K ip zero U steps w si psi0 (ket : def V) buf0 o t, (1 < length buf0)%nat -> rev ket = Some o :: t -> hd (Some o) ket = None -> run V K ip zero U steps w si psi0 ket [] buf0 = UB.
Proof.
  intros V K ip zero U steps w si psi0 ket buf0 o t L R H. unfold run. rewrite R. cbn [rev]. apply Nat.ltb_lt in L. rewrite L. destruct ket as [|[x|] ket]; [discriminate|discriminate|reflexivity].
Qed.
Print Assumptions C68_series_code.
Example C68_series_ex : run tr (option (tr * tr)) (fun a b => Some (a, b)) None ex_U 2 1 0 [] [None; Some (ex_op 7)] [] [[]; [u 0]] = UB /\
  run tr (option (tr * tr)) (fun a b => Some (a, b)) None ex_U 2 1 0 [] [None; Some (ex_op 7)] [None] [[]; [u 0]] = Ok [Some ([u 0], [(7%nat, 0)]); Some ([u 0; u 1], [u 0; (7%nat, 1)])].
Proof. split; vm_compute; reflexivity. Qed.
