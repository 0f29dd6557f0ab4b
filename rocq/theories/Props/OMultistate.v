(** Property C32: multi state operators. *)
From Coq Require Import List NArith ZArith Lia Bool.
From Verif Require Import Base Arrays Algebra Model.Operators Spec.Operators Model.Multistate Model.OMultistate Spec.OMultistate Proofs.OMultistate Props.Operators.
Import ListNotations.
Open Scope Z_scope.

(** Whatever way the operator was set up: state i of the result is the sum over j of element (i,j) applied to state j. *)
Theorem C32_apply : forall R M A a_act (s : oms A) G n dest psi, made_ms A s -> represents R M A a_act (o_mat A s) (o_n A s) G ->
  zlen dest = o_n A s -> zlen psi = o_n A s ->
  exists dest' n', o_apply R M A a_act s n dest psi = Ok (dest', n') /\ zlen dest' = o_n A s /\
    forall i, 0 <= i < o_n A s -> rd dest' i = Ok (row R M G (o_unity A s) (o_n A s) (fun j => nth (Z.to_nat j) psi m0) i).
Proof. exact (fun R M A a_act s G n dest psi H => apply_ok R M A a_act s G n dest psi (made_range A s H)). Qed.
Print Assumptions C32_apply.

(** Adding with non negative indices never leaves the table; it stores the operator and changes nothing else, or refuses.
    Giving both elements of a pair ends the hermitian mode. *)
Theorem C32_add : forall A (s : oms A) o r c, made_ms A s -> 0 <= r -> 0 <= c -> exists ok s', o_add A s o r c = Ok (ok, s') /\
  (ok = false -> o_mat A s' = o_mat A s) /\
  (ok = true -> r < max_states /\ c < max_states /\ o_mat A s r c = None /\ o_n A s' = Z.max (Z.max (o_n A s) (r + 1)) (c + 1) /\
     o_herm A s' = (if r =? c then o_herm A s else match o_mat A s c r with Some _ => false | None => o_herm A s end) /\
     forall i j, o_mat A s' i j = if (i =? r) && (j =? c) then Some o else o_mat A s i j).
Proof.
  intros A s o r c H Hr Hc. destruct (add_ok A s o r c (made_range A s H) Hr Hc) as (ok & s' & E & _ & P & Q). exists ok, s'. auto.
Qed.
Print Assumptions C32_add.

(** A negative index writes outside the table. *)
Theorem C32_negative_code : forall A (s : oms A) o r c, r < max_states -> c < max_states -> r < 0 \/ c < 0 -> o_add A s o r c = UB.
Proof. exact add_negative. Qed.
Print Assumptions C32_negative_code.
Example C32_negative_ex : o_add Z (o_new Z) 3 (-1) 0 = UB /\ (exists s s', o_add Z (o_new Z) 3 0 1 = Ok (true, s) /\ o_herm Z s = true /\ o_add Z s 4 1 0 = Ok (true, s') /\ o_herm Z s' = false).
Proof. split; [reflexivity|]. eexists. eexists. repeat split. Qed.

(** Initialisation in hermitian mode: elements (i,j) and (j,i) coincide, and are the given upper element if there is one,
    otherwise the lower one. *)
Theorem C32_init_hermitian : forall A (s : oms A), setup A s -> o_herm A s = true -> 1 <= o_n A s -> exists s', o_init A s (o_n A s) = Ok s' /\
  o_n A s' = o_n A s /\ o_unity A s' = o_unity A s /\
  (forall i j, 0 <= i < o_n A s -> 0 <= j < o_n A s -> o_mat A s' i j = o_mat A s' j i) /\
  (forall i j, 0 <= i < j -> j < o_n A s -> o_mat A s' i j = match o_mat A s i j with Some x => Some x | None => o_mat A s j i end) /\
  (forall i, 0 <= i < o_n A s -> o_mat A s' i i = o_mat A s i i).
Proof.
  intros A s H Hh Hn. destruct (setup_range A s H) as [Hr Hb]. destruct (init_herm A s Hr Hh Hb Hn) as (s' & E & N & U & _ & _ & P & _). exists s'.
  split; [exact E|]. split; [exact N|]. split; [exact U|]. split; [|split].
  - intros i j Hi Hj. rewrite !P by assumption. apply merged_sym.
  - intros i j Hi Hj. rewrite P by lia. unfold merged. destruct (Z.eqb_spec i j); [lia|]. rewrite Z.min_l, Z.max_r by lia. reflexivity.
  - intros i Hi. rewrite P by lia. unfold merged. rewrite Z.eqb_refl. reflexivity.
Qed.
Print Assumptions C32_init_hermitian.

(** Initialisation without hermiticity: it must not leave the table and leaves the matrix unchanged. *)
Definition C32_init_full : Prop := forall A (s : oms A), setup A s -> o_herm A s = false -> 1 <= o_n A s -> exists s', o_init A s (o_n A s) = Ok s' /\ o_mat A s' = o_mat A s.
Theorem C32_init_partial : forall A (s : oms A), setup A s -> o_herm A s = false -> 1 <= o_n A s < max_states -> (forall i, 0 <= i < o_n A s -> o_mat A s i (o_n A s) = None) ->
  exists s', o_init A s (o_n A s) = Ok s' /\ o_mat A s' = o_mat A s.
Proof. intros A s H Hh Hn Hl. destruct (setup_range A s H) as [_ Hb]. rewrite init_gen by assumption. eexists. split; reflexivity. Qed.
Print Assumptions C32_init_partial.
(** The loop runs one column too far: with the maximum number of states it leaves the table. *)
Theorem C32_init_code : forall A (s : oms A), setup A s -> o_herm A s = false -> o_n A s = max_states -> o_init A s (o_n A s) = UB.
Proof. intros A s H Hh Hn. destruct (setup_range A s H) as [_ Hb]. apply init_gen_full; assumption. Qed.
Print Assumptions C32_init_code.
Theorem C32_init_refuted : ~ C32_init_full.
Proof.
  intros H. assert (S : setup Z (mkOms Z false 64 false false (fun _ _ => None))).
  { apply (su_step Z (o_new Z) (MParams Z true false (Some 64))); [apply su_new|cbn; lia|exact I|reflexivity]. }
  destruct (H Z _ S eq_refl) as (s' & E & _); [cbn; lia|]. rewrite (C32_init_code Z _ S eq_refl eq_refl) in E. discriminate E.
Qed.
Print Assumptions C32_init_refuted.

(** Copies: the full property. *)
Definition C32_copy_full : Prop := forall R M A a_act (dup : A -> A) (s : oms A) G n, (forall a f, implements R M (a_act a) f -> implements R M (a_act (dup a)) f) ->
  setup A s -> represents R M A a_act (o_mat A s) (o_n A s) G -> forall s1 s2 dest psi, o_init A s (o_n A s) = Ok s1 -> o_copy A dup (o_new A) s1 = Ok s2 -> zlen dest = o_n A s -> zlen psi = o_n A s ->
  exists d1 n1 d2 n2, o_apply R M A a_act s1 n dest psi = Ok (d1, n1) /\ o_apply R M A a_act s2 n dest psi = Ok (d2, n2) /\ d1 = d2.
(** An initialised operator without 'unity' (missing: copies of operators with 'unity') that is symmetric or not hermitian
    is copied faithfully. *)
Theorem C32_copy_partial : forall R M A a_act (dup : A -> A) (o : oms A) G, (forall a f, implements R M (a_act a) f -> implements R M (a_act (dup a)) f) ->
  made_ms A o -> o_buf A o = true -> o_unity A o = false ->
  (o_herm A o = true -> forall i j, 0 <= i < o_n A o -> 0 <= j < o_n A o -> o_mat A o i j = o_mat A o j i) ->
  represents R M A a_act (o_mat A o) (o_n A o) G ->
  exists s, o_copy A dup (o_new A) o = Ok s /\ o_n A s = o_n A o /\
    forall n dest psi, zlen dest = o_n A o -> zlen psi = o_n A o -> exists d1 n1 d2 n2, o_apply R M A a_act o n dest psi = Ok (d1, n1) /\ o_apply R M A a_act s n dest psi = Ok (d2, n2) /\
      zlen d1 = zlen d2 /\ forall i, 0 <= i < o_n A o -> rd d1 i = rd d2 i.
Proof.
  intros R M A a_act dup o G D H Hb Hu Hs Rp. pose proof (made_range A o H) as Hr. destruct (copy_ok R M A a_act dup o Hr Hb Hs) as (s & E & N & U & P).
  exists s. split; [exact E|]. split; [exact N|]. intros n dest psi Ld Lp.
  destruct (apply_ok R M A a_act o G n dest psi Hr Rp Ld Lp) as (d1 & n1 & E1 & L1 & R1).
  assert (Rp2 : represents R M A a_act (o_mat A s) (o_n A s) G) by (rewrite N; exact (represents_copy R M A a_act dup (o_mat A o) (o_n A o) G (o_mat A s) Rp D P)).
  destruct (apply_ok R M A a_act s G n dest psi) as (d2 & n2 & E2 & L2 & R2); [rewrite N; exact Hr|exact Rp2|congruence|congruence|].
  exists d1, n1, d2, n2. split; [exact E1|]. split; [exact E2|]. split; [congruence|]. intros i Hi. rewrite R1, R2 by (rewrite ?N; exact Hi). rewrite Hu, U, N. reflexivity.
Qed.
Print Assumptions C32_copy_partial.
(** The copy of an operator that was not initialised dereferences a null pointer; otherwise the copy never has 'unity'. *)
Theorem C32_copy_code : forall A (dup : A -> A) (o : oms A), (o_buf A o = false -> o_copy A dup (o_new A) o = UB) /\
  forall s, o_copy A dup (o_new A) o = Ok s -> o_unity A s = false.
Proof.
  intros A dup o. unfold o_copy. split; [intros ->; reflexivity|]. intros s. destruct (negb (o_buf A o)); [discriminate|].
  match goal with |- bind ?f _ = _ -> _ => destruct f as [m| |]; cbn [bind]; intros E; try discriminate; injection E as <- end. reflexivity.
Qed.
Print Assumptions C32_copy_code.

(** Two integer states, 'unity' set, one operator x -> 3x from state 1 to state 0. *)
Definition ex_act (k : Z) : acts Zr ZM := mkActs Zr ZM (fun n d s => Ok (k * s, n)) (fun n p => Ok (k * p, n)) (fun n d s => Ok (d + k * s, n)).
Definition ex32 (unity : bool) : outcome (oms Z) := foldM (mstep Z) [MParams Z true unity None; MAdd Z 3 0 1; MAdd Z 5 1 1; MInit Z 2] (o_new Z).
Example C32_ex : exists s, ex32 true = Ok s /\ exists n, o_apply Zr ZM Z ex_act s 0 [77; 77] [10; 100] = Ok ([310; 500], n).
Proof. eexists. split; [vm_compute; reflexivity|]. eexists. vm_compute. reflexivity. Qed.
Example C32_hermitian_ex : exists s s', foldM (mstep Z) [MParams Z false false None; MAdd Z 3 0 1; MAdd Z 5 1 1] (o_new Z) = Ok s /\ o_herm Z s = true /\ o_init Z s 2 = Ok s' /\
  o_mat Z s' 1 0 = Some 3 /\ exists n, o_apply Zr ZM Z ex_act s' 0 [77; 77] [10; 100] = Ok ([300; 530], n).
Proof. eexists. eexists. split; [vm_compute; reflexivity|]. split; [reflexivity|]. split; [vm_compute; reflexivity|]. split; [vm_compute; reflexivity|]. eexists. vm_compute. reflexivity. Qed.

Theorem C32_copy_refuted : ~ C32_copy_full.
Proof.
  intros H.
  set (s := mkOms Z false 1 true false (fun _ _ => None)).
  assert (S : setup Z s). { apply (su_step Z (o_new Z) (MParams Z true true (Some 1))); [apply su_new|cbn; lia|exact I|reflexivity]. }
  destruct (H Zr ZM Z ex_act (fun x => x) s (fun _ _ => None) 0%nat) with (s1 := mkOms Z false 1 true true (fun _ _ => None)) (s2 := mkOms Z false 1 false true (fun _ _ => None)) (dest := [0]) (psi := [7]) as (d1 & n1 & d2 & n2 & E1 & E2 & ED); auto.
  - intros i j _ _. exact I.
  - vm_compute in E1, E2. injection E1 as <- <-. injection E2 as <- <-. discriminate ED.
Qed.
Print Assumptions C32_copy_refuted.
