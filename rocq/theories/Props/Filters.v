(** Property C43: filter chains. *)
From Coq Require Import Ascii String List NArith ZArith Lia Bool Arith QArith Qcanon.
From Verif Require Import Base Arrays Algebra Model.Filters Spec.Filters Proofs.Filters.
Import ListNotations.
Open Scope Z_scope.

(** The definitions of a section end up, in order, as the filters of the list. *)
Theorem C43_init : forall (C : fld) X renorm ns s, l_init C X (l_new C X) renorm ns = Ok s -> Forall2 (defines C X) ns (active C X s).
Proof. intros C X renorm ns s E. apply (init_ok C X (fun _ _ _ => c0) renorm ns s E). Qed.
(** Every later application to a wave function for which the definitions can be used: the wave function is the one left by the
    filters in order, and each reported number belongs to the wave function left by the filters before it. *)
Theorem C43_apply : forall (C : fld) X norm2 normalize nstates overlap dt renorm ns s0 xs s x,
  (forall y, nstates (normalize y) = nstates y) -> (forall n, In n ns -> keeps C X nstates n) -> (forall n y, In n ns -> In y (xs ++ [x]) -> usable C X nstates y n) ->
  l_init C X (l_new C X) renorm ns = Ok s0 -> applied C X norm2 normalize nstates overlap dt s0 xs s ->
  exists s', l_apply C X norm2 normalize nstates overlap dt s x = Ok (s', after C X normalize (active C X s0) x, told C X norm2 normalize overlap dt (l_renorm C X s) (active C X s) x) /\ applied C X norm2 normalize nstates overlap dt s0 (xs ++ [x]) s'.
Proof. intros. eapply history_apply; eassumption. Qed.
(** expeconly and rho leave the wave function as it is. *)
Theorem C43_readonly : forall (C : fld) X normalize (f : filt C X) x, f_action C X f = Expeconly \/ f_action C X f = Rho -> acts_on C X normalize f x = x.
Proof. intros C X normalize f x [E|E]; unfold acts_on; rewrite E; reflexivity. Qed.
(** An integrating filter's value: the sum of its values times the time step. *)
Theorem C43_integrate : forall (C : fld) X norm2 normalize nstates overlap dt renorm ns s0 xs s,
  (forall y, nstates (normalize y) = nstates y) -> (forall n, In n ns -> keeps C X nstates n) -> (forall n y, In n ns -> In y xs -> usable C X nstates y n) ->
  l_init C X (l_new C X) renorm ns = Ok s0 -> applied C X norm2 normalize nstates overlap dt s0 xs s ->
  forall i f, nth_error (active C X s0) i = Some f -> f_int C X f = true ->
  exists f', nth_error (active C X s) i = Some f' /\
    f_sum C X f' = cmul (lsum (fun x => match value C X norm2 overlap (l_renorm C X s0) f (after C X normalize (firstn i (active C X s0)) x) with Some v => v | None => c0 end) xs) dt.
Proof. intros. eapply history_sum; eassumption. Qed.

(** States that the wave function does not have are refused by the first application, and so is a wave function without states. *)
Theorem C43_states : forall (C : fld) X norm2 normalize nstates overlap dt renorm ns s nd i j x, l_init C X (l_new C X) renorm ns = Ok s -> In nd ns -> n_ms C X nd = [i; j] ->
  -1 < i \/ -1 < j -> nstates x = None \/ (exists n, nstates x = Some n /\ (n <= i \/ n <= j)) -> l_apply C X norm2 normalize nstates overlap dt s x = Throw.
Proof. exact states_refused. Qed.
Print Assumptions C43_states.
(** Also a list that is used again starts its integrals at 0. *)
Theorem C43_sum_zero : forall (C : fld) X s renorm ns s', l_init C X s renorm ns = Ok s' -> Forall (fun f => f_sum C X f = c0) (active C X s').
Proof. intros C X. exact (init_zero C X (fun _ _ _ => c0)). Qed.
Print Assumptions C43_sum_zero.

(** * What is not checked *)
Definition C43_full : Prop := forall (C : fld) X norm2 normalize nstates overlap dt renorm ns s x, (forall n, In n ns -> keeps C X nstates n) ->
  l_init C X (l_new C X) renorm ns = Ok s -> l_apply C X norm2 normalize nstates overlap dt s x <> UB.
(** The states of a wave function: numbers. *)
Definition fx_norm2 (x : list Qc) : Qcf := fold_right (fun a b => a * a + b)%Qc 0%Qc x.
Definition fx_states (x : list Qc) : option Z := Some (zlen x).
Definition fx_overlap (x : list Qc) (i j : Z) : Qcf := (nth (Z.to_nat i) x 0 * nth (Z.to_nat j) x 0)%Qc.
Definition fx_op : fop Qcf (list Qc) := mkFop Qcf (list Qc) (map (fun a => Q2Qc 2 * a)%Qc) (fun x => (Q2Qc 2 * fx_norm2 x)%Qc) (lit "twice").
Definition fx_apply := l_apply Qcf (list Qc) fx_norm2 (fun x => x) fx_states fx_overlap (Q2Qc (1 # 10)).
Definition fx_node (name : string) (int : bool) (ms : list Z) : node Qcf (list Qc) := mkNode Qcf (list Qc) (lit name) None int ms None fx_op.
Definition fx_x : list Qc := [Q2Qc 1; Q2Qc 3].
Definition fx_init (ns : list (node Qcf (list Qc))) := l_init Qcf (list Qc) (l_new Qcf (list Qc)) None ns.
Definition is_ub {A} (a : outcome A) : bool := match a with UB => true | _ => false end.
Lemma is_ub_ok {A} (a : outcome A) : is_ub a = true -> a = UB.
Proof. destruct a; try discriminate. reflexivity. Qed.
(** A rho filter without states, and one with a negative state, which passes the check. *)
Example C43_rho_witness : match fx_init [fx_node "rho" false []] with Ok s => is_ub (fx_apply s fx_x) | _ => false end = true.
Proof. vm_compute. reflexivity. Qed.
Theorem C43_rho_refuted : ~ C43_full.
Proof.
  intros Full. pose proof C43_rho_witness as W. destruct (fx_init [fx_node "rho" false []]) as [s| |] eqn:E; try discriminate. apply is_ub_ok in W. revert W.
  apply (Full Qcf (list Qc) fx_norm2 (fun x => x) fx_states fx_overlap (Q2Qc (1 # 10)) None [fx_node "rho" false []] s fx_x); [|exact E].
  intros n [<-|[]] y. unfold fx_states, zlen. cbn. rewrite map_length. reflexivity.
Qed.
Example C43_negative_witness : match fx_init [fx_node "rho" false [0; -1]] with Ok s => is_ub (fx_apply s fx_x) | _ => false end = true.
Proof. vm_compute. reflexivity. Qed.
Theorem C43_negative_code : exists s, fx_init [fx_node "rho" false [0; -1]] = Ok s /\ fx_apply s fx_x = UB.
Proof. pose proof C43_negative_witness as W. destruct (fx_init [fx_node "rho" false [0; -1]]) as [s| |] eqn:E; try discriminate. apply is_ub_ok in W. exists s. split; [reflexivity|exact W]. Qed.
(** A filter with an operator that is added by a call is never usable: the operator is not stored. *)
Theorem C43_add_code : forall (C : fld) X norm2 normalize nstates overlap dt o h a v ms int s x, a <> lit "normalize" -> a <> lit "rho" ->
  l_add C X (l_new C X) (Some o) h a v ms int = Ok s -> l_apply C X norm2 normalize nstates overlap dt s x = UB.
Proof. exact add_null. Qed.
(** The default kind of value of such a call is not known. *)
Theorem C43_default_code : forall (C : fld) X s o h a ms int, l_add C X s o h a [] ms int = Throw.
Proof. intros. unfold l_add. destruct (_ <=? _); reflexivity. Qed.
(** A second section keeps the states of the first one: the same definitions read off another element. *)
Definition C43_reinit_full : Prop := forall (C : fld) X renorm ns1 ns2 s s1 s2, l_init C X (l_new C X) renorm ns1 = Ok s -> l_init C X s renorm ns2 = Ok s1 -> l_init C X (l_new C X) renorm ns2 = Ok s2 -> active C X s1 = active C X s2.
Definition fx_first (s : flist Qcf (list Qc)) : list Z := map (f_ms0 Qcf (list Qc)) (active Qcf (list Qc) s).
Example C43_reinit_witness : match fx_init [fx_node "rho" false [0; 1]], fx_init [fx_node "rho" false []] with
  | Ok s, Ok s2 => match l_init Qcf (list Qc) s None [fx_node "rho" false []] with Ok s1 => (fx_first s1, fx_first s2) | _ => ([], []) end
  | _, _ => ([], []) end = ([0], [-1]).
Proof. vm_compute. reflexivity. Qed.
Theorem C43_reinit_refuted : ~ C43_reinit_full.
Proof.
  intros Full. pose proof C43_reinit_witness as W. destruct (fx_init [fx_node "rho" false [0; 1]]) as [s| |] eqn:E; try discriminate. destruct (fx_init [fx_node "rho" false []]) as [s2| |] eqn:E2; try discriminate.
  destruct (l_init Qcf (list Qc) s None [fx_node "rho" false []]) as [s1| |] eqn:E1; try discriminate. unfold fx_first in W. rewrite (Full Qcf (list Qc) None _ _ s s1 s2 E E1 E2) in W. injection W as W1 W2. rewrite W1 in W2. discriminate.
Qed.

(** An integrating expectation value behind an operator: (1, 3) is seen as (2, 6); 80 each time, 0.1 * 160 in the end. *)
Definition fx_ns : list (node Qcf (list Qc)) := [fx_node "apply" false []; fx_node "expec" true []; fx_node "rho" false [1; 0]].
Example C43_states_ex : match fx_init [fx_node "rho" false [0; 2]] with Ok s => fx_apply s fx_x = Throw | _ => False end.
Proof. vm_compute. reflexivity. Qed.
Example C43_ex : (forall n, In n fx_ns -> keeps Qcf (list Qc) fx_states n) /\ (forall n, In n fx_ns -> usable Qcf (list Qc) fx_states fx_x n) /\
  match fx_init fx_ns with
  | Ok s0 => match fx_apply s0 fx_x with
    | Ok (s1, x1, o1) => match fx_apply s1 fx_x with Ok (_, x2, o2) => map (map this) [x1; o1; x2; o2] = [[4; 12]; [8; 48]; [4; 12]; [16; 48]]%Q | _ => False end
    | _ => False end
  | _ => False end.
Proof.
  split; [|split].
  - intros n [<-|[<-|[<-|[]]]] y; unfold fx_states, zlen; cbn; rewrite map_length; reflexivity.
  - intros n [<-|[<-|[<-|[]]]]; unfold usable; cbn; try discriminate. exists 2. repeat split; lia.
  - vm_compute. reflexivity.
Qed.

Print Assumptions C43_init.
Print Assumptions C43_apply.
Print Assumptions C43_readonly.
Print Assumptions C43_integrate.
Print Assumptions C43_rho_refuted.
Print Assumptions C43_negative_code.
Print Assumptions C43_add_code.
Print Assumptions C43_default_code.
Print Assumptions C43_reinit_refuted.
