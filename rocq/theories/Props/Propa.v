(** Property C42: the propagation program. *)
From Coq Require Import List ZArith Lia Bool Arith.
From Verif Require Import Base Arrays Model.Propa Spec.Propa Proofs.Propa.
Import ListNotations.
Open Scope Z_scope.

(** A run of n steps in which nothing fails: the propagator is applied at the time steps 0, ..., n-1, the clock ends at n, the
    meta file tells n, and file j holds the wave function after j write cycles, for every j that fits. *)
Theorem C42_run : forall W pre report prop post g (x : W) n y, g_start g = 0 -> g_wcycle g <> 0 -> g_steps g = Z.of_nat n -> Z.of_nat n <= INT_MAX -> evolve W pre report prop post 0 n x = Ok y ->
  exists s, p_run W pre report prop post g x = Ok (true, s) /\ u_psi W s = y /\ u_clock W s = Z.of_nat n /\ u_log W s = upto 0 (Z.of_nat n) /\ u_meta W s = Some (Z.of_nat n) /\
    zlen (u_files W s) = Z.of_nat n / Z.abs (g_wcycle g) + 1 /\
    forall j, 0 <= j <= Z.of_nat n / Z.abs (g_wcycle g) -> exists z, rd (u_files W s) j = Ok (j, z) /\ evolve W pre report prop post 0 (Z.to_nat (j * Z.abs (g_wcycle g))) x = Ok z.
Proof. intros. apply run_ok; assumption. Qed.
Definition px_id (k : Z) (x : Z) : outcome Z := Ok x.
Definition px_step (k : Z) (x : Z) : outcome Z := Ok (10 * x + k).
Notation px_run := (p_run Z px_id px_id px_step px_id).
Example C42_run_ex : p_params false 5 (Some 2) None = Ok (mkCfg 5 2 0) /\ evolve Z px_id px_id px_step px_id 0 5 7 = Ok 701234 /\
  px_run (mkCfg 5 2 0) 7 = Ok (true, mkRun Z 701234 5 3 [(0, 7); (1, 701); (2, 70123)] (Some 5) [0; 1; 2; 3; 4]).
Proof. repeat match goal with |- _ /\ _ => split end; vm_compute; reflexivity. Qed.

(** * Restarts *)
(** A run started with [start] s > 0 does the steps at s, ..., N and ends at N + 1. *)
Theorem C42_restart_code : forall W pre report prop post g (x : W) n y, 0 < g_start g -> g_wcycle g <> 0 -> g_steps g = g_start g + Z.of_nat n - 1 -> g_steps g < INT_MAX -> evolve W pre report prop post (g_start g) n x = Ok y ->
  exists s, p_run W pre report prop post g x = Ok (true, s) /\ u_psi W s = y /\ u_clock W s = g_steps g + 1 /\ u_log W s = upto (g_start g) (g_steps g + 1) /\
    map fst (u_files W s) = upto (g_start g) (g_start g + zlen (u_files W s)).
Proof.
  intros W pre report prop post g x n y H1 H2 H3 H4 H5. destruct (run_restart W pre report prop post g x n y H1 H2 H3 H4 H5) as (s & R & P & C & L & F & _). exists s. rewrite C, L, H3.
  replace (g_start g + Z.of_nat n - 1 + 1) with (g_start g + Z.of_nat n) by lia. repeat split; assumption.
Qed.
(** Whether the wave function of the restart is the one after s steps (d = 0) or the one before step s (d = 1): the restarted run should
    end where the whole run does. *)
Definition C42_restart_full (d : Z) : Prop := forall W pre report prop post N w s (x y z : W) r r', 0 < s <= N -> N < INT_MAX -> w <> 0 -> evolve W pre report prop post 0 (Z.to_nat N) x = Ok y ->
  evolve W pre report prop post 0 (Z.to_nat (s - d)) x = Ok z -> p_run W pre report prop post (mkCfg N w 0) x = Ok (true, r) -> p_run W pre report prop post (mkCfg N w s) z = Ok (true, r') ->
  u_clock W r' = u_clock W r /\ u_psi W r' = u_psi W r.
Example C42_restart_witness : evolve Z px_id px_id px_step px_id 0 2 7 = Ok 701 /\ evolve Z px_id px_id px_step px_id 0 1 7 = Ok 70 /\
  px_run (mkCfg 3 1 0) 7 = Ok (true, mkRun Z 7012 3 4 [(0, 7); (1, 70); (2, 701); (3, 7012)] (Some 3) [0; 1; 2]) /\
  px_run (mkCfg 3 1 2) 701 = Ok (true, mkRun Z 70123 4 4 [(2, 7012); (3, 70123)] (Some 3) [2; 3]) /\
  px_run (mkCfg 3 1 2) 70 = Ok (true, mkRun Z 7023 4 4 [(2, 702); (3, 7023)] (Some 3) [2; 3]).
Proof. repeat match goal with |- _ /\ _ => split end; vm_compute; reflexivity. Qed.
Theorem C42_restart_refuted : ~ C42_restart_full 0 /\ ~ C42_restart_full 1.
Proof.
  destruct C42_restart_witness as (E2 & E1 & R & R2 & R1). split; intros Full.
  - assert (H : forall r r', px_run (mkCfg 3 1 0) 7 = Ok (true, r) -> px_run (mkCfg 3 1 2) 701 = Ok (true, r') -> u_clock Z r' = u_clock Z r) by (intros r r' H1 H2; apply (Full Z px_id px_id px_step px_id 3 1 2 7 7012 701 r r'); [split; [reflexivity|discriminate]|reflexivity|discriminate|vm_compute; reflexivity|vm_compute; reflexivity|exact H1|exact H2]).
    pose proof (H _ _ R R2) as Q. discriminate Q.
  - assert (H : forall r r', px_run (mkCfg 3 1 0) 7 = Ok (true, r) -> px_run (mkCfg 3 1 2) 70 = Ok (true, r') -> u_clock Z r' = u_clock Z r) by (intros r r' H1 H2; apply (Full Z px_id px_id px_step px_id 3 1 2 7 7012 70 r r'); [split; [reflexivity|discriminate]|reflexivity|discriminate|vm_compute; reflexivity|vm_compute; reflexivity|exact H1|exact H2]).
    pose proof (H _ _ R R1) as Q. discriminate Q.
Qed.
(** What is true: if nothing depends on the time and every step is written, the restart from the wave function before step s ends with
    the same wave function and writes the files s, s+1, ... of the whole run. *)
Theorem C42_restart_partial : forall W pre report prop post g (x y z : W) n s, timeless W pre report prop post -> 0 < g_start g -> g_wcycle g = 1 -> g_steps g = Z.of_nat n -> g_start g <= Z.of_nat n -> Z.of_nat n < INT_MAX ->
  evolve W pre report prop post 0 n x = Ok y -> evolve W pre report prop post 0 (Z.to_nat (g_start g - 1)) x = Ok z -> p_run W pre report prop post (mkCfg (Z.of_nat n) 1 0) x = Ok (true, s) ->
  exists s', p_run W pre report prop post g z = Ok (true, s') /\ u_psi W s' = y /\ u_files W s' = skipn (Z.to_nat (g_start g)) (u_files W s).
Proof. intros. eapply restart_ok; eassumption. Qed.
Definition px_free (k : Z) (x : Z) : outcome Z := Ok (2 * x + 1).
Example C42_restart_ex : timeless Z px_id px_id px_free px_id /\ evolve Z px_id px_id px_free px_id 0 4 0 = Ok 15 /\ evolve Z px_id px_id px_free px_id 0 2 0 = Ok 3 /\
  p_run Z px_id px_id px_free px_id (mkCfg 4 1 0) 0 = Ok (true, mkRun Z 15 4 5 [(0, 0); (1, 1); (2, 3); (3, 7); (4, 15)] (Some 4) [0; 1; 2; 3]) /\
  p_run Z px_id px_id px_free px_id (mkCfg 4 1 3) 3 = Ok (true, mkRun Z 15 5 5 [(3, 7); (4, 15)] (Some 4) [3; 4]).
Proof. repeat match goal with |- _ /\ _ => split end; vm_compute; reflexivity. Qed.
(** With write cycles longer than a step it is not: the file number is taken for the number of a step. *)
Theorem C42_restart_wcycle_code : evolve Z px_id px_id px_free px_id 0 2 0 = Ok 3 /\ exists r r', p_run Z px_id px_id px_free px_id (mkCfg 4 2 0) 0 = Ok (true, r) /\ rd (u_files Z r) 1 = Ok (1, 3) /\
  p_run Z px_id px_id px_free px_id (mkCfg 4 2 2) 3 = Ok (true, r') /\ u_psi Z r = 15 /\ u_psi Z r' = 31.
Proof. split; [reflexivity|]. do 2 eexists. split; [vm_compute; reflexivity|]. split; [vm_compute; reflexivity|]. split; [vm_compute; reflexivity|]. split; reflexivity. Qed.

(** * Failures and parameters *)
(** If step n + 1 throws, the files of the steps before are there, but the meta file tells the number of steps asked for. *)
Theorem C42_fail_code : forall W pre report prop post g (x : W) n y, g_start g = 0 -> g_wcycle g <> 0 -> Z.of_nat n < g_steps g <= INT_MAX -> evolve W pre report prop post 0 n x = Ok y -> turn W pre report prop post (Z.of_nat n) y = Throw ->
  exists s, p_run W pre report prop post g x = Ok (false, s) /\ u_meta W s = Some (g_steps g) /\ zlen (u_files W s) = Z.of_nat n / Z.abs (g_wcycle g) + 1.
Proof. intros. eapply run_fail; eassumption. Qed.
(** The files are those of the run that stops before the failing step. *)
Theorem C42_fail_files : forall W pre report prop post g (x : W) n y, g_start g = 0 -> g_wcycle g <> 0 -> Z.of_nat n < g_steps g <= INT_MAX -> evolve W pre report prop post 0 n x = Ok y -> turn W pre report prop post (Z.of_nat n) y = Throw ->
  exists s s', p_run W pre report prop post g x = Ok (false, s) /\ p_run W pre report prop post (mkCfg (Z.of_nat n) (g_wcycle g) 0) x = Ok (true, s') /\ u_files W s = u_files W s'.
Proof. intros. eapply run_fail_files; eassumption. Qed.
Print Assumptions C42_fail_files.
Definition px_fail (k : Z) (x : Z) : outcome Z := if k =? 3 then Throw else Ok (x + 1).
Example C42_fail_ex : evolve Z px_id px_id px_fail px_id 0 3 0 = Ok 3 /\ turn Z px_id px_id px_fail px_id 3 3 = Throw /\
  p_run Z px_id px_id px_fail px_id (mkCfg 9 2 0) 0 = Ok (false, mkRun Z 3 3 2 [(0, 0); (1, 2)] (Some 9) [0; 1; 2]).
Proof. repeat match goal with |- _ /\ _ => split end; vm_compute; reflexivity. Qed.
(** Parameters that are accepted should not give undefined behaviour. *)
Definition C42_wcycle_full : Prop := forall W pre report prop post dz N w st g (x : W), (forall k y, pre k y <> UB /\ report k y <> UB /\ prop k y <> UB /\ post k y <> UB) -> N < INT_MAX -> p_params dz N w st = Ok g -> p_run W pre report prop post g x <> UB.
Theorem C42_wcycle_refuted : ~ C42_wcycle_full.
Proof. intros Full. apply (Full Z px_id px_id px_step px_id false 1 (Some 0) None (mkCfg 1 0 0) 7); [|reflexivity..]. intros k y. repeat split; discriminate. Qed.
(** Only the write cycle 0 can do that. *)
Theorem C42_params_partial : forall W pre report prop post dz N w st g (x : W), (forall k y, pre k y <> UB /\ report k y <> UB /\ prop k y <> UB /\ post k y <> UB) -> N < INT_MAX -> w <> Some 0 -> p_params dz N w st = Ok g ->
  p_run W pre report prop post g x <> UB.
Proof. intros. eapply params_safe; eassumption. Qed.
(** Zero steps and time steps are refused; a negative number of steps does nothing but write the initial wave function. *)
Theorem C42_refuse : forall N w st, p_params true N w st = Throw /\ p_params false 0 w st = Throw.
Proof. intros. split; reflexivity. Qed.
Theorem C42_negative_code : forall W pre report prop post N (x : W), N < 0 -> p_params false N None None = Ok (mkCfg N 10 0) /\ p_run W pre report prop post (mkCfg N 10 0) x = Ok (true, mkRun W x 0 1 [(0, x)] (Some N) []).
Proof. intros W pre report prop post N x H. unfold p_params, p_run. cbn [g_start g_steps g_wcycle Z.eqb negb]. destruct (Z.eqb_spec N 0); [lia|]. rewrite upto_nil by lia. split; reflexivity. Qed.

Print Assumptions C42_run.
Print Assumptions C42_restart_code.
Print Assumptions C42_restart_refuted.
Print Assumptions C42_restart_partial.
Print Assumptions C42_restart_wcycle_code.
Print Assumptions C42_fail_code.
Print Assumptions C42_wcycle_refuted.
Print Assumptions C42_params_partial.
Print Assumptions C42_refuse.
Print Assumptions C42_negative_code.
