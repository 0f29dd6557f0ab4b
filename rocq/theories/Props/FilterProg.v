(** Property C69: the program that applies filters to the files of a propagation. *)
From Coq Require Import Ascii String List NArith ZArith Lia Bool.
From Verif Require Import Base Arrays Model.Params Spec.Params Model.Propa Spec.Propa Model.FilterProg Spec.FilterProg Proofs.FilterProg.
Import ListNotations.
Open Scope Z_scope.

(** Whatever the parameters a propagation accepts, the filters see all the wave functions it wrote. *)
Definition C69_full : Prop := forall W pre report prop post T (look : Z -> W -> T -> outcome T) base dt N w st g (x : W) s n t t',
  p_params false N w st = Ok g -> int32 N -> int32 (g_wcycle g) -> p_run W pre report prop post g x = Ok (true, s) -> u_meta W s = Some n ->
  look_all W T look 0 (map snd (u_files W s)) t = Ok t' -> f_run W T look (propa_meta base dt n (g_wcycle g)) (u_files W s) t = Ok (true, t').

(** True for a run from the start with a positive write cycle: the filters see the initial wave function and those after 1, 2, ... write cycles, each once and in
    order, the clock counting write cycles; if the filters refuse one, the run ends there. *)
Theorem C69_partial : forall W pre report prop post base dt g (x : W) n y, g_start g = 0 -> 1 <= g_wcycle g <= 2147483647 -> g_steps g = Z.of_nat n -> Z.of_nat n <= 2147483647 -> evolve W pre report prop post 0 n x = Ok y ->
  exists s xs, p_run W pre report prop post g x = Ok (true, s) /\ u_meta W s = Some (Z.of_nat n) /\ zlen xs = Z.of_nat n / g_wcycle g + 1 /\
    (forall j z, nth_error xs j = Some z -> evolve W pre report prop post 0 (Z.to_nat (Z.of_nat j * g_wcycle g)) x = Ok z) /\
    forall T (look : Z -> W -> T -> outcome T) t,
      (forall t', look_all W T look 0 xs t = Ok t' -> f_run W T look (propa_meta base dt (Z.of_nat n) (g_wcycle g)) (u_files W s) t = Ok (true, t')) /\
      (forall l z r t1, xs = l ++ z :: r -> look_all W T look 0 l t = Ok t1 -> look (zlen l) z t1 = Throw ->
         f_run W T look (propa_meta base dt (Z.of_nat n) (g_wcycle g)) (u_files W s) t = Ok (false, t1)).
Proof. exact filter_reads. Qed.
Print Assumptions C69_partial.
Definition fx_id (k : Z) (x : Z) : outcome Z := Ok x.
Definition fx_step (k : Z) (x : Z) : outcome Z := Ok (10 * x + k).
Definition fx_fail (k : Z) (x : Z) : outcome Z := if k =? 3 then Throw else Ok (10 * x + k).
(** records what is seen, refuses 70123 *)
Definition fx_look (k : Z) (x : Z) (t : list (Z * Z)) : outcome (list (Z * Z)) := Ok (t ++ [(k, x)]).
Definition fx_look_some (k : Z) (x : Z) (t : list (Z * Z)) : outcome (list (Z * Z)) := if x =? 70123 then Throw else Ok (t ++ [(k, x)]).
Definition fx_base : str := lit "WF".
Definition fx_dt : str := lit "0.5".
Example C69_ex : p_params false 5 (Some 2) None = Ok (mkCfg 5 2 0) /\ evolve Z fx_id fx_id fx_step fx_id 0 5 7 = Ok 701234 /\
  exists s, p_run Z fx_id fx_id fx_step fx_id (mkCfg 5 2 0) 7 = Ok (true, s) /\
    f_run Z _ fx_look (propa_meta fx_base fx_dt 5 2) (u_files Z s) [] = Ok (true, [(0, 7); (1, 701); (2, 70123)]) /\
    f_run Z _ fx_look_some (propa_meta fx_base fx_dt 5 2) (u_files Z s) [] = Ok (false, [(0, 7); (1, 701)]).
Proof. split; [reflexivity|]. split; [reflexivity|]. eexists. split; [vm_compute; reflexivity|]. split; vm_compute; reflexivity. Qed.

(** The number of a restart is not in the meta file, and the first file read is number 0: after a restart into another directory nothing is seen. *)
Theorem C69_restart_code : forall W pre report prop post base dt g (x : W) n y, 0 < g_start g -> 1 <= g_wcycle g <= 2147483647 -> g_steps g = g_start g + Z.of_nat n - 1 -> g_steps g < 2147483647 ->
  evolve W pre report prop post (g_start g) n x = Ok y ->
  exists s, p_run W pre report prop post g x = Ok (true, s) /\
    forall T (look : Z -> W -> T -> outcome T) t, f_run W T look (propa_meta base dt (g_steps g) (g_wcycle g)) (u_files W s) t = Ok (false, t).
Proof. exact filter_restart. Qed.
Print Assumptions C69_restart_code.
Example C69_restart_ex : p_params false 4 (Some 1) (Some 3) = Ok (mkCfg 4 1 3) /\ exists s, p_run Z fx_id fx_id fx_step fx_id (mkCfg 4 1 3) 7 = Ok (true, s) /\ u_files Z s = [(3, 73); (4, 734)] /\
  f_run Z _ fx_look (propa_meta fx_base fx_dt 4 1) (u_files Z s) [] = Ok (false, []).
Proof. split; [reflexivity|]. eexists. split; [vm_compute; reflexivity|]. split; vm_compute; reflexivity. Qed.
Theorem C69_restart_refuted : ~ C69_full.
Proof.
  intros F. destruct C69_restart_ex as (P & s & R & Fs & E).
  pose proof (F Z fx_id fx_id fx_step fx_id _ fx_look fx_base fx_dt 4 (Some 1) (Some 3) (mkCfg 4 1 3) 7 s 4 [] [(0, 73); (1, 734)] P) as H. cbn [g_wcycle] in H.
  rewrite E in H. assert (H' : Ok (false, []) = Ok (true, [(0, 73); (1, 734)])); [|discriminate H'].
  apply H; [split; lia|split; lia|exact R| |rewrite Fs; reflexivity]. vm_compute in R. injection R as <-. reflexivity.
Qed.
Print Assumptions C69_restart_refuted.
(** A negative write cycle is accepted and works in the propagation, but only the initial wave function is seen. *)
Theorem C69_negative_code : forall W T (look : Z -> W -> T -> outcome T) base dt n w x l t, 1 <= n <= 2147483647 -> -2147483648 <= w < 0 -> file W l 0 = Some x ->
  f_run W T look (propa_meta base dt n w) l t = match look 0 x t with Ok t => Ok (true, t) | Throw => Ok (false, t) | UB => UB end.
Proof.
  intros W T look base dt n w x l t Hn Hw F. unfold f_run. rewrite meta_read by (unfold int32; lia). rewrite (proj2 (Z.eqb_neq _ _)) by lia.
  assert (Q : Z.quot n w <= 0) by (replace w with (- - w) by lia; rewrite Z.quot_opp_r by lia; pose proof (Z.quot_pos n (- w) ltac:(lia) ltac:(lia)); lia).
  rewrite (proj2 (Z.ltb_ge _ _)) by lia. replace (Z.to_nat (Z.quot n w)) with O by lia. cbn [series]. rewrite F. destruct (look 0 x t); reflexivity.
Qed.
Print Assumptions C69_negative_code.
Example C69_negative_ex : p_params false 4 (Some (-2)) None = Ok (mkCfg 4 (-2) 0) /\ exists s, p_run Z fx_id fx_id fx_step fx_id (mkCfg 4 (-2) 0) 7 = Ok (true, s) /\
  u_files Z s = [(0, 7); (1, 701); (2, 70123)] /\ f_run Z _ fx_look (propa_meta fx_base fx_dt 4 (-2)) (u_files Z s) [] = Ok (true, [(0, 7)]).
Proof. split; [reflexivity|]. eexists. split; [vm_compute; reflexivity|]. split; vm_compute; reflexivity. Qed.
Theorem C69_negative_refuted : ~ C69_full.
Proof.
  intros F. destruct C69_negative_ex as (P & s & R & Fs & E).
  pose proof (F Z fx_id fx_id fx_step fx_id _ fx_look fx_base fx_dt 4 (Some (-2)) None (mkCfg 4 (-2) 0) 7 s 4 [] [(0, 7); (1, 701); (2, 70123)] P) as H. cbn [g_wcycle] in H.
  rewrite E in H. assert (H' : Ok (true, [(0, 7)]) = Ok (true, [(0, 7); (1, 701); (2, 70123)])); [|discriminate H'].
  apply H; [split; lia|split; lia|exact R| |rewrite Fs; reflexivity]. vm_compute in R. injection R as <-. reflexivity.
Qed.
Print Assumptions C69_negative_refuted.
(** After a propagation that failed, what it wrote is seen, and the run ends with an error if the steps missing are more than a cycle. *)
Theorem C69_failed_code : forall W pre report prop post base dt g (x : W) n y, g_start g = 0 -> 1 <= g_wcycle g <= 2147483647 -> Z.of_nat n < g_steps g <= 2147483647 ->
  evolve W pre report prop post 0 n x = Ok y -> turn W pre report prop post (Z.of_nat n) y = Throw -> Z.of_nat n / g_wcycle g < g_steps g / g_wcycle g ->
  exists s xs, p_run W pre report prop post g x = Ok (false, s) /\ u_meta W s = Some (g_steps g) /\ zlen xs = Z.of_nat n / g_wcycle g + 1 /\
    (forall j z, nth_error xs j = Some z -> evolve W pre report prop post 0 (Z.to_nat (Z.of_nat j * g_wcycle g)) x = Ok z) /\
    forall T (look : Z -> W -> T -> outcome T) t t', look_all W T look 0 xs t = Ok t' -> f_run W T look (propa_meta base dt (g_steps g) (g_wcycle g)) (u_files W s) t = Ok (false, t').
Proof. exact filter_fails. Qed.
Print Assumptions C69_failed_code.
Example C69_failed_ex : evolve Z fx_id fx_id fx_fail fx_id 0 3 7 = Ok 7012 /\ turn Z fx_id fx_id fx_fail fx_id 3 7012 = Throw /\ 3 / 2 < 9 / 2 /\
  exists s, p_run Z fx_id fx_id fx_fail fx_id (mkCfg 9 2 0) 7 = Ok (false, s) /\ f_run Z _ fx_look (propa_meta fx_base fx_dt 9 2) (u_files Z s) [] = Ok (false, [(0, 7); (1, 701)]).
Proof. split; [reflexivity|]. split; [reflexivity|]. split; [reflexivity|]. eexists. split; vm_compute; reflexivity. Qed.
(** A missing write cycle divides by zero; a file of another class is refused. *)
Theorem C69_meta_code : forall W T (look : Z -> W -> T -> outcome T) base dt n l t, int32 n ->
  f_run W T look (propa_meta base dt n 0) l t = UB /\ (forall m, get_value m (lit "CLASS") <> Some (lit "Propagation") -> f_run W T look m l t = Ok (false, t)).
Proof.
  intros W T look base dt n l t Hn. split.
  - unfold f_run. rewrite meta_read; [reflexivity|exact Hn|split; lia].
  - intros m H. unfold f_run, f_steps. destruct (get_value m (lit "CLASS")) as [c|]; [|reflexivity]. destruct (str_eqb c (lit "Propagation")) eqn:E; [|reflexivity]. apply str_eqb_true in E. congruence.
Qed.
Print Assumptions C69_meta_code.
