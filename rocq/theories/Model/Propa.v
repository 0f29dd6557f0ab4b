(** Model of src/ProgPropa.cpp: the propagation program. *)
From Coq Require Import List ZArith Lia Bool.
From Verif Require Import Base Arrays.
Import ListNotations.
Open Scope Z_scope.

(** [W]: the wave function together with whatever filters, reporter and propagator keep between steps.  [pre], [report], [prop],
    [post]: Apply of the filters before the step, Analyze of the reporter, Apply of the propagator, Apply of the filters behind the
    step; they see the number of the current time step of the clock and may throw.  Writing files does not fail; loading the
    propagator, the initial wave function and the initial filters is left out. *)
Section Propa.
  Variable W : Type.
  Variables pre report prop post : Z -> W -> outcome W.
  Record cfg := mkCfg { g_steps : Z; g_wcycle : Z; g_start : Z }.
  (** ProgPropa.cpp:16-21, 35-86: dt, steps, wcycle and start as given; the check of the write cycle looks at the steps *)
  Definition p_params (dt_zero : bool) (steps : Z) (wcycle start : option Z) : outcome cfg :=
    if dt_zero then Throw else
    if steps =? 0 then Throw else
    if match wcycle with Some _ => steps <? 1 | None => false end then Throw else
    if match start with Some s => s <? 0 | None => false end then Throw else
    Ok (mkCfg steps (match wcycle with Some w => w | None => 10 end) (match start with Some s => s | None => 0 end)).
  (** the current wave function, the time step of the clock, the number of the next file, the files written (in order), the number
      of steps in the last meta file, and the time steps at which the propagator was applied *)
  Record run := mkRun { u_psi : W; u_clock : Z; u_counter : Z; u_files : list (Z * W); u_meta : option Z; u_log : list Z }.
  Definition INT_MAX : Z := 2147483647.
  (** QDClock.cpp:91-95 *)
  Definition tick (c : Z) : outcome Z := if c <? INT_MAX then Ok (c + 1) else UB.
  Definition write (s : run) : run := mkRun (u_psi s) (u_clock s) (u_counter s + 1) (u_files s ++ [(u_counter s, u_psi s)]) (u_meta s) (u_log s).
  (** ProgPropa.cpp:144-158 *)
  Definition meta (n : Z) (s : run) : run := mkRun (u_psi s) (u_clock s) (u_counter s) (u_files s) (Some n) (u_log s).
  (** ProgPropa.cpp:318-326; an exception of the parts gives false and the state of the files so far *)
  Definition body (w : Z) (s : run) (i : Z) : outcome (bool * run) :=
    let c := u_clock s in
    match (let* x := pre c (u_psi s) in let* x := report c x in prop c x) with
    | UB => UB
    | Throw => Ok (false, s)
    | Ok x =>
        let* c' := tick c in
        let log := (u_log s ++ [c])%list in
        match post c' x with
        | UB => UB
        | Throw => Ok (false, mkRun x c' (u_counter s) (u_files s) (u_meta s) log)
        | Ok x =>
            let s := mkRun x c' (u_counter s) (u_files s) (u_meta s) log in
            if w =? 0 then UB else
            Ok (true, if Z.rem i w =? 0 then meta i (write s) else s)
        end
    end.
  Fixpoint loop (w : Z) (l : list Z) (s : run) : outcome (bool * run) :=
    match l with
    | [] => Ok (true, s)
    | i :: t => let* r := body w s i in if fst r then loop w t (snd r) else Ok r
    end.
  (** ProgPropa.cpp:285-335: false if the run ended with an exception; _Finalize (163-172) is called in either case *)
  Definition p_run (g : cfg) (x : W) : outcome (bool * run) :=
    let s := mkRun x 0 0 [] None [] in
    let s := if negb (g_start g =? 0) then mkRun x 0 (g_start g) [] None [] else write s in
    let start := if g_start g =? 0 then 1 else g_start g in
    let s := mkRun (u_psi s) (g_start g) (u_counter s) (u_files s) (u_meta s) (u_log s) in
    let* r := loop (g_wcycle g) (upto start (g_steps g + 1)) s in
    Ok (fst r, meta (g_steps g) (snd r)).
End Propa.
