(** Model of the clock: src/tools/QDClock.{h,cpp}, over an arbitrary number type and for IEEE doubles. *)
From Coq Require Import List ZArith QArith Qround SpecFloat Bool Lia.
From Verif Require Import Base.
Import ListNotations.
Open Scope Z_scope.

(** range of int; leaving it is undefined behaviour *)
Definition in_int (z : Z) : bool := (- 2 ^ 31 <=? z) && (z <? 2 ^ 31).
Definition as_int (z : Z) : outcome Z := if in_int z then Ok z else UB.

Section Clock.
  Context {T : Type}.
  (** conversion from int, product, quotient; [whole x]: x as an integer if x - round(x) == 0 *)
  Variables (fromZ : Z -> T) (mul div : T -> T -> T) (whole : T -> option Z).

  (** QDClock.h:16-18 *)
  Record clock := mkClock { k_dt : T; k_nsteps : Z; k_step : Z }.

  (** QDClock.cpp:13 *)
  Definition new_clock (steps : Z) (dt : T) : clock := mkClock dt steps 0.
  (** QDClock.cpp:25, 49, 65 *)
  Definition set_dt (c : clock) (dt : T) := mkClock dt (k_nsteps c) (k_step c).
  Definition set_step (c : clock) (s : Z) := mkClock (k_dt c) (k_nsteps c) s.
  Definition set_steps (c : clock) (n : Z) := mkClock (k_dt c) n (k_step c).
  (** QDClock.cpp:33-36 *)
  Definition time (c : clock) : T := mul (fromZ (k_step c)) (k_dt c).
  (** QDClock.cpp:75-78 *)
  Definition to_begin (c : clock) := set_step c 0.
  (** QDClock.cpp:83-86 *)
  Definition to_end (c : clock) : outcome clock := let* s := as_int (k_nsteps c - 1) in Ok (set_step c s).
  (** QDClock.cpp:91-95, 100-104 *)
  Definition incr (c : clock) : outcome clock := let* s := as_int (k_step c + 1) in Ok (set_step c s).
  Definition decr (c : clock) : outcome clock := let* s := as_int (k_step c - 1) in Ok (set_step c s).
  (** QDClock.cpp:120-128 *)
  Definition sync (c master : clock) : outcome clock :=
    match whole (div (time master) (k_dt c)) with
    | None => Throw
    | Some n => let* s := as_int n in Ok (set_step c s)
    end.

  (** the calls a program can make *)
  Inductive call := CDt (dt : T) | CStep (s : Z) | CSteps (n : Z) | CBegin | CEnd | CInc | CDec.
  Definition do (c : clock) (o : call) : outcome clock :=
    match o with
    | CDt dt => Ok (set_dt c dt) | CStep s => Ok (set_step c s) | CSteps n => Ok (set_steps c n)
    | CBegin => Ok (to_begin c) | CEnd => to_end c | CInc => incr c | CDec => decr c
    end.
  Fixpoint run (c : clock) (os : list call) : outcome clock :=
    match os with [] => Ok c | o :: t => let* c := do c o in run c t end.
End Clock.
Arguments clock : clear implicits.
Arguments call : clear implicits.

(** ** exact arithmetic; x / 0 is not an integer (inf or nan) *)
Definition qdiv (x y : Q) : option Q := if Qeq_bool y 0 then None else Some (x / y)%Q.
Definition qwhole (x : option Q) : option Z :=
  match x with Some x => if Qeq_bool x (inject_Z (Qfloor x)) then Some (Qfloor x) else None | None => None end.
Definition omul (x y : option Q) : option Q := match x, y with Some a, Some b => Some (a * b)%Q | _, _ => None end.
Definition odiv (x y : option Q) : option Q := match x, y with Some a, Some b => qdiv a b | _, _ => None end.
Definition time_q := @time (option Q) (fun z => Some (inject_Z z)) omul.
Definition sync_q := @sync (option Q) (fun z => Some (inject_Z z)) omul odiv qwhole.

(** ** IEEE 754 double precision, round to nearest even (Coq.Floats.SpecFloat) *)
Definition d_of_Z (z : Z) : spec_float := binary_normalize 53 1024 z 0 false.
Definition d_mul := SFmul 53 1024.
Definition d_div := SFdiv 53 1024.
(** the double nearest to a decimal fraction n / d *)
Definition d_lit (n d : Z) : spec_float := d_div (d_of_Z n) (d_of_Z d).
Definition d_whole (x : spec_float) : option Z :=
  match x with
  | S754_zero _ => Some 0
  | S754_finite s m e =>
    let sg z := if s then - z else z in
    if 0 <=? e then Some (sg (Z.pos m * 2 ^ e)) else
    if Z.pos m mod 2 ^ (- e) =? 0 then Some (sg (Z.pos m / 2 ^ (- e))) else None
  | _ => None
  end.
Definition time_d := @time spec_float d_of_Z d_mul.
Definition sync_d := @sync spec_float d_of_Z d_mul d_div d_whole.
