(** What the operator registry is meant to guarantee. *)
From Coq Require Import Ascii String List NArith ZArith Bool Arith.
From Verif Require Import Base Arrays Model.Registry.
Import ListNotations.
Open Scope Z_scope.

Section S.
  Variable name : nat -> str.
  (** Histories of calls; calls that throw leave the registry as it is. *)
  Inductive rcall := CAdd (key : str) (op : nat) (persist : bool) | CLabel (key label : str) | CInitOp (op psi : nat) | CInitKey (key : str) (psi : nat) | CClear.
  Inductive rstep : reg -> rcall -> reg -> Prop :=
  | st_add s key op p k s' : r_add name s key op p = Ok (k, s') -> rstep s (CAdd key op p) s'
  | st_label s key l s' : r_label s key l = Ok s' -> rstep s (CLabel key l) s'
  | st_init s op psi s' : r_init_op name s op psi = Ok s' -> rstep s (CInitOp op psi) s'
  | st_key s key psi s' : r_init_key s key psi = Ok s' -> rstep s (CInitKey key psi) s'
  | st_clear s f s' : r_clear f s = Some s' -> rstep s CClear s'.
  Inductive reached : reg -> Prop :=
  | rc_new : reached r_new
  | rc_step s c s' : reached s -> rstep s c s' -> reached s'.
  (** under which keys an operator is registered *)
  Definition holds (s : reg) (key : str) (op : nat) : Prop := exists e, mget scmp (r_store s) key = Some e /\ e_op e = op.
  Definition registered (s : reg) (op : nat) : Prop := exists key, holds s key op.
  (** Given keys do not look like generated ones; no operator is added while it is registered. *)
  Definition tidy_call (s : reg) (c : rcall) : Prop :=
    match c with CAdd key op _ => (forall t, key <> prefix ++ t)%list /\ ~ registered s op | _ => True end.
  Inductive tidy : reg -> Prop :=
  | td_new : tidy r_new
  | td_step s c s' : tidy s -> tidy_call s c -> rstep s c s' -> tidy s'.
  (** how often an operator was initialised since it was last deleted *)
  Fixpoint inits (op : nat) (n : Z) (l : list event) : Z :=
    match l with
    | [] => n
    | Inited o _ :: t => inits op (if Nat.eqb o op then n + 1 else n) t
    | Deleted o :: t => inits op (if Nat.eqb o op then 0 else n) t
    end.
End S.
