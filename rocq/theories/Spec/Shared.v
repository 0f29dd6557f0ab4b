(** Atomic operations. *)
From Coq Require Import List ZArith Bool Arith.
From Verif Require Import Base Model.Shared.
Import ListNotations.
Open Scope Z_scope.

(** what an operation makes of a value *)
Definition meaning (o : op) (x : Z) : Z := match o with Assign v => v | Times v => v * x | Plus v => v + x | Get => x end.
(** operations one after the other; each entry tells the thread *)
Definition serial (v : Z) (log : list (nat * op)) : Z := fold_left (fun x e => meaning (snd e) x) log v.
(** the operations of one thread *)
Definition of_thread (i : nat) (log : list (nat * op)) : list op := map snd (filter (fun e => Nat.eqb (fst e) i) log).
Definition finished (s : state) : Prop := Forall (fun t => todo t = []) (threads s).
(** an order of all operations that keeps the order of each thread and uses nothing else *)
Definition order_of (progs : list (list op)) (log : list (nat * op)) : Prop := forall i, of_thread i log = nth i progs [].
(** x was the value at some time *)
Definition held (v : Z) (log : list (nat * op)) (x : Z) : Prop := exists l1 l2, log = (l1 ++ l2)%list /\ x = serial v l1.
(** what is added altogether *)
Definition weight (o : op) : Z := match o with Plus k => k | _ => 0 end.
Fixpoint total (l : list op) : Z := match l with [] => 0 | Plus k :: t => k + total t | _ :: t => total t end.
Fixpoint all_of (l : list Z) : Z := match l with [] => 0 | x :: t => x + all_of t end.
(** between SetLock and UnSetLock *)
Definition holds (t : thread) : bool := match at_ t with Held | Loaded _ | Stored _ => true | _ => false end.
(** n steps *)
Inductive exec (locks : bool) : nat -> state -> state -> Prop :=
| exec_none s : exec locks 0 s s
| exec_more n s s' s'' : exec locks n s s' -> step locks s' s'' -> exec locks (S n) s s''.
Fixpoint operations (progs : list (list op)) : nat := match progs with [] => 0%nat | p :: t => (length p + operations t)%nat end.
