(** Model of shared variables: src/tools/SharedVar.h, used by any number of threads.

    Values are exact integers.  Steps of different threads are interleaved: loads and stores of the variable, taking and giving back the lock. *)
From Coq Require Import List ZArith Bool.
From Verif Require Import Base.
Import ListNotations.
Open Scope Z_scope.

(** SharedVar.h:43-55: with OpenMP the lock is a pointer that was never set, and omp_init_lock writes through it *)
Definition create (openmp : bool) (v : Z) : outcome Z := if openmp then UB else Ok v.

(** SharedVar.h:64-94 *)
Inductive op := Assign (v : Z) | Times (v : Z) | Plus (v : Z) | Get.
Definition effect (o : op) (x : Z) : Z := match o with Assign v => v | Times v => x * v | Plus v => x + v | Get => x end.

(** where a thread is in its first operation: before it; behind SetLock; the old value is loaded; the new one is stored; behind UnSetLock *)
Inductive phase := Idle | Held | Loaded (x : Z) | Stored (x : Z) | Released (x : Z).
Record thread := mkT { todo : list op; at_ : phase; results : list (op * Z) }.
Record state := mkS { value : Z; lock : option nat; threads : list thread }.

Definition is_get (o : op) : bool := match o with Get => true | _ => false end.

(** one step of the thread number [length a]; locks: the macros SetLock and UnSetLock are those of OpenMP, SharedVar.h:19-25 *)
Inductive step (locks : bool) : state -> state -> Prop :=
| s_lock v l a o t r b : (locks = true -> l = None) ->
    step locks (mkS v l (a ++ mkT (o :: t) Idle r :: b)) (mkS v (if locks then Some (length a) else l) (a ++ mkT (o :: t) Held r :: b))
| s_load v l a o t r b :
    step locks (mkS v l (a ++ mkT (o :: t) Held r :: b)) (mkS v l (a ++ mkT (o :: t) (Loaded v) r :: b))
| s_store v l a o t r b x :
    step locks (mkS v l (a ++ mkT (o :: t) (Loaded x) r :: b)) (mkS (if is_get o then v else effect o x) l (a ++ mkT (o :: t) (Stored x) r :: b))
| s_unlock v l a o t r b x :
    step locks (mkS v l (a ++ mkT (o :: t) (Stored x) r :: b)) (mkS v (if locks then None else l) (a ++ mkT (o :: t) (Released x) r :: b))
(* return res; return _value *)
| s_return v l a o t r b x :
    step locks (mkS v l (a ++ mkT (o :: t) (Released x) r :: b)) (mkS v l (a ++ mkT t Idle (r ++ [(o, if is_get o then x else v)]) :: b)).

Inductive steps (locks : bool) : state -> state -> Prop :=
| steps_none s : steps locks s s
| steps_more s s' s'' : steps locks s s' -> step locks s' s'' -> steps locks s s''.

Definition start (v : Z) (progs : list (list op)) : state := mkS v None (map (fun p => mkT p Idle []) progs).
