(** Model of src/tools/Collector.h: reference counting of heap objects. *)
From Coq Require Import List ZArith Bool Arith Lia.
From Verif Require Import Base.
Import ListNotations.

(** Collector.h:27-36: the vector of (pointer, refcount); pointers are numbers, 0 is NULL.  The [aligned] flag only
    selects free() or delete and is left out.  The counter is unbounded (int overflow not modelled). *)
Definition coll := list (nat * Z).

(** Collector.h:76-83 and 97-99: increment the first entry for obj, if any. *)
Fixpoint inc (c : coll) (obj : nat) : option coll :=
  match c with
  | [] => None
  | (p, n) :: t => if p =? obj then Some ((p, (n + 1)%Z) :: t)
                   else match inc t obj with Some t' => Some ((p, n) :: t') | None => None end
  end.

(** Collector.h:92-103 *)
Definition register (c : coll) (obj : nat) : coll :=
  if obj =? 0 then c
  else match inc c obj with Some c' => c' | None => c ++ [(obj, 1%Z)] end.

(** Collector.h:109-113 *)
Definition is_allocated (c : coll) (obj : nat) : bool := existsb (fun e => fst e =? obj) c.

(** Collector.h:118-123 *)
Definition elements (c : coll) : nat := length c.

(** Collector.h:154-163: decrement the first entry for obj; at zero erase it and destroy the object. *)
Fixpoint dec (c : coll) (obj : nat) : coll * list nat :=
  match c with
  | [] => ([], [])
  | (p, n) :: t => if p =? obj
                   then if (n - 1 =? 0)%Z then (t, [p]) else ((p, (n - 1)%Z) :: t, [])
                   else let '(t', d) := dec t obj in ((p, n) :: t', d)
  end.

(** Collector.h:149-165; second component: objects destroyed.  A destructor that calls Delete on other objects is a
    further call of this function. *)
Definition delete (c : coll) (obj : nat) : coll * list nat := if obj =? 0 then (c, []) else dec c obj.

(** Collector.h:172-196: destroys every object with a positive count; Delete calls made by destructors are ignored
    while _BigClean is set. *)
Definition delete_all (c : coll) : coll * list nat := ([], map fst (filter (fun e => (0 <? snd e)%Z) c)).

Inductive cop := Reg (p : nat) | Del (p : nat) | DelAll.

Definition cstep (c : coll) (o : cop) : coll * list nat :=
  match o with
  | Reg p => (register c p, [])
  | Del p => delete c p
  | DelAll => delete_all c
  end.

Definition crun (h : list cop) : coll := fold_left (fun c o => fst (cstep c o)) h [].
