(** Which points an absorbing layer acts on (Handbook.tex:907: 0 = none, 1 = begin, 2 = end, 3 = both ends). *)
From Coq Require Import List ZArith Bool.
From Verif Require Import Base Arrays.
Import ListNotations.
Open Scope Z_scope.

Definition at_begin (side : Z) : bool := (side =? 1) || (side =? 3).
Definition at_end (side : Z) : bool := (side =? 2) || (side =? 3).

(** distance from the requested border(s) of point k of a stripe with Nx points, for a layer of t points *)
Definition depths (b e : bool) (t Nx k : Z) : list Z :=
  (if b && (k <? t) then [k] else []) ++ (if e && (Nx - 1 - k <? t) then [Nx - 1 - k] else []).

(** x multiplied by the factors of the given depths *)
Definition scaled {T} (mul : T -> T -> T) (fs : list T) (is : list Z) (x : T) : T :=
  fold_left (fun x i => match rd fs i with Ok f => mul x f | _ => x end) is x.

(** one factor per layer point *)
Definition sized {T} (factors : Z -> list T * list T) : Prop :=
  forall t, 0 <= t -> zlen (fst (factors t)) = t /\ zlen (snd (factors t)) = t.
