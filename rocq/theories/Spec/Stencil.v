(** Difference stencils on a grid. *)
From Coq Require Import List ZArith Bool.
From Verif Require Import Base Arrays Algebra Spec.Grid.
Import ListNotations.
Open Scope Z_scope.

Section S.
  Variable R : cring.

  (** value outside 0..n-1: periodic continuation or zero *)
  Definition extend (pbc : bool) (n : Z) (x : Z -> R) (k : Z) : R :=
    if (0 <=? k) && (k <? n) then x k else if pbc then x (k mod n) else c0.

  (** weight of the neighbour at distance m for a one-sided table t (t p: the point itself, t 0: distance p) *)
  Definition weight (t : Z -> R) (p : Z) (odd : bool) (m : Z) : R :=
    if m <=? 0 then t (p + m) else if odd then copp (t (p - m)) else t (p - m).

  Definition stencil (w : Z -> R) (p : Z) (x : Z -> R) (i : Z) : R :=
    lsum (fun m => cmul (w m) (x (i + m))) (upto (- p) (p + 1)).

  Definition value (v : list R) (i : Z) : R := match rd v i with Ok x => x | _ => c0 end.

  Definition set_coord (dim : nat) (k : Z) (cs : list Z) : list Z := firstn dim cs ++ k :: skipn (S dim) cs.

  (** values of the grid function along dim through the point cs *)
  Definition along (ds : list Z) (dim : nat) (psi : list R) (cs : list Z) (k : Z) : R :=
    value psi (flat ds (set_coord dim k cs)).

  (** derivative along dim at point cs *)
  Definition deriv_at (t : list R) (p : Z) (odd pbc : bool) (ds : list Z) (dim : nat) (psi : list R) (cs : list Z) : R :=
    stencil (weight (value t) p odd) p (extend pbc (nth dim ds 0) (along ds dim psi cs)) (nth dim cs 0).
End S.
Arguments extend {_}. Arguments weight {_}. Arguments stencil {_}. Arguments value {_}. Arguments along {_}.
Arguments deriv_at {_}.
