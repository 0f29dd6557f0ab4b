(** What grid sums, matrix operators and the Lanczos basis are meant to be. *)
From Coq Require Import List ZArith.
From Verif Require Import Base Arrays Algebra Model.Special.
Import ListNotations.
Open Scope Z_scope.

Section S.
  Variable R : cring.
  (** Sums obtained by adding parts (each with at least one value and as many as it says); [ps]: the parts added. *)
  Definition proper (p : part R) : Prop := 0 < gp_size R p /\ forall t, zlen (gp_at R p t) = gp_size R p.
  Inductive summed (junk : Z -> list R) : gsum R -> list (part R) -> Prop :=
  | sm_new : summed junk (gs_new R) []
  | sm_add s ps p s' : summed junk s ps -> proper p -> gs_add R junk s (Some p) = Ok s' -> summed junk s' (ps ++ [p])
  | sm_time t s ps s' : summed junk s ps -> gs_time R t s = Ok s' -> summed junk s' ps.
  (** the value of the sum at a grid point *)
  Definition total (ps : list (part R)) (t i : Z) : R := lsum (fun p => nth (Z.to_nat i) (gp_at R p t) c0) ps.
End S.

(** Matrix operators after any history of changes, energy questions and assignments. *)
Section H.
  Variables A E : Type.
  Variable diag : A -> A * list E.
  Inductive hmade : hm A E -> Prop :=
  | hm_new m : hmade (h_new A E m)
  | hm_set s m : hmade s -> hmade (h_set A E s m)
  | hm_init s : hmade s -> hmade (h_init A E diag s)
  | hm_bound s b e s' : hmade s -> h_bound A E diag b s = Ok (e, s') -> hmade s'
  | hm_assign this op : hmade this -> hmade op -> hmade (h_assign A E this op).
  (** the answer to a question for the largest or smallest energy *)
  Definition answer (b : bool) (s : hm A E) : outcome E := let* r := h_bound A E diag b s in Ok (fst r).
  (** The copy of [op] into [this] works and answers like [op]. *)
  Definition copies (this op : hm A E) : Prop :=
    exists c, h_copy A E this op = Ok c /\ h_mat A E c = h_mat A E op /\ forall b, answer b c = answer b op.
End H.

(** The Lanczos recursion up to vector k: a_j = <q_j|H|q_j>, b_j q_(j+1) = H q_j - a_j q_j - b_(j-1) q_(j-1) with b_j the norm. *)
Section L.
  Variable F : fld.
  Variable M : cmodule F.
  Variable dot : M -> M -> F.
  Variable norm : M -> F.
  Variable h : M -> M.
  Definition rest (q : list M) (b : list F) (j : Z) (x y : M) : Prop :=
    (j = 0 /\ y = x) \/ (0 < j /\ exists b' q', rd b (j - 1) = Ok b' /\ rd q (j - 1) = Ok q' /\ y = madd x (mopp (mscale b' q'))).
  Definition lanczos (q : list M) (a b : list F) (k : Z) : Prop := forall j, 0 <= j < k ->
    exists qj aj bj y, rd q j = Ok qj /\ rd a j = Ok aj /\ rd b j = Ok bj /\ aj = dot qj (h qj) /\
      rest q b j (madd (h qj) (mopp (mscale aj qj))) y /\ bj = norm y /\ rd q (j + 1) = Ok (mscale (fdiv c1 bj) y).
End L.
