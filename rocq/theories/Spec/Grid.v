(** Multi-indices of a grid and their position in memory (lowest dimension varies fastest). *)
From Coq Require Import List ZArith Bool Arith.
Import ListNotations.
Open Scope Z_scope.

Definition in_box (ds cs : list Z) : Prop := Forall2 (fun d c => 0 <= c < d) ds cs.

Fixpoint flat (ds cs : list Z) : Z :=
  match ds, cs with
  | d :: ds', c :: cs' => c + d * flat ds' cs'
  | _, _ => 0
  end.

Definition points (ds : list Z) : Z := fold_right Z.mul 1 ds.

Definition insert_at {A} (n : nat) (x : A) (l : list A) : list A := firstn n l ++ x :: skipn n l.
Definition remove_at {A} (n : nat) (l : list A) : list A := firstn n l ++ skipn (S n) l.

(** Element-wise combination along one axis: the element at multi-index cs is combined with entry cs[dim] of vec. *)
From Verif Require Import Base Arrays Model.Grid.
Section Axis.
  Context {T : Type}.
  Definition axis_result (f : T -> T -> T) (ds : list Z) (dim : nat) (vec data data' : list T) : Prop :=
    zlen data' = zlen data /\
    forall cs x y, in_box ds cs -> rd data (flat ds cs) = Ok x -> rd vec (nth dim cs 0) = Ok y ->
                   rd data' (flat ds cs) = Ok (f x y).

  Inductive vop := VAct (d : nat) | VOp (f : T -> T -> T) (vec : list T).

  Fixpoint vrun (v : vview T) (h : list vop) : outcome (vview T) :=
    match h with
    | [] => Ok v
    | VAct d :: t => let* v' := view_active v d in vrun v' t
    | VOp f vec :: t => let* v' := view_op f v vec in vrun v' t
    end.

  (** what a history does to the data; a is the active dimension *)
  Inductive vspec (ds : list Z) : option nat -> list T -> list vop -> list T -> Prop :=
  | vs_nil a data : vspec ds a data [] data
  | vs_act a data d t data' : vspec ds (Some d) data t data' -> vspec ds a data (VAct d :: t) data'
  | vs_op d data f vec data1 t data' : axis_result f ds d vec data data1 -> vspec ds (Some d) data1 t data' ->
      vspec ds (Some d) data (VOp f vec :: t) data'.

  (** legal use: existing dimensions, one activated before the first operation, arrays of matching length *)
  Fixpoint legal (ds : list Z) (a : option nat) (h : list vop) : Prop :=
    match h with
    | [] => True
    | VAct d :: t => (d < length ds)%nat /\ legal ds (Some d) t
    | VOp f vec :: t => match a with Some d => zlen vec = nth d ds 0 | None => False end /\ legal ds a t
    end.

  (** a dimension activated before is activated again only from a dimension with the same number of stripes *)
  Fixpoint steady (ds : list Z) (seen : list nat) (a : option nat) (h : list vop) : Prop :=
    match h with
    | [] => True
    | VAct d :: t => (In d seen -> forall p, a = Some p -> points (remove_at d ds) = points (remove_at p ds)) /\
                     steady ds (d :: seen) (Some d) t
    | VOp f vec :: t => steady ds seen a t
    end.

  Definition acts (h : list vop) : list nat := flat_map (fun o => match o with VAct d => [d] | _ => [] end) h.
End Axis.
Arguments vop : clear implicits.
