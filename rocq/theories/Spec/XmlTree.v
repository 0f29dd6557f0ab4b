(** Specification of moving in a document: only elements count. *)
From Coq Require Import Ascii String List NArith ZArith Lia Bool Arith.
From Verif Require Import Base Model.Params Model.XmlTree.
Import ListNotations.

(** the elements among the children, in order *)
Definition elements (n : node) : list node := match n with Elt _ _ c => filter is_elt c | _ => [] end.
(** the first element of this name *)
Definition first_named (name : str) (l : list node) (r : option node) : Prop :=
  match r with
  | Some n => exists a b, l = a ++ n :: b /\ is_elt n = true /\ node_name n = name /\ forall x, In x a -> is_elt x = true -> node_name x <> name
  | None => forall x, In x l -> is_elt x = true -> node_name x <> name
  end.
(** the elements of a document from top to bottom *)
Fixpoint preorder (n : node) : list str := match n with Elt m _ c => m :: flat_map preorder c | _ => [] end.
(** every element has no children at all or an element among them *)
Fixpoint regular (n : node) : Prop :=
  match n with Elt _ _ c => (c = [] \/ exists x, In x c /\ is_elt x = true) /\ fold_right (fun x p => regular x /\ p) True c | _ => True end.
Fixpoint height (n : node) : nat := match n with Elt _ _ c => S (fold_right (fun x m => Nat.max (height x) m) O c) | _ => O end.
