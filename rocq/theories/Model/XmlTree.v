(** Model of moving in an input document, src/tools/XmlNode.cpp, and of the three loops over children that its users have.

    The tree is that of libxml2 (XML_PARSE_NOBLANKS, XmlParser.cpp:34, 50).  The value of an attribute is the list of the nodes below it: one text, or several parts if
    there are references to entities of the document.  A cursor (_cur_node) is a node and those behind it, nothing for NULL. *)
From Coq Require Import Ascii String List NArith ZArith Lia Bool Arith.
From Verif Require Import Base Model.Params Model.Run.
Import ListNotations.

Inductive node := Elt (name : str) (attrs : list (str * list str)) (children : list node) | Text | Comment | CData | Instr (target : str).
Definition is_elt (n : node) : bool := match n with Elt _ _ _ => true | _ => false end.
(** the member name of an xmlNode *)
Definition node_name (n : node) : str :=
  match n with Elt m _ _ => m | Text => lit "text" | Comment => lit "comment" | CData => lit "cdata-section" | Instr t => t end.
Definition kids (n : node) : list node := match n with Elt _ _ c => c | _ => [] end.
Definition cur := list node.
(** the loops of XmlNode.cpp:47-51, 75-78 *)
Fixpoint skip (l : cur) : cur := match l with [] => [] | n :: t => if is_elt n then l else skip t end.
(** XmlNode.cpp:42-56; None: NULL *)
Definition next_child (c : cur) : outcome (option cur) :=
  match c with [] => UB | n :: _ => Ok (match kids n with [] => None | k => Some (skip k) end) end.
(** XmlNode.cpp:72-80 *)
Definition next_node (c : cur) : outcome cur := match c with [] => UB | _ :: t => Ok (skip t) end.
(** XmlNode.cpp:86-89 *)
Definition adjust (c : cur) : outcome cur :=
  match c with [] => UB | n :: t => match is_elt n, t with false, _ :: _ => next_node c | _, _ => Ok c end end.
(** XmlNode.cpp:94-100 *)
Definition end_node (c : cur) : bool := match c with [] => false | _ => true end.
(** XmlNode.cpp:105-119 *)
Fixpoint find (name : str) (c : cur) : option node := match c with [] => None | n :: t => if str_eqb name (node_name n) then Some n else find name t end.
(** XmlNode.cpp:134-157: the first part of every value *)
Definition attributes (n : node) : container :=
  match n with Elt _ a _ => Run.attributes (map (fun x => (fst x, match snd x with [] => [] | p :: _ => p end)) a) | _ => empty_c end.

(** while (c->EndNode()) { ...; c->NextNode(); }: the nodes it meets; UB also if it does not end within k steps *)
Fixpoint loop (k : nat) (c : cur) : outcome (list node) :=
  match k with
  | O => UB
  | S k => match c with [] => Ok [] | n :: _ => let* c := next_node c in let* l := loop k c in Ok (n :: l) end
  end.
Definition over (c : cur) : outcome (list node) := loop (S (length c)) c.
(** ChainLoader.cpp:57-70, 88-116, 320-349, ProgCfun.cpp:113-126: the child is used without a question *)
Definition visit (n : node) : outcome (list node) :=
  let* c := next_child [n] in match c with None => UB | Some c => let* c := adjust c in over c end.
(** ChainLoader.cpp:128-146: nothing is done without a child *)
Definition visit_checked (n : node) : outcome (list node) :=
  let* c := next_child [n] in match c with None => Ok [] | Some c => let* c := adjust c in over c end.
(** FiltersList.cpp:185-229: an exception without a child *)
Definition visit_filters (n : node) : outcome (list node) :=
  let* c := next_child [n] in match c with None => Throw | Some c => over c end.
(** ProgPropa.cpp:188-197, ProgOCT.cpp:814-820, ProgEigen.cpp:666-672, ProgFilter.cpp:135-138, ProgCfun.cpp:400-403: a section; an exception if it is missing *)
Definition section (n : node) (name : str) : outcome node :=
  let* c := next_child [n] in match c with None => UB | Some c => match find name c with Some r => Ok r | None => Throw end end.
(** LoadOperatorChain goes down to the children of its children: the names in the order of their visit *)
Fixpoint all {A B} (f : A -> outcome B) (l : list A) : outcome (list B) :=
  match l with [] => Ok [] | x :: l => let* y := f x in let* r := all f l in Ok (y :: r) end.
Fixpoint walk (k : nat) (n : node) : outcome (list str) :=
  match k with
  | O => UB
  | S k => let* c := visit_checked n in let* r := all (walk k) c in Ok (node_name n :: concat r)
  end.
