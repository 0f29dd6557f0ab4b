(** What running an input document is meant to do. *)
From Coq Require Import Ascii String List ZArith Bool.
From Verif Require Import Base Model.Params Model.Run.
Import ListNotations.

Definition is_element (n : xml) : bool := match n with Element _ _ _ => true | Other => false end.
(** the elements among the children *)
Definition elements (l : list xml) : list xml := filter is_element l.
Definition kids (n : xml) : list xml := match n with Element _ _ l => elements l | Other => [] end.
Definition named (s : string) (n : xml) : Prop := exists a c, n = Element (lit s) a c.
(** what an element of each part asks for *)
Inductive op_def : xml -> action -> Prop :=
| op_udef e : named "udef" e -> op_def e (LoadPropagator e)
| op_opdef e : named "opdef" e -> op_def e (LoadOperator e).
Inductive wf_def : xml -> action -> Prop := wf_wfdef e : named "wfdef" e -> wf_def e (LoadWave e).
Inductive program (dir : str) : xml -> action -> Prop :=
| p_propa e : named "propa" e -> program dir e (Run Propa dir e)
| p_filter e : named "filter" e -> program dir e (Run Filter dir e)
| p_eigen e : named "eigen" e -> program dir e (Run Eigen dir e)
| p_oct e : named "oct" e -> program dir e (Run Oct dir e)
| p_cfunc e : named "cfunc" e -> program dir e (Run Cfunc dir e).
(** the part with the name given, if it is there, asks for what its elements ask for *)
Inductive part (s : string) (def : xml -> action -> Prop) : list xml -> list action -> Prop :=
| part_none : part s def [] []
| part_some e l : named s e -> Forall2 def (kids e) l -> part s def [e] l.
(** the part goes wrong at an element that defines nothing *)
Inductive bad_part (s : string) (def : xml -> action -> Prop) : xml -> list action -> Prop :=
| bad_elem e k b r l : named s e -> kids e = k ++ b :: r -> Forall2 def k l -> (forall a, ~ def b a) -> bad_part s def e l.
(** operator definitions, wave function definitions, programs: what the elements ask for, and whether all of them mean something *)
Inductive plan (dir : str) : list xml -> list action -> bool -> Prop :=
| plan_doc o lo w lw p lp : part "opdefs" op_def o lo -> part "wfdefs" wf_def w lw -> Forall2 (program dir) p lp -> plan dir (o ++ w ++ p) (lo ++ lw ++ lp) true
| plan_bad_op e lo r : bad_part "opdefs" op_def e lo -> plan dir (e :: r) lo false
| plan_bad_wf o lo e lw r : part "opdefs" op_def o lo -> bad_part "wfdefs" wf_def e lw -> plan dir (o ++ e :: r) (lo ++ lw) false
| plan_bad_prog o lo w lw p lp e r :
    part "opdefs" op_def o lo -> part "wfdefs" wf_def w lw -> Forall2 (program dir) p lp -> (forall a, ~ program dir e a) ->
    (named "opdefs" e -> o ++ w ++ p <> []) -> (named "wfdefs" e -> w ++ p <> []) -> plan dir (o ++ w ++ p ++ e :: r) (lo ++ lw ++ lp) false.
(** the directory: that of the command line, of the document or of the global parameters, in this order *)
Definition asked (dir0 : str) (attrs : list (str * str)) (gp : container) : option str :=
  match dir0 with
  | _ :: _ => Some dir0
  | [] => match find (fun a => if str_eq_dec (fst a) (lit "dir") then true else false) attrs with Some a => Some (snd a) | None => get_value gp (lit "dir") end
  end.
(** with a slash at its end *)
Inductive directory : option str -> str -> Prop :=
| dir_none : directory None []
| dir_slash p : directory (Some (p ++ lit "/"))%list (p ++ lit "/")%list
| dir_add d : d <> [] -> (forall p, d <> p ++ lit "/")%list -> directory (Some d) (d ++ lit "/")%list.

Section S.
  Variable W : Type.
  Variable act : action -> state W -> res W.
  (** one action after the other until one fails *)
  Fixpoint perform (l : list action) (s : state W) : res W :=
    match l with
    | [] => Done s
    | a :: t => match act a s with Done s => perform t s | r => r end
    end.
  (** with an exception at the end unless the plan is complete *)
  Definition carry_out (l : list action) (ok : bool) (s : state W) : res W := match perform l s with Done s => if ok then Done s else Failed s | r => r end.
End S.
(** the global parameters the document is run with: its attributes, those that were there and the directory *)
Definition params_with (attrs : list (str * str)) (gp : container) (d : option str) (dir : str) (gp' : container) : Prop :=
  (forall k v, k <> lit "dir" -> In (k, v) attrs -> get_value gp' k = Some v) /\
  (forall k, k <> lit "dir" -> ~ In k (map fst attrs) -> get_value gp' k = get_value gp k) /\
  get_value gp' (lit "dir") = match d with Some _ => Some dir | None => None end.
(** the elements of a document: those in the root if it is a collection, otherwise the root *)
Inductive document : xml -> list (str * str) -> list xml -> Prop :=
| doc_multi a c : document (Element (lit "multi") a c) a (elements c)
| doc_qdng a c : document (Element (lit "qdng") a c) a (elements c)
| doc_single n a c : n <> lit "multi" -> n <> lit "qdng" -> document (Element n a c) [] [Element n a c].
(** the settings "name=value" of the command line, the last one for a name counting *)
Inductive setting : str -> str -> str -> Prop := setting_intro k v : ~ In "="%char k -> setting (k ++ lit "=" ++ v)%list k v.
