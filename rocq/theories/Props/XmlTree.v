(** C107: moving in an input document. *)
From Coq Require Import Ascii String List NArith ZArith Lia Bool Arith.
From Verif Require Import Base Model.Params Model.Run Model.XmlTree Spec.XmlTree Proofs.XmlTree.
Import ListNotations.

(** [visit], [visit_checked], [visit_filters]: the nodes met by the three loops over children; [section n name]: the part of that name of a program;
    [elements n]: the elements among the children; [walk k]: going down, at most k levels *)
Definition doc0 : node := Elt (lit "operator") [(lit "name", [lit "Sum"])] [Comment; Elt (lit "T") [] []; Text; Comment; Elt (lit "V") [] [Elt (lit "x") [] []]; Comment].
Definition bare : node := Elt (lit "operator") [] [Comment].

(** ** children: every element once, in order *)
Definition C107_children : Prop := forall n, visit n = Ok (elements n).
Theorem C107_children_partial : forall n, elements n <> [] -> visit n = Ok (elements n).
Proof. intros n H. rewrite visit_eq. destruct (elements n); [congruence|reflexivity]. Qed.
Print Assumptions C107_children_partial.
Example C107_children_ex : elements doc0 <> [] /\ map node_name (elements doc0) = [lit "T"; lit "V"]. Proof. split; [discriminate|reflexivity]. Qed.
(** without an element NULL is used *)
Theorem C107_children_code : forall n, elements n = [] -> visit n = UB.
Proof. intros n H. rewrite visit_eq, H. reflexivity. Qed.
Print Assumptions C107_children_code.
Theorem C107_children_refuted : ~ C107_children.
Proof. intros H. specialize (H (Elt (lit "operator") [] [])). discriminate H. Qed.
Print Assumptions C107_children_refuted.
(** sums, products and propagators: only comments as children are a problem *)
Definition C107_checked : Prop := forall n, visit_checked n = Ok (elements n).
Theorem C107_checked_partial : forall n, kids n = [] \/ elements n <> [] -> visit_checked n = Ok (elements n).
Proof. intros n H. rewrite checked_eq, elements_kids in *. destruct (kids n) as [|c t]; [reflexivity|]. destruct H as [H|H]; [discriminate|]. destruct (filter is_elt (c :: t)); [congruence|reflexivity]. Qed.
Print Assumptions C107_checked_partial.
Theorem C107_checked_refuted : ~ C107_checked.
Proof. intros H. specialize (H bare). discriminate H. Qed.
Print Assumptions C107_checked_refuted.
Example C107_checked_ex : kids (Elt (lit "a") [] []) = [] /\ visit_checked doc0 = Ok (elements doc0). Proof. split; reflexivity. Qed.
(** filters: an exception without children, else all of them *)
Theorem C107_filters : forall n, (kids n = [] -> visit_filters n = Throw) /\ (kids n <> [] -> visit_filters n = Ok (elements n)).
Proof. intros n. rewrite filters_eq. destruct (kids n); split; intros H; congruence. Qed.
Print Assumptions C107_filters.
Example C107_filters_ex : visit_filters bare = Ok [] /\ kids bare <> []. Proof. split; [reflexivity|discriminate]. Qed.
(** every node that is met is a child and an element *)
Theorem C107_only : forall n l, visit n = Ok l \/ visit_checked n = Ok l \/ visit_filters n = Ok l -> l = elements n /\ forall x, In x l -> In x (kids n) /\ is_elt x = true.
Proof.
  intros n l H. assert (E : l = elements n). { rewrite visit_eq, checked_eq, filters_eq, elements_kids in H. rewrite elements_kids. destruct (kids n); [destruct H as [H|[H|H]]; try discriminate; injection H as <-; reflexivity|]. destruct (filter is_elt (n0 :: l0)); destruct H as [H|[H|H]]; try discriminate; injection H as <-; reflexivity. }
  split; [exact E|]. intros x X. rewrite E, elements_kids in X. apply filter_In in X. exact X.
Qed.
Print Assumptions C107_only.
Example C107_only_ex : exists l, visit doc0 = Ok l /\ length l = 2. Proof. eexists. split; reflexivity. Qed.

(** ** the whole document, from top to bottom *)
Theorem C107_walk_partial : forall n k, is_elt n = true -> regular n -> (height n <= k)%nat -> walk k n = Ok (preorder n).
Proof. intros n k E R H. exact (walk_ok k n E R H). Qed.
Example C107_walk_ex : regular doc0 /\ height doc0 = 3 /\ preorder doc0 = [lit "operator"; lit "T"; lit "V"; lit "x"].
Proof.
  split; [|split; reflexivity]. cbn [regular doc0 fold_right]. repeat split; auto; right.
  - exists (Elt (lit "T") [] []). split; [right; left; reflexivity|reflexivity].
  - exists (Elt (lit "x") [] []). split; [left; reflexivity|reflexivity].
Qed.
Definition C107_walk : Prop := forall n k, is_elt n = true -> (height n <= k)%nat -> walk k n = Ok (preorder n).
Theorem C107_walk_refuted : ~ C107_walk.
Proof. intros H. specialize (H bare 1 eq_refl ltac:(cbn; lia)). discriminate H. Qed.
Print Assumptions C107_walk_refuted.
Print Assumptions C107_walk_partial.

(** ** sections *)
Definition C107_section : Prop := forall n name, is_elt n = true -> match section n name with Ok r => first_named name (kids n) (Some r) | Throw => first_named name (kids n) None | UB => False end.
(** if the program has children and nothing else than elements has this name *)
Theorem C107_section_partial : forall n name, kids n <> [] -> (forall x, In x (kids n) -> node_name x = name -> is_elt x = true) ->
  match section n name with Ok r => first_named name (kids n) (Some r) | Throw => first_named name (kids n) None | UB => False end.
Proof.
  intros n name K H. unfold section. cbn [next_child bind]. pose proof (find_first name (kids n) H) as F. destruct (kids n) as [|c t]; [congruence|]. destruct (find name (skip (c :: t))); exact F.
Qed.
Print Assumptions C107_section_partial.
Example C107_section_ex : section doc0 (lit "V") = Ok (Elt (lit "V") [] [Elt (lit "x") [] []]) /\ section doc0 (lit "wf") = Throw. Proof. split; reflexivity. Qed.
(** a program without children: NULL is used instead of the exception *)
Theorem C107_section_code : forall n name, kids n = [] -> section n name = UB.
Proof. intros n name K. unfold section. cbn [next_child bind]. rewrite K. reflexivity. Qed.
Print Assumptions C107_section_code.
Theorem C107_section_refuted : ~ C107_section.
Proof. intros H. exact (H (Elt (lit "propa") [] []) (lit "wf") eq_refl). Qed.
Print Assumptions C107_section_refuted.
(** a processing instruction behind the first element is taken for a section *)
Theorem C107_instr_code : forall m a e name rest, is_elt e = true -> node_name e <> name -> section (Elt m a (e :: Instr name :: rest)) name = Ok (Instr name).
Proof.
  intros m a e name rest E N. unfold section. cbn [next_child kids bind skip]. rewrite E. cbn [find]. destruct (str_eqb name (node_name e)) eqn:S; [apply str_eqb_true in S; congruence|]. cbn [node_name]. rewrite str_eqb_refl. reflexivity.
Qed.
Print Assumptions C107_instr_code.
Example C107_instr_ex : section (Elt (lit "propa") [] [Elt (lit "propagator") [] []; Instr (lit "wf"); Elt (lit "wf") [] []]) (lit "wf") = Ok (Instr (lit "wf")). Proof. reflexivity. Qed.

(** ** attributes *)
Definition C107_attributes : Prop := forall m a c k v, NoDup (map fst a) -> In (k, v) a -> get_value (XmlTree.attributes (Elt m a c)) k = Some (concat v).
Theorem C107_attributes_partial : forall m a c k v, NoDup (map fst a) -> In (k, v) a -> length v <= 1 -> get_value (XmlTree.attributes (Elt m a c)) k = Some (concat v).
Proof. intros m a c k v N I L. rewrite (attr_ok m a c k v N I). destruct v as [|p [|q v]]; cbn in *; [reflexivity|rewrite app_nil_r; reflexivity|lia]. Qed.
Print Assumptions C107_attributes_partial.
Theorem C107_missing : forall m a c k, NoDup (map fst a) -> ~ In k (map fst a) -> get_value (XmlTree.attributes (Elt m a c)) k = None.
Proof. exact attr_none. Qed.
Print Assumptions C107_missing.
Example C107_attributes_ex : get_value (XmlTree.attributes doc0) (lit "name") = Some (lit "Sum") /\ get_value (XmlTree.attributes doc0) (lit "key") = None. Proof. split; reflexivity. Qed.
(** values with references to entities are cut *)
Theorem C107_attributes_code : forall m a c k p v, NoDup (map fst a) -> In (k, p :: v) a -> get_value (XmlTree.attributes (Elt m a c)) k = Some p.
Proof. intros m a c k p v N I. exact (attr_ok m a c k (p :: v) N I). Qed.
Print Assumptions C107_attributes_code.
Theorem C107_attributes_refuted : ~ C107_attributes.
Proof. intros H. specialize (H [] [(lit "file", [lit "a"; lit "b"])] [] (lit "file") [lit "a"; lit "b"]). discriminate H; [repeat constructor; intros []|left; reflexivity]. Qed.
Print Assumptions C107_attributes_refuted.
