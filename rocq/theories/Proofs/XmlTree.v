From Coq Require Import Ascii String List NArith ZArith Lia Bool Arith.
From Verif Require Import Base Model.Params Model.Run Model.XmlTree Spec.XmlTree Proofs.Run.
Import ListNotations.

Lemma skip_len l : (length (skip l) <= length l)%nat.
Proof. induction l as [|n l IH]; cbn; [lia|]. destruct (is_elt n); cbn; lia. Qed.
Lemma skip_filter l : filter is_elt (skip l) = filter is_elt l.
Proof. induction l as [|n l IH]; [reflexivity|]. cbn [skip filter]. destruct (is_elt n) eqn:E; [cbn [filter]; rewrite E; reflexivity|exact IH]. Qed.
Lemma skip_head l n t : skip l = n :: t -> is_elt n = true.
Proof. induction l as [|m l IH]; cbn; [discriminate|]. destruct (is_elt m) eqn:E; [intros H; injection H as <- _; exact E|exact IH]. Qed.
Lemma skip_nil l : skip l = [] <-> filter is_elt l = [].
Proof. induction l as [|n l IH]; cbn; [tauto|]. destruct (is_elt n); [split; discriminate|exact IH]. Qed.
Lemma loop_ok k : forall l, (length (skip l) < k)%nat -> loop k (skip l) = Ok (filter is_elt l).
Proof.
  induction k as [|k IH]; intros l H; [lia|]. cbn [loop]. rewrite <- (skip_filter l). destruct (skip l) as [|n t] eqn:E; [reflexivity|]. pose proof (skip_head l n t E) as N. pose proof (skip_len t) as L. cbn [length] in H.
  cbn [next_node bind filter]. rewrite N, (IH t) by lia. reflexivity.
Qed.
Lemma over_ok l : over (skip l) = Ok (filter is_elt l).
Proof.
  unfold over. apply loop_ok. lia.
Qed.
Lemma adjust_skip l : adjust (skip l) = match filter is_elt l with [] => UB | _ => Ok (skip l) end.
Proof.
  destruct (skip l) as [|n t] eqn:E; [apply skip_nil in E; rewrite E; reflexivity|]. cbn [adjust]. rewrite (skip_head l n t E). rewrite <- (skip_filter l), E. cbn [filter]. rewrite (skip_head l n t E). reflexivity.
Qed.
Lemma elements_kids n : elements n = filter is_elt (kids n). Proof. destruct n; reflexivity. Qed.
Lemma visit_eq n : visit n = match elements n with [] => UB | l => Ok l end.
Proof.
  unfold visit. cbn [next_child bind]. rewrite elements_kids. destruct (kids n) as [|c t] eqn:K; [reflexivity|]. rewrite adjust_skip. destruct (filter is_elt (c :: t)) eqn:F; [reflexivity|]. cbn [bind]. rewrite over_ok, F. reflexivity.
Qed.
Lemma checked_eq n : visit_checked n = match kids n with [] => Ok [] | _ => match elements n with [] => UB | l => Ok l end end.
Proof.
  unfold visit_checked. cbn [next_child bind]. rewrite elements_kids. destruct (kids n) as [|c t] eqn:K; [reflexivity|]. rewrite adjust_skip. destruct (filter is_elt (c :: t)) eqn:F; [reflexivity|]. cbn [bind]. rewrite over_ok, F. reflexivity.
Qed.
Lemma filters_eq n : visit_filters n = match kids n with [] => Throw | _ => Ok (elements n) end.
Proof. unfold visit_filters. cbn [next_child bind]. rewrite elements_kids. destruct (kids n) as [|c t] eqn:K; [reflexivity|]. apply over_ok. Qed.

Lemma find_none m l : find m l = None -> forall x, In x l -> node_name x <> m.
Proof. induction l as [|n l IH]; cbn; [intros _ x []|]. destruct (str_eqb m (node_name n)) eqn:E; [discriminate|]. apply str_eqb_false in E. intros F x [<-|H]; [congruence|exact (IH F x H)]. Qed.
Lemma find_some m l n : find m l = Some n -> exists a b, l = a ++ n :: b /\ node_name n = m /\ forall x, In x a -> node_name x <> m.
Proof.
  induction l as [|k l IH]; cbn; [discriminate|]. destruct (str_eqb m (node_name k)) eqn:E.
  - apply str_eqb_true in E. intros H. injection H as <-. exists [], l. repeat split; auto; intros x [].
  - apply str_eqb_false in E. intros H. destruct (IH H) as (a & b & -> & N & A). exists (k :: a), b. repeat split; [exact N|]. intros x [<-|X]; [congruence|exact (A x X)].
Qed.
Lemma skip_split l : exists a, l = a ++ skip l /\ forall x, In x a -> is_elt x = false.
Proof.
  induction l as [|n l (a & E & A)]; [exists []; split; [reflexivity|intros x []]|]. cbn [skip]. destruct (is_elt n) eqn:N; [exists []; split; [reflexivity|intros x []]|]. exists (n :: a). split; [cbn; rewrite <- E; reflexivity|]. intros x [<-|X]; auto.
Qed.
Lemma find_first m l : (forall x, In x l -> node_name x = m -> is_elt x = true) -> first_named m l (find m (skip l)).
Proof.
  intros H. destruct (skip_split l) as (a & E & A). destruct (find m (skip l)) as [n|] eqn:F; cbn [first_named].
  - destruct (find_some m _ n F) as (b & c & S & N & B). exists (a ++ b), c. rewrite E, S at 1. split; [rewrite app_assoc; reflexivity|]. split; [apply H; [rewrite E, S; apply in_or_app; right; apply in_or_app; right; left; reflexivity|exact N]|]. split; [exact N|].
    intros x X EX. apply in_app_or in X. destruct X as [X|X]; [rewrite (A x X) in EX; discriminate|exact (B x X)].
  - intros x X EX. rewrite E in X. apply in_app_or in X. destruct X as [X|X]; [rewrite (A x X) in EX; discriminate|exact (find_none m _ F x X)].
Qed.

(** ** the whole document *)
Lemma height_in c x : In x c -> (height x <= fold_right (fun x m => Nat.max (height x) m) O c)%nat.
Proof. induction c as [|y c IH]; cbn; [intros []|]. intros [<-|H]; [lia|specialize (IH H); lia]. Qed.
Lemma regular_in c x : In x c -> fold_right (fun x p => regular x /\ p) True c -> regular x.
Proof. induction c as [|y c IH]; cbn; [intros []|]. intros [<-|H] [R P]; auto. Qed.
Lemma all_ok {A B} (f : A -> outcome B) (g : A -> B) l : (forall x, In x l -> f x = Ok (g x)) -> all f l = Ok (map g l).
Proof. induction l as [|x l IH]; intros H; [reflexivity|]. cbn [all map]. rewrite (H x (or_introl eq_refl)). cbn [bind]. rewrite IH by (intros y Y; apply H; right; exact Y). reflexivity. Qed.
Lemma flat_elements c : concat (map preorder (filter is_elt c)) = flat_map preorder c.
Proof. induction c as [|x c IH]; [reflexivity|]. cbn [filter flat_map]. destruct x; cbn [is_elt]; [cbn [map concat]; rewrite IH; reflexivity|exact IH|exact IH|exact IH|exact IH]. Qed.
Lemma walk_ok k : forall n, is_elt n = true -> regular n -> (height n <= k)%nat -> walk k n = Ok (preorder n).
Proof.
  induction k as [|k IH]; intros n E R H; destruct n as [m a c| | | |]; try discriminate; [cbn in H; lia|]. cbn [walk]. rewrite checked_eq. cbn [kids elements]. destruct R as [C R].
  assert (V : match c with [] => Ok [] | _ => match filter is_elt c with [] => UB | l => Ok l end end = Ok (filter is_elt c)).
  { destruct c as [|x c]; [reflexivity|]. destruct (filter is_elt (x :: c)) eqn:F; [|reflexivity]. exfalso. destruct C as [C|(y & Y & EY)]; [discriminate|]. assert (X : In y (filter is_elt (x :: c))) by (apply filter_In; auto). rewrite F in X. exact X. }
  rewrite V. cbn [bind]. rewrite (all_ok (walk k) preorder).
  - cbn [bind node_name]. rewrite flat_elements. reflexivity.
  - intros x X. apply filter_In in X. destruct X as [X EX]. apply IH; [exact EX|exact (regular_in c x X R)|]. pose proof (height_in c x X). cbn in H. lia.
Qed.
Lemma attr_ok m a c k v : NoDup (map fst a) -> In (k, v) a -> get_value (XmlTree.attributes (Elt m a c)) k = Some (match v with [] => [] | p :: _ => p end).
Proof.
  intros N I. unfold XmlTree.attributes. set (a' := map (fun x : str * list str => (fst x, match snd x with [] => [] | p :: _ => p end)) a). assert (N' : NoDup (map fst a')) by (unfold a'; rewrite map_map; exact N). destruct (attributes_spec a' N') as (_ & X & _). apply X. unfold a'. apply in_map_iff. exists (k, v). auto.
Qed.
Lemma attr_none m a c k : NoDup (map fst a) -> ~ In k (map fst a) -> get_value (XmlTree.attributes (Elt m a c)) k = None.
Proof.
  intros N I. unfold XmlTree.attributes. set (a' := map (fun x : str * list str => (fst x, match snd x with [] => [] | p :: _ => p end)) a). assert (N' : NoDup (map fst a')) by (unfold a'; rewrite map_map; exact N). destruct (attributes_spec a' N') as (_ & _ & X). apply X. unfold a'. rewrite map_map. exact I.
Qed.
