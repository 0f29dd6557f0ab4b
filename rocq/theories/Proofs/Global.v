From Coq Require Import Ascii String List ZArith Lia Bool Arith.
From Verif Require Import Base Model.Params Spec.Params Model.Global Spec.Global.
From Verif Require Proofs.Params.
Import ListNotations.
Open Scope list_scope.

Lemma look_regular fs n text r : fs n = Regular true true text -> parses_to text None r -> exists f0, forall f c, f0 <= f -> look f fs n c = Some r.
Proof.
  intros E (f0 & o & H & M). exists f0. intros f c L. unfold look, is_file, read_from_file. rewrite E. change (parse f c None (stream_of text)) with (parse f empty_c None (stream_of text)).
  unfold parse in *. rewrite (Proofs.Params.parse_loop_mono _ f _ _ _ _ H L). destruct o as [[c1 st]| |], r as [c2| |]; try contradiction; subst; reflexivity.
Qed.
Lemma look_none fs n f c : no_file (fs n) -> look f fs n c = Some (Ok c).
Proof. unfold look, is_file. intros [-> | ->]; reflexivity. Qed.
Lemma look_ignored fs n f c r w t : fs n = Regular r w t -> r && w = false -> look f fs n c = Some (Ok c).
Proof. unfold look, is_file, read_from_file. intros -> H. destruct r, w; try discriminate H; reflexivity. Qed.
Lemma look_broken fs n f c : fs n = Broken -> look f fs n c = Some Throw.
Proof. unfold look, is_file. intros ->. reflexivity. Qed.
Lemma names h : h ++ lit "/" ++ config_home = in_home h.
Proof. reflexivity. Qed.

Lemma starts_of h fs f1 c r : (forall f, f1 <= f -> look f fs (in_home h) empty_c = Some (Ok c)) -> (exists f2, forall f, f2 <= f -> look f fs here c = Some r) -> starts (Some h) fs r.
Proof. intros H (f2 & G). exists (f1 + f2). unfold instance. rewrite names, H by lia. apply G. lia. Qed.

Lemma local_wins h fs c0 text r : settings (fs (in_home h)) c0 -> may_write (fs (in_home h)) -> fs here = Regular true true text -> parses_to text None r -> starts (Some h) fs r.
Proof.
  intros S W E P. destruct (look_regular _ _ _ _ E P) as (f2 & G).
  destruct (fs (in_home h)) as [| | |[|] w t] eqn:F; cbn in S, W; try contradiction.
  - apply (starts_of h fs 0 empty_c); [intros f _; apply look_none; left; exact F|exists f2; intros f L; apply G, L].
  - apply (starts_of h fs 0 empty_c); [intros f _; apply look_none; right; exact F|exists f2; intros f L; apply G, L].
  - subst w. destruct (look_regular _ _ _ _ F S) as (f1 & H). apply (starts_of h fs f1 c0); [intros f L; apply H, L|exists f2; intros f L; apply G, L].
Qed.
Lemma home_only h fs text r : fs (in_home h) = Regular true true text -> parses_to text None r -> no_file (fs here) -> starts (Some h) fs r.
Proof.
  intros E P N. destruct (look_regular _ _ _ _ E P) as (f1 & H). exists f1. unfold instance. rewrite names, H by lia. destruct r; [apply look_none, N|reflexivity..].
Qed.
Lemma nothing h fs : no_file (fs (in_home h)) -> no_file (fs here) -> starts (Some h) fs (Ok empty_c).
Proof. intros A B. exists 0. unfold instance. rewrite names, look_none by exact A. apply look_none, B. Qed.
Lemma starts_det h fs r r' : starts h fs r -> starts h fs r' -> r = r'.
Proof.
  assert (M : forall n f f' c r, f <= f' -> look f fs n c = Some r -> look f' fs n c = Some r).
  { intros n f f' c x L. unfold look, is_file, read_from_file. destruct (fs n) as [| | |[|] [|] t]; try (intros E; exact E). unfold parse.
    destruct (parse_loop f None (stream_of t) (clear_c c)) as [o|] eqn:E; [|discriminate]. rewrite (Proofs.Params.parse_loop_mono _ f' _ _ _ _ E L). exact (fun H => H). }
  assert (N : forall f f' x, f <= f' -> instance f h fs None = Some x -> instance f' h fs None = Some x).
  { intros f f' x L. unfold instance. destruct h as [h|]; [|exact (fun H => H)]. destruct (look f fs (h ++ lit "/" ++ config_home) empty_c) as [o|] eqn:E; [|discriminate].
    rewrite (M _ _ _ _ _ L E). destruct o as [c| |]; [apply M, L|exact (fun H => H)..]. }
  intros (f & A) (f' & B). apply (N f (f + f')) in A; [|lia]. apply (N f' (f + f')) in B; [|lia]. congruence.
Qed.
Lemma layered_empty c : layered c c empty_c.
Proof. intros k. destruct (get_value c k) as [v|]; reflexivity. Qed.
Lemma layered_home c : layered c empty_c c.
Proof. intros k. reflexivity. Qed.

(** what holds: one of the files is missing, or the local one sets everything *)
Lemma layers h fs own home : settings (fs here) own -> settings (fs (in_home h)) home -> may_write (fs here) -> may_write (fs (in_home h)) ->
  (no_file (fs here) \/ forall k, get_value home k <> None -> get_value own k <> None) -> exists c, starts (Some h) fs (Ok c) /\ layered c own home.
Proof.
  intros S S' W W' H. destruct (fs here) as [| | |[|] w t] eqn:E; cbn in S, W; try contradiction.
  3: { subst w. exists own. split; [exact (local_wins h fs home t (Ok own) S' W' E S)|].
    destruct H as [[H|H]|H]; try discriminate H. intros k. specialize (H k). destruct (get_value own k) as [v|]; [reflexivity|]. destruct (get_value home k); [elim H; [discriminate|reflexivity]|reflexivity]. }
  all: subst own; assert (N : no_file (fs here)) by (unfold no_file; rewrite E; tauto).
  all: exists home; split; [|apply layered_home].
  all: destruct (fs (in_home h)) as [| | |[|] w' t'] eqn:F; cbn in S', W'; try contradiction; subst;
    [apply nothing; [left; exact F|exact N]|apply nothing; [right; exact F|exact N]|exact (home_only h fs t' (Ok home) F S' N)].
Qed.

Lemma later fuel l c : (forall o, In o l -> o <> Destroy) -> calls fuel l (Some c) = Some (Ok (repeat c (length l))).
Proof.
  induction l as [|o l IH]; intros N; cbn [calls repeat length]; [reflexivity|].
  destruct o as [h fs|]; [|elim (N Destroy); [left|]; reflexivity]. cbn [instance]. rewrite IH by (intros o H; apply N; right; exact H). reflexivity.
Qed.
Lemma parse_not_ub fuel eof st c : parse_loop fuel eof st c <> Some UB.
Proof.
  revert st c. induction fuel as [|f IH]; intros st c; cbn [parse_loop]; [discriminate|]. destruct (eofb st); [discriminate|]. destruct (getline st) as [line st'].
  destruct (match eof with Some e => _ | None => false end); [discriminate|]. destruct (parse_line c (cstr line)) eqn:E; [apply IH|discriminate|].
  elim (Proofs.Params.parse_line_not_ub _ _ E).
Qed.
Lemma defined h fs : ~ starts (Some h) fs UB.
Proof.
  assert (M : forall n f c, look f fs n c <> Some UB).
  { intros n f c. unfold look, is_file, read_from_file. destruct (fs n) as [| | |[|] [|] t]; try discriminate. unfold parse.
    pose proof (parse_not_ub f None (stream_of t) (clear_c c)) as H. destruct (parse_loop f None (stream_of t) (clear_c c)) as [[o| |]|]; try discriminate. elim H. reflexivity. }
  intros (f & E). unfold instance in E. destruct (look f fs (h ++ lit "/" ++ config_home) empty_c) as [[c| |]|] eqn:K; try discriminate; [elim (M _ _ _ E)|elim (M _ _ _ K)].
Qed.
