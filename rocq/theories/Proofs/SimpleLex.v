(** Proofs about the scanner and the handling of input files. *)
From Coq Require Import Ascii String List NArith ZArith Lia Bool Arith.
From Verif Require Import Base Model.Simple Spec.Simple Proofs.Simple Model.SimpleLex Spec.SimpleLex.
Import ListNotations.
Open Scope nat_scope.

Definition stops (p : ascii -> bool) (r : str) : Prop := match r with [] => True | c :: _ => p c = false end.
Lemma span_spec p s : s = (fst (span p s) ++ snd (span p s))%list /\ all_of p (fst (span p s)) /\ stops p (snd (span p s)).
Proof.
  induction s as [|c s (E & A & B)]; cbn; [repeat split; constructor|]. destruct (p c) eqn:P; cbn.
  - split; [f_equal; exact E|]. split; [constructor; assumption|exact B].
  - split; [reflexivity|]. split; [constructor|exact P].
Qed.
Lemma span_app p w r : all_of p w -> stops p r -> span p (w ++ r) = (w, r).
Proof.
  intros A B. induction A as [|c w H A IH]; cbn; [destruct r as [|c r]; [reflexivity|]; cbn in B |- *; rewrite B; reflexivity|].
  rewrite H, IH. reflexivity.
Qed.
(** any text of the class is a part of the span *)
Lemma span_max p s a b : s = (a ++ b)%list -> all_of p a -> (length a <= length (fst (span p s)))%nat.
Proof.
  intros -> A. induction A as [|c a H A IH]; cbn; [lia|]. rewrite H. cbn. lia.
Qed.

(** * The rules *)
Lemma matches_chr c a : matches (Chr c) a <-> a = [c].
Proof.
  split.
  - intros M. inversion M; subst. apply Ascii.eqb_eq in H0. subst. reflexivity.
  - intros ->. constructor. apply Ascii.eqb_refl.
Qed.
Lemma matches_cat a b s : matches (Cat a b) s <-> exists x y, s = (x ++ y)%list /\ matches a x /\ matches b y.
Proof.
  split; [intros M; inversion M; subst; eauto|]. intros (x & y & -> & A & B). constructor; assumption.
Qed.
Lemma matches_cls p s : matches (Cls p) s <-> exists c, s = [c] /\ p c = true.
Proof. split; [intros M; inversion M; subst; eauto|]. intros (c & -> & P). constructor. exact P. Qed.
Lemma matches_star p s : matches (Star (Cls p)) s <-> all_of p s.
Proof.
  split.
  - intros M. remember (Star (Cls p)) as r eqn:E. revert E. induction M; intros [= ->]; [constructor|].
    apply matches_cls in M1 as (c & -> & P). constructor; [exact P|apply IHM2; reflexivity].
  - induction 1 as [|c s P A IH]; [constructor|]. apply (m_more _ [c] s); [constructor; exact P|exact IH].
Qed.
Lemma matches_plus p s : matches (Plus (Cls p)) s <-> s <> [] /\ all_of p s.
Proof.
  unfold Plus. rewrite matches_cat. split.
  - intros (x & y & -> & A & B). apply matches_cls in A as (c & -> & P). apply matches_star in B. split; [discriminate|constructor; assumption].
  - intros [N A]. destruct A as [|c s P A]; [contradiction|]. exists [c], s. split; [reflexivity|]. split; [constructor; exact P|apply matches_star; exact A].
Qed.
Lemma matches_chr_cat c b s : matches (Cat (Chr c) b) s <-> exists t, s = c :: t /\ matches b t.
Proof.
  rewrite matches_cat. split.
  - intros (x & y & -> & A & B). apply matches_chr in A as ->. exists y. split; [reflexivity|exact B].
  - intros (t & -> & B). exists [c], t. split; [reflexivity|]. split; [apply matches_chr; reflexivity|exact B].
Qed.
Lemma matches_closed p c s : matches (Cat (Plus (Cls p)) (Chr c)) s <-> exists w, s = (w ++ [c])%list /\ w <> [] /\ all_of p w.
Proof.
  rewrite matches_cat. split.
  - intros (x & y & -> & A & B). apply matches_chr in B as ->. apply matches_plus in A. eauto.
  - intros (w & -> & A). exists w, [c]. split; [reflexivity|]. split; [apply matches_plus; exact A|apply matches_chr; reflexivity].
Qed.

(** where a rule applies: the first character and the rest of the text *)
Definition form (j : nat) (c : ascii) (b s : str) : Prop :=
  match j with
  | 0 => c = "#"%char /\ all_of no_nl b /\ exists u, s = (b ++ "010"%char :: u)%list
  | 1 => c = "f"%char /\ b = lit "or" /\ exists u, s = (b ++ u)%list
  | 2 => c = "$"%char /\ b <> [] /\ all_of word_char b /\ exists u, s = (b ++ u)%list
  | 3 => c = "$"%char /\ exists w u, b = ("(" :: w ++ [")"])%char%list /\ w <> [] /\ all_of word_char w /\ s = ("(" :: w ++ ")" :: u)%char%list
  | 4 => c = "%"%char /\ b <> [] /\ all_of fmt_char b /\ exists u, s = (b ++ u)%list
  | 5 => tok_char c = true /\ all_of tok_char b /\ exists u, s = (b ++ u)%list
  | 6 => c = "034"%char /\ exists w u, b = (w ++ ["034"])%char%list /\ w <> [] /\ all_of str_char w /\ s = (w ++ "034" :: u)%char%list
  | 7 => c = "{"%char /\ b = []
  | 8 => c = "}"%char /\ b = []
  | 9 => c = "="%char /\ b = []
  | 10 => c = "034"%char /\ b = []
  | 11 => c = "~"%char /\ b = []
  | 12 => c = "010"%char /\ b = []
  | 13 => (c = " "%char \/ c = "009"%char) /\ b = []
  | _ => False
  end.
Definition rule_at (j : nat) : rule := nth j rules (mkRule (Chr "000") [] (fun _ => None)).
Lemma rule_at_error j r : nth_error rules j = Some r -> r = rule_at j /\ (j < 14)%nat.
Proof.
  intros E. split; [symmetry; exact (nth_error_nth rules j _ E)|]. change 14 with (length rules). apply nth_error_Some. congruence.
Qed.
Lemma rule_at_in j : (j < 14)%nat -> nth_error rules j = Some (rule_at j).
Proof. intros L. do 14 (destruct j as [|j]; [reflexivity|]). lia. Qed.
Lemma applies_form j r c s a : applies j r (c :: s) a <-> exists b, a = c :: b /\ r = rule_at j /\ form j c b s.
Proof.
  split.
  - intros (E & M & u & S). apply rule_at_error in E as [-> L].
    destruct j as [|[|[|[|[|[|[|[|[|[|[|[|[|[|j]]]]]]]]]]]]]]; [..|lia]; cbn in M, S.
    + apply matches_chr_cat in M as (t & -> & M). apply matches_star in M. injection S; intros S1 ->. exists t. split; [reflexivity|]. split; [reflexivity|]. split; [reflexivity|]. split; [exact M|]. exists u. exact S1.
    + apply matches_chr_cat in M as (t & -> & M). apply matches_chr_cat in M as (t2 & -> & M). apply matches_chr in M as ->. injection S; intros S1 ->. eexists. split; [reflexivity|]. split; [reflexivity|]. split; [reflexivity|]. split; [reflexivity|]. exists u. exact S1.
    + apply matches_chr_cat in M as (t & -> & M). apply matches_plus in M as [N M]. injection S; intros S1 ->. exists t. split; [reflexivity|]. split; [reflexivity|]. split; [reflexivity|]. split; [exact N|]. split; [exact M|]. exists u. exact S1.
    + apply matches_chr_cat in M as (t & -> & M). apply matches_chr_cat in M as (t2 & -> & M). apply matches_closed in M as (w & -> & N & M). injection S; intros S1 ->. eexists. split; [reflexivity|]. split; [reflexivity|]. split; [reflexivity|].
      exists w, u. split; [reflexivity|]. split; [exact N|]. split; [exact M|]. rewrite S1, <- app_assoc. reflexivity.
    + apply matches_chr_cat in M as (t & -> & M). apply matches_plus in M as [N M]. injection S; intros S1 ->. exists t. split; [reflexivity|]. split; [reflexivity|]. split; [reflexivity|]. split; [exact N|]. split; [exact M|]. exists u. exact S1.
    + apply matches_plus in M as [N M]. destruct M as [|x a P M]; [contradiction|]. injection S; intros S1 ->. exists a. split; [reflexivity|]. split; [reflexivity|]. split; [exact P|]. split; [exact M|]. exists u. exact S1.
    + apply matches_chr_cat in M as (t & -> & M). apply matches_closed in M as (w & -> & N & M). injection S; intros S1 ->. eexists. split; [reflexivity|]. split; [reflexivity|]. split; [reflexivity|].
      exists w, u. split; [reflexivity|]. split; [exact N|]. split; [exact M|]. rewrite S1, <- app_assoc. reflexivity.
    + apply matches_chr in M as ->. injection S; intros S1 ->. exists []. repeat split.
    + apply matches_chr in M as ->. injection S; intros S1 ->. exists []. repeat split.
    + apply matches_chr in M as ->. injection S; intros S1 ->. exists []. repeat split.
    + apply matches_chr in M as ->. injection S; intros S1 ->. exists []. repeat split.
    + apply matches_chr in M as ->. injection S; intros S1 ->. exists []. repeat split.
    + apply matches_chr in M as ->. injection S; intros S1 ->. exists []. repeat split.
    + apply matches_cls in M as (x & -> & P). injection S; intros S1 ->. exists []. split; [reflexivity|]. split; [reflexivity|]. split; [|reflexivity].
      apply orb_true_iff in P as [P|P]; apply Ascii.eqb_eq in P; auto.
  - intros (b & -> & -> & F). unfold applies.
    assert (L : (j < 14)%nat) by (do 14 (destruct j as [|j]; [lia|]); destruct F).
    split; [apply rule_at_in; exact L|].
    destruct j as [|[|[|[|[|[|[|[|[|[|[|[|[|[|j]]]]]]]]]]]]]]; [..|lia]; cbn in F |- *.
    + destruct F as (-> & A & u & ->). split; [apply matches_chr_cat; exists b; split; [reflexivity|apply matches_star; exact A]|exists u; reflexivity].
    + destruct F as (-> & -> & u & ->). split; [|exists u; reflexivity]. apply matches_chr_cat. eexists. split; [reflexivity|]. apply matches_chr_cat. eexists. split; [reflexivity|]. apply matches_chr. reflexivity.
    + destruct F as (-> & N & A & u & ->). split; [apply matches_chr_cat; exists b; split; [reflexivity|apply matches_plus; split; assumption]|exists u; reflexivity].
    + destruct F as (-> & w & u & -> & N & A & ->). split; [|exists u; cbn; rewrite <- app_assoc; reflexivity]. apply matches_chr_cat. eexists. split; [reflexivity|]. apply matches_chr_cat. eexists. split; [reflexivity|]. apply matches_closed. exists w. auto.
    + destruct F as (-> & N & A & u & ->). split; [apply matches_chr_cat; exists b; split; [reflexivity|apply matches_plus; split; assumption]|exists u; reflexivity].
    + destruct F as (P & A & u & ->). split; [|exists u; reflexivity]. apply matches_plus. split; [discriminate|constructor; assumption].
    + destruct F as (-> & w & u & -> & N & A & ->). split; [|exists u; cbn; rewrite <- app_assoc; reflexivity]. apply matches_chr_cat. eexists. split; [reflexivity|]. apply matches_closed. exists w. auto.
    + destruct F as [-> ->]. split; [apply matches_chr; reflexivity|exists s; reflexivity].
    + destruct F as [-> ->]. split; [apply matches_chr; reflexivity|exists s; reflexivity].
    + destruct F as [-> ->]. split; [apply matches_chr; reflexivity|exists s; reflexivity].
    + destruct F as [-> ->]. split; [apply matches_chr; reflexivity|exists s; reflexivity].
    + destruct F as [-> ->]. split; [apply matches_chr; reflexivity|exists s; reflexivity].
    + destruct F as [-> ->]. split; [apply matches_chr; reflexivity|exists s; reflexivity].
    + destruct F as [[->| ->] ->]; (split; [constructor; reflexivity|exists s; reflexivity]).
Qed.

(** * One step of the scanner *)
Lemma selected_form i c b s : form i c b s ->
  (forall j d, form j c d s -> length d + length (trail (rule_at j)) < length b + length (trail (rule_at i)) \/ length d + length (trail (rule_at j)) = length b + length (trail (rule_at i)) /\ i <= j) ->
  selected i (rule_at i) (c :: s) (c :: b).
Proof.
  intros F H. split; [apply applies_form; eauto|]. intros j q d A. apply applies_form in A as (e & -> & -> & G). specialize (H j e G). cbn [length]. lia.
Qed.
(** two texts up to the same end *)
Lemma closed_same p c w u v t : all_of p w -> all_of p v -> p c = false -> (w ++ c :: u = v ++ c :: t)%list -> w = v.
Proof.
  intros A. revert v. induction A as [|x w P A IH]; intros v B C E; destruct B as [|y v Q B]; cbn in E.
  - reflexivity.
  - injection E; intros _ ->. congruence.
  - injection E; intros _ <-. congruence.
  - injection E; intros E1 ->. f_equal. exact (IH v B C E1).
Qed.
Lemma or_span s u : s = (lit "or" ++ u)%list -> 2 <= length (fst (span tok_char s)).
Proof. intros ->. exact (span_max tok_char _ (lit "or") u eq_refl ltac:(repeat constructor)). Qed.
Lemma inner_one a c w : inner 1 (a :: w ++ [c]) = w.
Proof. unfold inner. cbn [skipn length]. rewrite app_length. cbn [length]. replace (S (length w + 1) - 1 - 1) with (length w + 0) by lia. rewrite firstn_app_2. cbn. apply app_nil_r. Qed.
Lemma inner_two a b c w : inner 2 (a :: b :: w ++ [c]) = w.
Proof. unfold inner. cbn [skipn length]. rewrite app_length. cbn [length]. replace (S (S (length w + 1)) - 2 - 1) with (length w + 0) by lia. rewrite firstn_app_2. cbn. apply app_nil_r. Qed.
Definition stepped (c : ascii) (s : str) (x : action * str) : Prop :=
  match fst x with
  | Tok t => exists i b, s = (b ++ snd x)%list /\ selected i (rule_at i) (c :: s) (c :: b) /\ make (rule_at i) (c :: b) = Some t
  | Skip => exists i b, s = (b ++ snd x)%list /\ selected i (rule_at i) (c :: s) (c :: b) /\ make (rule_at i) (c :: b) = None
  | Echo d => d = c /\ snd x = s /\ forall j e, ~ form j c e s
  end.
Ltac cases_of j :=
  destruct j as [|[|[|[|[|[|[|[|[|[|[|[|[|[|j]]]]]]]]]]]]]]; cbn [form] in *;
  repeat match goal with H : _ /\ _ |- _ => destruct H | H : exists _, _ |- _ => destruct H | H : _ = _ \/ _ = _ |- _ => destruct H end; try discriminate; try contradiction; try (subst; discriminate).
Lemma lex1_step c s : stepped c s (lex1 c s).
Proof.
  unfold lex1.
  destruct (Ascii.eqb c "#") eqn:C1.
  { apply Ascii.eqb_eq in C1 as ->. destruct (span_spec no_nl s) as (E & A & B). destruct (span no_nl s) as [w r0]. cbn [fst snd] in *. destruct r0 as [|x r].
    - split; [reflexivity|]. split; [reflexivity|]. intros j e F. cases_of j. rewrite app_nil_r in E. rewrite <- E, H1 in A. apply Forall_app in A as [_ A]. apply Forall_inv in A. discriminate A.
    - cbn in B. unfold no_nl in B. apply negb_false_iff, Ascii.eqb_eq in B as ->. exists 0, w. split; [exact E|]. split; [|reflexivity]. apply selected_form; [repeat split; eauto|].
      intros j d F. cases_of j. right. split; [|lia]. rewrite (closed_same no_nl "010" w r d x A H0 eq_refl) by congruence. reflexivity. }
  destruct (Ascii.eqb c "$") eqn:C2.
  { apply Ascii.eqb_eq in C2 as ->. destruct (span_spec word_char s) as (E & A & B). pose proof (span_max word_char s) as M. destruct (span word_char s) as [w r]. cbn [fst snd] in *. destruct w as [|x w].
    - assert (N : forall e, ~ form 2 "$" e s).
      { intros e F. cbn in F. destruct F as (_ & N & P & u & S). specialize (M e u S P). destruct e; [contradiction|cbn in M; lia]. }
      assert (Z : (forall e, ~ form 3 "$" e s) -> stepped "$" s (Echo "$", s)).
      { intros Z. split; [reflexivity|]. split; [reflexivity|]. intros j e F. destruct (Nat.eq_dec j 2) as [->|N2]; [exact (N e F)|]. destruct (Nat.eq_dec j 3) as [->|N3]; [exact (Z e F)|]. cases_of j. }
      destruct s as [|x t]; [apply Z; intros e F; cbn in F; destruct F as (_ & v & u & _ & _ & _ & F); discriminate F|].
      destruct (Ascii.eqb x "(") eqn:X; [|apply Z; intros e F; cbn in F; destruct F as (_ & v & u & _ & _ & _ & F); injection F; intros _ ->; discriminate X].
      apply Ascii.eqb_eq in X as ->. destruct (span_spec word_char t) as (E2 & A2 & B2). destruct (span word_char t) as [w r2]. cbn [fst snd] in *.
      assert (Y : forall e, form 3 "$" e ("("%char :: t) -> exists u, r2 = ")"%char :: u /\ w <> [] /\ e = ("(" :: w ++ [")"])%char%list).
      { intros e F. cbn in F. destruct F as (_ & v & u & -> & N3 & A3 & F). injection F; intros F1. pose proof (span_app word_char v (")"%char :: u) A3 eq_refl) as Q. pose proof (span_app word_char w r2 A2 B2) as Q2.
        rewrite <- E2, F1, Q in Q2. injection Q2; intros <- <-. exists u. auto. }
      destruct w as [|y w]; [apply Z; intros e F; destruct (Y e F) as (u & _ & W & _); contradiction|].
      destruct r2 as [|z r2]; [apply Z; intros e F; destruct (Y e F) as (u & W & _); discriminate W|].
      destruct (Ascii.eqb z ")") eqn:X; [|apply Z; intros e F; destruct (Y e F) as (u & W & _); injection W; intros _ ->; discriminate X].
      apply Ascii.eqb_eq in X as ->. exists 3, ("(" :: (y :: w) ++ [")"])%char%list. cbn [snd]. split; [rewrite E2; cbn; rewrite <- app_assoc; reflexivity|]. split.
      + apply selected_form; [cbn; split; [reflexivity|]; exists (y :: w), r2; split; [reflexivity|]; split; [discriminate|]; split; [exact A2|]; rewrite E2; reflexivity|].
        intros j d F. destruct (Nat.eq_dec j 2) as [->|N2]; [destruct (N d F)|]. destruct (Nat.eq_dec j 3) as [->|N3]; [|cases_of j]. destruct (Y d F) as (u & _ & _ & ->). right. split; lia.
      + exact (f_equal (fun x => Some (VarExp x)) (inner_two "$" "(" ")" (y :: w))).
    - exists 2, (x :: w). split; [exact E|]. split; [|reflexivity]. apply selected_form; [cbn; split; [reflexivity|]; split; [discriminate|]; split; [exact A|]; exists r; exact E|].
      intros j d F. destruct (Nat.eq_dec j 2) as [->|N2].
      + cbn in F. destruct F as (_ & _ & P & u & S). specialize (M d u S P). cbn [length trail rule_at nth rules] in *. lia.
      + cases_of j. cbn in E. assert (X : x = "("%char) by congruence. rewrite X in A. apply Forall_inv in A. discriminate A. }
  destruct (Ascii.eqb c "%") eqn:C3.
  { apply Ascii.eqb_eq in C3 as ->. destruct (span_spec fmt_char s) as (E & A & B). pose proof (span_max fmt_char s) as M. destruct (span fmt_char s) as [w r]. cbn [fst snd] in *. destruct w as [|x w].
    - split; [reflexivity|]. split; [reflexivity|]. intros j e F. destruct (Nat.eq_dec j 4) as [->|N4]; [|cases_of j]. cbn in F. destruct F as (_ & N & P & u & S). specialize (M e u S P). destruct e; [contradiction|cbn in M; lia].
    - exists 4, (x :: w). split; [exact E|]. split; [|reflexivity]. apply selected_form; [cbn; split; [reflexivity|]; split; [discriminate|]; split; [exact A|]; exists r; exact E|].
      intros j d F. destruct (Nat.eq_dec j 4) as [->|N4]; [|cases_of j]. cbn in F. destruct F as (_ & _ & P & u & S). specialize (M d u S P). cbn [length trail rule_at nth rules] in *. lia. }
  destruct (tok_char c) eqn:C4.
  { destruct (span_spec tok_char s) as (E & A & B). pose proof (span_max tok_char s) as M. pose proof (or_span s) as O. destruct (span tok_char s) as [w r]. cbn [fst snd] in *.
    unfold str_eqb. destruct (str_eq_dec (c :: w) (lit "for")) as [Q|Q].
    - injection Q; intros -> ->. exists 1, (lit "or"). split; [exact E|]. split; [|reflexivity]. apply selected_form; [cbn; split; [reflexivity|]; split; [reflexivity|]; exists r; exact E|].
      intros j d F. destruct (Nat.eq_dec j 5) as [->|N5]; [|destruct (Nat.eq_dec j 1) as [->|N1]; [|cases_of j]].
      + cbn in F. destruct F as (_ & P & u & S). specialize (M d u S P). cbn in M |- *. lia.
      + cbn in F. destruct F as (_ & -> & _). cbn. lia.
    - exists 5, w. split; [exact E|]. split; [|reflexivity]. apply selected_form; [cbn; split; [exact C4|]; split; [exact A|]; exists r; exact E|].
      intros j d F. destruct (Nat.eq_dec j 5) as [->|N5]; [|destruct (Nat.eq_dec j 1) as [->|N1]; [|cases_of j]].
      + cbn in F. destruct F as (_ & P & u & S). specialize (M d u S P). cbn. lia.
      + cbn in F. destruct F as (-> & -> & u & S). specialize (O u S). cbn [length trail rule_at nth rules] in *. left.
        destruct (Nat.eq_dec (length w) 2) as [L|L]; [|cbn; lia]. exfalso. apply Q. do 3 (destruct w as [|? w]; try discriminate L). rewrite E in S. injection S; intros _ -> ->. reflexivity.
      }
  destruct (Ascii.eqb c "034") eqn:C5.
  { apply Ascii.eqb_eq in C5 as ->. destruct (span_spec str_char s) as (E & A & B). destruct (span str_char s) as [w r]. cbn [fst snd] in *.
    assert (Y : forall e, form 6 "034" e s -> exists u, r = "034"%char :: u /\ w <> [] /\ e = (w ++ ["034"])%char%list).
    { intros e F. cbn in F. destruct F as (_ & v & u & -> & N3 & A3 & F). pose proof (span_app str_char v ("034"%char :: u) A3 eq_refl) as Q. pose proof (span_app str_char w r A B) as Q2.
      rewrite <- E, F, Q in Q2. injection Q2; intros <- <-. exists u. auto. }
    assert (Z : (forall e, ~ form 6 "034" e s) -> stepped "034" s (Tok Quote, s)).
    { intros Z. exists 10, []. split; [reflexivity|]. split; [|reflexivity]. apply selected_form; [repeat split|]. intros j d F. destruct (Nat.eq_dec j 6) as [->|N6]; [destruct (Z d F)|]. cases_of j; subst; cbn; lia. }
    destruct w as [|y w]; [apply Z; intros e F; destruct (Y e F) as (u & _ & W & _); contradiction|].
    destruct r as [|z r2]; [apply Z; intros e F; destruct (Y e F) as (u & W & _); discriminate W|].
    destruct (Ascii.eqb z "034") eqn:X; [|apply Z; intros e F; destruct (Y e F) as (u & W & _); injection W; intros _ ->; discriminate X].
    apply Ascii.eqb_eq in X as ->. exists 6, ((y :: w) ++ ["034"%char])%list. cbn [snd]. split; [rewrite E, <- app_assoc; reflexivity|]. split.
    + apply selected_form; [cbn; split; [reflexivity|]; exists (y :: w), r2; split; [reflexivity|]; split; [discriminate|]; split; [exact A|]; exact E|].
      intros j d F. destruct (Nat.eq_dec j 6) as [->|N3]; [destruct (Y d F) as (u & _ & _ & ->); right; split; lia|]. cases_of j; subst; left; cbn; lia.
    + exact (f_equal (fun x => Some (QString x)) (inner_one "034" "034" (y :: w))). }
  assert (One : forall k, form k c [] s -> 7 <= k -> k <> 10 -> selected k (rule_at k) (c :: s) [c]).
  { intros k F L N10. apply selected_form; [exact F|]. intros j d G. destruct k as [|[|[|[|[|[|[|[|[|[|[|[|[|[|k]]]]]]]]]]]]]]; try lia; cbn [form] in F; try contradiction; cases_of j; subst; cbn; try lia; try congruence; discriminate. }
  destruct (Ascii.eqb c "{") eqn:C6; [apply Ascii.eqb_eq in C6 as ->; exists 7, []; split; [reflexivity|]; split; [apply One; [split; reflexivity|lia|lia]|reflexivity]|].
  destruct (Ascii.eqb c "}") eqn:C7; [apply Ascii.eqb_eq in C7 as ->; exists 8, []; split; [reflexivity|]; split; [apply One; [split; reflexivity|lia|lia]|reflexivity]|].
  destruct (Ascii.eqb c "=") eqn:C8; [apply Ascii.eqb_eq in C8 as ->; exists 9, []; split; [reflexivity|]; split; [apply One; [split; reflexivity|lia|lia]|reflexivity]|].
  destruct (Ascii.eqb c "~") eqn:C9; [apply Ascii.eqb_eq in C9 as ->; exists 11, []; split; [reflexivity|]; split; [apply One; [split; reflexivity|lia|lia]|reflexivity]|].
  unfold blank. destruct (Ascii.eqb c " " || Ascii.eqb c "009" || Ascii.eqb c "010")%bool eqn:C10.
  - apply orb_true_iff in C10 as [C10|C10].
    + exists 13, []. split; [reflexivity|]. split; [|reflexivity]. apply One; [|lia|lia]. split; [|reflexivity]. apply orb_true_iff in C10 as [C10|C10]; apply Ascii.eqb_eq in C10; auto.
    + apply Ascii.eqb_eq in C10 as ->. exists 12, []. split; [reflexivity|]. split; [apply One; [split; reflexivity|lia|lia]|reflexivity].
  - split; [reflexivity|]. split; [reflexivity|]. intros j e F. cases_of j; congruence.
Qed.

(** * The whole scanner *)
Lemma lex1_rest c s : length (snd (lex1 c s)) <= length s.
Proof.
  pose proof (lex1_step c s) as H. unfold stepped in H. destruct (lex1 c s) as [[t| |d] r]; cbn [fst snd] in *.
  - destruct H as (i & b & -> & _). rewrite app_length. lia.
  - destruct H as (i & b & -> & _). rewrite app_length. lia.
  - destruct H as (_ & -> & _). lia.
Qed.
Lemma scan_n_scans n : forall s, length s <= n -> scans s (fst (scan_n n s)) (snd (scan_n n s)).
Proof.
  induction n as [|n IH]; intros [|c s] L; cbn [length] in L; try lia; try constructor.
  cbn [scan_n]. pose proof (lex1_step c s) as H. pose proof (lex1_rest c s) as R. destruct (lex1 c s) as [a r]. cbn [snd] in R. specialize (IH r ltac:(lia)). destruct (scan_n n r) as [l o]. cbn [fst snd] in IH.
  unfold stepped in H. cbn [fst snd] in H. destruct a as [t| |d].
  - destruct H as (i & b & -> & S & M). exact (sc_tok i (rule_at i) (c :: b) r t l o ltac:(discriminate) S M IH).
  - destruct H as (i & b & -> & S & M). exact (sc_skip i (rule_at i) (c :: b) r l o ltac:(discriminate) S M IH).
  - destruct H as (-> & -> & N). cbn [fst snd]. apply sc_echo; [|exact IH]. intros i q a A. apply applies_form in A as (b & _ & _ & F). exact (N i b F).
Qed.
Lemma scan_scans s : scans s (fst (scan s)) (snd (scan s)).
Proof. apply scan_n_scans. lia. Qed.
Lemma selected_unique i r s a j q b : selected i r s a -> selected j q s b -> i = j /\ r = q /\ a = b.
Proof.
  intros [A1 H1] [A2 H2]. pose proof (H1 j q b A2) as X. pose proof (H2 i r a A1) as Y. assert (i = j) by lia. subst j.
  destruct A1 as (E1 & M1 & u & S1). destruct A2 as (E2 & M2 & v & S2). assert (r = q) by congruence. subst q. split; [reflexivity|]. split; [reflexivity|].
  assert (L : length a = length b) by lia. rewrite S1 in S2. clear - S2 L. revert b L S2. induction a as [|x a IH]; intros [|y b] L S2; try discriminate L; [reflexivity|]. cbn in S2. injection S2; intros S ->. f_equal. apply IH; [cbn in L; lia|exact S].
Qed.
Lemma scans_unique s l o : scans s l o -> forall l' o', scans s l' o' -> l = l' /\ o = o'.
Proof.
  induction 1 as [|i r a s t l o N S M H IH|i r a s l o N S M H IH|c s l o N H IH]; intros l' o' H'.
  - inversion H' as [E|i' r' a' s' t' l1 o1 N' S' M' H1 E|i' r' a' s' l1 o1 N' S' M' H1 E|]; [auto|destruct a'; cbn in *; congruence..].
  - inversion H' as [E|i' r' a' s' t' l1 o1 N' S' M' H1 E|i' r' a' s' l1 o1 N' S' M' H1 E|c' s' l1 o1 N' H1 E]; subst.
    + destruct a; [contradiction|discriminate].
    + rewrite E in S'. destruct (selected_unique _ _ _ _ _ _ _ S S') as (-> & -> & ->). apply app_inv_head in E as ->. assert (t = t') by congruence. subst. destruct (IH _ _ H1) as [-> ->]. auto.
    + rewrite E in S'. destruct (selected_unique _ _ _ _ _ _ _ S S') as (-> & -> & ->). congruence.
    + rewrite E in N'. destruct S as [A _]. destruct (N' _ _ _ A).
  - inversion H' as [E|i' r' a' s' t' l1 o1 N' S' M' H1 E|i' r' a' s' l1 o1 N' S' M' H1 E|c' s' l1 o1 N' H1 E]; subst.
    + destruct a; [contradiction|discriminate].
    + rewrite E in S'. destruct (selected_unique _ _ _ _ _ _ _ S S') as (-> & -> & ->). congruence.
    + rewrite E in S'. destruct (selected_unique _ _ _ _ _ _ _ S S') as (-> & -> & ->). apply app_inv_head in E as ->. exact (IH _ _ H1).
    + rewrite E in N'. destruct S as [A _]. destruct (N' _ _ _ A).
  - inversion H' as [E|i' r' a' s' t' l1 o1 N' S' M' H1 E|i' r' a' s' l1 o1 N' S' M' H1 E|c' s' l1 o1 N' H1 E]; subst.
    + rewrite E in S'. destruct S' as [A _]. destruct (N _ _ _ A).
    + rewrite E in S'. destruct S' as [A _]. destruct (N _ _ _ A).
    + destruct (IH _ _ H1) as [-> ->]. auto.
Qed.
Lemma scan_exact s l o : scans s l o <-> scan s = (l, o).
Proof.
  split.
  - intros H. destruct (scans_unique _ _ _ (scan_scans s) _ _ H) as [E1 E2]. destruct (scan s) as [a b]. cbn in *. congruence.
  - intros E. pose proof (scan_scans s) as H. rewrite E in H. exact H.
Qed.

(** * Written tokens are read back *)
Lemma scan_n_enough n s : length s <= n -> scan_n n s = scan s.
Proof.
  intros L. pose proof (scan_n_scans n s L) as H. apply scan_exact in H. rewrite H. destruct (scan_n n s); reflexivity.
Qed.
Definition put (a : action) (x : list token * str) : list token * str :=
  match a with Tok t => (t :: fst x, snd x) | Skip => x | Echo c => (fst x, c :: snd x) end.
Lemma scan_cons c s a r : lex1 c s = (a, r) -> scan (c :: s) = put a (scan r).
Proof.
  intros E. unfold scan at 1. cbn [length scan_n]. rewrite E. rewrite scan_n_enough by (pose proof (lex1_rest c s) as R; rewrite E in R; exact R). destruct (scan r) as [l o]. destruct a; reflexivity.
Qed.
Lemma blank_cases c : blank c = true -> c = " "%char \/ c = "009"%char \/ c = "010"%char.
Proof. unfold blank. intros H. apply orb_true_iff in H as [H|H]; [apply orb_true_iff in H as [H|H]|]; apply Ascii.eqb_eq in H; auto. Qed.
Lemma scan_blank c s : blank c = true -> scan (c :: s) = scan s.
Proof. intros H. apply blank_cases in H as [->|[->| ->]]; match goal with |- scan (?c :: s) = _ => rewrite (scan_cons c s Skip s eq_refl); reflexivity end. Qed.
Lemma scan_blanks sep s : all_of blank sep -> scan (sep ++ s) = scan s.
Proof. induction 1 as [|c sep H A IH]; [reflexivity|]. cbn [app]. rewrite scan_blank by exact H. exact IH. Qed.
(** characters that end a word *)
Definition ends_words (c : ascii) : Prop := tok_char c = false /\ word_char c = false /\ fmt_char c = false.
Definition fine (t : token) (r : str) : Prop := open_end t = true -> match r with [] => True | c :: _ => ends_words c end.
Lemma fine_stops t r p : fine t r -> open_end t = true -> (forall c, ends_words c -> p c = false) -> stops p r.
Proof. intros F O P. specialize (F O). destruct r as [|c r]; [exact I|]. apply P. exact F. Qed.
Lemma tok_char_not c : tok_char c = true -> Ascii.eqb c "#" = false /\ Ascii.eqb c "$" = false /\ Ascii.eqb c "%" = false.
Proof.
  intros H. repeat split; (match goal with |- Ascii.eqb c ?d = false => destruct (Ascii.eqb_spec c d) as [->|]; [discriminate H|reflexivity] end).
Qed.
Lemma lex_token com t r : writable t -> all_of no_nl com -> fine t r -> scan (token_text com t ++ r) = put (Tok t) (scan r).
Proof.
  intros W C F. destruct t as [s|s|s|s|f| | | | | | |]; cbn [writable] in W; cbn [token_text].
  - destruct W as (N & A & X). destruct s as [|c s]; [contradiction|]. cbn [app]. apply scan_cons. unfold lex1. pose proof (Forall_inv A) as P. pose proof (Forall_inv_tail A) as Q. cbn in P.
    destruct (tok_char_not c P) as (-> & -> & ->). rewrite P. rewrite (span_app tok_char s r Q) by (apply (fine_stops (TokId (c :: s)) r); [exact F|reflexivity|intros d D; apply D]).
    rewrite (proj2 (str_eqb_false (c :: s) (lit "for")) X). reflexivity.
  - destruct W as (N & A). cbn [app]. apply scan_cons. unfold lex1. change (Ascii.eqb "034" "#") with false. change (Ascii.eqb "034" "$") with false. change (Ascii.eqb "034" "%") with false. change (tok_char "034") with false. change (Ascii.eqb "034" "034") with true. cbv iota.
    rewrite <- app_assoc. rewrite (span_app str_char s (["034"%char] ++ r) A eq_refl). destruct s; [contradiction|]. reflexivity.
  - destruct W as (N & A). cbn [app]. apply scan_cons. unfold lex1. change (Ascii.eqb "$" "#") with false. change (Ascii.eqb "$" "$") with true. cbv iota.
    rewrite (span_app word_char s r A) by (apply (fine_stops (VarDef s) r); [exact F|reflexivity|intros d D; apply D]). destruct s; [contradiction|]. reflexivity.
  - destruct W as (N & A). cbn [app]. apply scan_cons. unfold lex1. change (Ascii.eqb "$" "#") with false. change (Ascii.eqb "$" "$") with true. cbv iota.
    change (span word_char ("("%char :: (s ++ [")"%char]) ++ r)) with (@nil ascii, ("("%char :: (s ++ [")"%char]) ++ r)%list). cbv iota beta. change (Ascii.eqb "(" "(") with true. cbv iota.
    rewrite <- app_assoc. rewrite (span_app word_char s ([")"%char] ++ r) A eq_refl). destruct s; [contradiction|]. reflexivity.
  - destruct W as (s & -> & N & A). cbn [app]. apply scan_cons. unfold lex1. change (Ascii.eqb "%" "#") with false. change (Ascii.eqb "%" "$") with false. change (Ascii.eqb "%" "%") with true. cbv iota.
    rewrite (span_app fmt_char s r A) by (apply (fine_stops (Fmt ("%"%char :: s)) r); [exact F|reflexivity|intros d D; apply D]). destruct s; [contradiction|]. reflexivity.
  - change (lit "for" ++ r)%list with ("f"%char :: (lit "or" ++ r))%list. apply scan_cons. unfold lex1. change (Ascii.eqb "f" "#") with false. change (Ascii.eqb "f" "$") with false. change (Ascii.eqb "f" "%") with false. change (tok_char "f") with true. cbv iota.
    rewrite (span_app tok_char (lit "or") r) by ((repeat constructor) || (apply (fine_stops For r); [exact F|reflexivity|intros d D; apply D])). reflexivity.
  - apply (scan_cons "{"%char r _ r). reflexivity.
  - apply (scan_cons "}"%char r _ r). reflexivity.
  - apply (scan_cons "="%char r _ r). reflexivity.
  - apply (scan_cons "~"%char r _ r). reflexivity.
  - cbn [app]. rewrite <- app_assoc. rewrite (scan_cons "#" (com ++ ["010"%char] ++ r)%list (Tok Comment) ("010"%char :: r)).
    + f_equal. apply scan_blank. reflexivity.
    + unfold lex1. change (Ascii.eqb "#" "#") with true. cbv iota. rewrite (span_app no_nl com (["010"%char] ++ r) C eq_refl). reflexivity.
  - destruct W.
Qed.
Lemma first_ends com t c r s : writable t -> word_like t = false -> (token_text com t ++ s)%list = c :: r -> ends_words c.
Proof.
  intros W L E. destruct t; try discriminate L; cbn in W, E; try (injection E; intros _ <-; repeat split; reflexivity).
  - destruct W as (w & -> & _). injection E; intros _ <-. repeat split; reflexivity.
Qed.
Lemma scan_written l s : written l s -> scan s = (l, []).
Proof.
  induction 1 as [|t com sep l s W C B H IH J]; [reflexivity|].
  rewrite lex_token; [rewrite scan_blanks by exact B; rewrite IH; reflexivity|exact W|exact C|].
  intros O. destruct B as [|c sep P B]; cbn [app].
  - specialize (J eq_refl O). destruct H as [|u com' sep' l s' W' C' B' H' J']; [exact I|]. destruct (token_text com' u ++ sep' ++ s')%list as [|c r] eqn:E; [exact I|]. exact (first_ends com' u c r (sep' ++ s')%list W' J E).
  - apply blank_cases in P as [->|[->| ->]]; repeat split; reflexivity.
Qed.
Lemma scan_document l s : document l s -> scan s = (l, []).
Proof. intros (pre & t & B & W & ->). rewrite scan_blanks by exact B. apply scan_written. exact W. Qed.
(** every list of writable tokens has a text *)
Lemma written_exists l : Forall writable l -> exists s, written l s.
Proof.
  induction 1 as [|t l W A (s & H)]; [exists []; constructor|]. exists (token_text [] t ++ [" "%char] ++ s)%list. constructor; [exact W|constructor|repeat constructor|exact H|discriminate].
Qed.
Lemma scan_written_app l s r : written l s -> match r with [] => True | c :: _ => ends_words c end -> scan (s ++ r) = (l ++ fst (scan r), snd (scan r))%list.
Proof.
  intros H R. induction H as [|t com sep l s W C B H IH J]; [exact (surjective_pairing (scan r))|].
  rewrite <- !app_assoc. rewrite lex_token; [rewrite scan_blanks by exact B; rewrite IH; reflexivity|exact W|exact C|].
  intros O. destruct B as [|c sep P B]; cbn [app].
  - specialize (J eq_refl O). destruct H as [|u com' sep' l s' W' C' B' H' J']; [exact R|]. rewrite <- !app_assoc. destruct (token_text com' u ++ sep' ++ s' ++ r)%list as [|c q] eqn:E; [exact I|]. exact (first_ends com' u c q (sep' ++ s' ++ r)%list W' J E).
  - apply blank_cases in P as [->|[->| ->]]; repeat split; reflexivity.
Qed.
Lemma stray_ends c : stray c -> ends_words c.
Proof.
  intros (T & _). split; [exact T|]. unfold tok_char, word_char, fmt_char, alnum, is_one in *. cbn [lit list_ascii_of_string existsb] in *.
  apply orb_false_iff in T as [T1 T2]. apply orb_false_iff in T1 as [T1 T3]. apply orb_false_iff in T1 as [T1 T4].
  repeat (apply orb_false_iff in T2 as [? T2]). rewrite T1, T3, T4. split.
  - cbn. assumption || (rewrite orb_false_r; assumption).
  - cbn. rewrite H, !orb_false_r. cbn.
    assert (F : forall d, within "a" "z" d = true -> Ascii.eqb c d = false).
    { intros d D. destruct (Ascii.eqb_spec c d) as [->|]; [congruence|reflexivity]. }
    rewrite !F by reflexivity. reflexivity.
Qed.
Lemma scan_stray c s : stray c -> scan (c :: s) = put (Echo c) (scan s).
Proof.
  intros (T & B & I & Q). apply scan_cons. unfold lex1.
  assert (F : forall d, In d (lit "#$%{}=~") -> Ascii.eqb c d = false).
  { intros d D. destruct (Ascii.eqb_spec c d) as [->|]; [contradiction|reflexivity]. }
  rewrite (F "#"%char), (F "$"%char), (F "%"%char), (F "{"%char), (F "}"%char), (F "="%char), (F "~"%char) by (cbn; tauto). rewrite T, B. destruct (Ascii.eqb_spec c "034") as [->|]; [contradiction|]. reflexivity.
Qed.
Lemma scan_dropped l1 l2 a b c : written l1 a -> written l2 b -> stray c -> scan (a ++ c :: b) = (l1 ++ l2, [c])%list.
Proof.
  intros A B S. rewrite (scan_written_app l1 a (c :: b) A (stray_ends c S)). rewrite scan_stray by exact S. rewrite (scan_written l2 b B). reflexivity.
Qed.
(** a comment without a line end *)
Lemma scan_comment com : all_of no_nl com -> scan ("#"%char :: com) = put (Echo "#") (scan com).
Proof.
  intros C. apply scan_cons. unfold lex1. change (Ascii.eqb "#" "#") with true. cbv iota. rewrite <- (app_nil_r com) at 1. rewrite (span_app no_nl com [] C I). reflexivity.
Qed.

(** * Input files *)
Lemma starts_spec p s : starts p s = true <-> exists b, s = (p ++ b)%list.
Proof.
  revert s. induction p as [|a p IH]; intros s; cbn; [split; [eauto|reflexivity]|]. destruct s as [|b s]; [split; [discriminate|intros (x & X); discriminate X]|].
  rewrite andb_true_iff, IH, Ascii.eqb_eq. split; [intros [-> (x & ->)]; eauto|]. intros (x & X). injection X; intros -> ->. eauto.
Qed.
Lemma occurs_spec p s : occurs p s = true <-> contains p s.
Proof.
  induction s as [|c s IH].
  - cbn. rewrite orb_false_r, starts_spec. split; [intros (b & E); exists [], b; exact E|]. intros (a & b & E). destruct a; [exists b; exact E|discriminate E].
  - cbn [occurs]. rewrite orb_true_iff, starts_spec, IH. split.
    + intros [(b & E)|(a & b & ->)]; [exists [], b; exact E|exists (c :: a), b; reflexivity].
    + intros (a & b & E). destruct a as [|x a]; [left; exists b; exact E|]. injection E; intros -> ->. right. exists a, b. reflexivity.
Qed.
Lemma c_string_end s t : no_zero s -> c_string (s ++ "000"%char :: t) = Some s.
Proof.
  induction 1 as [|c s N A IH]; [reflexivity|]. cbn [app c_string]. destruct (Ascii.eqb_spec c "000") as [->|]; [contradiction|]. rewrite IH. reflexivity.
Qed.
Lemma c_string_none s : no_zero s -> c_string s = None.
Proof.
  induction 1 as [|c s N A IH]; [reflexivity|]. cbn [c_string]. destruct (Ascii.eqb_spec c "000") as [->|]; [contradiction|]. rewrite IH. reflexivity.
Qed.
Lemma c_string_app s t : no_zero s -> c_string (s ++ t) = option_map (app s) (c_string t).
Proof.
  induction 1 as [|c s N A IH]; cbn [app]; [destruct (c_string t); reflexivity|]. cbn [c_string]. destruct (Ascii.eqb_spec c "000") as [->|]; [contradiction|]. rewrite IH. destruct (c_string t); reflexivity.
Qed.
Definition file_kind (s : str) : file_type := if (occurs (lit "/>") s || occurs (lit "</") s)%bool then XML else if occurs (lit "{") s then SIMPLE else UNKNOWN.
Lemma short_string b p s : c_string b = Some s -> strstr b p = Ok (occurs p s).
Proof. intros E. unfold strstr. rewrite E. reflexivity. Qed.
Lemma check_short (f : str) : f <> [] -> no_zero f -> length f < chunk -> check_type (Some f) = Ok (file_kind f).
Proof.
  intros N Z L. unfold check_type. rewrite (firstn_all2 f) by lia.
  assert (E : c_string (f ++ repeat "000"%char (chunk - length f)) = Some f).
  { destruct (chunk - length f) as [|k] eqn:K; [lia|]. apply c_string_end. exact Z. }
  destruct f as [|c f]; [contradiction|]. rewrite !(short_string _ _ _ E). unfold bind, file_kind. destruct (occurs (lit "/>") (c :: f) || occurs (lit "</") (c :: f))%bool; [reflexivity|]. reflexivity.
Qed.
Lemma check_long (f : str) : no_zero f -> chunk <= length f ->
  check_type (Some f) = if (occurs (lit "/>") (firstn chunk f) && occurs (lit "</") (firstn chunk f))%bool then Ok XML else UB.
Proof.
  intros Z L. unfold check_type. assert (Lf : length (firstn chunk f) = chunk) by (rewrite firstn_length; lia). rewrite Lf, Nat.sub_diag. cbn [repeat]. rewrite app_nil_r.
  assert (E : c_string (firstn chunk f) = None) by (apply c_string_none; apply Forall_forall; intros x X; apply (proj1 (Forall_forall _ f) Z); rewrite <- (firstn_skipn chunk f); apply in_or_app; left; exact X).
  destruct f as [|c f]; [cbn in L; unfold chunk in L; lia|]. generalize dependent (firstn chunk (c :: f)). intros b Lf E. unfold strstr. rewrite E.
  destruct (occurs (lit "/>") b); [|reflexivity]. cbn [bind]. destruct (occurs (lit "</") b); reflexivity.
Qed.
(** an XML reader finds elements only with one of the two *)
Lemma contains_app p s t : contains p s -> contains p (s ++ t).
Proof. intros (a & b & ->). exists a, (b ++ t)%list. rewrite <- !app_assoc. reflexivity. Qed.
Lemma closes_app s t : closes s -> closes (s ++ t).
Proof. intros [H|H]; [left|right]; apply contains_app; exact H. Qed.
Definition sees (r : reader) (s : str) : Prop :=
  (r_done r <> [] -> closes s) /\
  match r_mode r with
  | Close _ | CloseSp _ => closes s
  | Simple.Lt => exists a, s = (a ++ ["<"%char])%list
  | Slash _ _ => exists a, s = (a ++ ["/"%char])%list
  | _ => True
  end.
Lemma emit_sees e st top s : closes s -> sees (emit e st top) s.
Proof. intros H. unfold emit. destruct st as [|[[n l] c] st]; split; cbn; auto. Qed.
Lemma close_sees a st top s : closes s -> sees (close a st top) s.
Proof. intros H. unfold close. destruct st as [|[[n l] c] st]; [split; cbn; [contradiction|exact I]|]. destruct (str_eqb a n); [apply emit_sees; exact H|split; cbn; [contradiction|exact I]]. Qed.
Lemma bad_sees s : sees bad s.
Proof. split; cbn; [contradiction|exact I]. Qed.
Lemma step_sees r s c : sees r s -> sees (step r c) (s ++ [c]).
Proof.
  intros [D M]. assert (D' : r_done r <> [] -> closes (s ++ [c])) by (intros X; apply closes_app; auto).
  destruct r as [m st top]. cbn [r_done r_mode] in *. unfold step. cbn [r_mode r_stack r_done].
  destruct m; cbn [r_mode] in M;
    repeat match goal with
    | |- sees bad _ => apply bad_sees
    | |- sees (emit _ _ _) _ => apply emit_sees
    | |- sees (close _ _ _) _ => apply close_sees; apply closes_app; exact M
    | |- sees (if Ascii.eqb c ?x then _ else _) _ => destruct (Ascii.eqb_spec c x) as [->|]
    | |- sees (if ?b then _ else _) _ => destruct b
    | |- sees (match ?b with _ => _ end) _ => destruct b
    | |- sees (mkReader (if ?b then _ else _) _ _) _ => destruct b
    | |- sees (mkReader (match ?b with _ => _ end) _ _) _ => destruct b
    | |- sees (mkReader _ _ _) _ => split; [exact D'|cbn; try exact I; try (apply closes_app; exact M); try (eexists; reflexivity)]
    end.
  - destruct M as (a & ->). right. exists a, []. rewrite <- !app_assoc. reflexivity.
  - destruct M as (a & ->). left. exists a, []. rewrite <- !app_assoc. reflexivity.
Qed.
Lemma read_sees s : sees (fold_left step s start) s.
Proof.
  induction s as [|c s IH] using rev_ind; [split; cbn; [contradiction|exact I]|]. rewrite fold_left_app. cbn [fold_left]. apply step_sees. exact IH.
Qed.
Lemma xml_closes s : is_xml s -> closes s.
Proof.
  intros (e & l & E). pose proof (read_sees s) as [D _]. unfold read_xml in E. destruct (fold_left step s start) as [m st top]. cbn [r_done] in D. destruct m; try discriminate E. destruct st; [|discriminate E]. injection E; intros ->. apply D. discriminate.
Qed.
(** a block has a brace *)
Lemma written_in l s t : written l s -> In t l -> exists com, contains (token_text com t) s.
Proof.
  induction 1 as [|u com sep l s W C B H IH J]; intros I; [destruct I|]. destruct I as [->|I].
  - exists com, [], (sep ++ s)%list. reflexivity.
  - destruct (IH I) as (c & a & b & ->). exists c, (token_text com u ++ sep ++ a)%list, b. rewrite <- !app_assoc. reflexivity.
Qed.
Lemma block_brace p : is_block p -> In BeginSec (toks p).
Proof. destruct p; cbn; try contradiction; intros _; [right; left; reflexivity|]. do 5 right. apply in_or_app. right. left. reflexivity. Qed.
Lemma simple_brace s : is_simple s -> contains (lit "{") s.
Proof.
  intros (p & _ & X & pre & t & _ & W & ->). apply Exists_exists in X as (b & Ib & B).
  destruct (written_in _ _ BeginSec W) as (com & a & c & E).
  { unfold toks_all. apply in_flat_map. exists b. split; [exact Ib|apply block_brace; exact B]. }
  exists (pre ++ a)%list, c. rewrite E, <- app_assoc. reflexivity.
Qed.
Lemma contains_nil p c : ~ contains (c :: p) [].
Proof. intros (a & b & E). destruct a; discriminate E. Qed.
Lemma xml_kind (s : str) : is_xml s -> no_zero s -> length s < chunk -> check_type (Some s) = Ok XML.
Proof.
  intros X Z L. assert (N : s <> []) by (intros ->; destruct (xml_closes _ X) as [C|C]; exact (contains_nil _ _ C)). rewrite (check_short s N Z L). unfold file_kind.
  destruct (xml_closes s X) as [C|C]; apply occurs_spec in C; rewrite C; [reflexivity|rewrite orb_true_r; reflexivity].
Qed.
Lemma simple_kind (s : str) : is_simple s -> no_zero s -> length s < chunk -> ~ closes s -> check_type (Some s) = Ok SIMPLE.
Proof.
  intros X Z L C. pose proof (simple_brace s X) as B. assert (N : s <> []) by (intros ->; exact (contains_nil _ _ B)). rewrite (check_short s N Z L). unfold file_kind.
  destruct (occurs (lit "/>") s) eqn:O1; [apply occurs_spec in O1; destruct C; left; exact O1|]. destruct (occurs (lit "</") s) eqn:O2; [apply occurs_spec in O2; destruct C; right; exact O2|]. apply occurs_spec in B. rewrite B. reflexivity.
Qed.
(** the text handed over: the file and what follows it in memory up to a zero byte *)
Lemma input_xml parse junk (f : str) : check_type (Some f) = Ok XML -> no_zero f ->
  check_input parse junk (Some f) = match c_string (firstn (allocated (length f) - length f) junk) with Some t => Ok (f ++ t)%list | None => UB end.
Proof. intros T Z. unfold check_input. rewrite T. cbn [bind]. rewrite (c_string_app f _ Z). destruct (c_string _); reflexivity. Qed.
Lemma allocated_more n : n < allocated n.
Proof.
  unfold allocated. pose proof (Nat.div_mod n input_buffer) as D. pose proof (Nat.mod_upper_bound n input_buffer) as U. assert (P : input_buffer <> 0) by (unfold input_buffer; lia).
  specialize (D P). specialize (U P). nia.
Qed.
(** quoted texts *)
Lemma quote_exact s : ~ In "034"%char s -> (scan ("034"%char :: s ++ ["034"%char]) = ([QString s], []) <-> s <> [] /\ all_of str_char s).
Proof.
  intros Q. split.
  - intros E. destruct (span_spec str_char (s ++ ["034"%char])) as (X & A & B). destruct (span str_char (s ++ ["034"%char])) as [w r] eqn:P. cbn [fst snd] in *.
    assert (L : lex1 "034" (s ++ ["034"%char]) = (Tok Quote, s ++ ["034"%char])%list -> s <> [] /\ all_of str_char s).
    { intros L. rewrite (scan_cons _ _ _ _ L) in E. destruct (scan (s ++ ["034"%char])). discriminate E. }
    unfold lex1 in L. change (Ascii.eqb "034" "#") with false in L. change (Ascii.eqb "034" "$") with false in L. change (Ascii.eqb "034" "%") with false in L. change (tok_char "034") with false in L. change (Ascii.eqb "034" "034") with true in L. cbv iota in L. rewrite P in L.
    destruct w as [|y w]; [apply L; reflexivity|]. destruct r as [|z r]; [apply L; reflexivity|]. destruct (Ascii.eqb_spec z "034") as [->|N]; [|apply L; reflexivity].
    assert (Y : s = y :: w).
    { clear - X Q A. revert X. generalize dependent (y :: w). clear y w. induction s as [|c s IH]; intros v A X.
      - destruct v as [|x v]; [reflexivity|]. injection X; intros X1 <-. apply Forall_inv in A. discriminate A.
      - destruct v as [|x v]; cbn in X; injection X; intros X1 ->; [destruct Q; left; reflexivity|]. f_equal. apply IH; [intros I; apply Q; right; exact I|exact (Forall_inv_tail A)|exact X1]. }
    rewrite Y. split; [discriminate|exact A].
  - intros W. pose proof (lex_token [] (QString s) [] W (Forall_nil _)) as H. cbn [token_text] in H. rewrite app_nil_r in H. rewrite H by discriminate. reflexivity.
Qed.
(** the program text *)
Lemma text_translation R parse show one add count format : good_oracles R show format -> forall pre blk post m s,
  Forall good_def pre -> is_block blk -> good blk -> Forall good_def post -> document (toks_all (pre ++ blk :: post)) s ->
  mean_all R parse show one add count format (pre ++ blk :: post) [] = Ok m ->
  exists out, translate R parse show one add count format (fst (scan s)) = Ok out /\ read_xml out = Some (m_elems m).
Proof.
  intros O pre blk post m s H1 H2 H3 H4 D M. rewrite (scan_document _ _ D). exact (translation R parse show one add count format O pre blk post m H1 H2 H3 H4 M).
Qed.
