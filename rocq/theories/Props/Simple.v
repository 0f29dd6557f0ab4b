(** Property C45: the simplified input is translated to the equivalent XML tree. *)
From Coq Require Import Ascii String List NArith ZArith Lia Bool Arith QArith SpecFloat.
From Verif Require Import Base Model.Clock Model.Simple Spec.Simple Proofs.Simple.
Import ListNotations.
Open Scope Z_scope.

(** The full property: an XML reader finds the elements that the input means, for every input the grammar accepts. *)
Definition C45_full : Prop := forall R parse show one add count format, good_oracles R show format -> forall l m, Forall (formed false) l ->
  mean_all R parse show one add count format l [] = Ok m ->
  exists out, translate R parse show one add count format (toks_all l) = Ok out /\ read_xml out = Some (m_elems m).
(** It holds for a single block with definitions of plain texts around it (see Spec/Simple.v: [good], [good_def]). *)
Theorem C45_partial : forall R parse show one add count format, good_oracles R show format -> forall pre blk post m,
  Forall good_def pre -> is_block blk -> good blk -> Forall good_def post ->
  mean_all R parse show one add count format (pre ++ blk :: post) [] = Ok m ->
  exists out, translate R parse show one add count format (toks_all (pre ++ blk :: post)) = Ok out /\ read_xml out = Some (m_elems m).
Proof. exact translation. Qed.
Print Assumptions C45_partial.
(** Escaping is undone by the reader, in any place of an attribute value. *)
Theorem C45_escape : forall s n l a v st top, quotable s -> fold_left step (escape s) (mkReader (Val n l a v) st top) = mkReader (Val n l a (v ++ s)) st top.
Proof. exact rd_escape. Qed.
Print Assumptions C45_escape.
(** A loop in the direction of its step has exactly the values between begin and end. *)
Theorem C45_loop : forall b e s n d, count_q b e s = Ok n -> (0 <= (e - b) / s)%Q ->
  (exists x, In x (values Q Qplus (S (Z.to_nat n)) b s) /\ d == x)%Q <-> loop_value b e s d.
Proof. exact count_values. Qed.
Print Assumptions C45_loop.
(** In the other direction as well as many, beyond the begin; a step of zero is undefined. *)
Theorem C45_loop_direction_refuted : ~ forall b e s n d, count_q b e s = Ok n -> (exists x, In x (values Q Qplus (S (Z.to_nat n)) b s) /\ d == x)%Q <-> loop_value b e s d.
Proof.
  intros H. destruct (proj1 (H 0%Q 3%Q (-1)%Q 3 (-1)%Q eq_refl)) as (k & _ & _ & [[B _]|[B _]]).
  - exists (0 + -1)%Q. split; [right; left; reflexivity|reflexivity].
  - vm_compute in B. apply B. reflexivity.
  - vm_compute in B. apply B. reflexivity.
Qed.
Print Assumptions C45_loop_direction_refuted.
Theorem C45_loop_zero_code : forall b e, count_q b e 0 = UB.
Proof. reflexivity. Qed.
Print Assumptions C45_loop_zero_code.
(** With doubles the loop from 0 to 0.3 with step 0.1 has three iterations, not four. *)
Theorem C45_loop_double_refuted : ~ forall b e s p q r n, b = d_lit p 10 -> e = d_lit q 10 -> s = d_lit r 10 -> count_q (p # 10) (q # 10) (r # 10) = Ok n -> count_d b e s = Ok n.
Proof. intros H. specialize (H _ _ _ 0 3 1 3 eq_refl eq_refl eq_refl eq_refl). vm_compute in H. discriminate H. Qed.
Print Assumptions C45_loop_double_refuted.
(** What a definition stores: the text of the first token; for a variable its name. *)
Theorem C45_define_code : forall R parse show one add count format v e r s, e <> [] -> ends r ->
  line R parse show one add count format (VarDef v :: Equal :: exp_toks e ++ r) s = Ok (mkState R (s_place R s) (mset scmp (s_vars R s) v (first_text e)) (s_out R s), r).
Proof. intros. cbn [line]. rewrite strexp_toks by assumption. reflexivity. Qed.
Print Assumptions C45_define_code.
(** After the first block: another block, an attribute or a brace access the deleted tree. *)
Theorem C45_second_code : forall R parse show one add count format pre blk post out env' next,
  Forall is_def pre -> is_block blk -> shaped R parse blk -> Forall is_def post ->
  execute_all R show add count format (tr R parse one blk) 0 (fold_left define pre []) = Ok (out, env') ->
  (exists n r, next = TokId n :: BeginSec :: r) \/ (exists r, next = EndSec :: r) \/ (exists a e r, e <> [] /\ ends r /\ next = TokId a :: Equal :: exp_toks e ++ r)%list ->
  translate R parse show one add count format (toks_all (pre ++ blk :: post) ++ next) = UB.
Proof.
  intros R parse show one add count format pre blk post out env' next Hp Hb Sh Hq X N. apply (translate_second R parse show one add count format pre blk post out env' next Hp Hb Sh Hq X).
  - destruct N as [(n & r & ->)|[(r & ->)|(a & e & r & _ & _ & ->)]]; discriminate.
  - destruct N as [(n & r & ->)|[(r & ->)|(a & e & r & _ & _ & ->)]]; exact I.
  - destruct N as [(n & r & ->)|[(r & ->)|(a & e & r & He & Hr & ->)]]; [reflexivity|reflexivity|]. cbn [line]. rewrite strexp_toks by assumption. reflexivity.
Qed.
Print Assumptions C45_second_code.
(** A closing brace at the beginning dereferences NULL; a block that is not closed is dropped without a message. *)
Theorem C45_brace_code : forall R parse show one add count format l, translate R parse show one add count format (EndSec :: l) = UB.
Proof. reflexivity. Qed.
Print Assumptions C45_brace_code.
Theorem C45_unclosed_code : forall R parse show one add count format pre n body, Forall is_def pre -> shaped_all R parse body ->
  translate R parse show one add count format (toks_all pre ++ TokId n :: BeginSec :: toks_all body) = Ok [].
Proof. exact translate_open. Qed.
Print Assumptions C45_unclosed_code.

(** Attributes without an open block, or directly inside a loop, are refused. *)
Theorem C45_attribute : forall R parse show one add count format a e r s, e <> [] -> ends r ->
  match s_place R s with NoRoot _ | Open _ [] _ => True | Open _ (f :: _) _ => match f_kind R f with Loop _ _ _ _ _ => True | Xml _ _ _ => False end | Freed _ => False end ->
  line R parse show one add count format (TokId a :: Equal :: exp_toks e ++ r) s = Throw.
Proof.
  intros R parse show one add count format a e r s He Hr P. cbn [line]. rewrite strexp_toks by assumption. unfold attribute. destruct (s_place R s) as [|[|f st] top|]; try reflexivity; [|contradiction]. destruct (f_kind R f); [contradiction|reflexivity].
Qed.
Print Assumptions C45_attribute.
(** The number of iterations is not negative. *)
Theorem C45_count : forall b e s n, count_d b e s = Ok n -> 0 <= n <= 2147483647.
Proof.
  intros b e s n. unfold count_d. destruct (d_div (SFsub 53 1024 b e) s) as [x| | |x m k]; cbn [SFabs d_trunc]; try discriminate.
  - intros H. injection H as <-. lia.
  - assert (G : forall z, 0 <= z -> (if 2147483647 <? z then UB else Ok z) = Ok n -> 0 <= n <= 2147483647).
    { intros z Hz. destruct (Z.ltb_spec 2147483647 z); [discriminate|]. intros H1. injection H1 as <-. lia. }
    destruct (Z.leb_spec 0 k); apply G.
    + apply Z.mul_nonneg_nonneg; [lia|apply Z.pow_nonneg; lia].
    + apply Z.div_pos; [lia|apply Z.pow_pos_nonneg; lia].
Qed.
Print Assumptions C45_count.

(** Integers of at most 20 digits. *)
Definition sx_parse (s : str) : option Z := if forallb is_digit s then Some (Z.of_N (dec_val s)) else None.
Definition sx_show (z : Z) : str := firstn 20 (dec_print_Z z).
Definition sx_count (b e s : Z) : outcome Z := if s =? 0 then UB else Ok (Z.abs (b - e) / Z.abs s).
Definition sx_format (f x : str) : outcome str := Throw.
Lemma sx_digits n : Forall (fun c => is_digit c = true) (dec_print n).
Proof. apply dec_print_spec. Qed.
Lemma sx_oracles : good_oracles Z sx_show sx_format.
Proof.
  split; [|intros f x y _ H; discriminate H]. intros d. unfold sx_show. repeat split.
  - assert (C : clean (dec_print_Z d)).
    { assert (D : clean (dec_print (Z.abs_N d))) by (eapply Forall_impl; [|apply sx_digits]; intros c Hc; unfold clean_char; rewrite negb_true_iff, !orb_false_iff, !eqb_false; repeat split; intros ->; discriminate Hc). unfold dec_print_Z. destruct (d <? 0); [constructor; [reflexivity|exact D]|exact D]. }
    unfold clean in *. rewrite <- (firstn_skipn 20) in C. apply Forall_app in C. apply C.
  - unfold fits. pose proof (firstn_le_length 20 (dec_print_Z d)) as L. rewrite firstn_length. lia.
  - intros a b E. assert (F : dec_print_Z d = (a ++ "-"%char :: "-"%char :: (b ++ skipn 20 (dec_print_Z d)))%list).
    { rewrite <- (firstn_skipn 20 (dec_print_Z d)) at 1. rewrite E, <- app_assoc. reflexivity. }
    generalize dependent (b ++ skipn 20 (dec_print_Z d))%list. intros t F. unfold dec_print_Z in F. destruct (d <? 0).
    + destruct a as [|c a]; injection F as F.
      * pose proof (sx_digits (Z.abs_N d)) as D. rewrite F in D. apply Forall_inv in D. discriminate D.
      * pose proof (sx_digits (Z.abs_N d)) as D. rewrite H in D. apply Forall_app in D. destruct D as [_ D]. apply Forall_inv in D. discriminate D.
    + pose proof (sx_digits (Z.abs_N d)) as D. rewrite F in D. apply Forall_app in D. destruct D as [_ D]. apply Forall_inv in D. discriminate D.
Qed.
Notation sx_translate := (translate Z sx_parse sx_show 1 Z.add sx_count sx_format).
Notation sx_mean := (mean_all Z sx_parse sx_show 1 Z.add sx_count sx_format).
Lemma sx_refute l : Forall (formed false) l -> match sx_mean l [] with Ok m => match sx_translate (toks_all l) with Ok out => read_xml out <> Some (m_elems m) | _ => True end | _ => False end -> ~ C45_full.
Proof.
  intros F H C. specialize (C Z sx_parse sx_show 1 Z.add sx_count sx_format sx_oracles l). destruct (sx_mean l []) as [m| |]; try contradiction. destruct (C m F eq_refl) as (out & E & X). rewrite E in H. contradiction.
Qed.
(** a text with a reserved character behind a variable *)
Definition sx_attr (e : list piece) : stmt := SNode (lit "a") [SAttr (lit "x") e].
Theorem C45_escape_refuted : ~ C45_full.
Proof. apply (sx_refute [SSet (lit "v") [EStr (lit "1<2")]; sx_attr [EVar (lit "v")]]); [repeat constructor; discriminate|vm_compute; discriminate]. Qed.
Print Assumptions C45_escape_refuted.
(** a definition with two parts; of a variable with another one *)
Theorem C45_concat_refuted : ~ C45_full.
Proof. apply (sx_refute [SSet (lit "v") [EId (lit "1"); EId (lit "2")]; sx_attr [EVar (lit "v")]]); [repeat constructor; discriminate|vm_compute; discriminate]. Qed.
Print Assumptions C45_concat_refuted.
Theorem C45_copy_refuted : ~ C45_full.
Proof. apply (sx_refute [SSet (lit "v") [EId (lit "1")]; SSet (lit "w") [EVar (lit "v")]; sx_attr [EVar (lit "w")]]); [repeat constructor; discriminate|vm_compute; discriminate]. Qed.
Print Assumptions C45_copy_refuted.
(** a second definition inside the block changes what is in front of it *)
Theorem C45_redefine_refuted : ~ C45_full.
Proof. apply (sx_refute [SNode (lit "r") [SSet (lit "v") [EId (lit "1")]; sx_attr [EVar (lit "v")]; SSet (lit "v") [EId (lit "2")]]]); [repeat constructor; discriminate|vm_compute; discriminate]. Qed.
Print Assumptions C45_redefine_refuted.
(** two blocks *)
Theorem C45_blocks_refuted : ~ C45_full.
Proof. apply (sx_refute [SNode (lit "r") []; SNode (lit "s") []]); [repeat constructor|vm_compute; exact I]. Qed.
Print Assumptions C45_blocks_refuted.
(** names that are not names of XML, an attribute twice, a tab *)
Theorem C45_name_refuted : ~ C45_full.
Proof. apply (sx_refute [SNode (lit "1r") []]); [repeat constructor|vm_compute; discriminate]. Qed.
Print Assumptions C45_name_refuted.
Theorem C45_twice_refuted : ~ C45_full.
Proof. apply (sx_refute [SNode (lit "r") [SAttr (lit "x") [EId (lit "1")]; SAttr (lit "x") [EId (lit "2")]]]); [repeat constructor; discriminate|vm_compute; discriminate]. Qed.
Print Assumptions C45_twice_refuted.
Theorem C45_tab_refuted : ~ C45_full.
Proof. apply (sx_refute [sx_attr [EStr ["009"%char]]]); [repeat constructor; discriminate|vm_compute; discriminate]. Qed.
Print Assumptions C45_tab_refuted.
(** texts of 1024 characters *)
Theorem C45_long_refuted : ~ C45_full.
Proof. apply (sx_refute [sx_attr [EId (repeat "a"%char 1024)]]); [repeat constructor; discriminate|vm_compute; discriminate]. Qed.
Print Assumptions C45_long_refuted.

Definition sx_prog : list stmt := [SSet (lit "v") [EId (lit "7")]; SNode (lit "qdng") [SAttr (lit "x") [EVar (lit "v"); EStr (lit "a<b & c")]; SFor (lit "i") (lit "1") (lit "5") (Some (lit "2")) [SNode (lit "wf") [SAttr (lit "file") [EId (lit "wf_"); EVar (lit "i")]]]]].
Example C45_ex_out : sx_translate (toks_all sx_prog) = Ok (
  lit "<qdng x=" ++ quote ++ lit "7a&lt;b &amp; c" ++ quote ++ lit ">" ++ nl ++
  lit "   <!-- for i = 1 5 2 -->" ++ nl ++
  lit "      <wf file=" ++ quote ++ lit "wf_1" ++ quote ++ lit "/>" ++ nl ++
  lit "      <wf file=" ++ quote ++ lit "wf_3" ++ quote ++ lit "/>" ++ nl ++
  lit "      <wf file=" ++ quote ++ lit "wf_5" ++ quote ++ lit "/>" ++ nl ++
  lit "</qdng>" ++ nl)%list.
Proof. vm_compute. reflexivity. Qed.
Example C45_ex_read : match sx_translate (toks_all sx_prog) with Ok out => read_xml out = Some [Elem (lit "qdng") [(lit "x", lit "7a<b & c")] [Elem (lit "wf") [(lit "file", lit "wf_1")] []; Elem (lit "wf") [(lit "file", lit "wf_3")] []; Elem (lit "wf") [(lit "file", lit "wf_5")] []]] | _ => False end.
Proof. vm_compute. reflexivity. Qed.
Example C45_ex_good : good_def (nth 0 sx_prog SComment) /\ is_block (nth 1 sx_prog SComment) /\ good (nth 1 sx_prog SComment).
Proof.
  split; [cbn; split; [repeat constructor|unfold fits; cbn; lia]|]. split; [exact I|]. cbn [nth sx_prog good].
  split; [cbn; repeat constructor|]. split; [exists [SAttr (lit "x") [EVar (lit "v"); EStr (lit "a<b & c")]]; eexists; split; [reflexivity|]; repeat constructor|]. split; [repeat constructor; intros []|].
  split; [split; [cbn; repeat constructor|]; split; [unfold fits; cbn; lia|]; split; [discriminate|]; constructor; [exact I|]; constructor; [|constructor]; split; [repeat (constructor; [try (left; reflexivity); right; tauto|]); constructor|unfold fits; cbn; lia]|].
  split; [|exact I]. split; [intros [|c [|c2 a]] b E; discriminate E|]. split; [repeat constructor|]. split; [|exact I].
  split; [cbn; repeat constructor|]. split; [exists [SAttr (lit "file") [EId (lit "wf_"); EVar (lit "i")]]; eexists; split; [symmetry; apply app_nil_r|]; repeat constructor|]. split; [repeat constructor; intros []|]. split; [|exact I]. split; [cbn; repeat constructor|]. split; [unfold fits; cbn; lia|]. split; [discriminate|]. repeat constructor.
Qed.
Example C45_ex_loop : count_q 0 1 (1 # 4) = Ok 4 /\ loop_value 0 1 (1 # 4) (3 # 4).
Proof. split; [vm_compute; reflexivity|]. exists 3. split; [lia|]. split; [reflexivity|]. left. split; vm_compute; discriminate. Qed.
Example C45_attribute_ex : sx_translate [TokId (lit "a"); Equal; TokId (lit "1")] = Throw /\
  sx_translate [TokId (lit "r"); BeginSec; For; VarDef (lit "i"); Equal; TokId (lit "1"); TokId (lit "3"); BeginSec; TokId (lit "a"); Equal; TokId (lit "1"); EndSec; EndSec] = Throw.
Proof. vm_compute. split; reflexivity. Qed.
