(** Property C64: input files are recognised and handed over as they are.  Property C65: the scanner of the simplified input. *)
From Coq Require Import Ascii String List NArith ZArith Lia Bool Arith.
From Verif Require Import Base Model.Simple Spec.Simple Proofs.Simple Model.SimpleLex Spec.SimpleLex Proofs.SimpleLex.
Import ListNotations.
Open Scope nat_scope.

(** * C64 *)
(** The full property: a file with an XML document is handed over as it is, one in the simplified format is translated. *)
Definition C64_full : Prop := forall parse junk (f : str), no_zero f -> length junk = allocated (length f) ->
  (is_xml f -> check_input parse junk (Some f) = Ok f) /\ (is_simple f -> check_input parse junk (Some f) = parse f).
(** Files of less than 1024 bytes: XML documents are recognised; inputs in the simplified format as well, without the two combinations. *)
Theorem C64_xml_partial : forall f : str, is_xml f -> no_zero f -> length f < chunk -> check_type (Some f) = Ok XML.
Proof. exact xml_kind. Qed.
Print Assumptions C64_xml_partial.
Theorem C64_simple_partial : forall parse junk (f : str), is_simple f -> no_zero f -> length f < chunk -> ~ closes f -> check_input parse junk (Some f) = parse f.
Proof. intros parse junk f S Z L C. unfold check_input. rewrite (simple_kind f S Z L C). reflexivity. Qed.
Print Assumptions C64_simple_partial.
(** Files which are missing, empty or without any mark are refused. *)
Theorem C64_refused : forall parse junk, check_input parse junk None = Throw /\ check_input parse junk (Some []) = Throw /\
  forall f : str, no_zero f -> length f < chunk -> ~ closes f -> ~ contains (lit "{") f -> check_input parse junk (Some f) = Throw.
Proof.
  intros parse junk. split; [reflexivity|]. split; [reflexivity|]. intros f Z L C B. destruct f as [|c f]; [reflexivity|]. unfold check_input. rewrite (check_short (c :: f) ltac:(discriminate) Z L). unfold file_kind.
  destruct (occurs (lit "/>") (c :: f)) eqn:O1; [apply occurs_spec in O1; destruct C; left; exact O1|]. destruct (occurs (lit "</") (c :: f)) eqn:O2; [apply occurs_spec in O2; destruct C; right; exact O2|].
  destruct (occurs (lit "{") (c :: f)) eqn:O3; [apply occurs_spec in O3; contradiction|]. reflexivity.
Qed.
Print Assumptions C64_refused.
Theorem C64_type : check_type None = Throw /\ check_type (Some []) = Throw.
Proof. split; reflexivity. Qed.
Print Assumptions C64_type.
(** What is handed over for XML: the file and the bytes behind it in memory, up to the first zero byte; without one the memory is left. *)
Theorem C64_input_code : forall parse junk (f : str), check_type (Some f) = Ok XML -> no_zero f ->
  check_input parse junk (Some f) = match c_string (firstn (allocated (length f) - length f) junk) with Some t => Ok (f ++ t)%list | None => UB end.
Proof. exact input_xml. Qed.
Print Assumptions C64_input_code.
Lemma sx_doc : is_xml (lit "<a/>") /\ no_zero (lit "<a/>").
Proof. split; [exists (Elem (lit "a") [] []), []; vm_compute; reflexivity|]. repeat constructor; discriminate. Qed.
Theorem C64_junk_refuted : ~ C64_full.
Proof.
  intros H. destruct (H (fun _ => Throw) ("x"%char :: "000"%char :: repeat "000"%char (allocated 4 - 2)) (lit "<a/>") (proj2 sx_doc)) as [X _].
  - cbn [length lit list_ascii_of_string]. rewrite repeat_length. pose proof (allocated_more 4). lia.
  - specialize (X (proj1 sx_doc)). rewrite input_xml in X; [|apply xml_kind; try apply sx_doc; unfold chunk; cbn; lia|apply sx_doc].
    assert (K : exists k, allocated (length (lit "<a/>")) - length (lit "<a/>") = S (S k)).
    { exists (allocated 4 - 4 - 2). cbn [length lit list_ascii_of_string]. unfold allocated, input_buffer. rewrite Nat.div_small by lia. lia. }
    destruct K as (k & K). rewrite K in X. discriminate X.
Qed.
Print Assumptions C64_junk_refuted.
(** The type of a longer file: the text is searched behind the buffer unless both combinations are in the first 1024 bytes. *)
Theorem C64_long_code : forall f : str, no_zero f -> chunk <= length f ->
  check_type (Some f) = if (occurs (lit "/>") (firstn chunk f) && occurs (lit "</") (firstn chunk f))%bool then Ok XML else UB.
Proof. exact check_long. Qed.
Print Assumptions C64_long_code.
(** So every longer input in the simplified format without them is undefined. *)
Theorem C64_long_simple_code : forall parse junk (f : str), no_zero f -> chunk <= length f -> ~ closes f -> check_input parse junk (Some f) = UB.
Proof.
  intros parse junk f Z L C. unfold check_input. rewrite (check_long f Z L). destruct (occurs (lit "/>") (firstn chunk f)) eqn:O; [|reflexivity]. destruct C. left. apply occurs_spec in O. rewrite <- (firstn_skipn chunk f). apply contains_app. exact O.
Qed.
Print Assumptions C64_long_simple_code.
Lemma sx_block : writable (TokId (lit "a")).
Proof. cbn. split; [discriminate|]. split; [repeat constructor|discriminate]. Qed.
(** a { } with blanks behind *)
Lemma sx_simple sep : all_of blank sep -> is_simple (lit "a{}" ++ sep).
Proof.
  intros B. exists [SNode (lit "a") []]. split; [repeat constructor|]. split; [left; exact I|]. exists [], (lit "a{}" ++ sep)%list. split; [constructor|]. split; [|reflexivity].
  cbn [toks_all flat_map toks app]. apply (w_cons (TokId (lit "a")) [] [] [BeginSec; EndSec] (lit "{}" ++ sep)%list sx_block ltac:(constructor) ltac:(constructor)); [|reflexivity].
  apply (w_cons BeginSec [] [] [EndSec] (lit "}" ++ sep)%list I ltac:(constructor) ltac:(constructor)); [|discriminate].
  replace (lit "}" ++ sep)%list with (token_text [] EndSec ++ sep ++ [])%list by (rewrite app_nil_r; reflexivity). apply (w_cons EndSec [] sep [] [] I ltac:(constructor) B w_nil). discriminate.
Qed.
Lemma sx_blanks n : all_of blank (repeat " "%char n).
Proof. induction n; constructor; [reflexivity|assumption]. Qed.
Lemma sx_zero n : no_zero (lit "a{}" ++ repeat " "%char n).
Proof. repeat (constructor; [discriminate|]). induction n; constructor; [discriminate|assumption]. Qed.
Theorem C64_long_refuted : ~ C64_full.
Proof.
  intros H. destruct (H (fun s => Ok s) (repeat "000"%char (allocated (length (lit "a{}" ++ repeat " "%char chunk)))) (lit "a{}" ++ repeat " "%char chunk)%list (sx_zero chunk)) as [_ S].
  - apply repeat_length.
  - specialize (S (sx_simple _ (sx_blanks chunk))). rewrite C64_long_simple_code in S; [discriminate S|apply sx_zero|rewrite app_length, repeat_length; lia|].
    intros [C|C]; apply occurs_spec in C; vm_compute in C; discriminate C.
Qed.
Print Assumptions C64_long_refuted.
(** A comment or a text with one of the combinations makes the simplified format XML. *)
Lemma sx_comment : is_simple (lit "a{}#</" ++ ["010"%char]).
Proof.
  exists [SNode (lit "a") []; SComment]. split; [repeat constructor|]. split; [left; exact I|]. exists [], (lit "a{}#</" ++ ["010"%char])%list. split; [constructor|]. split; [|reflexivity].
  cbn [toks_all flat_map toks app]. apply (w_cons (TokId (lit "a")) [] [] [BeginSec; EndSec; Comment] (lit "{}#</" ++ ["010"%char])%list sx_block ltac:(constructor) ltac:(constructor)); [|reflexivity].
  apply (w_cons BeginSec [] [] [EndSec; Comment] (lit "}#</" ++ ["010"%char])%list I ltac:(constructor) ltac:(constructor)); [|discriminate].
  apply (w_cons EndSec [] [] [Comment] (lit "#</" ++ ["010"%char])%list I ltac:(constructor) ltac:(constructor)); [|discriminate].
  apply (w_cons Comment (lit "</") [] [] [] I ltac:(repeat constructor) ltac:(constructor) w_nil). discriminate.
Qed.
Theorem C64_comment_refuted : ~ forall f : str, is_simple f -> no_zero f -> length f < chunk -> check_type (Some f) = Ok SIMPLE.
Proof.
  intros H. assert (L : length (lit "a{}#</" ++ ["010"%char]) < chunk) by (unfold chunk; cbn; lia). specialize (H _ sx_comment ltac:(repeat constructor; discriminate) L). vm_compute in H. discriminate H.
Qed.
Print Assumptions C64_comment_refuted.
Example C64_ex_xml : check_type (Some (lit "<a><b/></a>")) = Ok XML.
Proof. vm_compute. reflexivity. Qed.
Example C64_ex_is_xml : is_xml (lit "<a><b/></a>") /\ no_zero (lit "<a><b/></a>") /\ length (lit "<a><b/></a>") < chunk.
Proof. split; [eexists; eexists; vm_compute; reflexivity|]. split; [repeat constructor; discriminate|unfold chunk; cbn; lia]. Qed.
Example C64_ex_simple : is_simple (lit "a{}" ++ lit " ") /\ ~ closes (lit "a{}" ++ lit " ") /\ check_type (Some (lit "a{} ")) = Ok SIMPLE.
Proof.
  split; [apply sx_simple; repeat constructor|]. split; [intros [C|C]; apply occurs_spec in C; vm_compute in C; discriminate C|vm_compute; reflexivity].
Qed.
Example C64_ex_unknown : check_type (Some (lit "abc")) = Ok UNKNOWN.
Proof. vm_compute. reflexivity. Qed.

(** * C65 *)
(** The character classes are those of simpleXml.ll:14-26. *)
Definition letters : str := lit "abcdefghijklmnopqrstuvwxyzABCDEFGHIJKLMNOPQRSTUVWXYZ0123456789".
Theorem C65_classes : forall c, word_char c = is_one (letters ++ lit "_") c /\ fmt_char c = is_one (lit "0123456789.fds") c /\ tok_char c = is_one (letters ++ lit ".-_:") c /\
  str_char c = is_one (letters ++ lit "-.,/_+:;#% ~<>^&" ++ ["009"; "194"; "176"]%char) c /\ blank c = is_one [" "; "009"; "010"]%char c.
Proof. intros [[] [] [] [] [] [] [] []]; vm_compute; repeat split. Qed.
Print Assumptions C65_classes.
(** The scanner does what flex makes of its rules: the longest match, the first rule among those, other characters are copied. *)
Theorem C65_longest_match : forall s l o, scans s l o <-> scan s = (l, o).
Proof. exact scan_exact. Qed.
Print Assumptions C65_longest_match.
(** Every text of tokens is read back, whatever the blanks, line ends and comments in it. *)
Theorem C65_read_back : forall l s, document l s -> scan s = (l, []).
Proof. exact scan_document. Qed.
Print Assumptions C65_read_back.
Theorem C65_writable : forall l, Forall writable l -> exists s, written l s.
Proof. exact written_exists. Qed.
Print Assumptions C65_writable.
(** With the translation (C45): from the text to the elements. *)
Theorem C65_text_partial : forall R parse show one add count format, good_oracles R show format -> forall pre blk post m s,
  Forall good_def pre -> is_block blk -> good blk -> Forall good_def post -> document (toks_all (pre ++ blk :: post)) s ->
  mean_all R parse show one add count format (pre ++ blk :: post) [] = Ok m ->
  exists out, translate R parse show one add count format (fst (scan s)) = Ok out /\ read_xml out = Some (m_elems m).
Proof. exact text_translation. Qed.
Print Assumptions C65_text_partial.
(** A quoted text is one token exactly if it is not empty and has no other characters than those listed in the rule. *)
Theorem C65_quote_code : forall s, ~ In "034"%char s -> (scan ("034"%char :: s ++ ["034"%char]) = ([QString s], []) <-> s <> [] /\ all_of str_char s).
Proof. exact quote_exact. Qed.
Print Assumptions C65_quote_code.
Theorem C65_quote_refuted : ~ forall s, ~ In "034"%char s -> ~ In "010"%char s -> scan ("034"%char :: s ++ ["034"%char]) = ([QString s], []).
Proof. intros H. specialize (H [] ltac:(intros []) ltac:(intros [])). vm_compute in H. discriminate H. Qed.
Print Assumptions C65_quote_refuted.
(** so the parenthesis here is dropped and the text falls apart *)
Theorem C65_quote_split_refuted : ~ forall s t, scan ("034"%char :: s ++ ["034"%char]) = (t, []) -> t = [QString s].
Proof. intros H. specialize (H (lit "a=b") [Quote; TokId (lit "a"); Equal; TokId (lit "b"); Quote] eq_refl). discriminate H. Qed.
Print Assumptions C65_quote_split_refuted.
(** Characters without a rule are not refused: the tokens are the same as without them. *)
Theorem C65_dropped_code : forall l1 l2 a b c, written l1 a -> written l2 b -> stray c -> scan (a ++ c :: b) = (l1 ++ l2, [c])%list.
Proof. exact scan_dropped. Qed.
Print Assumptions C65_dropped_code.
Theorem C65_dropped_refuted : ~ forall s l o, scan s = (l, o) -> o = [].
Proof. intros H. specialize (H (lit "x=1*") [TokId (lit "x"); Equal; TokId (lit "1")] (lit "*") eq_refl). discriminate H. Qed.
Print Assumptions C65_dropped_refuted.
(** A comment in the last line without a line end is read as input. *)
Theorem C65_comment_code : forall com, all_of no_nl com -> scan ("#"%char :: com) = (fst (scan com), "#"%char :: snd (scan com)).
Proof. exact scan_comment. Qed.
Print Assumptions C65_comment_code.
Theorem C65_comment_refuted : ~ forall com, all_of no_nl com -> fst (scan ("#"%char :: com)) = [Comment].
Proof. intros H. specialize (H (lit "a") ltac:(repeat constructor)). vm_compute in H. discriminate H. Qed.
Print Assumptions C65_comment_refuted.
Example C65_ex_scan : scan (lit "$v = ""a b"" for $i = 1 3 { x = $(v)%3d ~ fort } # y" ++ ["010"%char]) =
  ([VarDef (lit "v"); Equal; QString (lit "a b"); For; VarDef (lit "i"); Equal; TokId (lit "1"); TokId (lit "3"); BeginSec;
    TokId (lit "x"); Equal; VarExp (lit "v"); Fmt (lit "%3d"); Concat; TokId (lit "fort"); EndSec; Comment], []).
Proof. vm_compute. reflexivity. Qed.
Example C65_ex_document : document (toks_all [SNode (lit "a") []]) (lit "a{}" ++ lit " ").
Proof.
  exists [], (lit "a{}" ++ lit " ")%list. split; [constructor|]. split; [|reflexivity].
  apply (w_cons (TokId (lit "a")) [] [] [BeginSec; EndSec] (lit "{} ") sx_block ltac:(constructor) ltac:(constructor)); [|reflexivity].
  apply (w_cons BeginSec [] [] [EndSec] (lit "} ") I ltac:(constructor) ltac:(constructor)); [|discriminate].
  apply (w_cons EndSec [] (lit " ") [] [] I ltac:(constructor) ltac:(repeat constructor) w_nil). discriminate.
Qed.
Example C65_ex_stray : stray "*".
Proof. split; [reflexivity|]. split; [reflexivity|]. split; [cbn; intros H; repeat (destruct H as [H|H]; [discriminate H|]); exact H|discriminate]. Qed.
