(** C105: the logger. *)
From Coq Require Import Ascii String List ZArith Lia Bool Arith.
From Verif Require Import Base Arrays Model.Logger Spec.Logger Proofs.Logger.
Import ListNotations.
Open Scope Z_scope.

(** [opens f]: the file f can be opened; [Out s], [Dbg s]: s is written to cout() and coutdbg(); [agree]: the same text at each place, in the same order;
    [shifted k s]: every line of s behind k blanks; [whole s]: s ends with a newline *)

(** ** _IndentString *)
Theorem C105_indent : forall k s, s <> [] -> indent_string k s = Ok (shifted (k * 2) s).
Proof. intros k s N. rewrite indent_ok. destruct s; [congruence|reflexivity]. Qed.
Print Assumptions C105_indent.
Example C105_indent_ex : indent_string 1 (lit "ab" ++ [nl; nl] ++ lit "c") = Ok (lit "  ab" ++ [nl] ++ lit "  " ++ [nl] ++ lit "  c").
Proof. reflexivity. Qed.
(** the lines are those of the text *)
Theorem C105_lines : forall s, concat (map (fun x => x ++ [nl]) (fst (lines s))) ++ snd (lines s) = s.
Proof. exact lines_join. Qed.
Print Assumptions C105_lines.
Example C105_lines_ex : lines (lit "a" ++ [nl] ++ lit "b") = ([lit "a"], lit "b"). Proof. reflexivity. Qed.
(** without text: blanks *)
Theorem C105_empty_code : forall k, indent_string k [] = Ok (repeat sp (Z.to_nat (k * 2))).
Proof. intros k. rewrite indent_ok. reflexivity. Qed.
Print Assumptions C105_empty_code.
Example C105_empty_ex : indent_string 2 [] = Ok (lit "    "). Proof. reflexivity. Qed.

(** ** every text once, in order, at its place, behind its indentation *)
Definition plain (o : op) : bool := match o with Supress _ | Header _ _ => false | _ => true end.
Definition C105_text : Prop := forall opens ops, forallb plain ops = true -> exists l e, run opens (ops ++ [Flush]) new_log = Ok (l, e) /\ agree e (expected opens ops new_view).
(** if lines are complete and texts not empty where they are indented, and nothing waits when debug output or the place is changed *)
Theorem C105_text_partial : forall opens ops, tidy opens 0 new_view ops -> exists l e, run opens (ops ++ [Flush]) new_log = Ok (l, e) /\ agree e (expected opens ops new_view).
Proof.
  intros opens ops T. destruct (run_ok opens ops 0 new_view new_log T inv_new) as (l & e & E & _ & A). exists l, e. split; [exact E|]. intros p. rewrite A. reflexivity.
Qed.
Definition ln (s : string) : str := lit s ++ [nl].
Definition prog0 : list op := [Out (lit "a"); Out (ln "b"); IndentInc; Out (lit "c"); Out ([nl] ++ ln "d"); Dbg (ln "hidden"); Flush; Debug true; Dbg (ln "e"); Out (ln "f"); IndentDec; FileOutput (lit "log"); Out (lit "g"); FileClose; Out (lit "h")].
Example C105_text_ex : tidy (fun _ => true) 0 new_view prog0 /\
  exists l e, run (fun _ => true) (prog0 ++ [Flush]) new_log = Ok (l, e) /\ at_sink (fun k => match k with Console => true | _ => false end) e = ln "ab" ++ ln "  c" ++ ln "  d" ++ ln "  e" ++ ln "  f" ++ lit "h" /\
    at_sink (fun k => match k with Console => false | _ => true end) e = lit "g".
Proof.
  split.
  - cbn. repeat split; auto; try (right; discriminate); try (right; reflexivity); try (right; right; reflexivity). left. reflexivity.
  - eexists _, _. split; [vm_compute; reflexivity|]. split; reflexivity.
Qed.
(** a line written in two parts is indented in the middle *)
Theorem C105_text_refuted : ~ C105_text.
Proof.
  intros H. destruct (H (fun _ => true) [IndentInc; Out (lit "a"); Flush; Out (ln "b")] eq_refl) as (l & e & E & A). vm_compute in E. injection E as <- <-. specialize (A (fun _ => true)). discriminate A.
Qed.
Print Assumptions C105_text_refuted.
Example C105_text_refuted_ex : exists l e, run (fun _ => true) [IndentInc; Out (lit "a"); Flush; Out (ln "b"); Flush] new_log = Ok (l, e) /\ text_of e = ln "  a  b".
Proof. eexists _, _. split; [vm_compute; reflexivity|reflexivity]. Qed.
Print Assumptions C105_text_partial.

(** ** when debug output is switched, and when the place is changed *)
Definition calm (o : op) : Prop := match o with Out s | Dbg s => whole s | Supress _ | Header _ _ => False | _ => True end.
Definition C105_debug : Prop := forall opens ops, Forall calm ops -> (forall o, In o ops -> match o with FileOutput _ | SetRedirect _ | ConsoleOutput => False | _ => True end) ->
  exists l e, run opens (ops ++ [Flush]) new_log = Ok (l, e) /\ agree e (expected opens ops new_view).
Definition C105_place : Prop := forall opens ops, Forall calm ops -> (forall o, In o ops -> match o with Debug _ => False | _ => True end) ->
  exists l e, run opens (ops ++ [Flush]) new_log = Ok (l, e) /\ agree e (expected opens ops new_view).
Theorem C105_debug_refuted : ~ C105_debug.
Proof.
  intros H. destruct (H (fun _ => true) [Dbg (ln "a"); Debug true]) as (l & e & E & A).
  - repeat constructor. exists (lit "a"). reflexivity.
  - intros o [<-|[<-|[]]]; exact Logic.I.
  - vm_compute in E. injection E as <- <-. specialize (A (fun _ => true)). discriminate A.
Qed.
Print Assumptions C105_debug_refuted.
Theorem C105_place_refuted : ~ C105_place.
Proof.
  intros H. destruct (H (fun _ => true) [Out (ln "a"); FileOutput (lit "f")]) as (l & e & E & A).
  - repeat constructor. exists (lit "a"). reflexivity.
  - intros o [<-|[<-|[]]]; exact Logic.I.
  - vm_compute in E. injection E as <- <-. specialize (A (fun k => match k with Console => true | _ => false end)). discriminate A.
Qed.
Print Assumptions C105_place_refuted.
(** the last setting decides on what still waits *)
Theorem C105_debug_code : forall opens s b, run opens [Dbg s; Debug b; Flush] new_log = Ok (mkLog [] [] 0 false b 80 0 None Console, if b then [(Console, s)] else []).
Proof. intros opens s b. cbn -[indent_string]. rewrite (indent_fits 0 s) by (left; reflexivity). change (0 * 2) with 0. rewrite shifted_0. destruct b; reflexivity. Qed.
Print Assumptions C105_debug_code.
Theorem C105_place_code : forall opens s k, run opens [Out s; SetRedirect k; Flush] new_log = Ok (mkLog [] [] 0 false false 80 0 None (Stream k), [(Stream k, s)]).
Proof. intros opens s k. cbn -[indent_string]. rewrite (indent_fits 0 s) by (left; reflexivity). change (0 * 2) with 0. rewrite shifted_0. reflexivity. Qed.
Print Assumptions C105_place_code.
Example C105_debug_ex : run (fun _ => true) [Debug true; Dbg (lit "a"); Debug false; Flush] new_log = Ok (new_log, []). Proof. reflexivity. Qed.
Example C105_place_ex : exists l, run (fun _ => true) [Out (lit "a"); SetRedirect 7; Flush] new_log = Ok (l, [(Stream 7, lit "a")]). Proof. eexists. vm_compute. reflexivity. Qed.
(** a second file is refused, the first one is kept *)
Theorem C105_second : forall opens f g s, opens f = true -> exists l, run opens [FileOutput f; FileOutput g; Out s; Flush] new_log = Ok (l, [(File f, s)]) /\ step opens (FileOutput g) l = Ok (l, [], false).
Proof.
  intros opens f g s O. cbn -[indent_string]. rewrite O. cbn -[indent_string]. rewrite (indent_fits 0 s) by (left; reflexivity). change (0 * 2) with 0. rewrite shifted_0. cbn [bind fst snd app]. eexists. split; reflexivity.
Qed.
Print Assumptions C105_second.
Example C105_second_ex : exists l, run (fun _ => true) [FileOutput (lit "f"); FileOutput (lit "g"); Out (lit "a"); Flush] new_log = Ok (l, [(File (lit "f"), lit "a")]). Proof. eexists. vm_compute. reflexivity. Qed.

(** ** suppressed output *)
Definition C105_suppress : Prop := forall opens ops l, Forall (fun o => match o with Supress b => b = true | _ => True end) ops -> l_sup l = true -> exists l', run opens ops l = Ok (l', []) /\ l_sup l' = true.
(** all but headers *)
Theorem C105_suppress_partial : forall opens ops l, Forall silent ops -> l_sup l = true -> exists l', run opens ops l = Ok (l', []) /\ l_sup l' = true.
Proof. exact silent_run. Qed.
Print Assumptions C105_suppress_partial.
Theorem C105_suppress_refuted : ~ C105_suppress.
Proof.
  intros H. destruct (H (fun _ => true) [Header (lit "a") SubSection] (put_sup new_log true)) as (l & E & _); [repeat constructor|reflexivity|]. vm_compute in E. discriminate E.
Qed.
Print Assumptions C105_suppress_refuted.
Example C105_suppress_ex : silent (Supress true) /\ silent (Out (lit "a")) /\ l_sup (put_sup new_log true) = true. Proof. repeat split. Qed.
(** what was written before comes out *)
Theorem C105_before : forall opens ops b, tidy opens 0 new_view ops -> exists l e, run opens (ops ++ [Supress b]) new_log = Ok (l, e) /\ agree e (expected opens ops new_view) /\ l_sup l = b.
Proof.
  intros opens ops b T. destruct (C105_text_partial opens ops T) as (l & e & E & A). rewrite (run_last opens b ops _ _ _ E). eexists _, _. split; [reflexivity|]. split; [exact A|reflexivity].
Qed.
Print Assumptions C105_before.
Example C105_before_ex : exists l, run (fun _ => true) [Out (lit "a"); Supress true; Out (lit "b"); Supress false; Out (lit "c"); Flush] new_log = Ok (l, [(Console, lit "a"); (Console, lit "c")]). Proof. eexists. vm_compute. reflexivity. Qed.
(** the stream that was used is not forgotten: its indentation comes out afterwards, without text *)
Theorem C105_stale_code : forall opens s n, 0 <= n -> exists l, run opens [SetIndent n; Supress true; Out s; Supress false; Flush] new_log = Ok (l, [(Console, repeat sp (Z.to_nat (n * 2)))]).
Proof.
  intros opens s n N. unfold run. cbn [step]. apply Z.leb_le in N. rewrite N. cbn -[indent_string]. rewrite indent_ok. cbn [bind fst snd app]. eexists. reflexivity.
Qed.
Print Assumptions C105_stale_code.
Example C105_stale_ex : exists l, run (fun _ => true) [SetIndent 1; Supress true; Out (lit "a"); Supress false; Flush] new_log = Ok (l, [(Console, lit "  ")]). Proof. eexists. vm_compute. reflexivity. Qed.

(** ** headers: no line is longer than the line length *)
Definition C105_header : Prop := forall len t ty, 0 <= len < 2 ^ 31 -> ~ In nl t -> zlen t + 2 <= len -> Forall (fun x => zlen x <= len) (fst (lines (header_text len t ty))) /\ snd (lines (header_text len t ty)) = [].
Theorem C105_header_partial : forall len t ty, 0 <= len < 2 ^ 31 -> ~ In nl t -> zlen t + match ty with Chapter => 0 | Section_ => 4 | SubSection => 2 end <= len ->
  Forall (fun x => zlen x <= len) (fst (lines (header_text len t ty))) /\ snd (lines (header_text len t ty)) = [].
Proof. intros len t ty L N T. rewrite header_lines by exact N. split; [|reflexivity]. apply header_fits; [exact L|]. destruct ty; lia. Qed.
Print Assumptions C105_header_partial.
Example C105_header_ex : header_text 12 (lit "abc") Section_ = [nl] ++ ln "*** abc **" ++ [nl]. Proof. reflexivity. Qed.
(** a header comes behind what was written before, with the line length that was set *)
Theorem C105_order : forall opens ops t ty, tidy opens 0 new_view ops -> exists l e, run opens (ops ++ [Header t ty]) new_log = Ok (l, e ++ [(l_sink l, header_text (l_len l) t ty)]) /\ agree e (expected opens ops new_view).
Proof.
  intros opens ops t ty T. destruct (C105_text_partial opens ops T) as (l & e & E & A). exists l, e. split; [exact (run_header opens t ty ops _ _ _ E)|exact A].
Qed.
Print Assumptions C105_order.
Theorem C105_width : forall opens n t ty, exists l, run opens [SetLineLength n; Header t ty] new_log = Ok (l, [(Console, header_text n t ty)]) /\ l_len new_log = 80.
Proof. intros opens n t ty. eexists. split; reflexivity. Qed.
Print Assumptions C105_width.
Example C105_order_ex : exists l, run (fun _ => true) [Out (ln "a"); SetLineLength 12; Header (lit "abc") SubSection] new_log = Ok (l, [(Console, ln "a"); (Console, ln "* abc" ++ [nl])]). Proof. eexists. vm_compute. reflexivity. Qed.
Lemma title0 : ~ In nl (repeat star 77) /\ zlen (repeat star 77) = 77.
Proof. split; [intros H; apply repeat_spec in H; discriminate H|reflexivity]. Qed.
Theorem C105_header_refuted : ~ C105_header.
Proof.
  intros H. destruct title0 as [N Z]. revert N Z. generalize (repeat star 77). intros t0 N Z. destruct (H 80 t0 Section_ ltac:(lia) N ltac:(rewrite Z; lia)) as [F _]. rewrite header_lines in F by exact N. cbn [fst] in F.
  destruct (section_huge 80 _ ltac:(lia) ltac:(rewrite Z; lia)) as (x & E & B). rewrite Forall_forall in F. specialize (F x E). lia.
Qed.
Print Assumptions C105_header_refuted.
(** too long a title: the difference of unsigned numbers wraps around, 2^65 or 2^62 characters are written *)
Theorem C105_long_code : forall len t, 0 <= len < 2 ^ 31 -> ~ In nl t ->
  (len - 3 <= zlen t <= len -> exists x, In x (fst (lines (header_text len t Section_))) /\ 2 ^ 65 - 1 <= zlen x) /\
  (len < zlen t < 2 ^ 62 -> exists x, In x (fst (lines (header_text len t Chapter))) /\ 2 ^ 62 <= zlen x).
Proof.
  intros len t L N. split; intros T; rewrite header_lines by exact N; cbn [fst].
  - exact (section_huge len t L T).
  - exact (chapter_huge len t L T).
Qed.
Print Assumptions C105_long_code.
Example C105_long_ex : 80 - 3 <= zlen (repeat star 77) <= 80. Proof. cbn. lia. Qed.
