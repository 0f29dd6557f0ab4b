(** Property C14: querying the command line (src/tools/Getopt.cpp). *)
From Coq Require Import Ascii String List NArith ZArith Lia Bool Arith.
From Verif Require Import Base Model.Params Model.Getopt Spec.Params Spec.Getopt Proofs.Params Proofs.Getopt.
Import ListNotations.

(** Full statement. *)
Definition C14_full : Prop := forall g opts av oi qs c, setup g ->
  (present (qrun (parse_args g opts av oi) qs) c = true <-> given opts c).

(** What holds: given options stay reported; an option not given is reported only if its value was read, or a check
    for missing options looked it up. *)
Theorem C14_presence_partial : forall g opts av oi qs c, setup g ->
  let g0 := parse_args g opts av oi in
  (given opts c -> present (qrun g0 qs) c = true) /\
  (present (qrun g0 qs) c = true -> given opts c \/ (exists q, In q qs /\ reads q c) \/ (In QCheck qs /\ checked g c)).
Proof. exact presence. Qed.
Print Assumptions C14_presence_partial.

(** Without checks the report is exactly "given or read before". *)
Theorem C14_presence_exact_partial : forall g opts av oi qs c, setup g -> ~ In QCheck qs ->
  (present (qrun (parse_args g opts av oi) qs) c = true <-> given opts c \/ exists q, In q qs /\ reads q c).
Proof. exact presence_reads. Qed.
Print Assumptions C14_presence_exact_partial.

Definition cfg : gopt := set_help_par (set_help_par new_getopt "n"%char (lit "count") false (lit "repeat") (lit "3"))
                                      "o"%char (lit "file") true (lit "output") [].

(** Finding: reading an option that was not given makes the program believe it was. *)
Theorem C14_reading_refuted : ~ C14_full.
Proof.
  intros H. specialize (H cfg [("o"%char, lit "x")] [] 0 [QInt "n"%char 0%Z] "n"%char
    (s_help_par _ _ _ _ _ _ (s_help_par _ _ _ _ _ _ s_new))).
  destruct H as [H _]. specialize (H eq_refl). destruct H as [v [E|[]]]. discriminate.
Qed.
Print Assumptions C14_reading_refuted.

(** The values themselves are not disturbed: at any time an option reads as its last argument, or its default. *)
Theorem C14_values_stable : forall g opts av oi qs c, setup g -> ~ (In QCheck qs /\ flag_with_default g c) ->
  option_text g opts c (snd (get_string (qrun (parse_args g opts av oi) qs) c)).
Proof. exact text_stable. Qed.
Print Assumptions C14_values_stable.

(** Typed reads: the first character (NUL if there is none), the number the text begins with, the target's old content
    if it begins with none; a number beyond int is undefined. *)
Theorem C14_values_typed : forall g opts av oi qs c, setup g -> ~ (In QCheck qs /\ flag_with_default g c) ->
  let g0 := qrun (parse_args g opts av oi) qs in
  exists s, option_text g opts c s /\ (forall a t, s = a :: t -> snd (get_char g0 c) = a) /\ (s = [] -> snd (get_char g0 c) = "000"%char) /\
  forall old, (forall z, begins_with_int s z -> int32 z -> snd (get_int_opt g0 c old) = Ok z) /\
    (forall z, begins_with_int s z -> ~ int32 z -> snd (get_int_opt g0 c old) = UB) /\
    ((forall z, ~ begins_with_int s z) -> snd (get_int_opt g0 c old) = Ok old).
Proof. exact typed_values. Qed.
Print Assumptions C14_values_typed.

Example C14_typed_ex : let g0 := parse_args cfg [("n"%char, lit "7x"); ("o"%char, lit "out")] [] 0 in
  snd (get_char g0 "o"%char) = "o"%char /\ snd (get_int_opt g0 "n"%char 5) = Ok 7%Z /\ snd (get_int_opt g0 "o"%char 5) = Ok 5%Z /\
  snd (get_int_opt (parse_args cfg [("n"%char, lit "99999999999")] [] 0) "n"%char 5) = UB.
Proof. vm_compute. auto. Qed.

(** The check for missing options gives the right answer after any queries that do not read the help flag. *)
Theorem C14_check_answer : forall g opts av oi qs, setup g ->
  (forall q, In q qs -> ~ reads q "h"%char) -> ~ checked g "h"%char ->
  (snd (check_options (qrun (parse_args g opts av oi) qs)) = true <-> acceptable g opts).
Proof. exact check_answer. Qed.
Print Assumptions C14_check_answer.

Example C14_example :
  let g0 := parse_args cfg [("n"%char, lit "7"); ("o"%char, lit "x"); ("n"%char, lit "12")] [] 0 in
  let qs := [QString "o"%char; QCheck; QChar "n"%char] in
  setup cfg /\ ~ In (QInt "n"%char 0%Z) qs /\ ~ flag_with_default cfg "n"%char /\
  (forall q, In q qs -> ~ reads q "h"%char) /\ ~ checked cfg "h"%char /\
  snd (get_string (qrun g0 qs) "n"%char) = lit "12" /\ snd (check_options (qrun g0 qs)) = true /\
  snd (get_int_opt (qrun (parse_args cfg [] [] 0) qs) "n"%char 0%Z) = Ok 3%Z /\
  snd (check_options (qrun (parse_args cfg [] [] 0) qs)) = false.
Proof.
  cbv zeta. split; [apply s_help_par, s_help_par, s_new|]. split; [intros [H|[H|[H|[]]]]; discriminate|].
  split; [intros (_ & H & _); discriminate|]. split.
  { intros q Hq Hr. apply read_dec_ok in Hr. cbn in Hq. destruct Hq as [<-|[<-|[<-|[]]]]; discriminate. }
  split; [intros (_ & [[H _]|[_ H]]); apply H; reflexivity|]. vm_compute. repeat split.
Qed.

(** C58: the i-th non-option argument is the i-th argument after the options. *)
Theorem C58_string_form : forall g i, non_option g i = nth_error (skipn (optind g) (argv g)) i.
Proof. exact non_option_spec. Qed.
Print Assumptions C58_string_form.

Definition C58_full : Prop := forall g opts av oi i len, setup g -> let g0 := parse_args g opts av oi in
  non_option_buf g0 i len = Ok (option_map (firstn len) (nth_error (skipn oi av) i)).

(** The buffer form agrees only when each recorded option took exactly one word of the command line. *)
Theorem C58_buffer_form_partial : forall g i len, length (values g) + 1 = optind g ->
  non_option_buf g i len = Ok (option_map (firstn len) (nth_error (skipn (optind g) (argv g)) i)).
Proof. exact non_option_buf_spec. Qed.
Print Assumptions C58_buffer_form_partial.

(** Finding: with an option that takes an argument ("prog -o x input") the buffer form returns the option's argument. *)
Theorem C58_buffer_form_refuted : ~ C58_full.
Proof.
  intros H. specialize (H cfg [("o"%char, lit "x")] [lit "prog"; lit "-o"; lit "x"; lit "input"] 3 0 100
    (s_help_par _ _ _ _ _ _ (s_help_par _ _ _ _ _ _ s_new))). vm_compute in H. discriminate.
Qed.
Print Assumptions C58_buffer_form_refuted.

Example C58_example :
  let g := parse_args cfg [("h"%char, [])] [lit "prog"; lit "-h"; lit "in"; lit "out"] 2 in
  length (values g) + 1 = optind g /\ non_option g 1 = Some (lit "out") /\
  non_option_buf g 1 2 = Ok (Some (lit "ou")) /\ non_option g 2 = None.
Proof. vm_compute. repeat split. Qed.
