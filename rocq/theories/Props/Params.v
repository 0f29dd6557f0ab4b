(** Properties C01-C08: parameter containers (src/tools/ParamContainer.cpp, src/tools/helpers.cpp). *)
From Coq Require Import Ascii String List NArith ZArith Lia Bool Arith.
From Verif Require Import Base Model.Params Spec.Params Proofs.Params.
Import ListNotations.

(** ** C01 *)
Theorem C01_untyped_file_roundtrip : forall c,
  consistent c ->
  (forall k v, get_value c k = Some v ->
     good_key k /\ good_value v /\ (N.of_nat (length k + 3 + length v) < 2048)%N) ->
  exists c', (forall r, parses_to (write_c false c) None r <-> r = Ok c') /\
             forall k, get_value c' k = get_value c k.
Proof. exact untyped_roundtrip. Qed.
Print Assumptions C01_untyped_file_roundtrip.

Definition ex_container2 : container :=
  set_bool (set_int (set_value empty_c (lit "a key") (lit "x = [1], # y") t_string) (lit "dim") (-12)) (lit "flag") true.
Example C01_example_text :
  write_c false ex_container2 = lit "a key = x = [1], # y" ++ [nl] ++ lit "dim = -12" ++ [nl] ++ lit "flag = true" ++ [nl].
Proof. vm_compute. reflexivity. Qed.
Example C01_example_hyps : consistent ex_container2 /\
  (forall k v, get_value ex_container2 k = Some v ->
     good_key k /\ good_value v /\ (N.of_nat (length k + 3 + length v) < 2048)%N).
Proof.
  split; [split; cbn; repeat constructor; cbn; intuition discriminate|].
  apply all_goodb_ok. vm_compute. reflexivity.
Qed.

(** Reading replaces what the container held before. *)
Theorem C01_parse_replaces : forall fuel c eof st, parse fuel c eof st = parse fuel empty_c eof st.
Proof. reflexivity. Qed.
Print Assumptions C01_parse_replaces.

(** Reading up to an end mark gives what the lines before it give, and leaves the stream right behind the mark's line. *)
Theorem C01_end_mark : forall c lines mark b r, Forall (text_line mark) lines -> text_line [] mark -> mark <> [] ->
  parses_to (concat (map (fun l => l ++ ["010"%char]) lines)) None (Ok r) ->
  exists fuel, parse fuel c (Some mark) (stream_of (concat (map (fun l => l ++ ["010"%char]) lines) ++ mark ++ "010"%char :: b)) = Some (Ok (r, stream_of b)).
Proof. exact end_mark. Qed.
Print Assumptions C01_end_mark.

(** The rest of a line behind a NUL character is ignored. *)
Theorem C01_nul_ends_line : forall a junk b r, (N.of_nat (length (a ++ "000"%char :: junk)) < 2048)%N -> ~ In "000"%char a -> ~ In "010"%char (a ++ junk) ->
  (parses_to (a ++ "000"%char :: junk ++ "010"%char :: b) None r <-> parses_to (a ++ "010"%char :: b) None r).
Proof. exact nul_line. Qed.
Print Assumptions C01_nul_ends_line.

Example C01_end_mark_ex : exists c, parse 9 ex_container2 (Some (lit "END")) (stream_of (lit "k = 1" ++ [nl] ++ lit "END" ++ [nl] ++ lit "raw")) = Some (Ok (c, stream_of (lit "raw"))) /\
  get_value c (lit "k") = Some (lit "1") /\ get_value c (lit "dim") = None /\ text_line (lit "END") (lit "k = 1") /\ text_line [] (lit "END").
Proof. eexists. split; [vm_compute; reflexivity|]. repeat split; try (vm_compute; intuition discriminate); cbn; intuition discriminate. Qed.

(** ** C02 *)
(** The full statement: every container with a type tag on each entry is read back with its values and types. *)
Definition C02_full : Prop := forall c,
  consistent c ->
  (forall k v, get_value c k = Some v ->
     good_key k /\ good_value v /\ (N.of_nat (length k + 11 + length v) < 2048)%N) ->
  exists c', (forall r, parses_to (write_c true c) None r <-> r = Ok c') /\
    forall k, get_value c' k = get_value c k /\ (get_value c k <> None -> get_type c' k = get_type c k).

(** Exact characterisation: the tag survives iff the key is as long as the name of its type; any other typed entry
    makes the whole file unreadable (exception "Unknown type"). *)
Theorem C02_typed_file_roundtrip_partial : forall c,
  consistent c ->
  (forall k v, get_value c k = Some v ->
     good_key k /\ good_value v /\ (N.of_nat (length k + 11 + length v) < 2048)%N) ->
  ((forall k, get_value c k <> None -> get_type c k <> t_undef -> length k = length (type2string (get_type c k))) ->
   exists c', (forall r, parses_to (write_c true c) None r <-> r = Ok c') /\
     forall k, get_value c' k = get_value c k /\ (get_value c k <> None -> get_type c' k = get_type c k)) /\
  (forall k, get_value c k <> None -> get_type c k <> t_undef -> length k <> length (type2string (get_type c k)) ->
     forall r, parses_to (write_c true c) None r <-> r = Throw).
Proof. exact typed_roundtrip. Qed.
Print Assumptions C02_typed_file_roundtrip_partial.

Definition ex_typed : container := set_int empty_c (lit "dim") 3.        (* |dim| = |int| *)
Definition ex_typed_bad : container := set_int empty_c (lit "dims") 3.
Lemma ex_typed_hyps k0 : k0 = lit "dim" \/ k0 = lit "dims" ->
  consistent (set_int empty_c k0 3) /\
  (forall k v, get_value (set_int empty_c k0 3) k = Some v ->
     good_key k /\ good_value v /\ (N.of_nat (length k + 11 + length v) < 2048)%N).
Proof.
  intros Hk. split.
  - destruct Hk as [->| ->]; split; cbn; repeat constructor; cbn; intuition discriminate.
  - apply all_goodb_ok. destruct Hk as [->| ->]; vm_compute; reflexivity.
Qed.
Example C02_example_ok : length (lit "dim") = length (type2string (get_type ex_typed (lit "dim"))) /\
  write_c true ex_typed = lit "dim[int] = 3" ++ [nl].
Proof. vm_compute. auto. Qed.
Example C02_example_parse : forall r, parses_to (lit "dims[int] = 3" ++ [nl]) None r <-> r = Throw.
Proof.
  destruct (ex_typed_hyps (lit "dims")) as [A B]; [auto|].
  destruct (typed_roundtrip _ A B) as [_ H].
  apply (H (lit "dims")); vm_compute; congruence.
Qed.

Theorem C02_typed_file_roundtrip_refuted : ~ C02_full.
Proof.
  intros H. destruct (ex_typed_hyps (lit "dims")) as [A B]; [auto|].
  destruct (H _ A B) as (c' & H1 & _). pose proof (proj2 (H1 (Ok c')) eq_refl) as H2.
  apply C02_example_parse in H2. discriminate.
Qed.
Print Assumptions C02_typed_file_roundtrip_refuted.

(** ** C03 *)
Theorem C03_merge : forall a b, consistent b ->
  (forall k, get_value (add_c a b) k = match get_value b k with Some v => Some v | None => get_value a k end) /\
  (forall k, mget scmp (types (add_c a b)) k =
             match mget scmp (types b) k with Some t => Some t | None => mget scmp (types a) k end) /\
  (forall k, get_value (add_c (add_c a b) b) k = get_value (add_c a b) k /\
             get_type (add_c (add_c a b) b) k = get_type (add_c a b) k).
Proof. exact merge_spec. Qed.
Print Assumptions C03_merge.

Example C03_example : consistent ex_container2 /\
  get_value (add_c (set_int empty_c (lit "dim") 1) ex_container2) (lit "dim") = Some (lit "-12") /\
  get_value (add_c (set_int empty_c (lit "k") 1) ex_container2) (lit "k") = Some (lit "1") /\
  get_value (add_c (set_int empty_c (lit "k") 1) ex_container2) (lit "z") = None.
Proof. split; [apply C01_example_hyps|vm_compute; auto]. Qed.

(** ** C04 *)
Definition C04_full : Prop := forall s, parse_terminates s.

Theorem C04_parse_terminates_partial : forall s, lines_fit s -> parse_terminates s.
Proof. exact fit_terminates. Qed.
Print Assumptions C04_parse_terminates_partial.

(** exact: without type tags parsing ends iff no line has 2048 or more characters *)
Theorem C04_parse_terminates_exact_partial : forall s, ~ In "["%char s -> (parse_terminates s <-> lines_fit s).
Proof. exact terminates_iff. Qed.
Print Assumptions C04_parse_terminates_exact_partial.

Theorem C04_parse_terminates_refuted : ~ C04_full.
Proof.
  intros H. specialize (H (repeat "a"%char (N.to_nat 2048))). apply terminates_iff in H.
  - specialize (H [] (repeat "a"%char (N.to_nat 2048)) []). rewrite repeat_length in H.
    assert (Q : (N.of_nat (N.to_nat 2048) < 2048)%N); [|lia]. apply H; [rewrite app_nil_r; reflexivity|].
    intros Hi. apply repeat_spec in Hi. discriminate.
  - intros Hi. apply repeat_spec in Hi. discriminate.
Qed.
Print Assumptions C04_parse_terminates_refuted.

Example C04_example : lines_fit (lit "a = 1" ++ [nl] ++ lit "b = 2").
Proof.
  intros a l b E _. assert (L : length (lit "a = 1" ++ [nl] ++ lit "b = 2") = length (a ++ l ++ b)) by (rewrite E; reflexivity).
  rewrite !app_length in L. cbn in L. lia.
Qed.

(** ** C05 *)
Definition C05_full : Prop := forall s, stripped s (trim s).
(** exact: trim strips iff the string has a non-blank character or at most one character *)
Theorem C05_trim_partial : forall s, stripped s (trim s) <-> (~ Forall blank s \/ length s <= 1).
Proof. exact stripped_iff. Qed.
Print Assumptions C05_trim_partial.
Theorem C05_trim_refuted : ~ C05_full.
Proof.
  intros H. specialize (H (lit "  ")). apply stripped_iff in H. destruct H as [H|H].
  - apply H. repeat constructor.
  - cbn in H. lia.
Qed.
Print Assumptions C05_trim_refuted.
Example C05_example : trim (tab :: lit "  a b  ") = lit "a b" /\ ~ Forall blank (tab :: lit "  a b  ").
Proof.
  split; [vm_compute; reflexivity|]. intros H. rewrite Forall_forall in H.
  assert (Q : blank "a"%char) by (apply H; cbn; tauto). destruct Q; discriminate.
Qed.

(** ** C06 *)
Theorem C06_int_array_roundtrip : forall c k l, l <> [] -> Forall int32 l ->
  get_array_int (set_array_int c k l) k = Ok (true, l).
Proof. exact array_roundtrip. Qed.
Print Assumptions C06_int_array_roundtrip.
Example C06_example : Forall int32 [12; -2147483648; 0; 2147483647]%Z /\
  get_value (set_array_int empty_c (lit "k") [12; -2147483648; 0; 2147483647]%Z) (lit "k") = Some (lit "12,-2147483648,0,2147483647").
Proof. split; [repeat constructor; unfold int32; cbn; lia|vm_compute; reflexivity]. Qed.
(** An empty array cannot be stored: it is read back as one indeterminate number. *)
Theorem C06_empty_array_undefined : forall c k, get_array_int (set_array_int c k []) k = UB.
Proof. intros c k. unfold get_array_int, set_array_int. rewrite get_value_set. destruct (str_eq_dec k k); [reflexivity|tauto]. Qed.
Print Assumptions C06_empty_array_undefined.

(** ** C07 *)
Theorem C07_scalar_roundtrip : forall c k,
  (forall z old, int32 z -> get_int (set_int c k z) k old = Ok (true, z)) /\
  (forall b def, get_bool (set_bool c k b) k def = (true, b)) /\
  (forall old, get_value c k = None -> get_int c k old = Ok (false, 0%Z)) /\
  (forall def, get_value c k = None -> get_bool c k def = (false, def)).
Proof. exact scalar_roundtrip. Qed.
Print Assumptions C07_scalar_roundtrip.
Theorem C07_scalar_other_keys : forall c k k' z b, k' <> k ->
  get_value (set_int c k z) k' = get_value c k' /\ get_value (set_bool c k b) k' = get_value c k'.
Proof. exact scalar_other. Qed.
Print Assumptions C07_scalar_other_keys.
Theorem C07_bool_array_roundtrip : forall c k l, l <> [] -> get_array_bool (set_array_bool c k l) k = (true, l).
Proof. exact array_bool_roundtrip. Qed.
Print Assumptions C07_bool_array_roundtrip.
(** Other words than true and false leave the target alone though success is reported; in arrays they count as false. *)
Theorem C07_bool_code : forall c k s, get_value c k = Some s -> forall def,
  get_bool c k def = (true, if list_eq_dec ascii_dec s (lit "true") then true else if list_eq_dec ascii_dec s (lit "false") then false else def).
Proof. exact get_bool_words. Qed.
Print Assumptions C07_bool_code.
Theorem C07_bool_array_code : forall c k ws, Forall (fun w => ~ In ","%char w) ws -> ws <> [] -> get_value c k = Some (commas ws) ->
  exists l, get_array_bool c k = (true, l) /\ length l = length ws /\
  forall i w, nth_error ws i = Some w -> nth_error l i = Some (if list_eq_dec ascii_dec w (lit "true") then true else false).
Proof. exact get_bools_words. Qed.
Print Assumptions C07_bool_array_code.
Example C07_bool_ex : let c := set_value (set_value empty_c (lit "b") (lit "yes") t_undef) (lit "a") (lit "true,1,false") t_undef in
  get_bool c (lit "b") true = (true, true) /\ get_bool c (lit "b") false = (true, false) /\
  get_value c (lit "a") = Some (commas [lit "true"; lit "1"; lit "false"]) /\ get_array_bool c (lit "a") = (true, [true; false; false]).
Proof. vm_compute. auto. Qed.
Example C07_example : int32 (-7) /\ get_int (set_int ex_container2 (lit "n") (-7)) (lit "n") 99 = Ok (true, (-7)%Z) /\
  get_value ex_container2 (lit "missing") = None.
Proof. split; [unfold int32; lia|vm_compute; auto]. Qed.

(** ** C08 *)
Definition C08_full : Prop := forall c k old s z,
  get_value c k = Some s -> get_int c k old = Ok (true, z) -> begins_with_int s z.
(** either the number in the text is returned (undefined when it does not fit an int), or there is no number and the
    target keeps its previous content although success is reported *)
Theorem C08_lookup_partial : forall c k old s, get_value c k = Some s ->
  (exists z, begins_with_int s z /\ get_int c k old = (if in_int z then Ok (true, z) else UB)) \/
  ((forall z, ~ begins_with_int s z) /\ get_int c k old = Ok (true, old)).
Proof. exact get_int_char. Qed.
Print Assumptions C08_lookup_partial.
Theorem C08_lookup_refuted : ~ C08_full.
Proof.
  intros H. specialize (H (set_value empty_c (lit "n") (lit "ten") t_undef) (lit "n") 42%Z (lit "ten") 42%Z eq_refl eq_refl).
  apply scan_int_begins in H. vm_compute in H. discriminate.
Qed.
Print Assumptions C08_lookup_refuted.
Example C08_example : get_int (set_value empty_c (lit "n") (lit "  +12abc") t_undef) (lit "n") 42 = Ok (true, 12%Z) /\
  begins_with_int (lit "  +12abc") 12.
Proof.
  split; [vm_compute; reflexivity|]. exists (lit "  "), (lit "+"), (lit "12"), (lit "abc").
  repeat split; try (vm_compute; reflexivity); try discriminate.
  - repeat constructor.
  - repeat constructor; vm_compute; congruence.
  - intros c t [= <- _] H. destruct H as [_ H]. vm_compute in H. congruence.
  - left. split; [auto|vm_compute; reflexivity].
Qed.
