(** Property C108: qdinfo shows the header of every stream file and refuses other files; qds2qdi leaves the translation of its input. *)
From Coq Require Import Ascii String List NArith ZArith Lia Bool.
From Verif Require Import Base Arrays Model.Getopt Model.Serial Model.FileWF Model.Info Spec.FileWF Spec.Info Proofs.Info.
Import ListNotations.
Open Scope Z_scope.

(** The full property of qdinfo: a stream file with a header that can be parsed is shown with success; in all other cases nothing is shown and the program fails. *)
Definition C108_info : Prop := forall H dec show room opts argv oi files, (forall n b, files n = Some b -> octets b) ->
  (forall n e rest, name_of argv oi = Some n -> files n = Some (stream_of e rest) -> snd (dec e) = true -> info H dec show room (start opts argv oi) files = Ok (show (fst (dec e)), Success)) /\
  ((forall n e rest, name_of argv oi = Some n -> files n = Some (stream_of e rest) -> snd (dec e) = false) -> info H dec show room (start opts argv oi) files = Ok ([], Failure)).
(** What is shown is the header of the file, if it is smaller than 2 GiB and there is memory for it. *)
Theorem C108_info_partial : forall H dec (show : H -> str) room opts argv oi files n e rest, name_of argv oi = Some n -> files n = Some (stream_of e rest) -> zlen e < 2147483648 -> room (zlen e) = true ->
  info H dec show room (start opts argv oi) files = Ok (show (fst (dec e)), Success).
Proof. exact shown. Qed.
Print Assumptions C108_info_partial.
(** Nothing but stream files with a complete header is shown. *)
Theorem C108_only : forall H dec (show : H -> str) room opts argv oi files t, (forall n b, files n = Some b -> octets b) -> info H dec show room (start opts argv oi) files = Ok (t, Success) ->
  exists n e rest, name_of argv oi = Some n /\ files n = Some (stream_of e rest) /\ t = show (fst (dec e)).
Proof. exact only_streams. Qed.
Print Assumptions C108_only.
(** No name, no file, files of less than 16 bytes, and files that begin otherwise with a zero among the first 16 bytes: failure and nothing shown. *)
Theorem C108_refused : forall H dec (show : H -> str) room opts argv oi files, (forall n b, files n = Some b -> octets b) ->
  (forall n b, name_of argv oi = Some n -> files n = Some b -> zlen b < 16 \/ (In 0 (firstn 16 b) /\ firstn 16 b <> first16)) -> info H dec show room (start opts argv oi) files = Ok ([], Failure).
Proof. exact refused. Qed.
Print Assumptions C108_refused.
(** Whatever wave function qdng has written as a stream, its first header is shown. *)
Theorem C108_written : forall D C cls (ser : D -> list byte) enc (dec : list byte -> header C * bool) show room opts argv oi files n w more o,
  (forall h, dec (enc h) = (h, true)) -> (forall h, zlen (enc h) < 2147483648 /\ room (zlen (enc h)) = true) ->
  write D C cls ser enc w more fresh_out = Ok o -> name_of argv oi = Some n -> files n = Some (o_bytes o) ->
  info (header C) dec show room (start opts argv oi) files =
    Ok (show (match w with Single _ d => mkH C more (Some (cls d)) (zlen (ser d)) | Multi _ _ => mkH C true None 4 end), Success).
Proof. exact written_shown. Qed.
Print Assumptions C108_written.
(** Files cut within the size or the header: memory that is not initialised is used. *)
Theorem C108_short_code : forall H dec (show : H -> str) room opts argv oi files n e k, name_of argv oi = Some n -> zlen e < 2147483648 -> room (zlen e) = true -> (16 <= k < 20 + length e)%nat ->
  files n = Some (firstn k (stream_of e [])) -> info H dec show room (start opts argv oi) files = UB.
Proof. exact header_short. Qed.
Print Assumptions C108_short_code.
(** Sizes of 2 GiB and more are negative numbers: the program is terminated by an exception of new. *)
Theorem C108_negative_code : forall H dec (show : H -> str) room opts argv oi files n a b c d rest, name_of argv oi = Some n -> octets [a; b; c; d] -> 128 <= d ->
  files n = Some (first16 ++ [a; b; c; d] ++ rest)%list -> info H dec show room (start opts argv oi) files = Throw.
Proof. exact header_negative. Qed.
Print Assumptions C108_negative_code.
(** Files with 16 bytes without a zero are read behind the end of the memory. *)
Theorem C108_unended_code : forall H dec (show : H -> str) room opts argv oi (files : str -> option (list byte)) n (b : list byte), name_of argv oi = Some n -> files n = Some b -> 16 <= zlen b -> ~ In 0 (firstn 16 b) ->
  info H dec show room (start opts argv oi) files = UB.
Proof. exact unended. Qed.
Print Assumptions C108_unended_code.

(** The full property of qds2qdi: success, unless help is asked for, means that the translation of the input is in the output file and nothing else has changed; after a failure all files are as before. *)
Definition C108_convert : Prop := forall parse may_write opts argv oi s s' x, present (start opts argv oi) "h"%char = false -> qds parse may_write (start opts argv oi) s = Ok (s', x) ->
  match x with
  | Success => exists n f t, name_of argv oi = Some n /\ s n = Some f /\ parse f = Ok t /\ changed s s' (n ++ lit "qdi") t
  | Failure => forall n, s' n = s n
  end.
(** The first part if a name is given. *)
Theorem C108_convert_partial : forall parse may_write opts argv oi s s' n, present (start opts argv oi) "h"%char = false -> name_of argv oi = Some n -> qds parse may_write (start opts argv oi) s = Ok (s', Success) ->
  exists f t, s n = Some f /\ parse f = Ok t /\ changed s s' (n ++ lit "qdi") t.
Proof. exact qds_success. Qed.
Print Assumptions C108_convert_partial.
(** An input that can be translated is translated. *)
Theorem C108_translated : forall parse may_write opts argv oi s n f t, present (start opts argv oi) "h"%char = false -> name_of argv oi = Some n -> s n = Some f -> may_write (n ++ lit "qdi")%list = true -> parse f = Ok t ->
  exists s', qds parse may_write (start opts argv oi) s = Ok (s', Success) /\ changed s s' (n ++ lit "qdi") t.
Proof. exact translated. Qed.
Print Assumptions C108_translated.
(** Files that cannot be opened: failure, and nothing has changed. *)
Theorem C108_unopened : forall parse may_write opts argv oi s n, present (start opts argv oi) "h"%char = false -> name_of argv oi = Some n -> s n = None \/ may_write (n ++ lit "qdi")%list = false ->
  qds parse may_write (start opts argv oi) s = Ok (s, Failure).
Proof. exact unopened. Qed.
Print Assumptions C108_unopened.
(** With errors in the input the output file is emptied. *)
Theorem C108_failed_code : forall parse may_write opts argv oi s n f, present (start opts argv oi) "h"%char = false -> name_of argv oi = Some n -> s n = Some f -> may_write (n ++ lit "qdi")%list = true -> parse f = Throw ->
  exists s', qds parse may_write (start opts argv oi) s = Ok (s', Failure) /\ changed s s' (n ++ lit "qdi") [].
Proof. exact failed. Qed.
Print Assumptions C108_failed_code.
(** Help, or no name at all: success, and nothing has changed. *)
Theorem C108_idle_code : forall parse may_write opts argv oi s, present (start opts argv oi) "h"%char = true \/ name_of argv oi = None -> qds parse may_write (start opts argv oi) s = Ok (s, Success).
Proof. exact idle. Qed.
Print Assumptions C108_idle_code.

(** Headers of two bytes: a letter and its parity *)
Definition ex_dec (l : list byte) : Z * bool := match l with [a; b] => (a, a mod 2 =? b) | a :: _ => (a, false) | [] => (0, false) end.
Definition ex_show (a : Z) : str := [ascii_of_N (Z.to_N a)].
Definition ex_argv : list str := [lit "qdinfo"; lit "psi.wf"].
Definition ex_files (b : list byte) (n : str) : option (list byte) := if str_eqb n (lit "psi.wf") then Some b else None.
Example C108_info_ex : info Z ex_dec ex_show (fun _ => true) (start [] ex_argv 1) (ex_files (stream_of [65; 1] [7; 8; 9])) = Ok (lit "A", Success) /\
  info Z ex_dec ex_show (fun _ => true) (start [("h"%char, [])] [lit "qdinfo"; lit "-h"] 2) (ex_files (stream_of [65; 1] [])) = Ok ([], Failure) /\
  info Z ex_dec ex_show (fun _ => true) (start [] ex_argv 1) (ex_files (first16 ++ [2; 0; 0])) = UB /\
  info Z ex_dec ex_show (fun _ => true) (start [] ex_argv 1) (ex_files (repeat 0 40)) = Ok ([], Failure) /\
  info Z ex_dec ex_show (fun _ => true) (start [] ex_argv 1) (ex_files (repeat 65 40)) = UB.
Proof. split; [vm_compute; reflexivity|]. split; [vm_compute; reflexivity|]. split; [vm_compute; reflexivity|]. split; vm_compute; reflexivity. Qed.
(** A header that is damaged is shown with success; a file cut in its header is undefined. *)
Theorem C108_info_refuted : ~ C108_info.
Proof.
  intros P. specialize (P Z ex_dec ex_show (fun _ => true) [] ex_argv 1%nat (ex_files (stream_of [65; 0] []))). destruct P as [_ P].
  - intros n b E. unfold ex_files in E. destruct (str_eqb n _); [|discriminate]. injection E as <-. vm_compute. repeat (constructor; [split; [discriminate|reflexivity]|]). constructor.
  - assert (E : info Z ex_dec ex_show (fun _ => true) (start [] ex_argv 1) (ex_files (stream_of [65; 0] [])) = Ok (lit "A", Success)) by (vm_compute; reflexivity). rewrite P in E; [discriminate|].
    intros n e rest N F. injection N as <-. change (ex_files (stream_of [65; 0] []) (lit "psi.wf")) with (Some (stream_of [65; 0] [])) in F. apply (f_equal (fun x => match x with Some b => skipn 20 b | None => [] end)) in F.
    change ([65; 0] = e ++ rest)%list in F. destruct e as [|a [|b [|c e]]]; try reflexivity. cbn [app] in F. injection F as Fa Fb _. rewrite <- Fa, <- Fb. reflexivity.
Qed.
Print Assumptions C108_info_refuted.
(** Without a name qds2qdi tells success. *)
Definition ex_parse (s : str) : outcome str := match s with [] => Throw | _ => Ok (lit "<qdng/>") end.
Definition ex_disk (s : str) (n : str) : option str := if str_eqb n (lit "in.qds") then Some s else None.
Example C108_convert_ex : exists s s', qds ex_parse (fun _ => true) (start [] [lit "qds2qdi"; lit "in.qds"] 1) (ex_disk (lit "qdng {}")) = Ok (s, Success) /\ s (lit "in.qdsqdi") = Some (lit "<qdng/>") /\
  qds ex_parse (fun _ => true) (start [] [lit "qds2qdi"; lit "in.qds"] 1) (ex_disk []) = Ok (s', Failure) /\ s' (lit "in.qdsqdi") = Some [] /\ s' (lit "in.qds") = Some [].
Proof.
  eexists. eexists. split; [cbn; reflexivity|]. split; [vm_compute; reflexivity|]. split; [cbn; reflexivity|]. split; vm_compute; reflexivity.
Qed.
Theorem C108_convert_refuted : ~ C108_convert.
Proof.
  intros P. specialize (P ex_parse (fun _ => true) [] [lit "qds2qdi"] 1%nat (ex_disk []) (ex_disk []) Success eq_refl eq_refl). destruct P as (n & _ & _ & N & _). discriminate.
Qed.
Print Assumptions C108_convert_refuted.
