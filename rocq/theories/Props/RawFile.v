(** Property C25: uncompressed data files are read verbatim. *)
From Coq Require Import Ascii String List NArith ZArith Lia Bool Arith.
From Verif Require Import Base Arrays Model.Serial Model.FileWF Model.RawFile Spec.RawFile Proofs.RawFile.
Import ListNotations.
Open Scope Z_scope.

(** The full property, for reading with and without detection of the format. *)
Definition C25_full : Prop := forall P menc mdec size deflate bzip inflate bunzip stream f d st f' st',
  apart f -> f_comp f = Uncompressed -> sized menc mdec size d -> write_raw P menc deflate bzip f d st = Ok (f', st') ->
  read_file P mdec size inflate bunzip stream f st' = Ok (f', d).
Definition C25_raw_full : Prop := forall P menc mdec size deflate bzip inflate bunzip f d st f' st',
  apart f -> f_comp f = Uncompressed -> sized menc mdec size d -> write_raw P menc deflate bzip f d st = Ok (f', st') ->
  read_raw P mdec size inflate bunzip f st' = Ok (f', d).
(** It holds for data of at least 8 bytes that does not end with a compression tag and, for detection of the format, has a zero among the
    first 16 bytes and does not begin like a stream. *)
Theorem C25_raw_partial : forall P menc mdec size deflate bzip inflate bunzip f d st f' st',
  apart f -> f_comp f = Uncompressed -> sized menc mdec size d -> plain (snd d) -> write_raw P menc deflate bzip f d st = Ok (f', st') ->
  read_raw P mdec size inflate bunzip f st' = Ok (f', d).
Proof. exact raw_plain. Qed.
Print Assumptions C25_raw_partial.
Theorem C25_file_partial : forall P menc mdec size deflate bzip inflate bunzip stream f d st f' st',
  apart f -> f_comp f = Uncompressed -> sized menc mdec size d -> plain (snd d) -> not_stream (snd d) -> write_raw P menc deflate bzip f d st = Ok (f', st') ->
  read_file P mdec size inflate bunzip stream f st' = Ok (f', d).
Proof. exact file_plain. Qed.
Print Assumptions C25_file_partial.
(** What happens otherwise: shorter files are refused, tagged ones given to libz, and the bytes behind the first 16 are accessed when there
    is no zero among these. *)
Theorem C25_short_code : forall P menc mdec size deflate bzip inflate bunzip f d st f' st',
  apart f -> f_comp f = Uncompressed -> sized menc mdec size d -> zlen (snd d) < 8 -> write_raw P menc deflate bzip f d st = Ok (f', st') ->
  read_raw P mdec size inflate bunzip f st' = Throw.
Proof. exact raw_short. Qed.
Print Assumptions C25_short_code.
Theorem C25_tagged_code : forall P menc mdec size deflate bzip inflate bunzip f d st f' st',
  apart f -> f_comp f = Uncompressed -> sized menc mdec size d -> tagged (snd d) zlib_magic -> write_raw P menc deflate bzip f d st = Ok (f', st') ->
  read_raw P mdec size inflate bunzip f st' = match inflate (snd d) (zlen (snd d)) with Some x => Ok (f', (fst d, x)) | None => Throw end.
Proof. intros. apply (raw_tagged P menc mdec size deflate bzip inflate bunzip (fun _ => Throw) f d st); assumption. Qed.
Print Assumptions C25_tagged_code.
Theorem C25_overread_code : forall P menc mdec size deflate bzip inflate bunzip stream f d st f' st',
  f_comp f = Uncompressed -> 16 <= zlen (snd d) -> ~ In 0 (firstn 16 (snd d)) -> write_raw P menc deflate bzip f d st = Ok (f', st') ->
  read_file P mdec size inflate bunzip stream f st' = UB.
Proof. exact file_ub. Qed.
Print Assumptions C25_overread_code.
(** Compressed files are restored whenever they can be written. *)
Theorem C25_compressed : forall P menc mdec size deflate bzip inflate bunzip, (forall x t, inflate (deflate x ++ t) (zlen x) = Some x) ->
  (forall x t, bunzip (bzip x ++ t) (zlen x) = Some x) -> forall f d st f' st',
  apart f -> f_comp f <> Uncompressed -> sized menc mdec size d -> write_raw P menc deflate bzip f d st = Ok (f', st') ->
  read_raw P mdec size inflate bunzip f st' = Ok (f', d).
Proof. exact raw_packed. Qed.
Print Assumptions C25_compressed.
(** They cannot if compression makes them larger. *)
Theorem C25_incompressible_code : forall P menc deflate bzip f d st, f_comp f = Zlib -> zlen (snd d) < zlen (deflate (snd d)) -> write_raw P menc deflate bzip f d st = Throw.
Proof. intros P menc deflate bzip f d st E L. unfold write_raw, pack. rewrite E. destruct (Z.ltb_spec (zlen (snd d)) (zlen (deflate (snd d)))); [reflexivity|lia]. Qed.
Print Assumptions C25_incompressible_code.
(** A sequence of data with the same parameters is read back from the first file on. *)
Theorem C25_sequence : forall P menc mdec size deflate bzip inflate bunzip stream f, f_seq f = true -> f_inc f <> 0 -> f_comp f = Uncompressed ->
  forall l p st, l <> [] -> Forall (fun d => fst d = p) l -> Forall (sized menc mdec size) l -> Forall (fun d => plain (snd d) /\ not_stream (snd d)) l ->
  (forall i, (i <= length l)%nat -> int_ok (f_count f + Z.of_nat i * f_inc f)) ->
  exists st' g, write_list P menc deflate bzip l f st = Ok (g, st') /\ read_list P mdec size inflate bunzip stream (length l) f st' = Ok (g, l).
Proof. exact sequence. Qed.
Print Assumptions C25_sequence.

(** One element of a sequence can be read on its own, by the name with its number: the parameters are those of the sequence. *)
Theorem C25_element : forall P menc mdec size deflate bzip inflate bunzip f g d st f' st', f_seq f = true -> f_suffix f <> lit ".meta" -> f_comp f = Uncompressed ->
  f_name g = (f_name f ++ lit "_" ++ dec_print_Z (f_count f))%list -> f_suffix g = f_suffix f -> f_seq g = false -> mget scmp st (meta_name g) = None ->
  sized menc mdec size d -> plain (snd d) -> write_raw P menc deflate bzip f d st = Ok (f', st') -> read_raw P mdec size inflate bunzip g st' = Ok (g, d).
Proof. exact element. Qed.
Print Assumptions C25_element.
(** A file with less data than the parameters say is refused. *)
Theorem C25_truncated : forall P mdec size inflate bunzip f st mb p n b, mget scmp st (meta_name f) = Some mb -> mdec mb = Ok p -> size p = Ok n -> mget scmp st (data_name f) = Some b -> plain b -> zlen b < n ->
  read_raw P mdec size inflate bunzip f st = Throw.
Proof. exact raw_cut. Qed.
Print Assumptions C25_truncated.
(** A file that begins with the intro of the stream format is read as a stream. *)
Theorem C25_stream : forall P mdec size inflate bunzip stream f st t d, f_seq f = false -> mget scmp st (data_name f) = Some (intro ++ t)%list -> stream (intro ++ t)%list = Ok d ->
  read_file P mdec size inflate bunzip stream f st = Ok (f, d).
Proof. exact stream_taken. Qed.
Print Assumptions C25_stream.
(** The counter of a sequence overflows. *)
Theorem C25_counter_code : forall P menc deflate bzip f d st, f_comp f = Uncompressed -> f_seq f = true -> ~ int_ok (f_count f + f_inc f) -> write_raw P menc deflate bzip f d st = UB.
Proof. exact counter_ub. Qed.
Print Assumptions C25_counter_code.

(** Data whose only parameter is the size. *)
Definition rx_menc (p : Z) : list byte := [p].
Definition rx_mdec (l : list byte) : outcome Z := match l with [p] => Ok p | _ => Throw end.
Definition rx_size (p : Z) : outcome Z := Ok p.
Definition rx_id (l : list byte) : list byte := l.
Definition rx_unz (l : list byte) (n : Z) : option (list byte) := if zlen l <? n then None else Some (firstn (Z.to_nat n) l).
Definition rx_stream (l : list byte) : outcome (Z * list byte) := Throw.
Notation rx_write := (write_raw Z rx_menc rx_id rx_id).
Notation rx_read := (read_file Z rx_mdec rx_size rx_unz rx_unz rx_stream).
Notation rx_raw := (read_raw Z rx_mdec rx_size rx_unz rx_unz).
Definition rx_f : file := mkFile (lit "wf") (lit ".wf") false 0 1 Uncompressed.
Definition rx_s : file := mkFile (lit "wf") (lit ".wf") true 9 1 Uncompressed.
Lemma rx_apart : apart rx_f.
Proof. right. discriminate. Qed.
(** Two doubles without a zero byte; one float. *)
Theorem C25_refuted : ~ C25_full.
Proof.
  intros H. specialize (H Z rx_menc rx_mdec rx_size rx_id rx_id rx_unz rx_unz rx_stream rx_f (16, repeat 63 16) []). specialize (H _ _ rx_apart eq_refl (conj eq_refl (conj eq_refl eq_refl)) eq_refl). vm_compute in H. discriminate H.
Qed.
Print Assumptions C25_refuted.
Theorem C25_raw_refuted : ~ C25_raw_full.
Proof.
  intros H. specialize (H Z rx_menc rx_mdec rx_size rx_id rx_id (fun _ _ => None) (fun _ _ => None) rx_f (16, repeat 0 8 ++ zlib_magic)%list []). specialize (H _ _ rx_apart eq_refl (conj eq_refl (conj eq_refl eq_refl)) eq_refl). vm_compute in H. discriminate H.
Qed.
Print Assumptions C25_raw_refuted.
(** A sequence with different parameters: all are read with the last ones. *)
Definition C25_sequence_full : Prop := forall P menc mdec size deflate bzip inflate bunzip stream f, f_seq f = true -> f_inc f <> 0 -> f_comp f = Uncompressed ->
  forall l st, l <> [] -> Forall (sized menc mdec size) l -> Forall (fun d => plain (snd d) /\ not_stream (snd d)) l ->
  (forall i, (i <= length l)%nat -> int_ok (f_count f + Z.of_nat i * f_inc f)) ->
  exists st' g, write_list P menc deflate bzip l f st = Ok (g, st') /\ read_list P mdec size inflate bunzip stream (length l) f st' = Ok (g, l).
Lemma rx_plain n : 0 <= n -> plain (repeat 0 (8 + Z.to_nat n)) /\ not_stream (repeat 0 (8 + Z.to_nat n)).
Proof.
  intros Hn. assert (L : length (repeat 0 (8 + Z.to_nat n)) = (8 + Z.to_nat n)%nat) by apply repeat_length. assert (A : forall x, In x (repeat 0 (8 + Z.to_nat n)) -> x = 0) by apply repeat_spec.
  repeat split.
  - unfold zlen, byte. rewrite L. lia.
  - intros [a E]. assert (H : In 90 (repeat 0 (8 + Z.to_nat n))) by (rewrite E; apply in_or_app; right; vm_compute; tauto). apply A in H. discriminate H.
  - intros [a E]. assert (H : In 66 (repeat 0 (8 + Z.to_nat n))) by (rewrite E; apply in_or_app; right; vm_compute; tauto). apply A in H. discriminate H.
  - intros _. left. reflexivity.
  - intros E. apply (f_equal (@hd_error Z)) in E. discriminate E.
Qed.
Theorem C25_sequence_refuted : ~ C25_sequence_full.
Proof.
  intros H. destruct (H Z rx_menc rx_mdec rx_size rx_id rx_id rx_unz rx_unz rx_stream rx_s eq_refl ltac:(discriminate) eq_refl [(9, repeat 0 9); (8, repeat 0 8)] []) as (st & g & W & R).
  - discriminate.
  - repeat constructor.
  - constructor; [apply (rx_plain 1); lia|]. constructor; [apply (rx_plain 0); lia|constructor].
  - intros i Hi. unfold int_ok. cbn [length f_count f_inc rx_s] in *. lia.
  - vm_compute in W. injection W; intros E1 E2. rewrite <- E1 in R. vm_compute in R. discriminate R.
Qed.
Print Assumptions C25_sequence_refuted.
Example C25_ex_write : rx_write rx_s (8, repeat 7 8) [] = Ok (mkFile (lit "wf") (lit ".wf") true 10 1 Uncompressed, [(lit "wf.meta", [8]); (lit "wf_9.wf", repeat 7 8)]).
Proof. vm_compute. reflexivity. Qed.
Example C25_ex_read : (let* r := rx_write rx_f (9, [1; 2; 3; 0; 5; 6; 7; 8; 9]) [] in rx_read rx_f (snd r)) = Ok (rx_f, (9, [1; 2; 3; 0; 5; 6; 7; 8; 9])).
Proof. vm_compute. reflexivity. Qed.
Example C25_ex_short : (let* r := rx_write rx_f (4, [1; 2; 3; 4]) [] in rx_read rx_f (snd r)) = Throw.
Proof. vm_compute. reflexivity. Qed.
Example C25_ex_plain : plain (repeat 0 9) /\ not_stream (repeat 0 9) /\ sized rx_menc rx_mdec rx_size (9, repeat 0 9).
Proof. destruct (rx_plain 1) as [A B]; [lia|]. split; [exact A|]. split; [exact B|]. repeat split. Qed.
Example C25_ex_zlib : let f := mkFile (lit "wf") (lit ".wf") false 0 1 Zlib in (let* r := rx_write f (9, [1; 2; 3; 0; 5; 6; 7; 8; 9]) [] in rx_raw f (snd r)) = Ok (f, (9, [1; 2; 3; 0; 5; 6; 7; 8; 9])).
Proof. vm_compute. reflexivity. Qed.
Example C25_ex_sequence : (let* r := write_list Z rx_menc rx_id rx_id [(8, [1; 0; 0; 0; 0; 0; 0; 0]); (8, [2; 0; 0; 0; 0; 0; 0; 0])] rx_s [] in
  let* q := read_list Z rx_mdec rx_size rx_unz rx_unz rx_stream 2 rx_s (snd r) in Ok (snd q)) = Ok [(8, [1; 0; 0; 0; 0; 0; 0; 0]); (8, [2; 0; 0; 0; 0; 0; 0; 0])].
Proof. vm_compute. reflexivity. Qed.
Example C25_ex_element : (let* r := rx_write rx_s (9, [1; 2; 3; 0; 5; 6; 7; 8; 9]) [] in rx_raw (mkFile (lit "wf_9") (lit ".wf") false 0 1 Uncompressed) (snd r)) =
  Ok (mkFile (lit "wf_9") (lit ".wf") false 0 1 Uncompressed, (9, [1; 2; 3; 0; 5; 6; 7; 8; 9])).
Proof. vm_compute. reflexivity. Qed.
Example C25_ex_counter : rx_write (mkFile (lit "wf") (lit ".wf") true 2147483647 1 Uncompressed) (8, repeat 7 8) [] = UB.
Proof. vm_compute. reflexivity. Qed.
