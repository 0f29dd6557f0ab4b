(** Model of the raw binary files of src/tools/FileSingle.h: a data file and a file with the parameters (.meta).

    Files live in a map from names to bytes; no I/O errors, one process.  [menc], [mdec]: writing and reading the parameter file (the
    subject of C04), [size]: Init with the parameters and sizeBytes(), [deflate], [inflate] and [bzip], [bunzip]: libz and libbz2;
    inflate gets what is in the file and the size of the output buffer.  [stream]: reading the file in the stream format (C24). *)
From Coq Require Import Ascii String List NArith ZArith Lia Bool Arith.
From Verif Require Import Base Arrays Model.Serial Model.FileWF.
Import ListNotations.
Open Scope Z_scope.

Inductive comp := Uncompressed | Zlib | Bzip.
Definition store := list (str * list byte).
(** FileSingle.h:23-27: with the terminating zero *)
Definition zlib_magic : list byte := [90; 76; 73; 66; 67; 79; 77; 0].
Definition bzip_magic : list byte := [66; 90; 73; 80; 67; 79; 77; 0].
Record file := mkFile { f_name : str; f_suffix : str; f_seq : bool; f_count : Z; f_inc : Z; f_comp : comp }.

Section RawFile.
  Variable P : Type.
  Variable menc : P -> list byte.
  Variable mdec : list byte -> outcome P.
  Variable size : P -> outcome Z.
  Variables deflate bzip : list byte -> list byte.
  Variables inflate bunzip : list byte -> Z -> option (list byte).
  Variable stream : list byte -> outcome (P * list byte).

  (** FileSingle.h:1387-1410 *)
  Definition meta_name (f : file) : str := (f_name f ++ lit ".meta")%list.
  Definition data_name (f : file) : str := (f_name f ++ (if f_seq f then lit "_" ++ dec_print_Z (f_count f) else []) ++ f_suffix f)%list.
  (** _counter += _increment of ints *)
  Definition next (f : file) : outcome file :=
    if f_seq f then let c := f_count f + f_inc f in
      if (c <? -2147483648) || (2147483647 <? c) then UB else Ok (mkFile (f_name f) (f_suffix f) (f_seq f) c (f_inc f) (f_comp f))
    else Ok f.
  (** FileSingle.h:588-620, 660-695, 865-888, 1320-1366: the buffer for compressed data has the size of the data *)
  Definition pack (f : file) (b : list byte) : outcome (list byte) :=
    match f_comp f with
    | Uncompressed => Ok b
    | Zlib => if zlen b <? zlen (deflate b) then Throw else Ok (deflate b ++ zlib_magic)%list
    | Bzip => if zlen b <? zlen (bzip b) then Throw else Ok (bzip b ++ bzip_magic)%list
    end.
  (** FileSingle.h:1306-1314, 1372-1379 *)
  Definition write_raw (f : file) (d : P * list byte) (st : store) : outcome (file * store) :=
    let st := mset scmp st (meta_name f) (menc (fst d)) in
    let* b := pack f (snd d) in
    let* f' := next f in
    Ok (f', mset scmp st (data_name f) b).
  (** FileSingle.h:770-802: in a shorter file the position is beyond the end *)
  Definition detect (b : list byte) : outcome comp :=
    if zlen b <? 8 then Throw else
    let last := skipn (length b - 8) b in
    Ok (if bytes_eqb last zlib_magic then Zlib else if bytes_eqb last bzip_magic then Bzip else Uncompressed).
  (** FileSingle.h:1243-1286 *)
  Definition read_data (n : Z) (c : comp) (b : list byte) : outcome (list byte) :=
    if n <=? 0 then Throw else
    match c with
    | Uncompressed => if zlen b <? n then Throw else Ok (firstn (Z.to_nat n) b)
    | Zlib => match inflate b n with Some x => Ok x | None => Throw end
    | Bzip => match bunzip b n with Some x => Ok x | None => Throw end
    end.
  (** text before the last '_' *)
  Definition strip_index (s : str) : option str :=
    (fix go s := match s with
     | [] => None
     | c :: t => match go t with Some r => Some (c :: r) | None => if Ascii.eqb c "_" then Some [] else None end
     end) s.
  (** FileSingle.h:1217-1235: the parameters of an element of a sequence *)
  Definition read_meta_raw (f : file) (st : store) : outcome P :=
    match mget scmp st (meta_name f) with
    | Some b => mdec b
    | None =>
        match strip_index (meta_name f) with
        | Some n => match mget scmp st (n ++ lit ".meta")%list with Some b => mdec b | None => Throw end
        | None => Throw
        end
    end.
  (** FileSingle.h:1292-1300 *)
  Definition read_raw (f : file) (st : store) : outcome (file * (P * list byte)) :=
    let* p := read_meta_raw f st in
    let* n := size p in
    match mget scmp st (data_name f) with
    | None => Throw
    | Some b =>
        let* c := detect b in
        let* d := read_data n c b in
        let* f' := next f in
        Ok (f', (p, d))
    end.
  (** FileSingle.h:1050-1069, 1112-1140: the first 16 bytes, as far as there are so many, over a valid intro; None: the text does not end
      within them *)
  Definition looks_stream (b : list byte) : option bool :=
    let raw := (firstn 16 b ++ skipn (length b) intro)%list in
    match cstring raw with None => None | Some m => Some (bytes_eqb m magic && (unle (skipn 12 raw) =? 1)) end.
  (** FileSingle.h:1546-1569: the format is detected whatever was set, as !autodetect is false *)
  Definition read_file (f : file) (st : store) : outcome (file * (P * list byte)) :=
    match mget scmp st (data_name f) with
    | None => Throw
    | Some b =>
        match looks_stream b with
        | None => UB
        | Some true => let* d := stream b in let* f' := next f in Ok (f', d)
        | Some false => read_raw f st
        end
    end.
  (** sequences *)
  Definition write_list (l : list (P * list byte)) (f : file) (st : store) : outcome (file * store) := foldM (fun s d => write_raw (fst s) d (snd s)) l (f, st).
  Fixpoint read_list (n : nat) (f : file) (st : store) : outcome (file * list (P * list byte)) :=
    match n with
    | O => Ok (f, [])
    | S n => let* r := read_file f st in let* r2 := read_list n (fst r) st in Ok (fst r2, snd r :: snd r2)
    end.
End RawFile.
