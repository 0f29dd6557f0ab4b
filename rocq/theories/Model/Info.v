(** Model of the program qdinfo, src/qdng_info.cpp, which shows the header of a file, and of the program qds2qdi, src/simpleXml/qds2qdi.cpp, which translates
    an input file.

    Both are runs of main with what getopt(3) found (Model/Getopt.v).  [H]: the protocol buffers header; [dec]: ParseFromArray, what is parsed also if it fails;
    [show]: TextFormat::Print to the standard output; [parse]: yyparse from a file, with the exceptions of yyerror (Model/Simple.v, Model/SimpleLex.v).
    [room n]: new char[n] is possible.  Help texts and messages are left out. *)
From Coq Require Import Ascii String List NArith ZArith Lia Bool Arith.
From Verif Require Import Base Arrays Model.Getopt Model.Serial Model.FileWF.
Import ListNotations.
Open Scope Z_scope.

Inductive exit_ := Success | Failure.
(** UB: undefined, Throw: the program is terminated by an exception that is not caught *)
Section Info.
  Variable H : Type.
  Variable dec : list byte -> H * bool.
  Variable show : H -> str.
  Variable room : Z -> bool.
  (** qdng_info.cpp:60-67: header_size is an int, not initialised *)
  Definition info_header (b : list byte) : outcome H :=
    if zlen b <? 4 then UB else
    let n := to_int (unle (firstn 4 b)) in
    let t := skipn 4 b in
    if (n <? 0) || negb (room n) then Throw else
    (* bytes of the buffer that were not read are not initialised *)
    if zlen t <? n then UB else Ok (fst (dec (firstn (Z.to_nat n) t))).
  (** qdng_info.cpp:43-73; None: one of the exceptions that are caught.  sizeof(PbufHeader) is 16 *)
  Definition info_file (file : option (list byte)) : outcome (option str) :=
    match file with
    | None => Ok None
    | Some b =>
      if zlen b <? 16 then Ok None else
      let raw := firstn 16 b in
      match cstring raw with
      | None => UB
      | Some m =>
        if negb (bytes_eqb m magic) then Ok None else
        if negb (unle (skipn 12 raw) =? 1) then Ok None else
        let* h := info_header (skipn 16 b) in Ok (Some (show h))
      end
    end.
  (** qdng_info.cpp:27-84: what CheckOptions tells is not used; no name is the empty one, which cannot be opened *)
  Definition info (g : gopt) (files : str -> option (list byte)) : outcome (str * exit_) :=
    let g := fst (check_options g) in
    let* r := info_file (match non_option g 0 with Some n => files n | None => None end) in
    Ok (match r with Some t => (t, Success) | None => ([], Failure) end).
End Info.

Section Qds.
  Variable parse : str -> outcome str.
  Variable may_write : str -> bool.
  Definition disk := str -> option str.
  Definition put_file (s : disk) (n v : str) : disk := fun m => if str_eq_dec m n then Some v else s m.
  (** Simple2Xml.cpp:84-108: the output is emptied before the input is read; false: an exception that is caught *)
  Definition convert (s : disk) (i o : str) : outcome (disk * bool) :=
    match s i with
    | None => Ok (s, false)
    | Some _ =>
      if negb (may_write o) then Ok (s, false) else
      let s := put_file s o [] in
      match parse (match s i with Some f => f | None => [] end) with
      | Ok t => Ok (put_file s o t, true)
      | Throw => Ok (s, false)
      | UB => UB
      end
    end.
  (** qds2qdi.cpp:33-68: -h and a missing name end with success *)
  Definition qds (g : gopt) (s : disk) : outcome (disk * exit_) :=
    let g := fst (check_options g) in
    if present g "h"%char then Ok (s, Success) else
    match non_option g 0 with
    | None => Ok (s, Success)
    | Some n => let* r := convert s n (n ++ lit "qdi") in Ok (fst r, if snd r then Success else Failure)
    end.
End Qds.
