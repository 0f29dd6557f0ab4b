(** Model of the scanner of the simplified input, src/simpleXml/simpleXml.ll, of the detection of the type of an input file,
    src/simpleXml/Simple2Xml.cpp:28-77, and of the loading of the input, src/qdng.cpp:102-139.

    The scanner is the one flex generates: the longest match, among equally long ones the first rule.  Characters without a rule are copied
    to the standard output.  Line numbers are left out.  Files are read without errors. *)
From Coq Require Import Ascii String List NArith ZArith Lia Bool Arith.
From Verif Require Import Base Model.Simple.
Import ListNotations.

(** * Character classes, simpleXml.ll:14-26 *)
Definition within (a b : ascii) (c : ascii) : bool := (N.leb (N_of_ascii a) (N_of_ascii c) && N.leb (N_of_ascii c) (N_of_ascii b))%bool.
Definition is_one (l : str) (c : ascii) : bool := existsb (Ascii.eqb c) l.
Definition alnum (c : ascii) : bool := (within "a" "z" c || within "A" "Z" c || within "0" "9" c)%bool.
Definition word_char (c : ascii) : bool := (alnum c || is_one (lit "_") c)%bool.
Definition fmt_char (c : ascii) : bool := (within "0" "9" c || is_one (lit ".fds") c)%bool.
Definition tok_char (c : ascii) : bool := (alnum c || is_one (lit ".-_:") c)%bool.
(** the degree sign is the two bytes C2, B0 of UTF-8 *)
Definition str_char (c : ascii) : bool := (alnum c || is_one (lit "-.,/_+:;#% ~<>^&") c || is_one ["009"; "194"; "176"]%char c)%bool.
Definition no_nl (c : ascii) : bool := negb (Ascii.eqb c "010").
Definition blank (c : ascii) : bool := (Ascii.eqb c " " || Ascii.eqb c "009" || Ascii.eqb c "010")%bool.

(** * The scanner, simpleXml.ll:11-34 *)
Inductive action := Tok (t : token) | Skip | Echo (c : ascii).
Fixpoint span (p : ascii -> bool) (s : str) : str * str :=
  match s with
  | [] => ([], [])
  | c :: t => if p c then let r := span p t in (c :: fst r, snd r) else ([], s)
  end.
(** the rule for an input that starts with [c], and the rest of the input *)
Definition lex1 (c : ascii) (s : str) : action * str :=
  if Ascii.eqb c "#" then
    match snd (span no_nl s) with [] => (Echo c, s) | r => (Tok Comment, r) end
  else if Ascii.eqb c "$" then
    match span word_char s with
    | ((_ :: _) as w, r) => (Tok (VarDef w), r)
    | ([], _) =>
        match s with
        | x :: t =>
            if Ascii.eqb x "(" then
              match span word_char t with
              | ((_ :: _) as w, y :: r) => if Ascii.eqb y ")" then (Tok (VarExp w), r) else (Echo c, s)
              | _ => (Echo c, s)
              end
            else (Echo c, s)
        | [] => (Echo c, s)
        end
    end
  else if Ascii.eqb c "%" then
    match span fmt_char s with ((_ :: _) as w, r) => (Tok (Fmt (c :: w)), r) | ([], _) => (Echo c, s) end
  else if tok_char c then
    let (w, r) := span tok_char s in (Tok (if str_eqb (c :: w) (lit "for") then For else TokId (c :: w)), r)
  else if Ascii.eqb c "034" then
    match span str_char s with
    | ((_ :: _) as w, y :: r) => if Ascii.eqb y "034" then (Tok (QString w), r) else (Tok Quote, s)
    | _ => (Tok Quote, s)
    end
  else if Ascii.eqb c "{" then (Tok BeginSec, s)
  else if Ascii.eqb c "}" then (Tok EndSec, s)
  else if Ascii.eqb c "=" then (Tok Equal, s)
  else if Ascii.eqb c "~" then (Tok Concat, s)
  else if blank c then (Skip, s)
  else (Echo c, s).
(** yylex until the end of the input: the tokens and what is copied to the standard output *)
Fixpoint scan_n (n : nat) (s : str) : list token * str :=
  match n, s with
  | S n, c :: t =>
      let (a, r) := lex1 c t in
      let (l, o) := scan_n n r in
      match a with Tok x => (x :: l, o) | Skip => (l, o) | Echo x => (l, x :: o) end
  | _, _ => ([], [])
  end.
Definition scan (s : str) : list token * str := scan_n (length s) s.

(** * CheckType, Simple2Xml.cpp:28-77 *)
Inductive file_type := XML | SIMPLE | UNKNOWN.
Definition chunk : nat := 1024.
Fixpoint starts (p s : str) : bool := match p, s with [] , _ => true | a :: p, b :: s => (Ascii.eqb a b && starts p s)%bool | _, _ => false end.
Fixpoint occurs (p s : str) : bool := (starts p s || match s with [] => false | _ :: t => occurs p t end)%bool.
(** the C string in a buffer: none without a zero byte *)
Fixpoint c_string (b : str) : option str :=
  match b with [] => None | c :: t => if Ascii.eqb c "000" then Some [] else option_map (cons c) (c_string t) end.
(** strstr; without a zero byte in the buffer it is taken to be fine as long as the text is found in the buffer *)
Definition strstr (b p : str) : outcome bool :=
  match c_string b with Some s => Ok (occurs p s) | None => if occurs p b then Ok true else UB end.
(** the file does not exist: None *)
Definition check_type (file : option str) : outcome file_type :=
  match file with
  | None => Throw
  | Some f =>
      let b := firstn chunk f in
      let b := (b ++ repeat "000"%char (chunk - length b))%list in
      match f with
      | [] => Throw
      | _ =>
          let* x1 := strstr b (lit "/>") in
          let* x2 := strstr b (lit "</") in
          if (x1 || x2)%bool then Ok XML else
          let* y := strstr b (lit "{") in
          let* _ := strstr b (lit "}") in
          Ok (if y then SIMPLE else UNKNOWN)
      end
  end.

(** * CheckInput, qdng.cpp:102-139: the text that is handed to the XML parser *)
(** QDNG_INPUT_BUFFER *)
Definition input_buffer : nat := N.to_nat 4096.
(** The file is read in pieces of the buffer size into memory which is not initialised; [junk]: the bytes of the allocated memory behind
    the file, in the end.  The loop ends after the first piece which is not complete. *)
Definition allocated (n : nat) : nat := (n / input_buffer + 1) * input_buffer.
Definition check_input (parse : str -> outcome str) (junk : str) (file : option str) : outcome str :=
  let* t := check_type file in
  match t, file with
  | XML, Some f => match c_string (f ++ firstn (allocated (length f) - length f) junk) with Some s => Ok s | None => UB end
  | SIMPLE, Some f => parse f
  | _, _ => Throw
  end.
