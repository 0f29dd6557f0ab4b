(** Model of src/tools/helpers.cpp and src/tools/ParamContainer.cpp. *)
From Coq Require Import Ascii String List NArith ZArith Lia Bool Arith.
From Verif Require Import Base.
Import ListNotations.

(** The characters given to find_first_of etc. in helpers.cpp:13-28: blank and tab. *)
Definition is_blank (c : ascii) : bool := Ascii.eqb c " "%char || Ascii.eqb c tab.

(** std::string::find_first_of / find_first_not_of (p = membership test); None is npos. *)
Fixpoint find_first (p : ascii -> bool) (s : str) : option nat :=
  match s with
  | [] => None
  | c :: t => if p c then Some 0 else option_map S (find_first p t)
  end.

(** std::string::find_last_of / find_last_not_of; None is npos. *)
Fixpoint find_last (p : ascii -> bool) (s : str) : option nat :=
  match s with
  | [] => None
  | c :: t => match find_last p t with
              | Some n => Some (S n)
              | None => if p c then Some 0 else None
              end
  end.

(** helpers.cpp:13-19, the left part of trim. *)
Definition trim_left (s : str) : str :=
  match find_first is_blank s with
  | Some 0 => match find_first (fun c => negb (is_blank c)) s with
              | Some p => skipn p s
              | None => s
              end
  | _ => s
  end.

(** helpers.cpp:21-31, the right part of trim.  For an empty string size()-1 equals npos, so the test in line 26
    succeeds, but find_last_not_of then yields npos and nothing is erased. *)
Definition trim_right (s : str) : str :=
  match find_last is_blank s with
  | Some 0 => []
  | Some p => if p =? length s - 1
              then match find_last (fun c => negb (is_blank c)) s with
                   | Some q => firstn (q + 1) s
                   | None => s
                   end
              else s
  | None => s
  end.

(** helpers.cpp:9-34 *)
Definition trim (s : str) : str := trim_right (trim_left s).

(** helpers.cpp:36-50: cut at the first comma until there is none.  The recursion is structural on the remaining
    buffer, which the loop shortens by the same characters. *)
Fixpoint split_go (cur : str) (s : str) : list str :=
  match s with
  | [] => [cur]
  | c :: t => if Ascii.eqb c ","%char then cur :: split_go [] t else split_go (cur ++ [c]) t
  end.
Definition split (s : str) : list str := split_go [] s.

(** ParamContainer.h:37 *)
Inductive dtype := t_undef | t_int | t_uint | t_size_t | t_double | t_bool | t_string.

(** ParamContainer.cpp:19-39 *)
Definition type2string (t : dtype) : str :=
  match t with
  | t_undef => []
  | t_int => lit "int"
  | t_uint => lit "uint"
  | t_size_t => lit "sizet"
  | t_double => lit "double"
  | t_bool => lit "bool"
  | t_string => lit "string"
  end.

(** ParamContainer.cpp:44-62; None is the exception EParamProblem. *)
Definition string2type (s : str) : option dtype :=
  if str_eqb s [] then Some t_undef
  else if str_eqb s (lit "int") then Some t_int
  else if str_eqb s (lit "uint") then Some t_uint
  else if str_eqb s (lit "sizet") then Some t_size_t
  else if str_eqb s (lit "double") then Some t_double
  else if str_eqb s (lit "bool") then Some t_bool
  else if str_eqb s (lit "string") then Some t_string
  else None.

(** The two std::map members, ParamContainer.h:40-41 (the read position _it is not modelled: it is reset before use
    by Write). *)
Record container := mkC { params : list (str * str); types : list (str * dtype) }.
Definition empty_c : container := mkC [] [].

(** ParamContainer.cpp:508-513 *)
Definition set_value (c : container) (k v : str) (t : dtype) : container :=
  mkC (mset scmp (params c) k v) (mset scmp (types c) k t).

(** ParamContainer.cpp:130-140: value and success flag as an option *)
Definition get_value (c : container) (k : str) : option str := mget scmp (params c) k.

(** ParamContainer.cpp:420-426 *)
Definition is_present (c : container) (k : str) : bool :=
  match mget scmp (params c) k with Some _ => true | None => false end.

(** ParamContainer.cpp:466-472 *)
Definition get_type (c : container) (k : str) : dtype :=
  match mget scmp (types c) k with Some t => t | None => t_undef end.

(** ParamContainer.cpp:524-532: the stream extraction reads the printed number back as one word. *)
Definition set_int (c : container) (k : str) (z : Z) : container := set_value c k (dec_print_Z z) t_int.

(** ParamContainer.cpp:603-609 *)
Definition set_bool (c : container) (k : str) (b : bool) : container :=
  set_value c k (if b then lit "true" else lit "false") t_bool.

(** isspace in the C locale: blank, \t \n \v \f \r *)
Definition is_space (c : ascii) : bool := let n := N_of_ascii c in ((n =? 32) || ((9 <=? n) && (n <=? 13)))%N.

Fixpoint skip_space (s : str) : str :=
  match s with c :: t => if is_space c then skip_space t else s | [] => [] end.

(** leading digits of a string *)
Fixpoint span_digits (s : str) : str :=
  match s with c :: t => if is_digit c then c :: span_digits t else [] | [] => [] end.

Definition int_min : Z := (-2147483648)%Z.
Definition int_max : Z := 2147483647%Z.

(** sscanf(s, "%d", &value): None when there is no number (value untouched), UB when the number does not fit in
    an int (C11 7.21.6.2p10). *)
Definition scan_int (s : str) : outcome (option Z) :=
  let s := skip_space s in
  let '(neg, s) := match s with
                   | c :: t => if Ascii.eqb c "-"%char then (true, t)
                               else if Ascii.eqb c "+"%char then (false, t) else (false, s)
                   | [] => (false, [])
                   end in
  match span_digits s with
  | [] => Ok None
  | ds => let v := Z.of_N (dec_val ds) in
          let v := if neg : bool then (- v)%Z else v in
          if ((int_min <=? v) && (v <=? int_max))%Z then Ok (Some v) else UB
  end.

(** ParamContainer.cpp:149-159: returns (success flag, new content of the target variable); [old] is the previous
    content of the target. *)
Definition get_int (c : container) (k : str) (old : Z) : outcome (bool * Z) :=
  match get_value c k with
  | Some s => let* r := scan_int s in
              Ok (true, match r with Some z => z | None => old end)
  | None => Ok (false, 0%Z)
  end.

(** ParamContainer.cpp:245-257 *)
Definition get_bool (c : container) (k : str) (def : bool) : bool * bool :=
  match get_value c k with
  | Some s => (true, if str_eqb s (lit "true") then true else if str_eqb s (lit "false") then false else def)
  | None => (false, def)
  end.

(** ParamContainer.cpp:629-639: numbers separated by commas, none after the last. *)
Fixpoint join_ints (l : list Z) : str :=
  match l with
  | [] => []
  | [z] => dec_print_Z z
  | z :: t => dec_print_Z z ++ ","%char :: join_ints t
  end.
Definition set_array_int (c : container) (k : str) (l : list Z) : container := set_value c k (join_ints l) t_int.

(** ParamContainer.cpp:309-313: each part is scanned into an uninitialised variable; pushing it without a
    successful scan reads an indeterminate value. *)
Fixpoint scan_parts (l : list str) : outcome (list Z) :=
  match l with
  | [] => Ok []
  | s :: t => let* r := scan_int s in
              match r with
              | Some z => let* zs := scan_parts t in Ok (z :: zs)
              | None => UB
              end
  end.

(** ParamContainer.cpp:300-316, called with an empty vector *)
Definition get_array_int (c : container) (k : str) : outcome (bool * list Z) :=
  match get_value c k with
  | None => Ok (false, [])
  | Some s => let* zs := scan_parts (split s) in Ok (true, zs)
  end.

(** ParamContainer.cpp:659-670 *)
Fixpoint join_bools (l : list bool) : str :=
  match l with
  | [] => []
  | [b] => if b then lit "true" else lit "false"
  | b :: t => (if b then lit "true" else lit "false") ++ ","%char :: join_bools t
  end.
Definition set_array_bool (c : container) (k : str) (l : list bool) : container := set_value c k (join_bools l) t_bool.

(** ParamContainer.cpp:364-381 *)
Definition get_array_bool (c : container) (k : str) : bool * list bool :=
  match get_value c k with
  | None => (false, [])
  | Some s => (true, map (fun p => str_eqb p (lit "true")) (split s))
  end.

(** ParamContainer.cpp:477-481 *)
Definition clear_c (c : container) : container := mkC [] [].

(** ParamContainer.cpp:676-684 *)
Definition assign_c (c other : container) : container := mkC (params other) (types other).

(** one of the two loops of ParamContainer.cpp:696-706 *)
Definition merge_map {V} (m add : list (str * V)) : list (str * V) :=
  fold_left (fun m e => mset scmp m (fst e) (snd e)) add m.

(** ParamContainer.cpp:691-711 *)
Definition add_c (c other : container) : container :=
  mkC (merge_map (params c) (params other)) (merge_map (types c) (types other)).

(** State of an std::istream: unread characters, eofbit, failbit. *)
Record istream := mkIS { rest : str; eofb : bool; failb : bool }.

(** MAX_LINE_LENGTH, ParamContainer.h:14 *)
Definition max_line_length : N := 2048.

(** istream::getline(line, n) reading at most [room] further characters: checks, in this order, end of file,
    delimiter, buffer full. *)
Fixpoint getline_scan (room : N) (s : str) (acc : str) : str * istream :=
  match s with
  | [] => (rev acc, mkIS [] true (match acc with [] => true | _ => false end))
  | c :: t => if Ascii.eqb c nl then (rev acc, mkIS t false false)
              else if (room =? 0)%N then (rev acc, mkIS s false true)
              else getline_scan (room - 1) t (c :: acc)
  end.

(** istream::getline: when the stream is not good, nothing is read, failbit is set and the buffer becomes empty. *)
Definition getline (st : istream) : str * istream :=
  if eofb st || failb st then ([], mkIS (rest st) (eofb st) true)
  else getline_scan (max_line_length - 1) (rest st) [].

(** s.assign(const char* ): up to the first NUL character. *)
Fixpoint cstr (s : str) : str :=
  match s with [] => [] | c :: t => if Ascii.eqb c nul then [] else c :: cstr t end.

(** ParamContainer.cpp:757-773: type tag extraction from the trimmed key.  None: exception of String2Type. *)
Definition parse_key (key : str) : option (str * dtype) :=
  match find_char "["%char key with
  | Some tpos1 =>
    let stype := match find_char "]"%char key with
                 | Some _ => substr key (tpos1 + 1) tpos1
                 | None => skipn (tpos1 + 1) key
                 end in
    match string2type stype with
    | Some t => Some (trim (firstn tpos1 key), t)
    | None => None
    end
  | None => Some (key, t_undef)
  end.

(** ParamContainer.cpp:747-781: one line *)
Definition parse_line (c : container) (s : str) : outcome container :=
  match find_char "="%char s with
  | None => Ok c
  | Some pos =>
    let key := trim (firstn pos s) in
    let val := trim (skipn (pos + 1) s) in
    match parse_key key with
    | None => Throw
    | Some (key, t) =>
      match key with
      | [] => Ok c
      | ch :: _ => if Ascii.eqb ch "#"%char then Ok c else Ok (set_value c key val t)
      end
    end
  end.

(** ParamContainer.cpp:738-782: the reading loop.  [None]: fuel exhausted. *)
Fixpoint parse_loop (fuel : nat) (eof : option str) (st : istream) (c : container)
  : option (outcome (container * istream)) :=
  match fuel with
  | O => None
  | S f =>
    if eofb st then Some (Ok (c, st))
    else
      let '(line, st') := getline st in
      let s := cstr line in
      if match eof with Some e => str_eqb s e | None => false end then Some (Ok (c, st'))
      else match parse_line c s with
           | Ok c' => parse_loop f eof st' c'
           | Throw => Some Throw
           | UB => Some UB
           end
  end.

(** ParamContainer.cpp:731-783 *)
Definition parse (fuel : nat) (c : container) (eof : option str) (st : istream)
  : option (outcome (container * istream)) :=
  parse_loop fuel eof st (clear_c c).

(** ParamContainer.cpp:716-722 and 785-796: a fresh stream over a byte sequence *)
Definition stream_of (s : str) : istream := mkIS s false false.

(** ParamContainer.cpp:811-832: one entry *)
Definition write_entry (with_types : bool) (c : container) (e : str * str) : str :=
  let '(key, value) := e in
  match with_types, get_type c key with
  | false, _ | true, t_undef => key ++ lit " = " ++ value ++ [nl]
  | true, t => key ++ lit "[" ++ type2string t ++ lit "] = " ++ value ++ [nl]
  end.

(** ParamContainer.cpp:811-832 *)
Definition write_c (with_types : bool) (c : container) : str :=
  concat (map (write_entry with_types c) (params c)).
