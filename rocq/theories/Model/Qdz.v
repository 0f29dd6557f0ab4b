(** Model of the compression program qdz (src/qdz.cpp) with the command line of Model/Getopt.v and the file names of Model/RawFile.v.

    [V]: wave functions, [R]: reduced ones; [reduce], [restore]: WaveFunction::Reduce and Restore (Model/Reduce.v).  [F]: exact numbers in
    place of double, [scan]: sscanf with "%lf", None if there is no number.  Files are what can be read from them; a file that cannot be
    read gives an exception (Model/FileWF.v, Model/RawFile.v have the formats and the cases that are undefined), all files of a series
    have wave functions of one kind.  [open]: whether a file can be opened for writing; writing itself does not fail. *)
From Coq Require Import Ascii String List NArith ZArith Lia Bool Arith.
From Verif Require Import Base Arrays Algebra Ordered Model.Params Model.Getopt Model.RawFile.
Import ListNotations.
Open Scope Z_scope.

Section Qdz.
  Variable F : ofld.
  Variables V R : Type.
  Variable reduce : F -> V -> R.
  Variable restore : R -> V.
  Variable scan : str -> option F.
  Variable open : str -> bool.

  (** a data file: a wave function as it is, a reduced one packed by a method, or nothing that can be read *)
  Inductive content := Plain (v : V) | Packed (m : comp) (r : R) | Bad.
  Definition disk := list (str * content).
  (** qdz.cpp:24-43; Getopt.cpp:21-24 *)
  Definition cmdline : gopt :=
    let g := set_help new_getopt "d"%char (lit "Decompress files rather than compression") in
    let g := set_help g "s"%char (lit "Treat a whole series instead of single files") in
    let g := set_help_par g "t"%char (lit "compression tolerance") false (lit "Cut off tolerance for compression") (lit "1e-5") in
    let g := set_help_par g "l"%char (lit "compression level") false (lit "compression level (0=no compression, 9=best & slowest)") (lit "4") in
    set_help_par g "m"%char (lit "compression method") false (lit "compression method (z=zlib [default], j=bzip2)") (lit "m").

  (** what FileWF does with a wave function: nothing, or reduce it with a tolerance and pack it (FileWF.cpp:280-297) *)
  Record setting := mkSet { s_tol : F; s_level : Z; s_method : comp }.
  (** FileWF.cpp:78-155, 165-228, FileSingle.h:1469-1472: one wave function, then the counter moves on *)
  Definition fetch (f : file) (st : disk) : outcome (file * V) :=
    match mget scmp st (data_name f) with
    | Some (Plain v) => let* g := next f in Ok (g, v)
    | Some (Packed _ r) => let* g := next f in Ok (g, restore r)
    | Some Bad | None => Throw
    end.
  (** FileWF.cpp:280-297, FileSingle.h:836-850, 893-932, 949-968, 985-995: the format is the stream, which has zlib only; the level is not
      used.  A file that cannot be opened: the stream, still NULL, is closed (line 961) *)
  Definition deposit (o : option setting) (f : file) (v : V) (st : disk) : outcome (file * disk) :=
    if negb (open (data_name f)) then UB else
    let c := match o with None => Plain v | Some s => Packed (match s_method s with Uncompressed => Uncompressed | _ => Zlib end) (reduce (s_tol s) v) end in
    let* g := next f in Ok (g, mset scmp st (data_name f) c).
  (** wio.Counter(counter) *)
  Definition at_ (f : file) (c : Z) : file := mkFile (f_name f) (f_suffix f) (f_seq f) c (f_inc f) (f_comp f).
  (** one file: read it and write it under the same name; qdz.cpp:60-75, 116-131 *)
  Definition turn (o : option setting) (f : file) (st : disk) : outcome (file * disk) :=
    let* r := fetch f st in deposit o (at_ (fst r) (f_count f)) (snd r) st.
  (** qdz.cpp:78-92, 134-145: until an exception; [None]: out of fuel *)
  Fixpoint rest (n : nat) (o : option setting) (f : file) (st : disk) : option (outcome disk) :=
    match n with
    | O => None
    | S n => match turn o f st with
             | Ok (g, st) => rest n o g st
             | Throw => Some (Ok st)
             | UB => Some UB
             end
    end.
  (** qdz.cpp:51-99, 109-150; FileSingle.h:416-422 *)
  Definition convert (n : nat) (o : option setting) (fname : str) (series : bool) (st : disk) : option (outcome disk) :=
    let f := mkFile fname (lit ".wf") series 0 1 Uncompressed in
    match turn o f st with
    | Ok (g, st) => if series then rest n o g st else Some (Ok st)
    | Throw => Some Throw
    | UB => Some UB
    end.
  (** qdz.cpp:193-213: the options; a number that is not there is read uninitialised.  abs as std::abs(double) *)
  Definition settings (g : gopt) : outcome setting :=
    let '(g, t) := get_string g "t"%char in
    match scan t with
    | None => UB
    | Some tol =>
      match ocmp c1 tol with
      | inleft (left _) => Throw
      | _ =>
        let '(g, l) := get_string g "l"%char in
        let* l := scan_int l in
        match l with
        | None => UB
        | Some level =>
          if (level <? 1) || (9 <? level) then Throw else
          let '(g, m) := get_string g "m"%char in
          if str_eqb m (lit "z") then Ok (mkSet (oabs tol) level Zlib)
          else if str_eqb m (lit "j") then Ok (mkSet (oabs tol) level Bzip) else Throw
        end
      end
    end.
  (** qdz.cpp:158-222 with what getopt(3) made of the command line: the files and the exit status (true: 0); [None]: out of fuel *)
  Definition qdz (n : nat) (opts : list (ascii * str)) (argv : list str) (oi : nat) (st : disk) : option (outcome (disk * bool)) :=
    let g := fst (check_options (parse_args cmdline opts argv oi)) in
    if present g "h"%char then Some (Ok (st, true)) else
    match non_option g 0 with
    | None => Some (Ok (st, true))
    | Some fname =>
      let series := present g "s"%char in
      match (if present g "d"%char then Ok None else let* s := settings g in Ok (Some s)) with
      | Ok o =>
        match convert n o fname series st with
        | None => None
        | Some (Ok st) => Some (Ok (st, true))
        | Some Throw => Some (Ok (st, false))
        | Some UB => Some UB
        end
      | Throw => Some (Ok (st, false))
      | UB => Some UB
      end
    end.
End Qdz.
Arguments Plain {V R}. Arguments Packed {V R}. Arguments Bad {V R}. Arguments mkSet {F}. Arguments s_tol {F}. Arguments s_level {F}. Arguments s_method {F}.
Arguments fetch {V R}. Arguments deposit {F V R}. Arguments turn {F V R}. Arguments rest {F V R}. Arguments convert {F V R}. Arguments settings {F}. Arguments qdz {F V R}.
