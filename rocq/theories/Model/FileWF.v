(** Model of the stream format of wave functions: src/qdlib/FileWF.cpp and the stream part of src/tools/FileSingle.h.

    The stream is given by the user (ofstreams that FileSingle opens itself are closed and opened again by the same calls); no
    compression, one process, no I/O errors.  [enc], [dec]: SerializeToOstream and ParseFromArray of the protocol buffers header, of
    which the class (None for WFMultistate), the flag more_files_follow and the payload size are kept.  [D]: wave functions that are
    not multi state ones, [cls], [ser], [des]: their class, Serialize and DeSerialize, [blank]: a new instance. *)
From Coq Require Import Ascii String List NArith ZArith Lia Bool Arith.
From Verif Require Import Base Arrays Model.Serial.
Import ListNotations.
Open Scope Z_scope.

Section FileWF.
  Variables D C : Type.
  Variable cls : D -> C.
  Variable ser : D -> list byte.
  Variable des : C -> list byte -> outcome (D * list byte).
  Variable blank : C -> D.
  Record header := mkH { h_more : bool; h_class : option C; h_size : Z }.
  Variable enc : header -> list byte.
  Variable dec : list byte -> option header.
  Inductive wf := Single (d : D) | Multi (l : list wf).
  (** FileSingle.h:53-54, 141-147 *)
  Definition magic : list byte := [81; 68; 110; 103; 80; 114; 116; 111; 66; 117; 102].
  Definition intro : list byte := magic ++ [0] ++ le 4 1.

  (** * Writing *)
  Record out := mkOut { o_bytes : list byte; o_intro : bool }.
  (** FileSingle.h:820-859, 949-999, 1465-1495: one header with its payload *)
  Definition put (s : out) (h : header) (payload : list byte) : out :=
    let bytes := (o_bytes s ++ (if o_intro s then [] else intro))%list in
    mkOut (bytes ++ le 4 (zlen (enc h)) ++ enc h ++ payload) (h_more h).
  (** FileWF.cpp:236-298 *)
  Fixpoint write (w : wf) (more : bool) (s : out) : outcome out :=
    match w with
    | Single d => Ok (put s (mkH more (Some (cls d)) (zlen (ser d))) (ser d))
    | Multi l =>
        if zlen l <? 1 then Throw else
        (fix go l s := match l with
          | [] => Ok s
          | x :: t => let* s := write x (match t with [] => more | _ => true end) s in go t s
          end) l (put s (mkH true None 4) (le 4 (zlen l)))
    end.

  (** * Reading *)
  (** the stream, whether the intro has been read, and the last header (MetaData) *)
  Record ins := mkIn { i_bytes : list byte; i_intro : bool; i_meta : header }.
  (** a C string in memory: None without a terminating zero *)
  Fixpoint cstring (l : list byte) : option (list byte) :=
    match l with [] => None | b :: t => if b =? 0 then Some [] else option_map (cons b) (cstring t) end.
  Definition bytes_eqb (a b : list byte) : bool := if list_eq_dec Z.eq_dec a b then true else false.
  (** FileSingle.h:1050-1069: what is not overwritten by the read is a valid intro *)
  Definition check_intro (s : ins) : outcome ins :=
    if i_intro s then Ok s else
    let raw := (firstn 16 (i_bytes s) ++ skipn (length (i_bytes s)) intro)%list in
    match cstring raw with
    | None => UB
    | Some m => if negb (bytes_eqb m magic) then Throw else if negb (unle (skipn 12 raw) =? 1) then Throw else Ok (mkIn (skipn 16 (i_bytes s)) true (i_meta s))
    end.
  (** FileSingle.h:1074-1095; a header shorter than announced is parsed from uninitialised memory *)
  Definition read_meta (s : ins) : outcome ins :=
    let* s := check_intro s in
    let n := unle (firstn 4 (i_bytes s)) in
    let t := skipn 4 (i_bytes s) in
    if zlen t <? n then UB else
    match dec (firstn (Z.to_nat n) t) with
    | None => Throw
    | Some h => Ok (mkIn (skipn (Z.to_nat n) t) true h)
    end.
  (** FileSingle.h:1185-1195 *)
  Definition closing (s : ins) : ins := mkIn (i_bytes s) (h_more (i_meta s)) (i_meta s).
  (** FileSingle.h:1145-1196 *)
  Definition read_single (c : C) (d : D) (s : ins) : outcome (D * ins) :=
    if 0 <? h_size (i_meta s) then
      let* r := des c (i_bytes s) in
      Ok (fst r, closing (mkIn (snd r) (i_intro s) (i_meta s)))
    else Ok (d, closing s).
  (** the same for WFMultistate, WFMultistate.cpp:288-293 *)
  Definition read_multi (s : ins) : ins :=
    closing (if 0 <? h_size (i_meta s) then mkIn (skipn 4 (i_bytes s)) (i_intro s) (i_meta s) else s).
  (** FileWF.cpp:165-228: into a wave function with the classes and the number of states given; the states that are there are taken from
      the table of states without a check *)
  Fixpoint read (w : wf) (s : ins) : outcome (wf * ins) :=
    match w with
    | Single d =>
        let* s := read_meta s in
        let* r := read_single (cls d) d s in
        Ok (Single (fst r), snd r)
    | Multi l =>
        if zlen l <? 1 then Throw else
        let* s := read_meta s in
        let s := read_multi s in
        let* r := (fix go l s := if h_more (i_meta s) then
            match l with
            | [] => UB
            | x :: t => let* r := read x s in let* r2 := go t (snd r) in Ok (fst r :: fst r2, snd r2)
            end else Ok (l, s)) l s in
        Ok (Multi (fst r), snd r)
    end.
  (** the number of strides of a wave function, WFMultistate.cpp:121-126 *)
  Definition strides (w : wf) : Z := match w with Single _ => 1 | Multi l => zlen l end.
  (** WFMultistate.cpp:45-65 with QD_MAX_STATES: adding one more state *)
  Definition ms_push (l : list wf) (x : wf) : outcome (list wf) := if 64 <=? zlen l + 1 then Throw else if 1 <? strides x then Throw else Ok (l ++ [x])%list.
  (** FileWF.cpp:78-155; None: not enough fuel *)
  Fixpoint load (n : nat) (s : ins) : outcome (option (wf * ins)) :=
    match n with
    | O => Ok None
    | S n =>
        let* s := read_meta s in
        match h_class (i_meta s) with
        | Some c => let* r := read_single c (blank c) s in Ok (Some (Single (fst r), snd r))
        | None =>
            let s := read_multi s in
            let* r := (fix loop m acc s := match m with
              | O => Ok None
              | S m => if h_more (i_meta s) then
                  let* r := load n s in
                  match r with
                  | None => Ok None
                  | Some (x, s) => let* acc := ms_push acc x in loop m acc s
                  end else Ok (Some (acc, s))
              end) n [] s in
            match r with
            | None => Ok None
            | Some (l, s) => if zlen l <? 1 then Throw else Ok (Some (Multi l, s))
            end
        end
    end.
End FileWF.
