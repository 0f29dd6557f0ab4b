(** Model of the disk backed buffer for wave functions (src/qdlib/WFBuffer.cpp).

    [V]: wave functions, all of one class and size; [sz]: what size_bytes() returns for them; [reload]: the wave function
    obtained by serialising one, creating a new instance and deserialising (see Model/Serial.v); [fresh]: an instance that
    was never written.  Every call returns whether it succeeded ([false]: an exception was thrown) and the new buffer,
    because the buffer survives the exception.  The file names are unique, files are written and read without errors.
    The counters _ondisk and _locked are never read and left out. *)
From Coq Require Import List ZArith Lia Bool.
From Verif Require Import Base Arrays.
Import ListNotations.
Open Scope Z_scope.

Section Buffer.
  Variable V : Type.
  Variable sz : Z.
  Variable reload : V -> V.
  Variable fresh : V.

  (** WFBuffer.h:38-43 *)
  Record entry := mkE { e_psi : option V; e_lock : bool; e_disk : bool }.
  Definition no_entry : entry := mkE None false false.
  Record buf := mkB { b_ent : list entry; b_last : list Z; b_depth : Z; b_max : Z; b_files : Z -> option V }.
  Definition with_ent (b : buf) (l : list entry) : buf := mkB l (b_last b) (b_depth b) (b_max b) (b_files b).
  (** WFBuffer.h:20, WFBuffer.cpp:16-17 *)
  Definition b_new (max : Z) : buf := mkB [] [] 2 max (fun _ => None).

  Definition in_mem (e : entry) : bool := match e_psi e with Some _ => true | None => false end.
  (** WFBuffer.cpp:80-88 *)
  Definition bytes (b : buf) : Z := sz * zlen (filter in_mem (b_ent b)).
  (** WFBuffer.cpp:94-100 *)
  Definition valid (b : buf) : option V :=
    match filter in_mem (b_ent b) with [] => None | e :: _ => e_psi e end.

  (** WFBuffer.cpp:119-139: the last entry that is in memory and not locked, never the first one *)
  Definition movable (b : buf) (i : Z) : bool :=
    match rd (b_ent b) i with Ok e => in_mem e && negb (e_lock e) | _ => false end.
  Definition victim (b : buf) : option Z := find (movable b) (rev (upto 1 (zlen (b_ent b)))).
  Definition move (b : buf) : buf :=
    match victim b with
    | None => b
    | Some i =>
      match rd (b_ent b) i with
      | Ok e => mkB (upd (b_ent b) (Z.to_nat i) (mkE None (e_lock e) true)) (b_last b) (b_depth b) (b_max b)
                    (fun j => if j =? i then e_psi e else b_files b j)
      | _ => b
      end
    end.
  Definition move_if_full (b : buf) : buf := if b_max b <=? bytes b then move b else b.
  Definition checked (b : buf) : bool := negb (b_max b <? bytes b).

  (** std::vector::resize to a larger size *)
  Definition enlarge (b : buf) (n : Z) : buf := with_ent b (b_ent b ++ repeat no_entry (Z.to_nat (n - zlen (b_ent b)))).

  (** WFBuffer.cpp:191-217; the size check compares sizes that are equal here *)
  Definition b_init (b : buf) : bool * buf :=
    if (0 <? b_max b) && (b_max b <? sz) then (false, b)
    else match b_ent b with
         | [] => (true, with_ent b [mkE (Some fresh) false false])
         | _ => (true, b)
         end.

  Definition set_psi (b : buf) (pos : Z) (v : option V) : outcome buf :=
    let* e := rd (b_ent b) pos in
    let* l := wr (b_ent b) pos (mkE v (e_lock e) (e_disk e)) in Ok (with_ent b l).
  Definition set_lock (b : buf) (pos : Z) (k : bool) : outcome buf :=
    let* e := rd (b_ent b) pos in
    let* l := wr (b_ent b) pos (mkE (e_psi e) k (e_disk e)) in Ok (with_ent b l).

  (** WFBuffer.cpp:224-250 *)
  Definition b_set (b : buf) (pos : Z) (v : V) : outcome (bool * buf) :=
    let b := if zlen (b_ent b) <=? pos then enlarge b (pos + 1) else b in
    let b := move_if_full b in
    let* b := set_psi b pos (Some v) in
    let b := move_if_full b in
    Ok (checked b, b).

  (** WFBuffer.cpp:257-290: the wave function returned; [None]: a null pointer *)
  Definition b_get (b : buf) (pos : Z) : outcome (bool * option V * buf) :=
    if zlen (b_ent b) <=? pos then Ok (false, None, b)
    else
      let* b := set_lock b pos true in
      let last := if 0 <? b_depth b then pos :: b_last b else b_last b in
      let* b :=
        if b_depth b <? zlen last then
          let* b := set_lock b (List.last last 0) false in
          Ok (mkB (b_ent b) (removelast last) (b_depth b) (b_max b) (b_files b))
        else Ok (mkB (b_ent b) last (b_depth b) (b_max b) (b_files b)) in
      let* e := rd (b_ent b) pos in
      match e_psi e with
      | Some v => Ok (true, Some v, b)
      | None =>
        let b := move_if_full b in
        match valid b with
        | None => UB
        | Some _ =>
          let* e := rd (b_ent b) pos in
          let* v := (if e_disk e then match b_files b pos with Some v => Ok (reload v) | None => UB end else Ok fresh) in
          let* b := set_psi b pos (Some v) in
          let b := move_if_full b in
          if checked b then let* e := rd (b_ent b) pos in Ok (true, e_psi e, b)
          else Ok (false, None, b)
        end
      end.

  (** WFBuffer.cpp:346-360 *)
  Definition b_lock (b : buf) (pos : Z) : outcome (bool * buf) :=
    let* b := if b_max b <=? bytes b then
                let* e := rd (b_ent b) pos in
                let* b1 := set_lock b pos true in
                set_lock (move b1) pos (e_lock e)
              else Ok b in
    if checked b then let* b := set_lock b pos true in Ok (true, b) else Ok (false, b).
  (** WFBuffer.cpp:365-369 *)
  Definition b_unlock (b : buf) (pos : Z) : outcome buf := set_lock b pos false.
  (** WFBuffer.cpp:376-379 *)
  Definition b_auto (b : buf) (d : Z) : buf := mkB (b_ent b) (b_last b) d (b_max b) (b_files b).
  (** WFBuffer.cpp:162-186: when shrinking to nothing the unsigned loop counter never falls below the new size and the
      loop runs on behind the beginning of the vector *)
  Definition b_resize (b : buf) (n : Z) : outcome buf :=
    if n <? zlen (b_ent b) then
      if n =? 0 then UB
      else Ok (mkB (firstn (Z.to_nat n) (b_ent b)) [] (b_depth b) (b_max b) (b_files b))
    else Ok (enlarge b n).
  (** WFBuffer.cpp:384-395 *)
  Definition b_clear (b : buf) : buf := mkB [] [] (b_depth b) (b_max b) (b_files b).
  (** the client writes through the pointer to an entry *)
  Definition b_write (b : buf) (pos : Z) (v : V) : outcome buf :=
    let* e := rd (b_ent b) pos in
    match e_psi e with Some _ => set_psi b pos (Some v) | None => UB end.
End Buffer.
