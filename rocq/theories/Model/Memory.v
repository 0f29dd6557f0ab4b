(** Model of src/tools/Memory.cpp: the block allocator and the size parser. *)
From Coq Require Import Ascii String List NArith ZArith Lia Bool Arith.
From Verif Require Import Base.
Import ListNotations.

(** size_t arithmetic *)
Definition two64 : N := 18446744073709551616.
Definition wrap (n : N) : N := n mod two64.
Definition sub64 (a b : N) : N := (a + two64 - b) mod two64.   (* for a, b < 2^64 *)

(** Memory.h:21-25: QDMEM_BLOCK_SIZE depends on whether NDEBUG is defined *)
Definition block_size (ndebug : bool) : N := if ndebug then 4096 else 1.

(** Memory.h:46-54: one slot.  Pointers are numbers. *)
Record slot := mkSlot { sp : N; ssize : N; sfree : bool }.

(** Memory.h:60-67.  [slots] models the map slot_map (keyed by pointer), [freem] the multimap free_map from block
    count to slot, the slot being identified by its pointer. _MaxUsed is statistics only and left out. *)
Record mem := mkMem { slots : list slot; freem : list (N * N); used : N; maxmem : N }.

(** Calls made to the operating system: posix_memalign returning p with the given number of bytes, and free. *)
Inductive oscall := OsAlloc (p bytes : N) | OsFree (p : N).

Definition find_slot (l : list slot) (p : N) : option slot := find (fun s => (sp s =? p)%N) l.
Definition set_free (l : list slot) (p : N) (b : bool) : list slot :=
  map (fun s => if (sp s =? p)%N then mkSlot (sp s) (ssize s) b else s) l.
Definition erase_slot (l : list slot) (p : N) : list slot := filter (fun s => negb (sp s =? p)%N) l.

(** multimap::find and erase of the found element: first entry with that key *)
Fixpoint take_free (l : list (N * N)) (nb : N) : option (N * list (N * N)) :=
  match l with
  | [] => None
  | (k, p) :: t => if (k =? nb)%N then Some (p, t)
                   else match take_free t nb with
                        | Some (q, t') => Some (q, (k, p) :: t')
                        | None => None
                        end
  end.

(** Memory.cpp:86-89 *)
Definition avail (m : mem) : N := sub64 (maxmem m) (used m).

(** Memory.cpp:205-240.  [os] is the answer of posix_memalign (None: error code) should it be called. *)
Definition align (ndebug : bool) (m : mem) (size : N) (os : option N) : outcome (mem * N * list oscall) :=
  let bs := block_size ndebug in
  if (avail m <? size)%N then Throw
  else
    let nb := (size / bs + (if (0 <? size mod bs)%N then 1 else 0))%N in
    match take_free (freem m) nb with
    | None =>
      match os with
      | None => Throw
      | Some p =>
        let slots' := match find_slot (slots m) p with
                      | Some _ => slots m                        (* map::insert keeps an existing entry *)
                      | None => slots m ++ [mkSlot p nb false]
                      end in
        Ok (mkMem slots' (freem m) (wrap (used m + wrap (nb * bs))) (maxmem m), p, [OsAlloc p (wrap (nb * bs))])
      end
    | Some (p, fm) =>
      Ok (mkMem (set_free (slots m) p false) fm (used m) (maxmem m), p, [])
    end.

(** Memory.cpp:245-263 *)
Definition free_mem (ndebug : bool) (m : mem) (p : N) : mem * list oscall :=
  match find_slot (slots m) p with
  | None => (m, [])
  | Some s =>
    if ndebug then
      (mkMem (set_free (slots m) p true) (freem m ++ [(ssize s, p)]) (used m) (maxmem m), [])
    else
      (mkMem (erase_slot (slots m) p) (freem m) (sub64 (used m) (wrap (ssize s * block_size ndebug))) (maxmem m),
       [OsFree (sp s)])
  end.

(** Memory.cpp:268-283: every slot marked free is returned to the system (the scan restarts after each erase, the
    order of the calls is the order of the map). *)
Definition cleanup (ndebug : bool) (m : mem) : mem * list oscall :=
  let gone := filter sfree (slots m) in
  (mkMem (filter (fun s => negb (sfree s)) (slots m)) []
         (fold_left (fun u s => sub64 u (wrap (ssize s * block_size ndebug))) gone (used m)) (maxmem m),
   map (fun s => OsFree (sp s)) gone).

Definition init_mem (limit : N) : mem := mkMem [] [] 0 limit.

(** Memory.cpp:105-160.  Reading s[s.length()-1] of an empty string is out of bounds. sscanf("%lu") without digits
    leaves result uninitialised; a number above ULONG_MAX is undefined (C11 7.21.6.2p10). *)
Definition suffix_factor (c : ascii) : option N :=
  if Ascii.eqb c "K" then Some 1024%N
  else if Ascii.eqb c "M" then Some 1048576%N
  else if Ascii.eqb c "G" then Some 1073741824%N
  else if Ascii.eqb c "T" then Some 1099511627776%N
  else if is_digit c then Some 1%N
  else None.

Definition last_char (s : str) : option ascii := match rev s with [] => None | c :: _ => Some c end.
Definition drop_last (s : str) : str := firstn (length s - 1) s.

Definition read_from_string (s : str) : outcome N :=
  match last_char s with
  | None => UB
  | Some c =>
    let s := if Ascii.eqb c "B" then drop_last s else s in
    match last_char s with
    | None => UB
    | Some c =>
      match suffix_factor c with
      | None => Throw
      | Some factor =>
        let s := if (1 <? factor)%N then drop_last s else s in
        if forallb is_digit s then
          match s with
          | [] => UB
          | _ => if (dec_val s <? two64)%N then Ok (wrap (dec_val s * factor)) else UB
          end
        else Throw
      end
    end
  end.
