(** Model of temporary files, src/tools/TmpFile.h, over a POSIX system (Linux).

    [B]: bytes, [zero] the byte 0; [w]: sizeof(T).  The system has files (by name, with their bytes), descriptors (file and position) and
    mapped pages (by address: file and number of pages).  Files have one name and are not removed by others while they are open.
    [fresh]: the descriptor and the name mkstemp(3) makes; [room n]: a file may have n bytes; [place p]: the address of a new mapping of p pages;
    None: the call fails.  Memory mapped to a file is used within the file only.  The directory is that of the parameters (TmpFile.h:111-124) and
    part of the name mkstemp gives. *)
From Coq Require Import Ascii String List ZArith Lia Bool Arith.
From Verif Require Import Base Arrays.
Import ListNotations.
Open Scope Z_scope.

Definition fset {K V} (eqd : forall a b : K, {a = b} + {a <> b}) (f : K -> option V) (k : K) (v : option V) : K -> option V :=
  fun x => if eqd x k then v else f x.

Section TmpFile.
  Variable B : Type.
  Variable zero : B.
  Variable w : Z.
  Record os := mkOs { files : str -> option (list B); fds : Z -> option (str * Z); maps : Z -> option (str * Z) }.
  Variable fresh : os -> option (Z * str).
  Variable room : Z -> bool.
  Variable place : os -> Z -> option Z.

  (** ** the system *)
  Definition set_file (s : os) n v := mkOs (fset str_eq_dec (files s) n v) (fds s) (maps s).
  Definition set_fd (s : os) d v := mkOs (files s) (fset Z.eq_dec (fds s) d v) (maps s).
  Definition set_map (s : os) a v := mkOs (files s) (fds s) (fset Z.eq_dec (maps s) a v).
  Definition off_t (z : Z) : Z := let m := z mod 2 ^ 64 in if m <? 2 ^ 63 then m else m - 2 ^ 64.
  Definition int_of (z : Z) : Z := let m := z mod 2 ^ 32 in if m <? 2 ^ 31 then m else m - 2 ^ 32.
  (** lseek(2) with SEEK_SET; -1: it fails *)
  Definition lseek (s : os) (fd off : Z) : os * Z :=
    match fds s fd with
    | None => (s, -1)
    | Some (n, _) => if off_t off <? 0 then (s, -1) else (set_fd s fd (Some (n, off_t off)), off_t off)
    end.
  (** the bytes of a file after writing l at position o *)
  Definition overlay (c : list B) (o : Z) (l : list B) : list B :=
    firstn (Z.to_nat o) c ++ repeat zero (Z.to_nat (o - zlen c)) ++ l ++ skipn (Z.to_nat (o + zlen l)) c.
  (** at most this many bytes in one call *)
  Definition cap : Z := 2147479552.
  (** write(2); -1: it fails *)
  Definition write (s : os) (fd : Z) (l : list B) : os * Z :=
    match fds s fd with
    | None => (s, -1)
    | Some (n, o) =>
      match files s n with
      | None => (s, -1)
      | Some c => let k := Z.min (zlen l) cap in
          if k =? 0 then (s, 0) else
          if room (Z.max (zlen c) (o + k)) then
            (set_fd (set_file s n (Some (overlay c o (firstn (Z.to_nat k) l)))) fd (Some (n, o + k)), k)
          else (s, -1)
      end
    end.
  (** read(2): the bytes that were read; None: it fails *)
  Definition read (s : os) (fd n : Z) : os * option (list B) :=
    match fds s fd with
    | None => (s, None)
    | Some (f, o) =>
      match files s f with
      | None => (s, None)
      | Some c => let l := firstn (Z.to_nat (Z.min n cap)) (skipn (Z.to_nat o) c) in (set_fd s fd (Some (f, o + zlen l)), Some l)
      end
    end.
  (** ftruncate(2) *)
  Definition truncate (s : os) (fd n : Z) : os * bool :=
    match fds s fd with
    | None => (s, false)
    | Some (f, _) =>
      match files s f with
      | None => (s, false)
      | Some c => if (off_t n <? 0) || negb (room n) then (s, false)
                  else (set_file s f (Some (firstn (Z.to_nat n) c ++ repeat zero (Z.to_nat (n - zlen c)))), true)
      end
    end.
  Definition pages (n : Z) : Z := (n + 4095) / 4096.
  Inductive ptr := PNull | PFailed | PAt (a : Z).
  (** mmap(2): MAP_FAILED if it fails, as with length 0 *)
  Definition mmap (s : os) (n fd : Z) : os * ptr :=
    match fds s fd, place s (pages n) with
    | Some (f, _), Some a => if n =? 0 then (s, PFailed) else (set_map s a (Some (f, pages n)), PAt a)
    | _, _ => (s, PFailed)
    end.
  (** munmap(2): pages behind the mapping belong to others *)
  Definition munmap (s : os) (p : ptr) (n : Z) : outcome os :=
    match p with
    | PAt a =>
      if n =? 0 then Ok s else
      match maps s a with
      | None => UB
      | Some (f, q) =>
        if q <? pages n then UB else
        let s := set_map s a None in
        Ok (if q =? pages n then s else set_map s (a + pages n * 4096) (Some (f, q - pages n)))
      end
    | _ => Ok s
    end.
  (** mremap(2) with MREMAP_MAYMOVE *)
  Definition mremap (s : os) (p : ptr) (old new : Z) : os * ptr :=
    match p with
    | PAt a =>
      match maps s a, place s (pages new) with
      | Some (f, q), Some b =>
        if (pages old =? 0) || (pages new =? 0) || (q <? pages old) then (s, PFailed) else
        let s := set_map s a None in
        let s := if q =? pages old then s else set_map s (a + pages old * 4096) (Some (f, q - pages old)) in
        (set_map s b (Some (f, pages new)), PAt b)
      | _, _ => (s, PFailed)
      end
    | _ => (s, PFailed)
    end.
  (** FS::Remove of the file (Model/FSTools.v) *)
  Definition remove (s : os) (n : str) : os * outcome unit :=
    match files s n with None => (s, Throw) | Some _ => (set_file s n None, Ok tt) end.

  (** ** TmpFile.h:35-46 *)
  Record tmp := mkTmp { t_name : str; t_fd : Z; t_size : Z; t_open : bool; t_mmap : bool; t_base : ptr }.
  Definition new_tmp : tmp := mkTmp [] (-1) 0 false false PNull.
  Definition shut (t : tmp) : tmp := mkTmp (t_name t) (t_fd t) (t_size t) false (t_mmap t) (t_base t).
  Definition bytes (n : Z) : Z := (n * w) mod 2 ^ 64.
  (** every member function gives the system, the object, and how it ends *)
  Definition result (A : Type) := (os * tmp * outcome A)%type.
  (** close(_fd); _open = false; throw *)
  Definition fail {A} (s : os) (t : tmp) : result A := (set_fd s (t_fd t) None, shut t, Throw).
  (** ... FS::Remove(_fname); throw *)
  Definition fail_remove {A} (s : os) (t : tmp) : result A := (fst (remove (set_fd s (t_fd t) None) (t_name t)), shut t, Throw).
  (** TmpFile.h:74-92 *)
  Definition upsize (s : os) (t : tmp) (n : Z) : result unit :=
    let '(s, r) := lseek s (t_fd t) (bytes n - 1) in
    if int_of r =? -1 then fail s t else
    let '(s, r) := write s (t_fd t) [zero] in
    if int_of r =? -1 then fail_remove s t else
    (s, mkTmp (t_name t) (t_fd t) n (t_open t) (t_mmap t) (t_base t), Ok tt).
  (** TmpFile.h:201-226 *)
  Definition close (s : os) (t : tmp) (rm : bool) : result unit :=
    if negb (t_open t) then (s, t, Ok tt) else
    match (if t_mmap t then munmap s (t_base t) (bytes (t_size t)) else Ok s) with
    | UB => (s, t, UB) | Throw => (s, t, Throw)
    | Ok s =>
      let base := if t_mmap t then PNull else t_base t in
      let s := if t_fd t =? -1 then s else set_fd s (t_fd t) None in
      let t1 := mkTmp (t_name t) (-1) 0 false false base in
      let t2 := mkTmp [] (-1) 0 false false base in
      if rm then let '(s, r) := remove s (t_name t) in match r with Ok _ => (s, t2, Ok tt) | r => (s, t1, r) end
      else (s, t2, Ok tt)
    end.
  (** TmpFile.h:103-156: the test of the mapping looks for NULL *)
  Definition open (s : os) (t : tmp) (n : Z) (mm : bool) : result ptr :=
    let '(s, t, r) := if t_open t then close s t true else (s, t, Ok tt) in
    match r with
    | Ok _ =>
      match fresh s with
      | None => (s, mkTmp (t_name t) (-1) n (t_open t) mm (t_base t), Throw)
      | Some (fd, nm) =>
        let s := set_fd (set_file s nm (Some [])) fd (Some (nm, 0)) in
        let t := mkTmp nm fd n true mm (t_base t) in
        let '(s, t, r) := if 0 <? n then upsize s t n else (s, t, Ok tt) in
        match r with
        | Ok _ => if mm then let '(s, p) := mmap s (bytes n) fd in (s, mkTmp (t_name t) (t_fd t) (t_size t) (t_open t) true p, Ok p)
                  else (s, t, Ok PNull)
        | Throw => (s, t, Throw)
        | UB => (s, t, UB)
        end
      end
    | Throw => (s, t, Throw)
    | UB => (s, t, UB)
    end.
  (** TmpFile.h:162-195 *)
  Definition resize (s : os) (t : tmp) (n : Z) : result ptr :=
    if (t_size t =? n) || negb (t_open t) then (s, t, Ok (t_base t)) else
    let '(s, ok) := truncate s (t_fd t) (bytes n) in
    if negb ok then fail_remove s t else
    if t_mmap t then
      let '(s, p) := mremap s (t_base t) (bytes (t_size t)) (bytes n) in
      let t := mkTmp (t_name t) (t_fd t) (t_size t) (t_open t) true p in
      match p with PFailed => fail_remove s t | _ => (s, t, Ok p) end
    else (s, t, Ok PNull).
  (** TmpFile.h:242-250 *)
  Definition seek (s : os) (t : tmp) (n : Z) : result unit :=
    let '(s, r) := lseek s (t_fd t) (bytes n) in
    if int_of r =? -1 then fail s t else (s, t, Ok tt).
  (** TmpFile.h:255-265; the bytes of the elements *)
  Definition read_el (s : os) (t : tmp) (n : Z) : result (list B) :=
    let '(s, r) := read s (t_fd t) (bytes n) in
    match r with
    | Some l => if zlen l =? bytes n then (s, t, Ok l) else fail s t
    | None => fail s t
    end.
  (** TmpFile.h:270-279; [l]: the bytes of the elements *)
  Definition write_el (s : os) (t : tmp) (l : list B) : result unit :=
    let '(s, r) := write s (t_fd t) l in
    if r =? zlen l then (s, t, Ok tt) else fail s t.
  (** TmpFile.h:64-68; an exception terminates the program *)
  Definition destroy (s : os) (t : tmp) : result unit := close s t true.

  (** what the user does with the memory: bytes of element i *)
  Definition within (s : os) (a i : Z) : option (str * list B) :=
    match maps s a with
    | Some (f, q) => match files s f with Some c => if (0 <=? i) && (i * w + w <=? Z.min (q * 4096) (zlen c)) then Some (f, c) else None | None => None end
    | None => None
    end.
  Definition load (s : os) (p : ptr) (i : Z) : outcome (list B) :=
    match p with PAt a => match within s a i with Some (_, c) => Ok (firstn (Z.to_nat w) (skipn (Z.to_nat (i * w)) c)) | None => UB end | _ => UB end.
  Definition store (s : os) (p : ptr) (i : Z) (x : list B) : outcome os :=
    match p with PAt a => match within s a i with Some (f, c) => Ok (set_file s f (Some (overlay c (i * w) x))) | None => UB end | _ => UB end.
End TmpFile.
Arguments mkOs {B}. Arguments files {B}. Arguments fds {B}. Arguments maps {B}. Arguments set_file {B}. Arguments set_fd {B}. Arguments set_map {B}.
