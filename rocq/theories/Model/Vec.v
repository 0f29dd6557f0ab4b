(** The vector class (src/math/Vector.h) with its strides, references and storage.
    Simplifications: one MPI process (rank 0, size 1); lint does not overflow; allocations succeed (Memory::Align), freshly allocated
    blocks hold arbitrary values ([junk]); a block is never handed out again, so the use of a freed block is visible as [UB];
    the OpenMP loops write distinct elements and are modelled as sequential loops; constructors are numbered objects.  The three
    pointer arrays v_, _StrideRefObj, _SourceStride are allocated and deleted together and are counted by [s_arrays]. *)
From Coq Require Import List ZArith Lia Bool Arith.
From Verif Require Import Base Arrays.
Import ListNotations.
Open Scope Z_scope.

Section Vec.
  Variable A : Type.
  (** the value of an element of a block that was not written yet: block, position *)
  Variable junk : nat -> Z -> A.
  (** the operations of the element type *)
  Variables (add mul : A -> A -> A).

  (** Vector.h:73-86.  A pointer to storage is the number of a block, NULL is None; objects are numbered. *)
  Record vec := mkVec {
    v_p : list (option nat);      (* v_ *)
    v_n : Z;                      (* n_ *)
    v_obj : list (option nat);    (* _StrideRefObj *)
    v_src : list Z;               (* _SourceStride *)
    v_lock : bool;                (* _StorageLocked *)
    v_str : Z;                    (* nstrides_ *)
    v_len : Z;                    (* stride_size_ *)
    v_ref : bool }.               (* isRef_ *)
  Definition heap := list (option (list A)).
  Record st := mkSt { s_heap : heap; s_arrays : Z; s_vecs : list (option vec) }.

  (** a living object *)
  Definition obj (s : st) (i : nat) : outcome vec :=
    match nth_error (s_vecs s) i with Some (Some v) => Ok v | _ => UB end.
  Definition put (s : st) (i : nat) (v : vec) : st := mkSt (s_heap s) (s_arrays s) (upd (s_vecs s) i (Some v)).
  Definition with_heap (s : st) (h : heap) : st := mkSt h (s_arrays s) (s_vecs s).

  (** access through a pointer *)
  Definition load (h : heap) (p : option nat) (i : Z) : outcome A :=
    match p with Some b => match nth_error h b with Some (Some l) => rd l i | _ => UB end | None => UB end.
  Definition store (h : heap) (p : option nat) (i : Z) (x : A) : outcome heap :=
    match p with
    | Some b => match nth_error h b with Some (Some l) => let* l' := wr l i x in Ok (upd h b (Some l')) | _ => UB end
    | None => UB
    end.
  (** Memory::Align *)
  Definition block (b : nat) (len : Z) : list A := map (junk b) (upto 0 len).
  Definition alloc (h : heap) (len : Z) : heap * nat := (h ++ [Some (block (length h) len)], length h).
  (** Memory::Free (Memory.cpp:245-263): NULL is not in the slot map; a second free is undefined (see C11) *)
  Definition free (h : heap) (p : option nat) : outcome heap :=
    match p with
    | None => Ok h
    | Some b => match nth_error h b with Some (Some _) => Ok (upd h b None) | _ => UB end
    end.

  (** Vector.h:118-127: the storage of the strides *)
  Fixpoint storage (h : heap) (len : Z) (k : nat) : heap * list (option nat) :=
    match k with
    | O => (h, [])
    | S k => if len =? 0 then let '(h', ps) := storage h len k in (h', None :: ps)
             else let '(h1, b) := alloc h len in let '(h', ps) := storage h1 len k in (h', Some b :: ps)
    end.
  (** Vector.h:99-128.  A negative number of strides or a negative stride size makes the allocation throw. *)
  Definition initialize (s : st) (N strides : Z) : outcome (st * vec) :=
    if strides =? 0 then UB else if strides <? 0 then Throw else
    let len := Z.quot N strides in
    if len <? 0 then Throw else
    let '(h, ps) := storage (s_heap s) len (Z.to_nat strides) in
    Ok (mkSt h (s_arrays s + 1) (s_vecs s),
        mkVec ps N (repeat None (Z.to_nat strides)) (repeat (-1) (Z.to_nat strides)) false strides len false).
  (** Vector.h:180-201 *)
  Definition destroy (s : st) (v : vec) : outcome st :=
    let* h := (if v_ref v then Ok (s_heap s)
               else foldM (fun h k => let* p := rd (v_p v) k in free h p) (upto 0 (v_str v)) (s_heap s)) in
    Ok (mkSt h (s_arrays s - 1) (s_vecs s)).

  (** Vector.h:138-148: copy(v) *)
  Definition copy_all (h : heap) (v : vec) (src : list (option nat)) : outcome heap :=
    foldM (fun h k => foldM (fun h i => let* q := rd src k in let* x := load h q i in let* p := rd (v_p v) k in store h p i x) (upto 0 (v_len v)) h)
      (upto 0 (v_str v)) h.
  (** Vector.h:131-136: copy(v, begin, n) *)
  Definition copy_part (h : heap) (v : vec) (src : list (option nat)) (beg n : Z) : outcome heap :=
    foldM (fun h k => foldM (fun h i => let* q := rd src k in let* x := load h q (beg + i) in let* p := rd (v_p v) k in store h p i x) (upto 0 n) h)
      (upto 0 (v_str v)) h.
  (** Vector.h:163-176, 590-594: set *)
  Definition fill (s : st) (i : nat) (x : A) : outcome st :=
    let* v := obj s i in
    let* h := foldM (fun h k => foldM (fun h j => let* p := rd (v_p v) k in store h p j x) (upto 0 (v_len v)) h) (upto 0 (v_str v)) (s_heap s) in
    Ok (with_heap s h).
  (** Vector.h:558-569: operator *= *)
  Definition scale (s : st) (i : nat) (x : A) : outcome st :=
    let* v := obj s i in
    let* h := foldM (fun h k => foldM (fun h j => let* p := rd (v_p v) k in let* y := load h p j in store h p j (mul y x)) (upto 0 (v_len v)) h)
                (upto 0 (v_str v)) (s_heap s) in
    Ok (with_heap s h).

  (** Vector.h:411-463 and the destructor 404-407: objects come and go *)
  Definition create (s : st) (N strides : Z) : outcome st :=
    let* (s1, v) := initialize s N strides in Ok (mkSt (s_heap s1) (s_arrays s1) (s_vecs s1 ++ [Some v])).
  Definition remove (s : st) (i : nat) : outcome st :=
    let* v := obj s i in let* s1 := destroy s v in Ok (mkSt (s_heap s1) (s_arrays s1) (upd (s_vecs s1) i None)).
  (** Vector.h:425-437: copy constructor *)
  Definition clone (s : st) (j : nat) : outcome st :=
    let* w := obj s j in
    let* (s1, v) := initialize s (v_n w) (v_str w) in
    let* h := copy_all (s_heap s1) v (v_p w) in
    Ok (mkSt h (s_arrays s1) (s_vecs s1 ++ [Some v])).
  (** Vector.h:523-531 *)
  Definition newsize1 (s : st) (i : nat) (N : Z) : outcome st :=
    let* v := obj s i in
    if v_n v =? N then Ok s else
    let* s1 := (if v_ref v then Ok s else destroy s v) in
    let* (s2, v') := initialize s1 N 1 in Ok (put s2 i v').
  (** Vector.h:545-555 *)
  Definition newsize (s : st) (i : nat) (N strides : Z) : outcome st :=
    let* v := obj s i in
    if (v_n v =? N) && (v_str v =? strides) then Ok s else
    let* s1 := destroy s v in
    let* (s2, v') := initialize s1 N strides in Ok (put s2 i v').
  (** Vector.h:573-588; the array v_ belongs to one object *)
  Definition assign (s : st) (i j : nat) : outcome st :=
    let* v := obj s i in let* w := obj s j in
    if (i =? j)%nat then Ok s else
    if (v_n v =? v_n w) && (v_str v =? v_str w) then let* h := copy_all (s_heap s) v (v_p w) in Ok (with_heap s h)
    else
      let* s1 := (if v_ref v then Ok s else destroy s v) in
      let* (s2, v') := initialize s1 (v_n w) (v_str w) in
      let* h := copy_all (s_heap s2) v' (v_p w) in Ok (put (with_heap s2 h) i v').
  (** memcpy of a whole stride (Memory.cpp:197-200); source and target must not be the same *)
  Definition memcpy (h : heap) (p q : option nat) (len : Z) : outcome heap :=
    if (0 <? len) && match p, q with Some a, Some b => (a =? b)%nat | _, _ => false end then UB
    else foldM (fun h i => let* x := load h q i in store h p i x) (upto 0 len) h.
  (** Vector.h:378-401 *)
  Definition fast_copy (s : st) (i j : nat) : outcome st :=
    let* v := obj s i in let* w := obj s j in
    let strides h v := foldM (fun h k => let* p := rd (v_p v) k in let* q := rd (v_p w) k in memcpy h p q (v_len v)) (upto 0 (v_str v)) h in
    if (v_n v =? v_n w) && (v_str v =? v_str w) then let* h := strides (s_heap s) v in Ok (with_heap s h)
    else
      let* s1 := (if v_ref v then Ok s else destroy s v) in
      let* (s2, v') := initialize s1 (v_n w) (v_str w) in
      let* h := strides (s_heap s2) v' in Ok (put (with_heap s2 h) i v').
  (** Vector.h:364-376 *)
  Definition swap (s : st) (i j : nat) : outcome (st * bool) :=
    let* v := obj s i in let* w := obj s j in
    if negb (v_n v =? v_n w) then Ok (s, false) else
    if (i =? j)%nat then Ok (s, true) else
    let* (pv, pw) := foldM (fun '(pv, pw) k => let* p := rd pv k in let* q := rd pw k in let* pv' := wr pv k q in let* pw' := wr pw k p in Ok (pv', pw'))
                        (upto 0 (v_str v)) (v_p v, v_p w) in
    Ok (put (put s i (mkVec pv (v_n v) (v_obj v) (v_src v) (v_lock v) (v_str v) (v_len v) (v_ref v)))
          j (mkVec pw (v_n w) (v_obj w) (v_src w) (v_lock w) (v_str w) (v_len w) (v_ref w)), true).
  (** Vector.h:603-612 *)
  Definition stride_copy (s : st) (i j : nat) (src dst : Z) : outcome (st * bool) :=
    let* v := obj s i in let* w := obj s j in
    if (v_str v <? dst) || negb (v_len w =? v_len v) || (v_str w <? src) then Ok (s, false) else
    let* h := foldM (fun h k => let* q := rd (v_p w) src in let* x := load h q k in let* p := rd (v_p v) dst in store h p k x) (upto 0 (v_len v)) (s_heap s) in
    Ok (with_heap s h, true).
  (** Vector.h:616-634 *)
  Definition copy_sub (s : st) (i j : nat) (b e : Z) : outcome st :=
    let* v := obj s i in let* w := obj s j in
    if (i =? j)%nat then Ok s else
    let rsize := Z.abs (e - b) + 1 in
    if v_n w <? Z.abs rsize then Ok s else
    if (rsize <=? v_n v) && (v_str v =? v_str w) then let* h := copy_part (s_heap s) v (v_p w) b rsize in Ok (with_heap s h)
    else
      let* s1 := (if v_ref v then Ok s else destroy s v) in
      let* (s2, v') := initialize s1 rsize (v_str w) in
      let* h := copy_part (s_heap s2) v' (v_p w) b rsize in Ok (put (with_heap s2 h) i v').
  (** Vector.h:680-692: operator[]; int division by zero is undefined *)
  Definition at_ (v : vec) (k : Z) : outcome (option nat * Z) :=
    if v_len v =? 0 then UB else let* p := rd (v_p v) (Z.quot k (v_len v)) in Ok (p, Z.rem k (v_len v)).
  Definition get (s : st) (i : nat) (k : Z) : outcome A :=
    let* v := obj s i in let* (p, m) := at_ v k in load (s_heap s) p m.
  Definition set (s : st) (i : nat) (k : Z) (x : A) : outcome st :=
    let* v := obj s i in let* (p, m) := at_ v k in let* h := store (s_heap s) p m x in Ok (with_heap s h).
  (** Vector.h:781-795: operator += of two vectors; the assertion is compiled out (NDEBUG) *)
  Definition add_to (s : st) (i j : nat) : outcome st :=
    let* v := obj s i in let* w := obj s j in
    foldM (fun s k => let* y := get s j k in let* x := get s i k in set s i k (add x y)) (upto 0 (v_n v)) s.
  (** Vector.h:267-278.  References to references are followed; a reference to itself never ends. *)
  Fixpoint retire (fuel : nat) (s : st) (i : nat) : outcome st :=
    match fuel with
    | O => UB
    | S fuel =>
      let* v := obj s i in
      if v_lock v then Ok s else
      foldM (fun s k =>
        let* v := obj s i in
        let* o := rd (v_obj v) k in
        let* s1 := match o with
                   | None => let* p := rd (v_p v) k in let* h := free (s_heap s) p in Ok (with_heap s h)
                   | Some m => retire fuel s m
                   end in
        let* v1 := obj s1 i in
        let* ps := wr (v_p v1) k None in
        Ok (put s1 i (mkVec ps (v_n v1) (v_obj v1) (v_src v1) (v_lock v1) (v_str v1) (v_len v1) (v_ref v1)))) (upto 0 (v_str v)) s
    end.
  (** Vector.h:283-297 *)
  Fixpoint reaquire (fuel : nat) (s : st) (i : nat) : outcome st :=
    match fuel with
    | O => UB
    | S fuel =>
      let* v := obj s i in
      if v_lock v then Ok s else
      foldM (fun s k =>
        let* v := obj s i in
        let* p := rd (v_p v) k in
        match p with
        | Some _ => Ok s
        | None =>
          let* o := rd (v_obj v) k in
          let* (s1, p1) := match o with
                     | None => let '(h, b) := alloc (s_heap s) (v_len v) in Ok (with_heap s h, Some b)
                     | Some m => let* s1 := reaquire fuel s m in let* w := obj s1 m in let* src := rd (v_src v) k in let* q := rd (v_p w) src in Ok (s1, q)
                     end in
          let* v1 := obj s1 i in
          let* ps := wr (v_p v1) k p1 in
          Ok (put s1 i (mkVec ps (v_n v1) (v_obj v1) (v_src v1) (v_lock v1) (v_str v1) (v_len v1) (v_ref v1)))
        end) (upto 0 (v_str v)) s
    end.
  Definition depth (s : st) : nat := S (S (length (s_vecs s))).
  (** Vector.h:258-259 *)
  Definition lock (s : st) (i : nat) (b : bool) : outcome st :=
    let* v := obj s i in Ok (put s i (mkVec (v_p v) (v_n v) (v_obj v) (v_src v) b (v_str v) (v_len v) (v_ref v))).
  (** Vector.h:216-241 *)
  Definition stride_ref (s : st) (i j : nat) (src dst : Z) : outcome (st * bool) :=
    let* v := obj s i in let* w := obj s j in
    if v_ref v && negb (v_len w =? v_len v) then Ok (s, false) else
    if negb (v_ref v) && (v_str v <=? dst) then Ok (s, false) else
    let* (s1, v1) :=
      if v_ref v then Ok (s, v) else
      let* s0 := (if 0 <? v_len v then destroy s v else Ok s) in
      let* (s1, v1) := initialize s0 0 (v_str v) in
      Ok (s1, mkVec (v_p v1) (v_n v1) (v_obj v1) (v_src v1) (v_lock v1) (v_str v1) (v_len w) true) in
    let str := if v_str v1 <=? dst + 1 then dst + 1 else v_str v1 in
    let* p := rd (v_p w) src in
    let* ps := wr (v_p v1) dst p in
    let* os := wr (v_obj v1) dst (Some j) in
    let* ss := wr (v_src v1) dst src in
    Ok (put s1 i (mkVec ps (str * v_len v1) os ss (v_lock v1) str (v_len v1) (v_ref v1)), true).
  (** Vector.h:248-251 *)
  Definition downsize (s : st) (i : nat) (N : Z) : outcome st :=
    let* v := obj s i in
    Ok (if N <=? v_n v then put s i (mkVec (v_p v) N (v_obj v) (v_src v) (v_lock v) (v_str v) (v_len v) (v_ref v)) else s).

  (** one call *)
  Inductive op :=
  | New (N strides : Z) | Clone (j : nat) | Delete (i : nat)
  | Newsize1 (i : nat) (N : Z) | Newsize (i : nat) (N strides : Z)
  | Assign (i j : nat) | FastCopy (i j : nat) | Swap (i j : nat) | StrideCopy (i j : nat) (src dst : Z) | CopySub (i j : nat) (b e : Z)
  | Fill (i : nat) (x : A) | Scale (i : nat) (x : A) | AddTo (i j : nat) | Get (i : nat) (k : Z) | Set_ (i : nat) (k : Z) (x : A)
  | Retire (i : nat) | Reaquire (i : nat) | Lock (i : nat) (b : bool) | StrideRef (i j : nat) (src dst : Z) | Downsize (i : nat) (N : Z).
  Inductive res := RNone | RBool (b : bool) | RVal (x : A).
  Definition quiet (r : outcome st) : outcome (st * res) := let* s := r in Ok (s, RNone).
  Definition answer (r : outcome (st * bool)) : outcome (st * res) := let* (s, b) := r in Ok (s, RBool b).
  Definition step (s : st) (o : op) : outcome (st * res) :=
    match o with
    | New N k => quiet (create s N k)
    | Clone j => quiet (clone s j)
    | Delete i => quiet (remove s i)
    | Newsize1 i N => quiet (newsize1 s i N)
    | Newsize i N k => quiet (newsize s i N k)
    | Assign i j => quiet (assign s i j)
    | FastCopy i j => quiet (fast_copy s i j)
    | Swap i j => answer (swap s i j)
    | StrideCopy i j src dst => answer (stride_copy s i j src dst)
    | CopySub i j b e => quiet (copy_sub s i j b e)
    | Fill i x => quiet (fill s i x)
    | Scale i x => quiet (scale s i x)
    | AddTo i j => quiet (add_to s i j)
    | Get i k => let* x := get s i k in Ok (s, RVal x)
    | Set_ i k x => quiet (set s i k x)
    | Retire i => quiet (retire (depth s) s i)
    | Reaquire i => quiet (reaquire (depth s) s i)
    | Lock i b => quiet (lock s i b)
    | StrideRef i j src dst => answer (stride_ref s i j src dst)
    | Downsize i N => quiet (downsize s i N)
    end.
  Fixpoint run (s : st) (l : list op) : outcome (st * list res) :=
    match l with
    | [] => Ok (s, [])
    | o :: l => let* (s1, r) := step s o in let* (s2, rs) := run s1 l in Ok (s2, r :: rs)
    end.
  Definition start : st := mkSt [] 0 [].
End Vec.
