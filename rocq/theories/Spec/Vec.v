(** What the vector class should be: vectors are values, cut into strides; a vector of references shares the cells of its masters.
    An element that was never written is [None]. *)
From Coq Require Import List ZArith Lia Bool Arith.
From Verif Require Import Base Arrays Model.Vec.
Import ListNotations.
Open Scope Z_scope.

Section S.
  Variable A : Type.
  Variables (add mul : A -> A -> A).
  Notation elem_t := (option A).

  (** [Own]: locked, number of strides, stride size, values (None: retired).  [Ref]: locked, stride size, the masters of the strides,
      whether the storage is linked. *)
  Inductive avec :=
  | Own (lk : bool) (str len : nat) (data : option (list (list elem_t)))
  | Ref (lk : bool) (len : nat) (links : list (option nat)) (linked : bool).
  Definition abs := list (option avec).
  Definition alive (a : abs) (i : nat) : option avec := match nth_error a i with Some x => x | None => None end.
  Definition strides (x : avec) : nat := match x with Own _ s _ _ => s | Ref _ _ l _ => length l end.
  Definition stride_len (x : avec) : nat := match x with Own _ _ n _ => n | Ref _ n _ _ => n end.
  Definition size (x : avec) : nat := (strides x * stride_len x)%nat.
  Definition is_own (x : avec) : bool := match x with Own _ _ _ _ => true | Ref _ _ _ _ => false end.

  (** a cell: a stride of an owner *)
  Definition seg (a : abs) (c : nat * nat) : list elem_t :=
    match alive a (fst c) with Some (Own _ _ _ (Some d)) => nth (snd c) d [] | _ => [] end.
  Definition set_seg (a : abs) (c : nat * nat) (l : list elem_t) : abs :=
    match alive a (fst c) with
    | Some (Own lk s n (Some d)) => upd a (fst c) (Some (Own lk s n (Some (upd d (snd c) l))))
    | _ => a
    end.
  (** the cells of a vector; None if it has no storage *)
  Fixpoint masters (a : abs) (l : list (option nat)) : option (list (nat * nat)) :=
    match l with
    | [] => Some []
    | Some m :: l => match alive a m, masters a l with Some (Own _ _ _ (Some _)), Some cs => Some ((m, O) :: cs) | _, _ => None end
    | None :: _ => None
    end.
  Definition cells (a : abs) (i : nat) : option (list (nat * nat)) :=
    match alive a i with
    | Some (Own _ s _ (Some _)) => Some (map (pair i) (seq 0 s))
    | Some (Ref _ _ l true) => masters a l
    | _ => None
    end.
  Definition write (a : abs) (cs : list (nat * nat)) (ls : list (list elem_t)) : abs :=
    fold_left (fun a c => set_seg a (fst c) (snd c)) (combine cs ls) a.
  (** single elements, numbered through all strides *)
  Definition elem (a : abs) (cs : list (nat * nat)) (n k : nat) : elem_t := nth (k mod n) (seg a (nth (k / n) cs (O, O))) None.
  Definition set_elem (a : abs) (cs : list (nat * nat)) (n k : nat) (x : elem_t) : abs :=
    let c := nth (k / n) cs (O, O) in set_seg a c (upd (seg a c) (k mod n) x).

  (** is the vector a master of another one (of one with linked storage)? *)
  Definition names (i : nat) (l : list (option nat)) : bool := existsb (fun m => match m with Some m => (m =? i)%nat | None => false end) l.
  Definition held (a : abs) (i : nat) : bool := existsb (fun x => match x with Some (Ref _ _ l _) => names i l | _ => false end) a.
  Definition held_linked (a : abs) (i : nat) : bool := existsb (fun x => match x with Some (Ref _ _ l true) => names i l | _ => false end) a.
  Definition disjoint (c1 c2 : list (nat * nat)) : bool :=
    forallb (fun c => forallb (fun c' => negb ((fst c =? fst c') && (snd c =? snd c'))%nat) c2) c1.

  Definition fresh (s n : nat) : list (list elem_t) := repeat (repeat None n) s.
  Definition own (s n : nat) (d : list (list elem_t)) : avec := Own false s n (Some d).

  Definition retire_one (x : option avec) : option (option avec) :=
    match x with Some (Own false s n _) => Some (Some (Own false s n None)) | Some (Own true s n d) => Some x | _ => None end.
  Definition reaquire_one (x : option avec) : option (option avec) :=
    match x with
    | Some (Own false s n None) => Some (Some (Own false s n (Some (fresh s n))))
    | Some (Own _ s n (Some d)) => Some x
    | _ => None
    end.
  Fixpoint each (f : option avec -> option (option avec)) (l : list (option nat)) (a : abs) : option abs :=
    match l with
    | [] => Some a
    | None :: l => None
    | Some m :: l => match f (alive a m) with Some x => each f l (upd a m x) | None => None end
    end.
  Definition guard {B} (b : bool) (x : option B) : option B := if b then x else None.
  Definition with2 {B} (a : abs) (i j : nat) (f : avec -> avec -> option B) : option B :=
    match alive a i, alive a j with Some x, Some y => f x y | _, _ => None end.
  Definition with1 {B} (a : abs) (i : nat) (f : avec -> option B) : option B := match alive a i with Some x => f x | None => None end.
  Definition with_cells {B} (a : abs) (i : nat) (f : list (nat * nat) -> option B) : option B := match cells a i with Some c => f c | None => None end.

  Inductive ares := ANone | ABool (b : bool) | AVal (x : elem_t).
  Definition quietly (a : abs) : option (abs * ares) := Some (a, ANone).
  (** Two vectors of the same shape: the values; otherwise the target becomes a vector of its own with the shape of the source. *)
  Definition copying (a : abs) (i j : nat) (x y : avec) : option (abs * ares) :=
    with_cells a j (fun cj =>
      if ((size x =? size y) && (strides x =? strides y))%nat then with_cells a i (fun ci => guard (disjoint ci cj) (quietly (write a ci (map (seg a) cj))))
      else guard (negb (held a i)) (quietly (upd a i (Some (own (strides y) (stride_len y) (map (seg a) cj)))))).

  (** The result of a call; None: the call is not proper. *)
  Definition astep (a : abs) (o : op A) : option (abs * ares) :=
    match o with
    | New _ N k => guard ((0 <=? N) && (1 <=? k) && (N mod k =? 0))
                     (quietly (a ++ [Some (own (Z.to_nat k) (Z.to_nat (N / k)) (fresh (Z.to_nat k) (Z.to_nat (N / k))))]))
    | Clone _ j => with1 a j (fun y => with_cells a j (fun cj => quietly (a ++ [Some (own (strides y) (stride_len y) (map (seg a) cj))])))
    | Delete _ i => with1 a i (fun _ => quietly (upd a i None))
    | Newsize1 _ i N => with1 a i (fun x =>
        if Z.of_nat (size x) =? N then quietly a
        else guard (negb (held a i) && (0 <=? N)) (quietly (upd a i (Some (own 1 (Z.to_nat N) (fresh 1 (Z.to_nat N)))))))
    | Newsize _ i N k => with1 a i (fun x =>
        if (Z.of_nat (size x) =? N) && (Z.of_nat (strides x) =? k) then quietly a
        else guard (negb (held a i) && (0 <=? N) && (1 <=? k) && (N mod k =? 0))
               (quietly (upd a i (Some (own (Z.to_nat k) (Z.to_nat (N / k)) (fresh (Z.to_nat k) (Z.to_nat (N / k))))))))
    | Assign _ i j => with2 a i j (fun x y => if (i =? j)%nat then quietly a else copying a i j x y)
    | FastCopy _ i j => with2 a i j (fun x y => guard (negb (i =? j)%nat) (copying a i j x y))
    | Swap _ i j => with2 a i j (fun x y =>
        if negb (size x =? size y)%nat then Some (a, ABool false) else
        if (i =? j)%nat then Some (a, ABool true) else
        match x, y with
        | Own lx sx nx dx, Own ly sy ny dy =>
            guard (negb (held a i) && negb (held a j) && (sx =? sy)%nat) (Some (upd (upd a i (Some (Own lx sx nx dy))) j (Some (Own ly sy ny dx)), ABool true))
        | _, _ => None
        end)
    | StrideCopy _ i j src dst => with2 a i j (fun x y =>
        if negb (stride_len x =? stride_len y)%nat || (Z.of_nat (strides x) <? dst) || (Z.of_nat (strides y) <? src) then Some (a, ABool false) else
        guard ((0 <=? dst) && (dst <? Z.of_nat (strides x)) && (0 <=? src) && (src <? Z.of_nat (strides y)))
          (with_cells a i (fun ci => with_cells a j (fun cj => Some (set_seg a (nth (Z.to_nat dst) ci (O, O)) (seg a (nth (Z.to_nat src) cj (O, O))), ABool true)))))
    | CopySub _ i j b e => with2 a i j (fun x y =>
        if (i =? j)%nat then quietly a else
        if Z.of_nat (size y) <? Z.abs (e - b) + 1 then quietly a else
        guard ((0 <=? b) && (b <=? e) && (e <? Z.of_nat (size y)) && (strides y =? 1)%nat)
          (let r := Z.to_nat (e - b + 1) in
           with_cells a j (fun cj =>
             let part := firstn r (skipn (Z.to_nat b) (seg a (nth 0 cj (O, O)))) in
             if ((r <=? size x) && (strides x =? 1))%nat
             then with_cells a i (fun ci => guard (disjoint ci cj) (let c := nth 0 ci (O, O) in quietly (set_seg a c (part ++ skipn r (seg a c)))))
             else guard (negb (held a i)) (quietly (upd a i (Some (own 1 r [part])))))))
    | Fill _ i x => with_cells a i (fun ci => quietly (write a ci (map (fun c => map (fun _ => Some x) (seg a c)) ci)))
    | Scale _ i x => with_cells a i (fun ci => quietly (write a ci (map (fun c => map (option_map (fun y => mul y x)) (seg a c)) ci)))
    | AddTo _ i j => with2 a i j (fun x y => with_cells a i (fun ci => with_cells a j (fun cj =>
        guard ((size x =? size y)%nat && ((i =? j)%nat || disjoint ci cj))
          (quietly (fold_left (fun a' k => set_elem a' ci (stride_len x) k
              match elem a ci (stride_len x) k, elem a cj (stride_len y) k with Some u, Some v => Some (add u v) | _, _ => None end) (seq 0 (size x)) a)))))
    | Get _ i k => with1 a i (fun x => with_cells a i (fun ci =>
        guard ((0 <=? k) && (k <? Z.of_nat (size x))) (Some (a, AVal (elem a ci (stride_len x) (Z.to_nat k))))))
    | Set_ _ i k v => with1 a i (fun x => with_cells a i (fun ci =>
        guard ((0 <=? k) && (k <? Z.of_nat (size x))) (quietly (set_elem a ci (stride_len x) (Z.to_nat k) (Some v)))))
    | Retire _ i => with1 a i (fun x =>
        match x with
        | Own true _ _ _ | Ref true _ _ _ => quietly a
        | Own false _ _ _ => guard (negb (held_linked a i)) (quietly (upd a i match retire_one (Some x) with Some y => y | None => Some x end))
        | Ref false n l _ => match each retire_one l a with Some a' => quietly (upd a' i (Some (Ref false n l false))) | None => None end
        end)
    | Reaquire _ i => with1 a i (fun x =>
        match x with
        | Own true _ _ _ | Ref true _ _ _ => quietly a
        | Own false _ n _ => guard (0 <? n)%nat (quietly (upd a i match reaquire_one (Some x) with Some y => y | None => Some x end))
        | Ref false n l true => with_cells a i (fun _ => quietly a)
        | Ref false n l false => match each reaquire_one l a with Some a' => quietly (upd a' i (Some (Ref false n l true))) | None => None end
        end)
    | Lock _ i b => with1 a i (fun x => quietly (upd a i (Some match x with Own _ s n d => Own b s n d | Ref _ n l k => Ref b n l k end)))
    | StrideRef _ i j src dst => with2 a i j (fun x y =>
        match x with
        | Ref lk n l linked =>
            if negb (stride_len y =? n)%nat then Some (a, ABool false) else
            guard ((0 <=? dst) && (dst <? Z.of_nat (length l)) && linked)
              match y with
              | Own _ 1 _ (Some _) => guard ((src =? 0) && negb (held a j)) (Some (upd a i (Some (Ref lk n (upd l (Z.to_nat dst) (Some j)) true)), ABool true))
              | _ => None
              end
        | Own _ s _ _ =>
            if Z.of_nat s <=? dst then Some (a, ABool false) else
            guard ((0 <=? dst) && negb (i =? j)%nat && negb (held a i))
              match y with
              | Own _ 1 (S n) (Some _) => guard ((src =? 0) && negb (held a j)) (Some (upd a i (Some (Ref false (S n) (upd (repeat None s) (Z.to_nat dst) (Some j)) true)), ABool true))
              | _ => None
              end
        end)
    | Downsize _ i N => with1 a i (fun x => guard (Z.of_nat (size x) <=? N) (quietly a))
    end.
  Fixpoint arun (a : abs) (l : list (op A)) : option (abs * list ares) :=
    match l with
    | [] => Some (a, [])
    | o :: l => match astep a o with
                | Some (a1, r) => match arun a1 l with Some (a2, rs) => Some (a2, r :: rs) | None => None end
                | None => None
                end
    end.
  (** an answer fits an expected one *)
  Definition fits (r : ares) (x : res A) : Prop :=
    match r, x with
    | ANone, RNone _ => True
    | ABool b, RBool _ c => b = c
    | AVal (Some u), RVal _ v => u = v
    | AVal None, RVal _ _ => True
    | _, _ => False
    end.
End S.

(** the number of living objects; calls that make no references *)
Definition living {B} (l : list (option B)) : Z := Z.of_nat (length (filter (fun x => match x with Some _ => true | None => false end) l)).
Definition no_ref {A} (o : op A) : Prop := match o with StrideRef _ _ _ _ _ => False | _ => True end.
Definition freed {A} (h : heap A) : Prop := forall b, In b h -> b = None.

(** A call that respects the documented interface: the objects live, the sizes make sense, positions lie inside the vectors; numbers of strides
    are not negative (that they exist is checked by the methods themselves). *)
Section Legal.
  Variable A : Type.
  Definition legal (s : st A) (o : op A) : bool :=
    let lives i f := match nth_error (s_vecs A s) i with Some (Some v) => f v | _ => false end in
    let yes := fun _ : vec => true in
    match o with
    | New _ N k => (0 <=? N) && (1 <=? k)
    | Clone _ j => lives j yes
    | Delete _ i | Fill _ i _ | Scale _ i _ | Retire _ i | Reaquire _ i | Lock _ i _ => lives i yes
    | Newsize1 _ i N => lives i yes && (0 <=? N)
    | Newsize _ i N k => lives i yes && (0 <=? N) && (1 <=? k)
    | Assign _ i j | FastCopy _ i j | Swap _ i j => lives i yes && lives j yes
    | StrideCopy _ i j src dst => lives i yes && lives j yes && (0 <=? src) && (0 <=? dst)
    | CopySub _ i j b e => lives i yes && lives j (fun w => (0 <=? b) && (b <? v_n w) && (0 <=? e) && (e <? v_n w))
    | AddTo _ i j => lives i (fun v => lives j (fun w => v_n v =? v_n w))
    | Get _ i k => lives i (fun v => (0 <=? k) && (k <? v_n v))
    | Set_ _ i k _ => lives i (fun v => (0 <=? k) && (k <? v_n v))
    | StrideRef _ i j src dst => lives i yes && lives j (fun w => (0 <=? src) && (src <? v_str w)) && (0 <=? dst)
    | Downsize _ i N => lives i yes && (0 <=? N)
    end.
  Variable junk : nat -> Z -> A.
  Variables (add mul : A -> A -> A).
  Fixpoint legal_run (s : st A) (l : list (op A)) : bool :=
    match l with
    | [] => true
    | o :: l => legal s o && match step A junk add mul s o with Ok (s1, _) => legal_run s1 l | _ => true end
    end.
End Legal.
