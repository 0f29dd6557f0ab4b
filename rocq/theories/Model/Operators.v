(** Model of operator containers: sums and products of operators (src/qdlib/Operator.h, OList.cpp, OSum.cpp, OProduct.cpp).

    Wave functions are elements of a module [M] over a ring; source and destination are different objects.  An operator is
    what its three forms of application do: [cp] copying (given the old destination and the source), [ip] in place, [ad]
    accumulating.  Internal buffers are taken from [junk]: the n-th acquisition of a buffer (WaveFunction::NewInstance or
    Reaquire) finds the content [junk n], so nothing may be assumed about what an earlier use left behind; the natural
    number counts the acquisitions. *)
From Coq Require Import Ascii String List NArith ZArith Lia Bool.
From Verif Require Import Base Arrays Algebra.
Import ListNotations.
Open Scope Z_scope.

Section Operators.
  Variable R : cring.
  Variable M : cmodule R.
  Variable junk : nat -> M.

  Record acts := mkActs { cp : nat -> M -> M -> outcome (M * nat); ip : nat -> M -> outcome (M * nat); ad : nat -> M -> M -> outcome (M * nat) }.

  (** Operator.h:264-273, 293-317: the forms inherited from the copying one *)
  Definition default_ip (c : nat -> M -> M -> outcome (M * nat)) (n : nat) (psi : M) : outcome (M * nat) :=
    let buf := psi in c (S n) psi buf.
  Definition default_ad (c : nat -> M -> M -> outcome (M * nat)) (n : nat) (dest src : M) : outcome (M * nat) :=
    let* r := c (S n) (junk n) src in Ok (madd dest (fst r), snd r).

  (** OList.cpp:47-52: an index that is too large is refused, a negative one is not *)
  Definition get {A} (l : list A) (i : Z) : outcome A := if zlen l <=? i then Throw else rd l i.

  (** OSum.cpp:53-60 *)
  Definition sum_cp (l : list acts) (n : nat) (dest src : M) : outcome (M * nat) :=
    let* o := get l 0 in
    let* r := cp o n dest src in
    foldM (fun r i => let* o := get l i in ad o (snd r) (fst r) src) (upto 1 (zlen l)) r.
  (** OSum.cpp:62-76 *)
  Definition sum_ip (l : list acts) (n : nat) (psi : M) : outcome (M * nat) :=
    let wfbuf := psi in
    let* o := get l 0 in
    let* r := ip o (S n) psi in
    foldM (fun r i => let* o := get l i in ad o (snd r) (fst r) wfbuf) (upto 1 (zlen l)) r.
  Definition sum_acts (l : list acts) : acts := mkActs (sum_cp l) (sum_ip l) (default_ad (sum_cp l)).

  (** OProduct.cpp:54-61 *)
  Definition prod_cp (l : list acts) (n : nat) (dest src : M) : outcome (M * nat) :=
    let* o := get l (zlen l - 1) in
    let* r := cp o n dest src in
    foldM (fun r i => let* o := get l i in ip o (snd r) (fst r)) (downto (zlen l - 2) 0) r.
  (** OProduct.cpp:63-67 *)
  Definition prod_ip (l : list acts) (n : nat) (psi : M) : outcome (M * nat) :=
    foldM (fun r i => let* o := get l i in ip o (snd r) (fst r)) (downto (zlen l - 1) 0) (psi, n).
  Definition prod_acts (l : list acts) : acts := mkActs (prod_cp l) (prod_ip l) (default_ad (prod_cp l)).

  (** Operators built from others; a leaf is any other operator *)
  Inductive oper := Leaf (f : M -> M) (a : acts) | Sum (l : list oper) | Prod (l : list oper).
  Fixpoint act (o : oper) : acts :=
    match o with Leaf _ a => a | Sum l => sum_acts (map act l) | Prod l => prod_acts (map act l) end.
End Operators.

(** * Lists of operators (OList.cpp)

    [O]: the operators that lists contain; [dup]: NewInstance followed by assignment. *)
Section OLists.
  Variable O : Type.
  Variable dup : O -> O.

  (** OList.h:10 *)
  Definition max_ops : Z := 128.
  (** OList.h:20-24: the table has [max_ops] places, [None] is a null pointer *)
  Record olist := mkOL { o_size : Z; o_tab : list (option O); o_names : list (str * Z) }.
  (** OList.cpp:9-16 *)
  Definition o_new : olist := mkOL 0 (repeat None (Z.to_nat max_ops)) [].
  (** OList.cpp:47-52 *)
  Definition o_get (l : olist) (i : Z) : outcome (option O) := if o_size l <=? i then Throw else rd (o_tab l) i.
  (** OList.cpp:64-70 *)
  Definition o_index (l : olist) (name : str) : outcome Z :=
    match mget scmp (o_names l) name with Some i => Ok i | None => Throw end.
  (** OList.cpp:59-62 *)
  Definition o_find (l : olist) (name : str) : outcome (option O) := let* i := o_index l name in rd (o_tab l) i.
  (** OList.cpp:72-78 *)
  Definition o_exists (l : olist) (name : str) : bool := match mget scmp (o_names l) name with Some _ => true | None => false end.
  (** OList.cpp:83-90; a null pointer is dereferenced after it was stored *)
  Definition o_set (l : olist) (i : Z) (o : option O) : outcome olist :=
    if o_size l <=? i then Throw
    else let* t := wr (o_tab l) i o in match o with Some _ => Ok (mkOL (o_size l) t (o_names l)) | None => UB end.
  (** OList.cpp:92-98 *)
  Definition o_set_named (l : olist) (name : str) (o : option O) : outcome olist :=
    let* i := o_index l name in
    let* t := wr (o_tab l) i o in match o with Some _ => Ok (mkOL (o_size l) t (o_names l)) | None => UB end.
  (** OList.cpp:113-130 *)
  Definition o_add (l : olist) (o : option O) : outcome olist :=
    if max_ops <=? o_size l then Throw
    else match o with
         | None => Throw
         | Some _ => let* t := wr (o_tab l) (o_size l) o in Ok (mkOL (o_size l + 1) t (o_names l))
         end.
  (** OList.cpp:136-144 *)
  Definition o_add_named (l : olist) (name : str) (o : option O) : outcome olist :=
    match mget scmp (o_names l) name with
    | Some _ => Throw
    | None => let* l := o_add l o in Ok (mkOL (o_size l) (o_tab l) (mset scmp (o_names l) name (o_size l - 1)))
    end.
  (** OList.cpp:183-199: the copy [this] of [r]; the map of names is not touched *)
  Definition o_copy (this r : olist) : outcome olist :=
    let* t := foldM (fun t i => let* o := o_get r i in
                                match o with Some o => wr t i (Some (dup o)) | None => UB end) (upto 0 (o_size r)) (o_tab this) in
    Ok (mkOL (o_size r) t (o_names this)).
End OLists.
