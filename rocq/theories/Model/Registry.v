(** Model of src/GlobalOpList.cpp: the global operator registry. *)
From Coq Require Import Ascii String List NArith ZArith Lia Bool Arith.
From Verif Require Import Base Arrays.
Import ListNotations.
Open Scope Z_scope.

(** Operators are pointers (0: NULL).  What the registry does to an operator: Init with a wave function, Delete
    (reference counting: see the collector). Init and Valid of operators do not call the registry and do not throw. *)
Inductive event := Inited (op : nat) (psi : nat) | Deleted (op : nat).
(** GlobalOpList.h:27-33 *)
Record entry := mkEntry { e_op : nat; e_init : bool; e_persist : bool; e_label : str }.
Record reg := mkReg { r_store : list (str * entry); r_anon : Z; r_log : list event }.
Definition r_new : reg := mkReg [] 0 [].

Section Reg.
  (** Operator::Name() *)
  Variable name : nat -> str.
  (** GlobalOpList.h:12 *)
  Definition prefix : str := lit "__".
  Definition anon_key (op : nat) (k : Z) : str := (prefix ++ name op ++ lit "#" ++ dec_print_Z k)%list.
  (** strlen(key.c_str()) < 1 *)
  Definition no_key (key : str) : bool := match key with [] => true | c :: _ => Ascii.eqb c nul end.
  Definition blank : entry := mkEntry 0 false false [].
  (** GlobalOpList.cpp:43-62: the (possibly generated) key and the registry; operator[] creates a blank entry *)
  Definition r_add (s : reg) (key : str) (op : nat) (persist : bool) : outcome (str * reg) :=
    match mget scmp (r_store s) key with
    | Some _ => Throw
    | None =>
        if Nat.eqb op 0 then Throw else
        let key' := if no_key key then anon_key op (r_anon s) else key in
        let anon := if no_key key then r_anon s + 1 else r_anon s in
        let e := match mget scmp (r_store s) key' with Some e => e | None => blank end in
        Ok (key', mkReg (mset scmp (r_store s) key' (mkEntry op (e_init e) persist (e_label e))) anon (r_log s))
    end.
  (** GlobalOpList.cpp:72-79 *)
  Definition r_label (s : reg) (key label : str) : outcome reg :=
    match mget scmp (r_store s) key with
    | None => Throw
    | Some e => Ok (mkReg (mset scmp (r_store s) key (mkEntry (e_op e) (e_init e) (e_persist e) label)) (r_anon s) (r_log s))
    end.
  (** GlobalOpList.cpp:89-103: [arr]: the caller's array *)
  Fixpoint labels_loop (label : str) (m : list (str * entry)) (arr : list nat) (n max : Z) : outcome (list nat * Z) :=
    match m with
    | [] => Ok (arr, n)
    | (_, e) :: t =>
        let* r := if str_eqb (e_label e) label then let* a := wr arr n (e_op e) in Ok (a, n + 1) else Ok (arr, n) in
        if snd r =? max then Ok r else labels_loop label t (fst r) (snd r) max
    end.
  Definition r_get_labels (s : reg) (label : str) (arr : list nat) (max : Z) : outcome (list nat * Z) :=
    labels_loop label (r_store s) arr 0 max.
  (** GlobalOpList.cpp:108-122 *)
  Fixpoint check_loop (op : nat) (label : str) (m : list (str * entry)) : bool :=
    match m with [] => false | (_, e) :: t => if Nat.eqb (e_op e) op then str_eqb (e_label e) label else check_loop op label t end.
  Definition r_check (s : reg) (op : nat) (label : str) : bool := check_loop op label (r_store s).
  (** GlobalOpList.cpp:133-142: one pass of the loop over the entries *)
  Definition init_entry (op psi : nat) (e : entry) : entry * list event * bool :=
    if Nat.eqb (e_op e) op then if e_init e then (e, [], true) else (mkEntry (e_op e) true (e_persist e) (e_label e), [Inited op psi], true)
    else (e, [], false).
  Definition init_loop (op psi : nat) (m : list (str * entry)) : list (str * entry) * list event * bool :=
    fold_left (fun acc ke => let '(m', l, f) := acc in let '(e, l', f') := init_entry op psi (snd ke) in (m' ++ [(fst ke, e)], l ++ l', f || f')%bool) m ([], [], false)%list.
  (** GlobalOpList.cpp:128-151 *)
  Definition r_init_op (s : reg) (op psi : nat) : outcome reg :=
    let '(m, l, found) := init_loop op psi (r_store s) in
    let s := mkReg m (r_anon s) (r_log s ++ l)%list in
    if (found : bool) then Ok s else
    let* r := r_add s [] op false in
    let '(key, s) := r in
    match mget scmp (r_store s) key with
    | None => UB
    | Some e => Ok (mkReg (mset scmp (r_store s) key (mkEntry (e_op e) true (e_persist e) (e_label e))) (r_anon s) (r_log s ++ [Inited (e_op e) psi])%list)
    end.
  (** GlobalOpList.cpp:159-171 *)
  Definition r_init_key (s : reg) (key : str) (psi : nat) : outcome reg :=
    match mget scmp (r_store s) key with
    | None => Throw
    | Some e => if e_init e then Ok s else
        Ok (mkReg (mset scmp (r_store s) key (mkEntry (e_op e) true (e_persist e) (e_label e))) (r_anon s) (r_log s ++ [Inited (e_op e) psi])%list)
    end.
  (** GlobalOpList.cpp:178-185 *)
  Definition r_get (s : reg) (key : str) : outcome nat := match mget scmp (r_store s) key with None => Throw | Some e => Ok (e_op e) end.
  (** GlobalOpList.cpp:212-224: [pos]: the iterator; None: out of fuel *)
  Fixpoint clear_loop (fuel : nat) (pos : nat) (m : list (str * entry)) (l : list event) : option (list (str * entry) * list event) :=
    match fuel with
    | O => None
    | S f =>
        match nth_error m pos with
        | None => Some (m, l)
        | Some (_, e) => if e_persist e then clear_loop f (S pos) m l
            else clear_loop f O (firstn pos m ++ skipn (S pos) m)%list (l ++ [Deleted (e_op e)])%list
        end
    end.
  Definition r_clear (fuel : nat) (s : reg) : option reg :=
    match clear_loop fuel O (r_store s) (r_log s) with Some (m, l) => Some (mkReg m (r_anon s) l) | None => None end.
End Reg.
