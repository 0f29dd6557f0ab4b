(** Model of src/GlobalWFList.cpp: the global list of wave functions, with the reference counts of src/tools/Collector.h. *)
From Coq Require Import Ascii String List NArith ZArith Lia Bool Arith.
From Verif Require Import Base Arrays Model.Collector Model.Registry.
Import ListNotations.
Open Scope Z_scope.

Section WFList.
  (** content of a wave function; its kind, WaveFunction::Name() *)
  Variable V : Type.
  Variable nm : V -> str.
  (** Wave functions are pointers (0: NULL), new ones are never used before.  [l_val p]: the content, None once destroyed.
      GlobalWFList.h:27-36: the entries are pointer and persistence *)
  Record wl := mkWL { l_store : list (str * (nat * bool)); l_anon : Z; l_coll : coll; l_val : nat -> option V; l_next : nat }.
  Definition wl_new : wl := mkWL [] 0 [] (fun _ => None) 1%nat.
  (** WaveFunction.h:49-54: operator new registers the object *)
  Definition wl_make (s : wl) (v : V) : nat * wl :=
    (l_next s, mkWL (l_store s) (l_anon s) (register (l_coll s) (l_next s)) (fun q => if Nat.eqb q (l_next s) then Some v else l_val s q) (S (l_next s))).
  (** DELETE_WF (WaveFunction.h:16, Collector.h:149-165): destroying what is destroyed already is undefined *)
  Definition wl_drop (s : wl) (p : nat) : outcome wl :=
    let '(c, d) := delete (l_coll s) p in
    match d with
    | [] => Ok (mkWL (l_store s) (l_anon s) c (l_val s) (l_next s))
    | _ => match l_val s p with None => UB | Some _ => Ok (mkWL (l_store s) (l_anon s) c (fun q => if Nat.eqb q p then None else l_val s q) (l_next s)) end
    end.
  Definition wl_hold (s : wl) (p : nat) : wl := mkWL (l_store s) (l_anon s) (register (l_coll s) p) (l_val s) (l_next s).
  Definition wl_put (s : wl) (key : str) (p : nat) (persist : bool) : wl := mkWL (mset scmp (l_store s) key (p, persist)) (l_anon s) (l_coll s) (l_val s) (l_next s).
  Definition wl_key (n : str) (k : Z) : str := (prefix ++ n ++ lit "#" ++ dec_print_Z k)%list.
  (** GlobalWFList.cpp:41-62 *)
  Definition wl_add (s : wl) (key : str) (p : nat) (persist : bool) : outcome wl :=
    match mget scmp (l_store s) key with
    | Some _ => Throw
    | None =>
        if Nat.eqb p 0 then Throw else
        if no_key key then
          match l_val s p with
          | None => UB
          | Some v =>
              let s' := mkWL (l_store s) (l_anon s + 1) (l_coll s) (l_val s) (l_next s) in
              Ok (wl_put (wl_hold s' p) (wl_key (nm v) (l_anon s)) p persist)
          end
        else Ok (wl_put (wl_hold s p) key p persist)
    end.
  (** GlobalWFList.cpp:67-74 *)
  Definition wl_get (s : wl) (key : str) : outcome nat := match mget scmp (l_store s) key with None => Throw | Some e => Ok (fst e) end.
  (** GlobalWFList.cpp:79-87 *)
  Definition wl_copy (s : wl) (key : str) : outcome (nat * wl) :=
    let* p := wl_get s key in
    match l_val s p with None => UB | Some v => Ok (wl_make s v) end.
  (** GlobalWFList.cpp:94-103: an entry that is there keeps its persistence *)
  Definition wl_set (s : wl) (key : str) (p : nat) : outcome wl :=
    match mget scmp (l_store s) key with
    | None => wl_add s key p true
    | Some e => let* s := wl_drop s (fst e) in Ok (wl_put (wl_hold s p) key p (snd e))
    end.
  (** GlobalWFList.cpp:108-120: [pos]: the iterator; None: out of fuel *)
  Fixpoint wl_clear (fuel pos : nat) (s : wl) : option (outcome wl) :=
    match fuel with
    | O => None
    | S f =>
        match nth_error (l_store s) pos with
        | None => Some (Ok s)
        | Some (_, (p, b)) =>
            if (b : bool) then wl_clear f (S pos) s else
            match wl_drop s p with
            | Ok s => wl_clear f O (mkWL (firstn pos (l_store s) ++ skipn (S pos) (l_store s))%list (l_anon s) (l_coll s) (l_val s) (l_next s))
            | r => Some r
            end
        end
    end.
End WFList.
Arguments mkWL {V}. Arguments l_store {V}. Arguments l_anon {V}. Arguments l_coll {V}. Arguments l_val {V}. Arguments l_next {V}. Arguments wl_new {V}. Arguments wl_make {V}.
Arguments wl_drop {V}. Arguments wl_hold {V}. Arguments wl_put {V}. Arguments wl_add {V}. Arguments wl_get {V}. Arguments wl_copy {V}. Arguments wl_set {V}. Arguments wl_clear {V}.
