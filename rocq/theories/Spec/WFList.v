(** What the list of wave functions is meant to guarantee: who holds references, and histories of calls. *)
From Coq Require Import Ascii String List NArith ZArith Bool Arith.
From Verif Require Import Base Arrays Model.Registry Model.WFList.
Import ListNotations.

Section S.
  Context {V : Type} (nm : V -> str).
  Definition alive (s : wl V) (p : nat) : Prop := l_val s p <> None.
  Definition stored (s : wl V) (key : str) (p : nat) (persist : bool) : Prop := mget scmp (l_store s) key = Some (p, persist).
  Definition more (own : nat -> nat) (p : nat) : nat -> nat := fun q => if Nat.eqb q p then S (own q) else own q.
  Definition less (own : nat -> nat) (p : nat) : nat -> nat := fun q => if Nat.eqb q p then pred (own q) else own q.
  (** [good own s p]: what the program may hand to the list; [plain key]: keys it may use.
      [own p]: references the program itself holds *)
  Section H.
    Variable good : (nat -> nat) -> wl V -> nat -> Prop.
    Variable plain : str -> Prop.
    Inductive history : wl V -> (nat -> nat) -> Prop :=
    | h_start : history wl_new (fun _ => O)
    | h_make s own v : history s own -> history (snd (wl_make s v)) (more own (fst (wl_make s v)))
    | h_drop s own p s' : history s own -> (0 < own p)%nat -> wl_drop s p = Ok s' -> history s' (less own p)
    | h_add s own key p b s' : history s own -> good own s p -> plain key -> wl_add nm s key p b = Ok s' -> history s' own
    | h_set s own key p s' : history s own -> good own s p -> plain key -> wl_set nm s key p = Ok s' -> history s' own
    | h_copy s own key p s' : history s own -> wl_copy s key = Ok (p, s') -> history s' (more own p)
    | h_clear s own f s' : history s own -> wl_clear f 0 s = Some (Ok s') -> history s' own.
  End H.
  (** the program holds a reference to what it hands over *)
  Definition held (own : nat -> nat) (s : wl V) (p : nat) : Prop := (0 < own p)%nat.
  (** it only exists *)
  Definition there (own : nat -> nat) (s : wl V) (p : nat) : Prop := alive s p.
  Definition any (key : str) : Prop := True.
  (** keys that do not look like generated ones *)
  Definition unlike (key : str) : Prop := forall t, key <> (prefix ++ t)%list.
  (** the list or the program refers to p *)
  Definition referred (s : wl V) (own : nat -> nat) (p : nat) : Prop := (0 < own p)%nat \/ exists key b, stored s key p b.
End S.
