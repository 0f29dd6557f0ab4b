(** What the buffer is meant to be: an array of wave functions. *)
From Coq Require Import List ZArith.
From Verif Require Import Base Arrays Model.WFBuffer.
Import ListNotations.
Open Scope Z_scope.

Section S.
  Variable V : Type.
  Variable sz : Z.
  Variable reload : V -> V.
  Variable fresh : V.
  Notation buf := (buf V).

  (** the calls a client can make; [OWrite]: it writes through the pointer of an entry *)
  Inductive op := OInit | OSet (pos : Z) (v : V) | OGet (pos : Z) | OLock (pos : Z) | OUnLock (pos : Z) | OAuto (d : Z)
    | OResize (n : Z) | OClear | OWrite (pos : Z) (v : V).
  Definition legal (o : op) : Prop :=
    match o with OSet p _ | OGet p | OLock p | OUnLock p | OAuto p | OResize p | OWrite p _ => 0 <= p | _ => True end.
  Definition step (b : buf) (o : op) : outcome (bool * buf) :=
    match o with
    | OInit => Ok (b_init V sz fresh b)
    | OSet pos v => b_set V sz b pos v
    | OGet pos => let* r := b_get V sz reload fresh b pos in Ok (fst (fst r), snd r)
    | OLock pos => b_lock V sz b pos
    | OUnLock pos => let* b := b_unlock V b pos in Ok (true, b)
    | OAuto d => Ok (true, b_auto V b d)
    | OResize n => let* b := b_resize V b n in Ok (true, b)
    | OClear => Ok (true, b_clear V b)
    | OWrite pos v => let* b := b_write V b pos v in Ok (true, b)
    end.
  (** the array: what was stored last *)
  Definition arr := Z -> option V.
  Definition astep (a : arr) (o : op) : arr :=
    match o with
    | OSet pos v | OWrite pos v => fun i => if i =? pos then Some v else a i
    | OResize n => fun i => if i <? n then a i else None
    | OClear => fun _ => None
    | _ => a
    end.
  (** histories of calls, with or without exceptions in between *)
  Inductive hist (max : Z) : buf -> arr -> Prop :=
  | h_new : hist max (b_new V max) (fun _ => None)
  | h_step b a o ok b' : hist max b a -> legal o -> step b o = Ok (ok, b') -> hist max b' (astep a o).
  Inductive calm (max : Z) : buf -> Prop :=
  | c_new : calm max (b_new V max)
  | c_step b o b' : calm max b -> legal o -> step b o = Ok (true, b') -> calm max b'.

  (** the entry is in memory *)
  Definition resident (b : buf) (i : Z) : Prop := exists e v, rd (b_ent V b) i = Ok e /\ e_psi V e = Some v.
  (** memory held when every wave function really occupies [real] bytes *)
  Definition held (real : Z) (b : buf) : Z := real * zlen (filter (in_mem V) (b_ent V b)).
  (** the entry is the oldest one in the window of locked accesses, which is full *)
  Definition oldest (b : buf) (i : Z) : Prop := b_depth V b <= zlen (b_last V b) /\ b_last V b <> [] /\ List.last (b_last V b) 0 = i.
  (** entries in the window are pairwise different, locked and in memory *)
  Definition window_ok (b : buf) : Prop := NoDup (b_last V b) /\
    forall x, In x (b_last V b) -> exists e v, rd (b_ent V b) x = Ok e /\ e_psi V e = Some v /\ e_lock V e = true.
  (** k reads of entries outside the window, and any number of stores *)
  Inductive run : nat -> buf -> buf -> Prop :=
  | r_nil b : run 0 b b
  | r_set k b b1 ok b2 pos v : run k b b1 -> 0 <= pos -> b_set V sz b1 pos v = Ok (ok, b2) -> run k b b2
  | r_get k b b1 r b2 pos : run k b b1 -> 0 <= pos -> ~ In pos (b_last V b1) -> b_get V sz reload fresh b1 pos = Ok (true, r, b2) -> run (S k) b b2.
End S.
