(** Specification of temporary files: an array of elements on disk that vanishes with its object. *)
From Coq Require Import Ascii String List ZArith Lia Bool Arith.
From Verif Require Import Base Arrays Model.TmpFile.
Import ListNotations.
Open Scope Z_scope.

Section Spec.
  Variable B : Type.
  Variable zero : B.
  Variable w : Z.
  (** byte j of a file, 0 behind the end *)
  Definition byte (c : list B) (j : Z) : B := nth (Z.to_nat j) c zero.
  (** two systems with the same files, descriptors and mappings *)
  Definition same (s s' : os B) : Prop :=
    (forall n, files s' n = files s n) /\ (forall d, fds s' d = fds s d) /\ (forall a, maps s' a = maps s a).
  (** mkstemp gives a new descriptor and a new file, mmap a free address *)
  Definition honest (fresh : os B -> option (Z * str)) (place : os B -> Z -> option Z) : Prop :=
    (forall s d n, fresh s = Some (d, n) -> d <> -1 /\ fds s d = None /\ files s n = None) /\
    (forall s p a, place s p = Some a -> maps s a = None).
  (** a program with one temporary file *)
  Inductive op := OOpen (n : Z) (mm : bool) | OSeek (n : Z) | ORead (n : Z) | OWrite (l : list B) | OResize (n : Z) | OClose.
  Variables (fresh : os B -> option (Z * str)) (room : Z -> bool) (place : os B -> Z -> option Z).
  Definition unit_of {A} (r : result B A) : result B unit := let '(x, o) := r in (x, match o with Ok _ => Ok tt | Throw => Throw | UB => UB end).
  Definition step (o : op) (s : os B) (t : tmp) : result B unit :=
    match o with
    | OOpen n mm => unit_of (open B zero w fresh room place s t n mm)
    | OSeek n => seek B w s t n
    | ORead n => unit_of (read_el B w s t n)
    | OWrite l => write_el B zero room s t l
    | OResize n => unit_of (resize B zero w room place s t n)
    | OClose => close B w s t true
    end.
  Fixpoint steps (l : list op) (s : os B) (t : tmp) : result B unit :=
    match l with
    | [] => (s, t, Ok tt)
    | o :: l => match step o s t with (s, t, Ok _) => steps l s t | r => r end
    end.
  (** positions lseek can report in an int without looking like an error *)
  Definition position (x : Z) : Prop := 0 <= x < 2 ^ 63 /\ x mod 2 ^ 32 <> 2 ^ 32 - 1.
  (** t is open in s with the bytes c, at some position *)
  Definition holds (s : os B) (t : tmp) (c : list B) : Prop :=
    t_open t = true /\ files s (t_name t) = Some c /\ exists o, 0 <= o /\ fds s (t_fd t) = Some (t_name t, o).
End Spec.
Arguments byte {B}. Arguments same {B}. Arguments honest {B}. Arguments OOpen {B}. Arguments OSeek {B}. Arguments ORead {B}. Arguments OWrite {B}. Arguments OResize {B}. Arguments OClose {B}.
Arguments step {B}. Arguments steps {B}. Arguments holds {B}.
