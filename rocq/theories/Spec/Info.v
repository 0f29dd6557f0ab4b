(** What the two small programs are meant to do. *)
From Coq Require Import Ascii String List NArith ZArith Bool.
From Verif Require Import Base Arrays Model.Serial.
Import ListNotations.
Open Scope Z_scope.

Definition octets (b : list byte) : Prop := Forall (fun x => 0 <= x < 256) b.
(** "QDngPrtoBuf" with its zero and the version *)
Definition first16 : list byte := [81; 68; 110; 103; 80; 114; 116; 111; 66; 117; 102; 0; 1; 0; 0; 0].
(** a stream file: this, the size of the header, the header, and whatever follows *)
Definition stream_of (e rest : list byte) : list byte :=
  (first16 ++ [zlen e mod 256; zlen e / 256 mod 256; zlen e / 65536 mod 256; zlen e / 16777216 mod 256] ++ e ++ rest)%list.
(** the name given on the command line, behind the options *)
Definition name_of (argv : list str) (oi : nat) : option str := nth_error argv oi.
(** files are as before but for one *)
Definition changed (s s' : str -> option str) (n v : str) : Prop := s' n = Some v /\ forall m, m <> n -> s' m = s m.
