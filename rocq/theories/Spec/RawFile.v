(** What raw binary files are meant to do. *)
From Coq Require Import Ascii String List ZArith Bool.
From Verif Require Import Base Arrays Model.Serial Model.FileWF Model.RawFile.
Import ListNotations.
Open Scope Z_scope.

(** the data ends with a tag *)
Definition tagged (b tag : list byte) : Prop := exists a, b = (a ++ tag)%list.
(** data that is not taken for something else *)
Definition plain (b : list byte) : Prop := 8 <= zlen b /\ ~ tagged b zlib_magic /\ ~ tagged b bzip_magic.
(** there is a zero among the first 16 bytes, if there are so many, and they are not the beginning of a stream *)
Definition not_stream (b : list byte) : Prop := (16 <= zlen b -> In 0 (firstn 16 b)) /\ firstn 12 b <> firstn (length b) (magic ++ [0])%list.
(** the parameter file is another one than the data file *)
Definition apart (f : file) : Prop := f_seq f = true \/ f_suffix f <> lit ".meta".
Definition int_ok (z : Z) : Prop := -2147483648 <= z <= 2147483647.
(** the parameters can be read back and the data has the size they say *)
Definition sized {P} (menc : P -> list byte) (mdec : list byte -> outcome P) (size : P -> outcome Z) (d : P * list byte) : Prop :=
  mdec (menc (fst d)) = Ok (fst d) /\ size (fst d) = Ok (zlen (snd d)) /\ 0 < zlen (snd d).
