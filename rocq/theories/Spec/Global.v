(** Configuration files. *)
From Coq Require Import Ascii String List ZArith Bool.
From Verif Require Import Base Model.Params Spec.Params Model.Global.
Import ListNotations.
Open Scope list_scope.

(** the first call ends with r *)
Definition starts (home : option str) (fs : filesystem) (r : outcome container) : Prop := exists fuel, instance fuel home fs None = Some r.
(** the file in the directory h, the one in the current directory *)
Definition in_home (h : str) : str := h ++ lit "/.qdconfig".
Definition here : str := lit ".qdconfig".
(** nothing to be read: no such file, or something else *)
Definition no_file (f : file) : Prop := f = Absent \/ f = NotRegular.
(** a configuration file with the settings c; a file that does not exist has none *)
Definition settings (f : file) (c : container) : Prop :=
  match f with
  | Regular true _ text => parses_to text None (Ok c)
  | Absent | NotRegular => c = empty_c
  | _ => False
  end.
(** settings of the current directory before those of the home directory *)
Definition layered (c own home : container) : Prop :=
  forall k, get_value c k = match get_value own k with Some v => Some v | None => get_value home k end.
Definition may_write (f : file) : Prop := match f with Regular _ w _ => w = true | _ => True end.
