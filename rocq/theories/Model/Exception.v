(** Model of the errors and their messages: src/tools/Exception.h and Exception.cpp.

    An error is the call of the constructor that made it; GetMessage (Exception.h:66-69) gives [message].  A const char pointer points to characters that end with
    the first zero character.  Numbers of system errors are those of Linux. *)
From Coq Require Import Ascii String List ZArith Bool.
From Verif Require Import Base Model.Doubles.
Import ListNotations.
Open Scope Z_scope.

Inductive error :=
| Plain (m : str)                                        (* Exception.h:56-59, 79, 89, 100, 121, 150, 159, 171 *)
| Memory                                                 (* EMemory(), Exception.h:158 *)
| Missing (missing : list (str * str)) (m : option str)  (* EParamProblem, Exception.h:127, 134 *)
| ParamText (m reason : str)                             (* Exception.cpp:15-18 *)
| ParamDouble (m : str) (reason : dbl)                   (* Exception.cpp:20-26 *)
| ParamInt (m : str) (reason : Z)                        (* Exception.cpp:28-34 *)
| MemSys (cerrno : Z) (m : str)                          (* Exception.cpp:37-52 *)
| IOFile (m fname : str)                                 (* Exception.cpp:54-57 *)
| IOSys (cerrno : Z) (name : str)                        (* Exception.cpp:59-90 *)
| Incompatible (m name : str)                            (* Exception.cpp:92-96 *)
| Incompatible2 (m name1 name2 : str)                    (* Exception.cpp:98-103 *)
| WrongClass (expected name : str).                      (* Exception.cpp:105-108 *)

Definition zero_chr : ascii := "000"%char.
(** the characters a const char pointer stands for; string::c_str gives the pointer *)
Fixpoint c_str (s : str) : str := match s with [] => [] | c :: t => if Ascii.eqb c zero_chr then [] else c :: c_str t end.

(** asm-generic/errno-base.h, errno.h *)
Definition EIO := 5.
Definition ENOMEM := 12.
Definition EACCES := 13.
Definition EEXIST := 17.
Definition ENOTDIR := 20.
Definition EINVAL := 22.
Definition ENOSPC := 28.
Definition EROFS := 30.
Definition ENAMETOOLONG := 36.

(** Exception.cpp:41-50 *)
Definition mem_text (e : Z) : str :=
  if e =? EINVAL then lit "EINVAL" else if e =? ENOMEM then lit "Out of memory" else lit "Error in system call".
(** Exception.cpp:63-88 *)
Definition io_text (e : Z) : str :=
  if e =? EACCES then lit "Access denied"
  else if e =? EIO then lit "I/O read error"
  else if e =? EEXIST then lit "File exists"
  else if e =? ENOTDIR then lit "Path does not exist"
  else if e =? ENOSPC then lit "No space left on device"
  else if e =? ENAMETOOLONG then lit "File name too long"
  else if e =? EROFS then lit "Access to read-only fs"
  else lit "Error in accessing file".

Definition message (x : error) : str :=
  match x with
  | Plain m => c_str m
  | Memory => lit "Out of memory"
  | Missing _ None => []
  | Missing _ (Some m) => c_str m
  | ParamText m r => c_str m ++ r
  | ParamDouble m r => c_str m ++ lit ": " ++ print_g r
  | ParamInt m r => c_str m ++ lit ": " ++ dec_print_Z r
  | MemSys e m => c_str m ++ lit " - " ++ mem_text e
  | IOFile m f => c_str m ++ lit ": " ++ f
  | IOSys e n => io_text e ++ lit ": " ++ n
  | Incompatible m n => c_str (c_str m ++ lit ": " ++ n)
  | Incompatible2 m a b => c_str (c_str m ++ lit ": " ++ a ++ lit " <-> " ++ b)
  | WrongClass t n => c_str (lit "Class not of type " ++ c_str t ++ lit ": " ++ n)
  end%list.
