(** Model of the global parameters: src/tools/GlobalParams.cpp, with ReadFromFile (ParamContainer.cpp:785-796) and IsFile (fstools.cpp:118-133).

    The file system gives for each name what stat and open find; it does not change during one call.  What is kept after an exception is left out;
    qdng.cpp:169 calls outside of its try block and ends.  [None]: out of fuel. *)
From Coq Require Import Ascii String List ZArith Bool.
From Verif Require Import Base Model.Params.
Import ListNotations.
Open Scope list_scope.

(** [Broken]: stat fails with another error than ENOENT; [Regular read write text]: a file that may be read and written *)
Inductive file := Absent | Broken | NotRegular | Regular (read write : bool) (text : str).
Definition filesystem := str -> file.

(** fstools.cpp:118-133 *)
Definition is_file (fs : filesystem) (name : str) : outcome bool :=
  match fs name with Broken => Throw | Absent | NotRegular => Ok false | Regular _ _ _ => Ok true end.

(** ParamContainer.cpp:785-796; fstream::open without a mode opens for reading and writing *)
Definition read_from_file (fuel : nat) (fs : filesystem) (name : str) (c : container) : option (outcome container) :=
  match fs name with
  | Regular true true text => match parse fuel c None (stream_of text) with
                              | None => None
                              | Some (Ok r) => Some (Ok (fst r))
                              | Some Throw => Some Throw
                              | Some UB => Some UB
                              end
  | _ => Some (Ok c)
  end.

(** GlobalParams.h:10-11 *)
Definition config_home : str := lit ".qdconfig".
Definition config_local : str := lit ".qdconfig".

(** GlobalParams.cpp:19-21, 22-24 *)
Definition look (fuel : nat) (fs : filesystem) (name : str) (c : container) : option (outcome container) :=
  match is_file fs name with
  | Ok true => read_from_file fuel fs name c
  | Ok false => Some (Ok c)
  | Throw => Some Throw
  | UB => Some UB
  end.

(** GlobalParams.cpp:11-29; home: the variable HOME, ref: the container that exists *)
Definition instance (fuel : nat) (home : option str) (fs : filesystem) (ref : option container) : option (outcome container) :=
  match ref with
  | Some c => Some (Ok c)
  | None =>
    match home with
    | None => Some UB     (* string(NULL) *)
    | Some h =>
      match look fuel fs (h ++ lit "/" ++ config_home) empty_c with
      | Some (Ok c) => look fuel fs config_local c
      | r => r
      end
    end
  end.

(** GlobalParams.cpp:31-37 *)
Definition destroy (ref : option container) : option container := None.

Inductive op := Instance (home : option str) (fs : filesystem) | Destroy.
(** calls one after the other, up to the first exception *)
Fixpoint calls (fuel : nat) (l : list op) (ref : option container) : option (outcome (list container)) :=
  match l with
  | [] => Some (Ok [])
  | Destroy :: t => calls fuel t (destroy ref)
  | Instance h fs :: t =>
    match instance fuel h fs ref with
    | Some (Ok c) => match calls fuel t (Some c) with Some (Ok r) => Some (Ok (c :: r)) | r => r end
    | Some Throw => Some Throw
    | Some UB => Some UB
    | None => None
    end
  end.
