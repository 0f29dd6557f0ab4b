(** What the compression program is meant to do with the files of a directory. *)
From Coq Require Import Ascii String List ZArith Lia Bool.
From Verif Require Import Base Arrays Algebra Ordered Model.RawFile Model.Qdz Model.Getopt Spec.Params Spec.Getopt.
Import ListNotations.
Open Scope Z_scope.

Section Spec.
  Variable F : ofld.
  Variables V R : Type.
  Variable reduce : F -> V -> R.
  Variable restore : R -> V.
  Variable scan : str -> option F.
  Notation disk := (list (str * content V R)).
  (** the wave function in a file *)
  Definition holds (st : disk) (name : str) (v : V) : Prop :=
    mget scmp st name = Some (Plain v) \/ exists m r, mget scmp st name = Some (Packed m r) /\ restore r = v.
  Definition readable (st : disk) (name : str) : Prop := exists v, holds st name v.
  (** as it is, or reduced and packed with zlib *)
  Definition stored (o : option F) (v : V) : content V R := match o with None => Plain v | Some tol => Packed Zlib (reduce tol v) end.
  (** the named files are converted, all others are as before *)
  Definition converted (o : option F) (st st' : disk) (names : str -> Prop) : Prop :=
    (forall n, names n -> exists v, holds st n v /\ mget scmp st' n = Some (stored o v)) /\
    forall n, ~ names n -> mget scmp st' n = mget scmp st n.
  Definition single_name (f : str) : str := (f ++ lit ".wf")%list.
  Definition elem_name (f : str) (k : Z) : str := (f ++ lit "_" ++ dec_print_Z k ++ lit ".wf")%list.
  (** the elements 0 ... n-1 of a series can be read, the next one cannot *)
  Definition run_of (st : disk) (f : str) (n : Z) : Prop :=
    (forall k, 0 <= k < n -> readable st (elem_name f k)) /\ ~ readable st (elem_name f n).
  Definition elements (f : str) (n : Z) (name : str) : Prop := exists k, 0 <= k < n /\ name = elem_name f k.

  (** what the options ask for: no conversion of what is in the file, or a tolerance *)
  Definition numbers (opts : list (ascii * str)) (tol : F) (level : Z) : Prop :=
    (exists t, option_text cmdline opts "t"%char t /\ scan t = Some tol) /\
    (exists l, option_text cmdline opts "l"%char l /\ begins_with_int l level /\ int32 level).
  Inductive request (opts : list (ascii * str)) : option F -> Prop :=
  | rq_plain : given opts "d"%char -> request opts None
  | rq_pack tol level m : ~ given opts "d"%char -> numbers opts tol level -> ~ olt c1 tol -> 1 <= level <= 9 ->
      option_text cmdline opts "m"%char m -> m = lit "z" \/ m = lit "j" -> request opts (Some (oabs tol)).
  (** the options are refused *)
  Inductive refused (opts : list (ascii * str)) : Prop :=
  | rf_tol t tol : ~ given opts "d"%char -> option_text cmdline opts "t"%char t -> scan t = Some tol -> olt c1 tol -> refused opts
  | rf_level tol level : ~ given opts "d"%char -> numbers opts tol level -> ~ 1 <= level <= 9 -> refused opts
  | rf_method tol level m : ~ given opts "d"%char -> numbers opts tol level -> option_text cmdline opts "m"%char m ->
      m <> lit "z" -> m <> lit "j" -> refused opts.
  Definition asked (opts : list (ascii * str)) (argv : list str) (oi : nat) (fname : str) : Prop :=
    ~ given opts "h"%char /\ nth_error (skipn oi argv) 0 = Some fname.
End Spec.
Arguments holds {V R}. Arguments readable {V R}. Arguments stored {F V R}. Arguments converted {F V R}. Arguments run_of {V R}. Arguments numbers {F}. Arguments request {F}. Arguments refused {F}.
