(** Model of src/ProgFilter.cpp: the program that applies filters to the files of a propagation.

    [W]: wave functions, [T]: what the filters and the reporter keep; [look]: FiltersList::Apply and Reporter::Analyze, which see the time step of the clock, may
    change the wave function (it is read anew for the next step) and may throw.  Files are known by their number.  The directory of the output, loading the filters,
    logging and the time step are left out. *)
From Coq Require Import Ascii String List NArith ZArith Lia Bool.
From Verif Require Import Base Arrays Model.Params.
Import ListNotations.
Open Scope Z_scope.

(** ProgPropa.cpp:144-158: Propagation.meta; [dt]: the text of the time step *)
Definition propa_meta (base dt : str) (n w : Z) : container :=
  set_int (set_value (set_value (set_int (set_value empty_c (lit "CLASS") (lit "Propagation") t_string) (lit "Nt") n) (lit "dt") dt t_double) (lit "WFBaseName") base t_string) (lit "Wcycle") w.

Section FilterProg.
  Variables (W T : Type) (look : Z -> W -> T -> outcome T).
  (** files: a later one replaces an earlier one of the same number *)
  Definition file (l : list (Z * W)) (n : Z) : option W := match find (fun p => fst p =? n) (rev l) with Some p => Some (snd p) | None => None end.
  (** ProgFilter.cpp:158-165: [n] more files beginning with number [i]; false: an exception *)
  Fixpoint series (l : list (Z * W)) (n : nat) (i : Z) (t : T) : outcome (bool * T) :=
    match n with
    | O => Ok (true, t)
    | S n => match file l i with
             | None => Ok (false, t)
             | Some x => match look i x t with Ok t => series l n (i + 1) t | Throw => Ok (false, t) | UB => UB end
             end
    end.
  (** ProgFilter.cpp:36-112 (the meta file) and 114-172.  The quotient of the steps is computed with doubles, which is exact before it is cut off; infinity and
      values beyond the integers are undefined. *)
  Definition f_steps (meta : container) : outcome Z :=
    match get_value meta (lit "CLASS") with
    | Some c => if str_eqb c (lit "Propagation") then
        let* (_, n) := get_int meta (lit "Nt") 0 in
        let* (_, w) := get_int meta (lit "Wcycle") 0 in
        if w =? 0 then UB else if 2147483647 <? Z.quot n w then UB else Ok (Z.quot n w)
        else Throw
    | None => Throw
    end.
  Definition f_run (meta : container) (l : list (Z * W)) (t : T) : outcome (bool * T) :=
    match f_steps meta with
    | UB => UB
    | Throw => Ok (false, t)
    | Ok n => series l (S (Z.to_nat n)) 0 t
    end.
End FilterProg.
