(** Model of the loading of wave function definitions (src/ChainLoader.cpp): single definitions, linear combinations and
    the mapping of multi state wave functions. *)
From Coq Require Import List ZArith Lia Bool.
From Verif Require Import Base Arrays Algebra.
Import ListNotations.
Open Scope Z_scope.

(** Wave functions are elements of a module.  [norm]: WaveFunction::Normalize, [phase]: cexpI(phase * pi), [root]: sqrt,
    [is0]: comparison with zero.  Reading files is left out: a single definition carries the loaded wave function.  Storage in
    the global list ("key") is left out. *)
Section Chain.
  Variable R : cring.
  Variable M : cmodule R.
  Variable norm : M -> M.
  Variable phase root : R -> R.
  Variable is0 : R -> bool.
  (** the attributes normalize, phase, coeff, coeff2 *)
  Record attrs := mkAttrs { a_norm : bool; a_phase : option R; a_coeff : option R; a_coeff2 : option R }.
  Inductive wfdef := Single (a : attrs) (x : M) | LC (a : attrs) (l : list wfdef).
  (** ChainLoader.cpp:409-417: the coefficient, 0 if there is none *)
  Definition coeff_of (a : attrs) : R := match a_coeff a with Some c => c | None => match a_coeff2 a with Some c => root c | None => c0 end end.
  (** ChainLoader.cpp:395-425; null wave functions are dereferenced as soon as there is something to do *)
  Definition finish (a : attrs) (w : option M) : outcome (option M) :=
    match w with
    | None => if a_norm a || (if a_phase a then true else false) || negb (is0 (coeff_of a)) then UB else Ok None
    | Some x =>
        let x := if a_norm a then norm x else x in
        let x := match a_phase a with Some p => mscale (phase p) x | None => x end in
        Ok (Some (if is0 (coeff_of a) then x else mscale (coeff_of a) x))
    end.
  (** ChainLoader.cpp:263-281: one pass of the loop ([coeff] is always 0 there) *)
  Definition lc_pass (acc : option M) (w : option M) : outcome (option M) :=
    match w with
    | None => UB
    | Some x =>
        let y := match acc with None => x | Some y => madd y x end in
        Ok (Some (madd y x))
    end.
  (** ChainLoader.cpp:300-438 and 257-284 *)
  Fixpoint load (d : wfdef) : outcome (option M) :=
    match d with
    | Single a x => finish a (Some x)
    | LC a l =>
        let* w := (fix loop (l : list wfdef) (acc : option M) : outcome (option M) :=
          match l with [] => Ok acc | d :: t => let* w := load d in let* acc := lc_pass acc w in loop t acc end) l None in
        finish a w
    end.
End Chain.

(** * Mapping of multi state wave functions (ChainLoader.cpp:198-255)

    [psi]: the states of the input; [smap], [coeffs]: the attributes statemap and coeffs, None if absent. The result: either the
    slots of a new multi state wave function (None: empty slot; Add with an index replaces the slot; states are shared with the
    input, so the factor is applied to the shared state) or a single wave function. *)
Section Map.
  Variable R : cring.
  Variable M : cmodule R.
  Inductive mapped := Multi (slots : list (option M)) | One (x : M).
  Definition put (slots : list (option M)) (k : nat) (x : M) : list (option M) :=
    (firstn k (slots ++ repeat None k) ++ Some x :: skipn (S k) slots)%list.
  Definition map_multi (psi : list M) (smap : option (list Z)) (coeffs : option (list R)) : outcome mapped :=
    let s := match smap with Some s => s | None => [] end in
    if zlen psi <? zlen s then Throw else
    let cs := match coeffs with Some c => c | None => repeat c1 (length s) end in
    if 1 <? zlen s then
      let* r := foldM (fun (slots : list (option M)) i =>
        let* t := rd s i in
        if (zlen psi <=? t) || (t <? 0) then Throw else
        let* x := rd psi i in
        let x := if zlen cs <=? i then mscale c0 x else mscale (nth (Z.to_nat i) cs c0) x in
        Ok (put slots (Z.to_nat t) x)) (upto 0 (zlen s)) [] in
      Ok (Multi r)
    else
      let* t := rd s 0 in
      if (zlen psi <=? t) || (t <? 0) then Throw else
      let* x := rd psi t in
      let* c := rd cs 0 in
      Ok (One (mscale c x)).
End Map.
