(** Model of src/ProgEigen.cpp: eigenfunctions by relaxation in imaginary time, and the diagonalisation of their basis.

    [D]: the real numbers, exact; [M]: wave functions; [dot]: the scalar product; [U]: the propagator at a step of the clock; [H]: the Hamiltonian; [normalize]:
    WaveFunction::Normalize, nothing if the result is not a number; [dist]: cabs(1 - <old|new>).  The buffer of the projector is a list (see Model/WFBuffer.v),
    a file is known by its number.  Loading, logging, and the files written in front of an exception are left out. *)
From Coq Require Import List ZArith Lia Bool QArith Qcanon.
From Verif Require Import Base Arrays Algebra Complex.
Import ListNotations.
Open Scope Z_scope.

Section Eigen.
  Variable D : cring.
  Variable M : cmodule (Cx D).
  Variable dot : M -> M -> Cx D.
  Variable U : Z -> M -> M.
  Variable H : M -> M.
  Variable normalize : M -> option M.
  Variable dist : M -> M -> Qc.
  (** Operator.h:226-252 *)
  Definition matel (a b : M) : Cx D := dot a (H b).
  Definition expec (a : M) : D := fst (matel a a).
  (** OProjection.cpp:133-149 with the parameters of ProgEigen (sign 1, not inverted) *)
  Definition project (P : list M) (src : M) : M := fold_left (fun dest w => madd dest (mscale (dot w src) w)) P m0.
  (** ProgEigen.cpp:369-388: at most [n] more steps, the clock at [clk] *)
  Fixpoint relax (conv : Qc) (P : list M) (i : Z) (n : nat) (clk : Z) (psi : M) : option M :=
    match n with
    | O => Some psi
    | S n =>
        let old := psi in
        let psi := U clk psi in
        let psi := if 0 <? i then madd psi (mscale (copp c1) (project P psi)) else psi in
        match normalize psi with
        | None => None
        | Some psi => if Qclt_le_dec conv (dist old psi) then relax conv P i n (clk + 1) psi else Some psi
        end
    end.
  (** the distance is 1 at the beginning *)
  Definition relaxed (conv : Qc) (P : list M) (i max : Z) (psi0 : M) : option M :=
    if Qclt_le_dec conv (Q2Qc 1) then relax conv P i (Z.to_nat max) 0 psi0 else Some psi0.
  (** WFBuffer.cpp:214-243; an entry beyond the next would stay uninitialised *)
  Definition set_state (P : list M) (i : Z) (psi : M) : outcome (list M) :=
    if i =? zlen P then Ok (P ++ [psi]) else if (0 <=? i) && (i <? zlen P) then wr P i psi else UB.
  (** states, energies, files *)
  Definition result : Type := (list M * list D * list (Z * M))%type.
  (** ProgEigen.cpp:365-409: the states from number [i] on *)
  Fixpoint ef_loop (conv : Qc) (max : Z) (psi0 : option M) (n : nat) (i : Z) (r : result) : outcome result :=
    match n with
    | O => Ok r
    | S n =>
        let '(P, E, fs) := r in
        match (match psi0 with Some p => relaxed conv P i max p | None => None end) with
        | None => Throw
        | Some psi => let* P := set_state P i psi in ef_loop conv max psi0 n (i + 1) (P, E ++ [expec psi], fs ++ [(i, psi)])
        end
    end.
  (** WFBuffer.cpp:314-341 and OProjection.cpp:66-72: [n] files beginning with number [i] *)
  Fixpoint read_states (files : Z -> option M) (n : nat) (i : Z) : option (list M) :=
    match n with
    | O => Some []
    | S n => match files i, read_states files n (i + 1) with Some w, Some l => Some (w :: l) | _, _ => None end
    end.
  (** ProgEigen.cpp:320-413 *)
  Definition imag_time (files : Z -> option M) (nef start max : Z) (conv : Qc) (psi0 : option M) : outcome result :=
    let* P := if 0 <? start then match read_states files (Z.to_nat start) 0 with Some l => Ok l | None => Throw end else Ok [] in
    ef_loop conv max psi0 (Z.to_nat (nef - start)) start (P, map expec P, []).

  (** * Diagonalisation *)
  Definition mat := Z -> Z -> D.
  Definition mset_at (A : mat) (a b : Z) (v : D) : mat := fun x y => if (x =? a) && (y =? b) then v else A x y.
  Definition get_state (P : list M) (i : Z) : outcome M := if (0 <=? i) && (i <? zlen P) then rd P i else Throw.
  (** ProgEigen.cpp:97-110 *)
  Definition build (P : list M) (E : list D) (nef : Z) : outcome mat :=
    foldM (fun A i =>
      let* bra := get_state P i in
      let* A := foldM (fun A j => let* ket := get_state P j in Ok (mset_at A j i (fst (matel bra ket)))) (upto 0 i) A in
      let* e := rd E i in
      Ok (mset_at A i i e)) (upto 0 nef) (fun _ _ => c0).
  (** ProgEigen.cpp:121-127 *)
  Definition combine (P : list M) (V : mat) (nef i : Z) : outcome M :=
    let* w := get_state P 0 in
    foldM (fun psi j => let* w := get_state P j in Ok (madd psi (mscale (cx_of (V j i)) w))) (upto 1 nef) (mscale (cx_of (V 0 i)) w).
  Variable lapack : Z -> mat -> option ((Z -> D) * mat).
  (** ProgEigen.cpp:89-136; the counter of the files begins with 0 again *)
  Definition diag_basis (nef : Z) (r : result) : outcome (list D * list (Z * M)) :=
    let '(P, E, fs) := r in
    let* A := build P E nef in
    match lapack nef A with
    | None => Throw
    | Some (Ed, V) => foldM (fun s i => let* psi := combine P V nef i in Ok (fst s ++ [Ed i], snd s ++ [(i, psi)])) (upto 0 nef) ([], fs)
    end.
  (** ProgEigen.cpp:64-83: number, energy, above the lowest, above the one before *)
  Definition energy_row (E : list D) (i : Z) : outcome (Z * D * D * option D) :=
    let* e := rd E i in
    let* e0 := rd E 0 in
    let* d := if 0 <? i then let* p := rd E (i - 1) in Ok (Some (csub e p)) else Ok None in
    Ok (i, e, csub e e0, d).
  Definition energy_file (nef : Z) (E : list D) : outcome (list (Z * D * D * option D)) :=
    foldM (fun l i => let* r := energy_row E i in Ok (l ++ [r])) (upto 0 nef) [].
  (** ProgEigen.cpp:158-228 (the checks) and 660-738: energies, the table of energies, and the files in the order of writing *)
  Definition run (files : Z -> option M) (nef start max : Z) (conv : Qc) (diag : bool) (psi : M) : outcome (list D * list (Z * D * D * option D) * list (Z * M)) :=
    if nef <? 1 then Throw else
    if start <? 0 then Throw else
    if nef <? start then Throw else
    if Qclt_le_dec (Q2Qc 1) conv then Throw else
    if max <? 1 then Throw else
    let* r := imag_time files nef start max conv (normalize psi) in
    let* s := if diag then diag_basis nef r else Ok (snd (fst r), snd r) in
    let* t := energy_file nef (fst s) in
    Ok (fst s, t, snd s).
End Eigen.
