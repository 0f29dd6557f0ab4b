(** Model of the method "ac" of src/ProgEigen.cpp: eigenfunctions from the auto correlation of a propagation.

    [cis q] is cexpI(2 pi q), exact; times are rationals; the window, the transform, the modulus and the peak finder make one oracle [peaks] from the auto
    correlation to the indices found.  The buffer of the wave functions is a list.  [norm] gives nothing if the result is not a number; such results are
    not noticed here.  Logging and the spectrum file are left out. *)
From Coq Require Import List ZArith Lia Bool QArith Qcanon.
From Verif Require Import Base Arrays Algebra Complex.
Import ListNotations.
Open Scope Z_scope.

Definition qz (z : Z) : Qc := Q2Qc (inject_Z z).

Section AutoCorr.
  Variable D : cring.
  Variable M : cmodule (Cx D).
  Variable dot : M -> M -> Cx D.
  Variable U : Z -> M -> M.
  Variable H : M -> M.
  Variable norm : M -> option M.
  Variable cis : Qc -> Cx D.
  Variable peaks : list (Cx D) -> list Z.
  (** ProgEigen.cpp:442-463: the propagation, [n] more steps with the clock at [clk] *)
  Fixpoint propagate (n : nat) (clk : Z) (psi : M) : list M :=
    match n with
    | O => []
    | S n => let psi := U clk psi in psi :: propagate n (clk + 1) psi
    end.
  (** ProgEigen.cpp:446, 453, 519-523 *)
  Definition autocorr (ws : list M) : list (Cx D) := match ws with [] => [] | w0 :: t => c1 :: map (fun w => dot w w0) t end.
  (** ProgEigen.cpp:562-567, divided by 2 pi; [n]: number of wave functions, [cdt], [csteps]: of the clock *)
  Definition frequency (n : Z) (cdt : Qc) (csteps idx : Z) : Qc :=
    let dw := (Q2Qc 1 / (cdt * qz csteps))%Qc in
    if idx <? Z.quot n 2 then (qz idx * dw)%Qc else (qz (idx - n) * dw)%Qc.
  (** ProgEigen.cpp:570-573 *)
  Definition integrate (ws : list M) (dt w : Qc) : outcome M :=
    let* w0 := rd ws 0 in
    foldM (fun psi s => let* x := rd ws s in Ok (madd psi (mscale (cis (w * qz s * dt)%Qc) x))) (upto 1 (zlen ws)) w0.
  (** ProgEigen.cpp:525-591: per peak the state (number of its file) and the energy *)
  Definition extract (ws : list M) (dt cdt : Qc) (csteps : Z) : outcome (list (option (M * D))) :=
    foldM (fun l idx =>
      let* psi := integrate ws dt (frequency (zlen ws) cdt csteps idx) in
      Ok (l ++ [match norm psi with Some p => Some (p, fst (dot p (H p))) | None => None end])) (peaks (autocorr ws)) [].
  (** where the wave functions come from: propagated now, or files with what the meta file of a propagation says about the time step and the write cycle and
      the number of steps *)
  Inductive origin := Run (psi : M) | Files (meta : option (Qc * Z * Z)) (ws : list M).
  (** ProgEigen.cpp:415-591; [dt], [steps]: from the input *)
  Definition ac (dt : Qc) (steps : Z) (o : origin) : outcome (list (option (M * D))) :=
    if steps <? 1 then Throw else
    match o with
    | Run psi => extract (psi :: propagate (Z.to_nat (steps - 1)) 0 psi) dt dt steps
    | Files meta ws =>
        let* fdt := match meta with
                    | None => Ok dt
                    | Some (mdt, wcycle, nt) =>
                        if Qclt_le_dec (Q2Qc 0) mdt then if wcycle <=? 0 then Throw else if nt <? 2 then Throw else Ok (mdt * qz wcycle)%Qc else Throw
                    end in
        if zlen ws <? 2 then Throw else extract ws fdt dt steps
    end.
End AutoCorr.
Arguments Run {D M}. Arguments Files {D M}.
