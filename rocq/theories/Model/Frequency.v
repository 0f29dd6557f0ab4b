(** Model of src/qdlib/Kspace.{h,cpp} and of the frequency axis in src/Reporter.cpp.  Floating point numbers are
    replaced by a field. *)
From Coq Require Import List ZArith Lia Bool Arith.
From Verif Require Import Base Arrays Algebra.
Import ListNotations.
Open Scope Z_scope.

Section Freq.
  Variable F : fld.

  (** GridSystem.cpp:207 *)
  Definition Dx (xmin xmax : F) (N : Z) : F := ((xmax - xmin) / ofZ (N - 1))%cr.

  (** Kspace.h:20-23; [twopi] stands for 2*M_PI *)
  Definition Dk (twopi xmin xmax : F) (N : Z) : F := (twopi / (xmax - xmin + Dx xmin xmax N))%cr.

  (** Kspace.cpp:64-88; [dk] is Dk of the dimension *)
  Definition Init1Dddx (dk : F) (Nx : Z) (factor : F) : outcome (list F) :=
    let dp := (dk * factor)%cr in
    let ks := repeat c0 (Z.to_nat Nx) in
    if Z.rem Nx 2 =? 0 then
      foldM (fun ks i =>
        let* ks := wr ks i (ofZ i * dp)%cr in
        wr ks (Nx - i - 1) (ofZ (-1) * ofZ (i + 1) * dp)%cr) (upto 0 (Z.quot Nx 2)) ks
    else
      let* ks := wr ks 0 c0 in
      foldM (fun ks i =>
        let* ks := wr ks i (ofZ i * dp)%cr in
        wr ks (Nx - i) (ofZ (-1) * ofZ i * dp)%cr) (upto 1 (Z.quot (Nx + 1) 2)) ks.

  (** Kspace.cpp:22-50 *)
  Definition Init1Dd2dx2 (dk : F) (Nx : Z) (factor : F) : outcome (list F) :=
    let dp := (dk * dk * (- factor))%cr in
    let ks := repeat c0 (Z.to_nat Nx) in
    if Z.rem Nx 2 =? 0 then
      foldM (fun ks i =>
        let* ks := wr ks i (ofZ i * ofZ i * dp)%cr in
        wr ks (Nx - i - 1) (ofZ (i + 1) * ofZ (i + 1) * dp)%cr) (upto 0 (Z.quot Nx 2)) ks
    else
      let* ks := wr ks 0 c0 in
      foldM (fun ks i =>
        let* ks := wr ks i (ofZ i * ofZ i * dp)%cr in
        wr ks (Nx - i) (ofZ i * ofZ i * dp)%cr) (upto 1 (Z.quot (Nx + 1) 2)) ks.

  (** Kspace.cpp:17-20 *)
  Definition Init1Dd2dx2_mass (dk : F) (Nx : Z) (mass : F) : outcome (list F) :=
    Init1Dd2dx2 dk Nx (ofZ (-1) / (ofZ 2 * mass))%cr.

  (** Reporter.cpp:173-183: frequency written for bin i, with dw = 2*M_PI / (dt * N) *)
  Definition spectrum_freq (twopi dt : F) (N i : Z) : F :=
    let dw := (twopi / (dt * ofZ N))%cr in
    (if i <? Z.quot N 2 then ofZ i * dw else ofZ (- (N - i)) * dw)%cr.
End Freq.
