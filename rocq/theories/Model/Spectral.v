(** Model of the application of derivative operators in momentum space: src/qdlib/OGridNabla.cpp:76-114,
    src/qdlib/Diff.cpp:203-304 (method FFT) and src/qdlib/OGridNablaSq.cpp:108-111, as programs over the wave functions of
    Model/Repr.v.  Floating point numbers are replaced by a field.

    The codelets are those of src/math/codelets (MultElementsCDd, -CCDd, -CopyCCDd, -ComplexCDd, -ComplexEqCCDd, in the variant
    without SIMD).  They read the table up to the size of the vector; tables of another size are excluded in the statements. *)
From Coq Require Import List ZArith Lia Bool Arith.
From Verif Require Import Base Arrays Algebra Complex Model.Grid Model.Repr.
Import ListNotations.
Open Scope Z_scope.

Section Programs.
  Variable A : Type.
  (** forward, multiply into the other one, switch the source back, backward *)
  Definition out_of_place (od : option nat) (g : list A -> list A) (d s : nat) : list (cmd A) :=
    [CTrans A true s od; CSwitch A d true; CMap A d s g; CSwitch A s false; CTrans A false d od].
  Definition in_place (od : option nat) (g : list A -> list A) (p : nat) : list (cmd A) :=
    [CTrans A true p od; CMap A p p g; CTrans A false p od].
End Programs.

Section Spectral.
  Variable F : fld.
  Notation A := (cr (Cx F)).

  Fixpoint mult_with (f : A -> F -> A) (t : list F) (x : list A) : list A :=
    match x, t with
    | a :: x', b :: t' => f a b :: mult_with f t' x'
    | _, _ => x
    end.
  (** MultElementsCDd.h:27, MultElementsCCDd.h:27, MultElementsCopyCCDd.h:27: a * k * c *)
  Definition mult_real (t : list F) (c : F) (x : list A) : list A :=
    mult_with (fun a k => (a * cx_of k * cx_of c)%cr) t x.
  (** MultElementsComplexCDd.h:27: a * I * k * c *)
  Definition mult_imag (t : list F) (c : F) (x : list A) : list A :=
    mult_with (fun a k => (a * @cx_i F * cx_of k * cx_of c)%cr) t x.
  (** MultElementsComplexEqCCDd.h:27: a * (k * I) * c *)
  Definition mult_imag_eq (t : list F) (c : F) (x : list A) : list A :=
    mult_with (fun a k => (a * (cx_of k * @cx_i F) * cx_of c)%cr) t x.

  Definition sgn (conj : bool) : F := if conj then (- c1)%cr else c1.

  (** OGridNabla.cpp:76-95; [n] is double(GridSystem::Size()) *)
  Definition nabla_apply (conj momentum : bool) (fac n : F) (kspace : list F) (d s : nat) : list (cmd A) :=
    out_of_place A None (if momentum then mult_real kspace (sgn conj * fac / n)%cr else mult_imag_eq kspace (sgn conj * fac / n)%cr) d s.
  (** OGridNabla.cpp:98-114 *)
  Definition nabla_apply_in (conj momentum : bool) (fac n : F) (kspace : list F) (p : nat) : list (cmd A) :=
    in_place A None (if momentum then mult_real kspace (sgn conj * fac / n)%cr else mult_imag kspace (sgn conj * fac / n)%cr) p.

  (** Diff.cpp:203-212, OGridNablaSq.cpp:108-111 *)
  Definition dndxn (dd n : F) (kspace : list F) (out inp : nat) : list (cmd A) :=
    out_of_place A None (mult_real kspace (dd / n)%cr) out inp.
  (** Diff.cpp:223-236; [n] is double(_grid.DimSize(dim)) *)
  Definition dndxn_dim (deriv : Z) (dd n : F) (k1 : list F) (dim : nat) (out inp : nat) : list (cmd A) :=
    out_of_place A (Some dim) (if Z.rem deriv 2 =? 1 then mult_imag_eq k1 (dd / n)%cr else mult_real k1 (dd / n)%cr) out inp.
  (** WFGridSystem (Vector.h): *out += in *)
  Definition add_vec (x y : list A) : list A := map (fun p => (fst p + snd p)%cr) (combine x y).
  (** Diff.cpp:250-262 *)
  Definition dndxn_add (deriv : Z) (dd n : F) (k1 : list F) (dim : nat) (out inp : nat) : list (cmd A) :=
    in_place A (Some dim) (if Z.rem deriv 2 =? 1 then mult_imag k1 (dd / n)%cr else mult_real k1 (dd / n)%cr) inp ++
    [COp A out inp add_vec].
  (** Diff.cpp:274-294; FastCopy copies the elements (Vector.h:380-401) *)
  Definition dxdy (deriv : Z) (dd n1 n2 : F) (kmix : list F) (dim1 dim2 : nat) (out inp : nat) : list (cmd A) :=
    [CMap A out inp (fun y => y); CTrans A true out (Some dim1); CTrans A true out (Some dim2);
     CMap A out out (if Z.rem deriv 2 =? 1 then mult_imag kmix (dd / (n1 * n2))%cr else mult_real kmix (dd / (n1 * n2))%cr);
     CTrans A false out (Some dim2); CTrans A false out (Some dim1)].
End Spectral.
