(** What the table and the spectrum of a propagation are: columns and their values, the auto correlation and its transform. *)
From Coq Require Import Ascii String List ZArith Lia Bool.
From Verif Require Import Base Arrays Algebra Complex Model.Params Model.Report.
Import ListNotations.
Open Scope Z_scope.

Section Asked.
  Variable c : container.
  (** an option that is on: said so, or on by default and not switched off *)
  Definition on (k : str) (default : bool) : Prop :=
    get_value c k = Some (lit "true") \/ default = true /\ get_value c k <> Some (lit "false").
  Definition with_spectrum : Prop := get_value c (lit "spectrum") <> None.
  (** the columns asked for *)
  Definition asked (col : column) : Prop :=
    match col with
    | CStep | CTime => True
    | CPop | CState _ => on (lit "norm") true
    | CEnergy => on (lit "energy") true
    | CProj => (on (lit "proj0") false \/ with_spectrum) /\ ~ on (lit "proj0Abs") false
    | CProjSq => on (lit "proj0Abs") false
    end.
End Asked.
(** the columns of a table of k states, and a choice of them *)
Definition all_columns (k : Z) : list column := [CStep; CTime; CPop] ++ map CState (upto 0 k) ++ [CEnergy; CProj; CProjSq].
Inductive chosen (P : column -> Prop) : list column -> list column -> Prop :=
| ch_nil : chosen P [] []
| ch_take x l m : P x -> chosen P l m -> chosen P (x :: l) (x :: m)
| ch_leave x l m : ~ P x -> chosen P l m -> chosen P (x :: l) m.

Section Spec.
  Variable F : fld.
  Variable W : Type.
  Variables (norm energy : W -> F) (states : W -> option (list F)) (dot : W -> W -> Cx F).
  Variable dt : F.
  (** all wave functions have k states (0: they are not of the kind with states) *)
  Definition uniform (k : Z) (psi : W) : Prop :=
    match states psi with Some l => zlen l = k /\ 0 < k | None => k = 0 end.
  Definition sqr (z : Cx F) : F := (fst z * fst z + snd z * snd z)%cr.
  (** the number in a column, for the wave function at time step t; [proj]: the projection *)
  Inductive shows (proj : Cx F) (t : Z) (psi : W) : column -> number F -> Prop :=
  | sh_step : shows proj t psi CStep (NInt t)
  | sh_time : shows proj t psi CTime (NReal (ofZ t * dt)%cr)
  | sh_pop : shows proj t psi CPop (NReal (norm psi * norm psi)%cr)
  | sh_state i l x : states psi = Some l -> rd l i = Ok x -> shows proj t psi (CState i) (NReal (x * x)%cr)
  | sh_energy : shows proj t psi CEnergy (NReal (energy psi))
  | sh_proj : shows proj t psi CProj (NCx proj)
  | sh_sq : shows proj t psi CProjSq (NReal (sqr proj)).
  Definition row_shows (proj : Cx F) (cols : list column) (t : Z) (psi : W) (row : list (cell F)) : Prop :=
    Forall2 (shows proj t psi) cols (map snd row).
  (** decimals of a number in the table *)
  Definition decimals (f : fmt) : Z := match f with Int => 0 | Fixed p | Sci p => p end.
  (** the modulus of a number, the law of the scalar product *)
  Definition modulus (cabs : Cx F -> F) (z : Cx F) : Prop := (cabs z * cabs z)%cr = sqr z.
  Definition hermitian : Prop := forall x y, dot x y = cx_conj (dot y x).
  (** the phases of n points: a group of period n in which the sum over all points is 0 *)
  Definition roots (cis : Z -> Z -> Cx F) (n : Z) : Prop :=
    (forall a b, cis (a + b) n = (cis a n * cis b n)%cr) /\ cis 0 n = c1 /\
    (forall a, cx_conj (cis a n) = cis (- a) n) /\
    forall m, Z.rem m n <> 0 -> lsum (fun j => cis (j * m) n) (upto 0 n) = c0.
End Spec.
Arguments uniform {F W}. Arguments shows {F W}. Arguments row_shows {F W}. Arguments sqr {F}. Arguments modulus {F}. Arguments hermitian {F W}. Arguments roots {F}.
Section Spectrum.
  Variable F : fld.
  Variable cis : Z -> Z -> Cx F.
  Variable cosn : Z -> Z -> F.
  (** the Fourier transform of n values, and the window function of Hann *)
  Definition transform (n : Z) (g : Z -> Cx F) (m : Z) : Cx F := lsum (fun j => (g j * cis (- (j * m)) n)%cr) (upto 0 n).
  Definition window (win : bool) (n : Z) (g : Z -> Cx F) (j : Z) : Cx F :=
    if win then cx_scale ((c1 - cosn j (n - 1)) / ofZ 2)%cr (g j) else g j.
End Spectrum.
Arguments transform {F}. Arguments window {F}.
