(** What a dipole coupling is, written without the code. *)
From Coq Require Import Ascii String List ZArith Bool.
From Verif Require Import Base Arrays Algebra Complex Ordered Model.Potential Spec.Potential Model.Dipole.
Import ListNotations.
Open Scope Z_scope.

Section Spec.
  Variable F : ofld.
  Open Scope cr_scope.

  (** - mu E psi at every grid point; all lists have the length of [mu] *)
  Definition coupled (mu : list F) (e : F) (psi r : list (Cx F)) : Prop :=
    length r = length mu /\ forall j m c, nth_error mu j = Some m -> nth_error psi j = Some c ->
      nth_error r j = Some (cx_scale (- (m * e)) c).

  (** the dipole asked for by the parameters *)
  Definition moment (p : pars F) (factor : F) (d : list F) : list F := map (fun v => (v + p_offset p) * factor) d.
  Definition scale_of (p : pars F) : F := match p_scale p with Some s => s | None => 1 end.

  (** the "scale" an operator has after reading a file: that of the meta file, or its own *)
  Definition file_scale (f : file F) (p : pars F) : F := match f with Raw h _ => scale_of h | Strm _ _ => scale_of p end.

  (** a laser file that fits the clock *)
  Definition suits (c : clk F) (e : list F * F) : Prop := snd e = k_dt c /\ (k_steps c <= zlen (fst e))%Z.

  (** laws of the functions used for pulses *)
  Record pulse_laws (fexp fcos : F -> F) : Prop := {
    pl_zero : fexp 0 = 1;
    pl_exp : forall x, ole x 0 -> ole 0 (fexp x) /\ ole (fexp x) 1;
    pl_cos : forall x, ole (- (1)) (fcos x) /\ ole (fcos x) 1;
    pl_even : forall x, fcos (- x) = fcos x }.
  (** standard deviation and centre of a pulse; by default an eighth, resp. half of the steps (rounded down) *)
  Definition width (c : clk F) (p : pulse F) : F := match u_sigma p with Some s => s | None => ofZ (Z.quot (k_steps c) 8) * k_dt c end.
  Definition centre (c : clk F) (p : pulse F) : F := match u_t0 p with Some t => t | None => ofZ (Z.quot (k_steps c) 2) * k_dt c end.
  Definition height (emax0 : F) (p : pulse F) : F := match u_emax p with Some e => e | None => emax0 end.
  Definition within (b x : F) : Prop := ole (- b) x /\ ole x b.
End Spec.
Arguments coupled {F}. Arguments moment {F}. Arguments scale_of {F}. Arguments suits {F}. Arguments file_scale {F}. Arguments width {F}. Arguments centre {F}. Arguments height {F}. Arguments pulse_laws {F}. Arguments within {F}.
