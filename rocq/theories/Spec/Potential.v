(** What a potential read from a file is, written without the code. *)
From Coq Require Import Ascii String List ZArith Bool.
From Verif Require Import Base Arrays Algebra Complex Ordered Model.Potential.
Import ListNotations.
Open Scope Z_scope.

Section Spec.
  Variable F : ofld.
  Open Scope cr_scope.

  Definition lowest (v : list F) (m : F) : Prop := In m v /\ forall x, In x v -> ole m x.
  Definition highest (v : list F) (m : F) : Prop := In m v /\ forall x, In x v -> ole x m.

  (** the potential asked for: stored values, the lowest moved to zero, offset added, scaled *)
  Definition asked (p : pars F) (stored used : list F) : Prop :=
    exists m, (if p_setzero p then lowest stored m else m = 0) /\
    used = map (fun v => (v - m + p_offset p) * match p_scale p with Some s => s | None => 1 end) stored.

  (** a grid: points times points ... *)
  Fixpoint volume (g : list (axis F)) : Z := match g with [] => 1 | a :: t => (ax_n a * volume t)%Z end.
  Definition good_axis (a : axis F) : Prop := (1 <= ax_n a)%Z /\ olt (ax_lo a) (ax_hi a).
  Definition good_grid (g : list (axis F)) : Prop := (1 <= zlen g <= 4)%Z /\ forall a, In a g -> good_axis a.

  (** a complete file of values [d] on grid [g], in either format *)
  Inductive holds : file F -> list (axis F) -> list F -> Prop :=
  | holds_raw h g d : p_dims h = zlen g -> p_axes h = g -> holds (Raw h d) g d
  | holds_strm g d : holds (Strm g d) g d.
  Definition complete (f : file F) (g : list (axis F)) (d : list F) : Prop :=
    holds f g d /\ good_grid g /\ zlen d = volume g.

  (** parameters that ask for the stored values *)
  Definition plain (p : pars F) : Prop := p_setzero p = false /\ p_offset p = 0 /\ p_scale p = None.
  (** parameters that name a file *)
  Definition names (p : pars F) : Prop := (p_dims p <= 0)%Z /\ p_file p <> [].

  Definition csq (c : Cx F) : F := fst c * fst c + snd c * snd c.
  Definition norm2 (psi : list (Cx F)) : F := lsum csq psi.
  (** <a|b> *)
  Fixpoint braket (a b : list (Cx F)) : Cx F :=
    match a, b with x :: a, y :: b => (cx_conj x * y + braket a b)%cr | _, _ => 0 end.

  (** grids that differ by less than the tolerance *)
  Definition close (eps : F) (a b : F) : Prop := ole (- eps) (a - b) /\ ole (a - b) eps.
  Definition fits (eps : F) (g h : list (axis F)) : Prop :=
    Forall2 (fun a b => ax_n a = ax_n b /\ close eps (ax_lo a) (ax_lo b) /\ close eps (ax_hi a) (ax_hi b)) g h.
End Spec.
Arguments lowest {F}. Arguments highest {F}. Arguments asked {F}. Arguments volume {F}. Arguments good_axis {F}. Arguments good_grid {F}.
Arguments holds {F}. Arguments complete {F}. Arguments names {F}. Arguments plain {F}. Arguments csq {F}. Arguments norm2 {F}. Arguments braket {F}.
Arguments close {F}. Arguments fits {F}.
