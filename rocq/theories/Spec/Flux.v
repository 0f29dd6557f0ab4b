(** Probability flux (doc/Handbook.tex:1038-1046), written without the code. *)
From Coq Require Import List ZArith Bool.
From Verif Require Import Base Algebra Complex Ordered.
Import ListNotations.

Section Spec.
  Variable F : ofld.
  Open Scope cr_scope.
  Variable w : F.
  (** integral of a density over a volume, given by a factor g for every grid point *)
  Fixpoint integral (g : list F) (r : list F) : F := match g, r with a :: g, x :: r => w * (a * x) + integral g r | _, _ => 0 end.
  (** Im (bra* T ket) at every point *)
  Fixpoint im_density (bra tket : list (Cx F)) : list F :=
    match bra, tket with x :: b, y :: t => snd (cx_conj x * y : Cx F) :: im_density b t | _, _ => [] end.
  Definition density (psi : list (Cx F)) : list F := map (fun z => fst z * fst z + snd z * snd z) psi.
  (** the flux out of the volume: - 2 times the integral of Im (psi* T psi) *)
  Definition flux_out (g : list F) (T : list (Cx F) -> list (Cx F)) (psi : list (Cx F)) : F := - ((1 + 1) * integral g (im_density psi (T psi))).
  (** the weight in the volume *)
  Definition weight (g : list F) (psi : list (Cx F)) : F := integral g (density psi).
  (** psi - i tau T psi: psi after the short time tau, up to order tau^2 *)
  Definition ii : Cx F := (0, 1).
  Definition after (tau : F) (T : list (Cx F) -> list (Cx F)) (psi : list (Cx F)) : list (Cx F) :=
    map (fun x => (fst x + - (ii * cx_scale tau (snd x)))%cr) (combine psi (T psi)).
  (** multiplication with the volume *)
  Definition within_volume (g : list F) (G : list (Cx F) -> list (Cx F)) : Prop :=
    forall x, length x = length g -> G x = map (fun y => cx_scale (fst y) (snd y)) (combine g x).
  Definition keeps_size (n : nat) (T : list (Cx F) -> list (Cx F)) : Prop := forall x, length x = n -> length (T x) = n.
  (** <a|b> *)
  Fixpoint braket (a b : list (Cx F)) : Cx F := match a, b with x :: a, y :: b => (cx_scale w (cx_conj x * y) + braket a b)%cr | _, _ => 0 end.
  Definition hermitian (n : nat) (T : list (Cx F) -> list (Cx F)) : Prop :=
    forall a b, length a = n -> length b = n -> braket a (T b) = braket (T a) b.
End Spec.
Arguments integral {F}. Arguments im_density {F}. Arguments density {F}. Arguments flux_out {F}. Arguments weight {F}. Arguments after {F}. Arguments within_volume {F}.
Arguments keeps_size {F}. Arguments braket {F}. Arguments hermitian {F}. Arguments ii {F}.
