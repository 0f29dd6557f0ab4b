(** What the extraction of eigenfunctions from a propagation is meant to deliver. *)
From Coq Require Import List ZArith Bool QArith Qcanon.
From Verif Require Import Base Arrays Algebra Complex Spec.Operators Model.AutoCorr.
Import ListNotations.
Open Scope Z_scope.

Section S.
  Variable D : cring.
  Variable M : cmodule (Cx D).
  Variable cis : Qc -> Cx D.
  Definition domain : Prop := forall a b : Cx D, cmul a b = c0 -> a = c0 \/ b = c0.
  (** the phase factors on a grid of [n] points: a homomorphism which is one exactly on whole turns *)
  Definition phases (n : Z) : Prop :=
    (forall j k, cis (qz (j + k) / qz n) = cmul (cis (qz j / qz n)) (cis (qz k / qz n)))%Qc /\ (forall k, cis (qz k / qz n)%Qc = c1 <-> k mod n = 0).
  (** [n] wave functions, the first at time zero, of the components [a]: (k, x) is x with the energy [k] in units of 2 pi / (n dt) *)
  Definition series (n : Z) (a : list (Z * M)) (ws : list M) : Prop := zlen ws = n /\
    forall s, 0 <= s < n -> rd ws s = Ok (msum (Cx D) M (map (fun c => mscale (cis (qz (- (fst c * s)) / qz n)%Qc) (snd c)) a)).
  (** the component of the discrete Fourier transform of the wave functions at index [j] *)
  Definition dft (n : Z) (ws : list M) (j : Z) : M := msum (Cx D) M (map (fun s => mscale (cis (qz (j * s) / qz n)%Qc) (nth (Z.to_nat s) ws m0)) (upto 0 n)).
  (** different energies, not even equal modulo the width of the spectrum *)
  Definition distinct (n : Z) (a : list (Z * M)) : Prop := NoDup (map (fun c => fst c mod n) a).
  (** the component at an index of the spectrum *)
  Definition component (n : Z) (a : list (Z * M)) (idx : Z) : M :=
    match find (fun c => fst c mod n =? idx mod n) a with Some c => snd c | None => m0 end.
End S.
