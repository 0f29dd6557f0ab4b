(** What friction operators should do, without reference to how they are computed. *)
From Coq Require Import List ZArith Lia Bool.
From Verif Require Import Base Arrays Algebra Complex Ordered.
Import ListNotations.
Open Scope Z_scope.

Section Spec.
  Variable F : ofld.
  Notation C := (Cx F).
  Notation wf := (Z -> C).
  Variable n : Z.
  Variable dv : F.
  (** scalar product on [n] points with volume element [dv] *)
  Definition inner (a b : wf) : C := cmul (cx_of dv) (lsum (fun k => cmul (cx_conj (a k)) (b k)) (upto 0 n)).
  (** mean value, velocity (the rate of change of the mean position under [T], i<[T,X]>) *)
  Definition mean (A : wf -> wf) (w : wf) : F := fdiv (fst (inner w (A w))) (fst (inner w w)).
  Definition velocity (T X : wf -> wf) (w : wf) : F :=
    fdiv (fst (cmul cx_i (csub (inner w (T (X w))) (inner w (X (T w)))))) (fst (inner w w)).
  Definition hermitian (A : wf -> wf) : Prop := forall a b, inner a (A b) = cx_conj (inner b (A a)).
  Definition local (A : wf -> wf) : Prop := forall f g, (forall k, 0 <= k < n -> f k = g k) -> forall k, 0 <= k < n -> A f k = A g k.
  Definition linear (A : wf -> wf) : Prop := forall (a b : C) f g k, 0 <= k < n ->
    A (fun k => cadd (cmul a (f k)) (cmul b (g k))) k = cadd (cmul a (A f k)) (cmul b (A g k)).
  (** friction by the velocity: strength times velocity times displacement *)
  Definition drag (e : F) (T X : wf -> wf) (w : wf) (k : Z) : C :=
    cmul (cx_of (cmul e (velocity T X w))) (csub (X w k) (cmul (cx_of (mean X w)) (w k))).
  (** OGridStokes.h:17-21: g [c ((xp + px)/2 - <x> p) + (1-c) <p> (x - <x>)] *)
  Definition friction (g c : F) (X P : wf -> wf) (w : wf) (k : Z) : C :=
    cmul (cx_of g) (cadd
      (cmul (cx_of c) (csub (cmul (cx_of (fdiv c1 (cadd c1 c1))) (cadd (X (P w) k) (P (X w) k))) (cmul (cx_of (mean X w)) (P w k))))
      (cmul (cx_of (cmul (csub c1 c) (mean P w))) (csub (X w k) (cmul (cx_of (mean X w)) (w k))))).
  (** change of momentum in each dimension by friction: -6 pi eta R dt G p *)
  Definition six_of : F := cadd (cadd c1 c1) (cadd (cadd c1 c1) (cadd c1 c1)).
  Definition slowed (pi eta R dt : F) (d : Z) (G : Z -> Z -> Z -> F) (p : Z -> F) (i k : Z) : F :=
    copp (cmul (cmul (cmul (cmul (cmul six_of pi) eta) R) dt) (lsum (fun j => cmul (G i j k) (p j)) (upto 0 d))).
  Definition root (sq : F -> F) (a : F) : Prop := ole c0 (sq a) /\ cmul (sq a) (sq a) = a.
End Spec.
