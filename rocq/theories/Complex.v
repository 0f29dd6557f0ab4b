(** Complex numbers over a commutative ring; the ring of pairs. *)
From Coq Require Import ZArith Ring.
From Verif Require Import Algebra.

Section Cx.
  Variable R : cring.
  Add Ring RR : (cr_th R).
  Open Scope cr_scope.
  Definition cx : Type := R * R.
  Definition cx_add (a b : cx) : cx := (fst a + fst b, snd a + snd b).
  Definition cx_sub (a b : cx) : cx := (fst a - fst b, snd a - snd b).
  Definition cx_opp (a : cx) : cx := (- fst a, - snd a).
  Definition cx_mul (a b : cx) : cx := (fst a * fst b - snd a * snd b, fst a * snd b + snd a * fst b).
  Definition cx_re (r : R) : cx := (r, 0).

  Lemma cx_eq (a b : cx) : fst a = fst b -> snd a = snd b -> a = b.
  Proof. destruct a, b; cbn; congruence. Qed.
  Lemma cx_theory : ring_theory (cx_re 0) (cx_re 1) cx_add cx_mul cx_sub cx_opp eq.
  Proof.
    constructor; intros; apply cx_eq; cbn; ring.
  Qed.
  Definition Cx : cring := mkRing cx (cx_re 0) (cx_re 1) cx_add cx_mul cx_sub cx_opp cx_theory.
  Definition cx_conj (a : Cx) : Cx := (fst a, - snd a).
  Definition cx_i : Cx := (0, 1).
  Definition cx_of (r : R) : Cx := (r, 0).
  Definition cx_scale (r : R) (a : Cx) : Cx := (r * fst a, r * snd a).

  Lemma conj_mul (a b : Cx) : cx_conj (a * b) = cx_conj a * cx_conj b.
  Proof. apply cx_eq; cbn; ring. Qed.
  Lemma conj_add (a b : Cx) : cx_conj (a + b) = cx_conj a + cx_conj b.
  Proof. apply cx_eq; cbn; ring. Qed.
  Lemma conj_conj (a : Cx) : cx_conj (cx_conj a) = a.
  Proof. apply cx_eq; cbn; ring. Qed.
  Lemma conj_lsum {A} (f : A -> Cx) l : cx_conj (lsum f l) = lsum (fun a => cx_conj (f a)) l.
  Proof. induction l as [|a t IH]; [apply cx_eq; cbn; ring|]. cbn [lsum]. rewrite conj_add, IH. reflexivity. Qed.
  Lemma scale_of r (a : Cx) : cx_scale r a = cx_of r * a.
  Proof. apply cx_eq; cbn; ring. Qed.
  Lemma i_squared : cx_i * cx_i = cx_of (- (1)).
  Proof. apply cx_eq; cbn; ring. Qed.
End Cx.
Arguments cx_add {R}. Arguments cx_sub {R}. Arguments cx_opp {R}. Arguments cx_mul {R}. Arguments cx_conj {R}. Arguments cx_i {R}.
Arguments cx_of {R}. Arguments cx_scale {R}.
