(** The real numbers of the standard library as an ordered field, with the complex exponential.  Only Props/Spo.v and files
    that say so use it: its theorems depend on the axioms of the standard library's real numbers. *)
From Coq Require Import Reals Lra Field.
From Verif Require Import Algebra Complex Ordered.

Definition Rr : cring := mkRing R 0%R 1%R Rplus Rmult Rminus Ropp RTheory.
Definition Rf : fld := mkField Rr Rinv Rdiv Rfield.
Lemma R_add (a b c : R) : (a < b)%R -> (a + c < b + c)%R.
Proof. lra. Qed.
Lemma R_mul (a b : R) : (0 < a)%R -> (0 < b)%R -> (0 < a * b)%R.
Proof. exact (Rmult_lt_0_compat a b). Qed.
Definition Ro : ofld := mkOrd Rf Rlt total_order_T Rlt_irrefl Rlt_trans R_add R_mul.

Definition Rcexp (z : Cx Ro) : Cx Ro := (exp (fst z) * cos (snd z), exp (fst z) * sin (snd z))%R.
Lemma Rcexp_add (a b : Cx Ro) : Rcexp (cadd a b) = cmul (Rcexp a) (Rcexp b).
Proof. destruct a as [x y], b as [u v]. unfold Rcexp. cbn. rewrite exp_plus, cos_plus, sin_plus. apply (@cx_eq Ro); cbn; ring. Qed.
Lemma Rcexp_0 : Rcexp c0 = c1.
Proof. unfold Rcexp. cbn. rewrite exp_0, cos_0, sin_0. apply (@cx_eq Ro); cbn; ring. Qed.
Lemma R_sqrt (x : R) : (0 <= x)%R -> (0 <= sqrt x)%R /\ (sqrt x * sqrt x = x)%R.
Proof. intros H. split; [apply sqrt_pos|apply sqrt_sqrt, H]. Qed.
