(** What the kinetic energy operator with a G-matrix is meant to be. *)
From Coq Require Import Ascii List ZArith Bool QArith Qabs.
From Verif Require Import Base Arrays Algebra Model.GMat Spec.Operators.
Import ListNotations.
Open Scope Z_scope.

(** where the element in row i and column j stands in a list of the rows of the lower triangle *)
Definition tri_pos (i j : Z) : nat := let r := Z.max i j in let c := Z.min i j in Z.to_nat (r * (r + 1) / 2 + c).

Section S.
  Variable R : cring.
  Variable M : cmodule R.
  Variable V : Type.
  Variable half : R.
  Variable mul : V -> M -> M.
  Variable D : Z -> M -> M.
  Variable dv : R -> Z -> V -> V.
  Variable P : Z -> M -> M.
  Notation params := (params R).

  Definition additive (F : M -> M) : Prop := forall x y, F (madd x y) = madd (F x) (F y).
  Definition homogeneous (F : M -> M) : Prop := forall a x, F (mscale a x) = mscale a (F x).
  Definition linear (F : M -> M) : Prop := additive F /\ homogeneous F.

  (** what an element is: constant if constants are given and a grid function if not, unless "Gdef" says something else *)
  Definition kind (p : params) (i j : Z) : source :=
    let usual := match p_G R p with Some _ => SConst | None => SGrid end in
    match p_def R p with
    | None => usual
    | Some l => match nth_error l (tri_pos i j) with
                | None => usual
                | Some c => if Ascii.eqb c "g" then SGrid else if Ascii.eqb c "c" then SConst else SNone
                end
    end.
  (** the constant elements; those not given are 0 *)
  Definition const (p : params) (i j : Z) : R := match p_G R p with Some l => nth (tri_pos i j) l c0 | None => c0 end.
  (** elements that count: the diagonal, and the rest when the coordinates are coupled *)
  Definition counts (p : params) (i j : Z) : bool := (i =? j) || p_coup R p.
  (** multiplication with element i j of the symmetric matrix *)
  Definition elem (p : params) (files : Z -> Z -> option V) (i j : Z) (x : M) : M :=
    if counts p i j then
      match kind p i j with
      | SNone => m0
      | SConst => mscale (const p i j) x
      | SGrid => match files (Z.max i j) (Z.min i j) with Some v => mul v x | None => m0 end
      end
    else m0.
  (** sum over i and j of -1/2 d/dxj G_ij d/dxi *)
  Definition dsum (n : Z) (f : Z -> Z -> M) : M := msum R M (map (fun i => msum R M (map (f i) (upto 0 n))) (upto 0 n)).
  Definition kinetic (n : Z) (G : Z -> Z -> M -> M) (psi : M) : M := dsum n (fun i j => mscale (copp half) (D j (G i j (D i psi)))).

  (** The layers: each derivative is followed by the transformation of the layer of its dimension. *)
  Definition layered (i : Z) (x : M) : M := P i (D i x).
  (** What is computed with layers: both transformations at the end for a constant element, only that of the outer derivative for a grid function. *)
  Definition layer_term (p : params) (files : Z -> Z -> option V) (psi : M) (i j : Z) : M :=
    if counts p i j then
      match kind p i j with
      | SNone => m0
      | SConst => P j (P i (mscale (cmul (copp half) (const p i j)) (D j (D i psi))))
      | SGrid => match files (Z.max i j) (Z.min i j) with Some v => P j (mscale (copp half) (D j (mul v (D i psi)))) | None => m0 end
      end
    else m0.

  (** the files of all elements that count are there and fit to the wave function *)
  Definition available (p : params) (files : Z -> Z -> option V) (same : V -> bool) : Prop :=
    forall i j, 0 <= j <= i -> i < p_dims R p -> counts p i j = true -> kind p i j = SGrid ->
      (2 <= length (p_name R p))%nat /\ exists v, files i j = Some v /\ same v = true.
  (** elements that do not count are not to be read from files *)
  Definition safe (p : params) : Prop := p_coup R p = true \/ forall i j, 0 <= j < i -> i < p_dims R p -> kind p i j <> SGrid.
  (** all elements count and are grid functions *)
  Definition all_grid (p : params) : Prop := forall i j, 0 <= i < p_dims R p -> 0 <= j < p_dims R p -> counts p i j = true /\ kind p i j = SGrid.
  (** the derivatives commute and obey the product rule *)
  Definition calculus : Prop :=
    (forall i j x, D i (D j x) = D j (D i x)) /\
    (forall a i v x, madd (mul (dv a i v) x) (mscale a (mul v (D i x))) = mscale a (D i (mul v x))) /\
    (forall v, linear (mul v)).

  (** the operator is made from its parameters, given a wave function of d dimensions and applied *)
  Definition made (p : params) (files : Z -> Z -> option V) (d : Z) (same : V -> bool) : outcome (op R V) :=
    let* o := init R V p files in init_psi R V half dv o d same.
End S.

(** The quadratic form of the momenta at one point of the grid: momenta are given in units of pi / dx *)
Open Scope Q_scope.
Definition qsum (l : list Q) : Q := fold_right Qplus 0 l.
Section E.
  Variable n : Z.
  Variable coup : bool.
  Variable src : Z -> Z -> source.
  Variable c : Z -> Z -> Q.
  Variable g : Z -> Z -> list Q.
  Variable dx : Z -> Q.
  Definition value (x : nat) (i j : Z) : Q :=
    if (i =? j)%Z || coup then match src i j with SNone => 0 | SConst => c i j | SGrid => nth x (g i j) 0 end else 0.
  Definition form (x : nat) (k : Z -> Q) : Q :=
    qsum (map (fun i => qsum (map (fun j => 2 * (value x i j / (dx i * dx j)) * (k i * k j)) (upto 0 i)) + value x i i / (dx i * dx i) * (k i * k i)) (upto 0 n)).
  (** every grid function has the points of the grid *)
  Definition points (m : nat) : Prop := forall i j, src i j = SGrid -> length (g i j) = m.
  Definition spaced : Prop := forall i, 0 < dx i.
  Definition momenta (k : Z -> Q) : Prop := forall i, Qabs (k i) <= 1.
  (** off-diagonal elements which are not a negative constant, and constant ones only on coarse grids *)
  Definition fair (m : nat) : Prop := forall i j, (0 <= j < i)%Z -> (i < n)%Z -> coup = true ->
    match src i j with
    | SNone => True
    | SConst => 0 <= c i j /\ 1 <= dx i * dx j
    | SGrid => exists y, (y < m)%nat /\ (0 <= value y i j \/ exists z, (z < m)%nat /\ value y i j < value z i j)
    end.
End E.
