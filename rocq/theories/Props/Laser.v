(** Properties C54 and C61: laser fields. *)
From Coq Require Import List NArith ZArith Lia Bool.
From Verif Require Import Base Arrays Algebra Model.Laser Spec.Laser Proofs.Laser.
Import ListNotations.
Open Scope Z_scope.

(** The full property: energy and copies agree with the values the laser reports. *)
Definition C54_full : Prop := forall (R : cring) kfac (l dest : laser R) vals, clocked R l -> zlen vals = zlen (l_data R l) ->
  (forall t x, rd vals t = Ok x -> reported R l t x) ->
  l_energy R kfac l = cmul (cmul kfac (l_dt R l)) (lsum (fun x => cmul x x) vals) /\
  (forall t, l_get R (l_at R (l_assign R dest l) t) = l_get R (l_at R l t)).

(** What the code computes: the energy is short of one factor scale. *)
Theorem C54_energy_code : forall (R : cring) kfac (l : laser R) vals, clocked R l -> zlen vals = zlen (l_data R l) ->
  (forall t x, rd vals t = Ok x -> reported R l t x) ->
  cmul (l_scale R l) (l_energy R kfac l) = cmul (cmul kfac (l_dt R l)) (lsum (fun x => cmul x x) vals).
Proof. exact energy_exact. Qed.
Print Assumptions C54_energy_code.

(** Without scaling the energy is right. *)
Theorem C54_energy_partial : forall (R : cring) kfac (l : laser R) vals, clocked R l -> zlen vals = zlen (l_data R l) ->
  (forall t x, rd vals t = Ok x -> reported R l t x) -> l_scale R l = c1 ->
  l_energy R kfac l = cmul (cmul kfac (l_dt R l)) (lsum (fun x => cmul x x) vals).
Proof. exact energy_unscaled. Qed.
Print Assumptions C54_energy_partial.

(** A copy keeps the scale factor of the destination ... *)
Theorem C54_copy_code : forall (R : cring) (dest src : laser R) t, clocked R src ->
  l_get R (l_at R (l_assign R dest src) t) = let* x := rd (l_data R src) t in Ok (cmul x (l_scale R dest)).
Proof. exact copy_scaled. Qed.
Print Assumptions C54_copy_code.
(** ... so copies between lasers with the same scale factor report the same values. *)
Theorem C54_copy_partial : forall (R : cring) (dest src : laser R) t, l_scale R dest = l_scale R src ->
  l_get R (l_at R (l_assign R dest src) t) = l_get R (l_at R src t).
Proof. exact copy_same. Qed.
Print Assumptions C54_copy_partial.

(** The vector potential sums the unscaled field. *)
Theorem C54_vectorpot_code : forall (R : cring) (l : laser R) c, l_clock R l = Some c -> c_step R c <= zlen (l_data R l) ->
  l_vectorpot R l = Ok (cmul (lsum (fun x => x) (firstn (Z.to_nat (c_step R c)) (l_data R l))) (l_dt R l)).
Proof. exact vectorpot_exact. Qed.
Print Assumptions C54_vectorpot_code.

(** A value set comes back multiplied with the scale factor. *)
Theorem C54_set_get : forall (R : cring) (l : laser R) v, clocked R l -> forall l', l_set R l v = Ok l' ->
  l_get R l' = Ok (cmul v (l_scale R l)).
Proof. exact set_get. Qed.
Print Assumptions C54_set_get.

(** A clock is accepted iff its time step is the field's and the field covers all steps; then every step of it can be read. *)
Theorem C54_clock : forall (R : cring) eqb (l : laser R) c, (forall x y : R, eqb x y = true <-> x = y) ->
  (forall l', l_set_clock R eqb l c = Ok l' <-> c_dt R c = l_dt R l /\ c_steps R c <= zlen (l_data R l) /\ l' = mkLaser R (l_data R l) (l_dt R l) (l_scale R l) (Some c)) /\
  (l_set_clock R eqb l c = Throw <-> ~ (c_dt R c = l_dt R l /\ c_steps R c <= zlen (l_data R l))) /\
  (forall l' t, l_set_clock R eqb l c = Ok l' -> 0 <= t < c_steps R c -> exists x, l_get R (l_at R l' t) = Ok x).
Proof. exact set_clock_spec. Qed.
Print Assumptions C54_clock.

Definition ex_laser : laser Zr := mkLaser Zr [1; -2; 3] 5 2 (Some (mkClock Zr 5 3 1)).
Theorem C54_energy_refuted : clocked Zr ex_laser /\
  (forall t x, rd [2; -4; 6] t = Ok x -> reported Zr ex_laser t x) /\
  l_energy Zr 1 ex_laser = 140 /\ 5 * lsum (fun x : Zr => cmul x x) [2; -4; 6] = 280.
Proof.
  split; [discriminate|]. split; [|vm_compute; split; reflexivity]. intros t x E. pose proof (rd_bounds _ _ _ E) as B. unfold zlen in B. cbn in B.
  assert (t = 0 \/ t = 1 \/ t = 2) as [-> | [-> | ->]] by lia; vm_compute in E; injection E as <-; reflexivity.
Qed.
Print Assumptions C54_energy_refuted.
Theorem C54_copy_refuted : l_get Zr ex_laser = Ok (-4) /\ l_get Zr (l_assign Zr (l_new Zr [] 1) ex_laser) = Ok (-2).
Proof. exact (conj eq_refl eq_refl). Qed.
Print Assumptions C54_copy_refuted.
Theorem C54_full_refuted : ~ C54_full.
Proof.
  intros H. destruct (H Zr 1 ex_laser ex_laser [2; -4; 6] (proj1 C54_energy_refuted) eq_refl (proj1 (proj2 C54_energy_refuted))) as [E _].
  vm_compute in E. discriminate E.
Qed.
Print Assumptions C54_full_refuted.

Example C54_example : clocked Zr (l_set_scale Zr ex_laser 1) /\ l_scale Zr (l_set_scale Zr ex_laser 1) = 1 /\
  l_get Zr (l_at Zr ex_laser 2) = Ok 6 /\ l_vectorpot Zr (l_at Zr ex_laser 3) = Ok 10 /\ l_get Zr (l_at Zr ex_laser 3) = UB.
Proof. repeat split. discriminate. Qed.

Example C54_clock_ex : l_set_clock Zr Z.eqb ex_laser (mkClock Zr 5 2 0) = Ok (mkLaser Zr [1; -2; 3] 5 2 (Some (mkClock Zr 5 2 0))) /\
  l_set_clock Zr Z.eqb ex_laser (mkClock Zr 4 2 0) = Throw /\ l_set_clock Zr Z.eqb ex_laser (mkClock Zr 5 4 0) = Throw.
Proof. repeat split. Qed.

(** C61: the power spectrum.  It has Steps/2+1 values but the loop runs over all time steps. *)
Definition C61_full : Prop := forall (R : cring) X (spectrum : list R -> list X) (cabs : X -> R) l c,
  (forall d, zlen (spectrum d) = c_steps R c / 2 + 1) -> l_clock R l = Some c -> 0 <= c_steps R c <= zlen (l_data R l) ->
  exists l' p, l_power R X spectrum cabs l = Ok (l', p) /\ zlen p = c_steps R c / 2 + 1.
Theorem C61_power_partial : forall (R : cring) X (spectrum : list R -> list X) (cabs : X -> R) l c,
  (forall d, zlen (spectrum d) = c_steps R c / 2 + 1) -> l_clock R l = Some c -> 0 <= c_steps R c <= 2 ->
  c_steps R c <= zlen (l_data R l) ->
  exists l' p, l_power R X spectrum cabs l = Ok (l', p) /\ zlen p = c_steps R c / 2 + 1.
Proof. exact power_small. Qed.
Print Assumptions C61_power_partial.
(** From three time steps on the loop leaves the arrays. *)
Theorem C61_power_out_of_bounds : forall (R : cring) X (spectrum : list R -> list X) (cabs : X -> R) l c,
  (forall d, zlen (spectrum d) = c_steps R c / 2 + 1) -> l_clock R l = Some c -> 3 <= c_steps R c <= zlen (l_data R l) ->
  l_power R X spectrum cabs l = UB.
Proof. exact power_spectrum. Qed.
Print Assumptions C61_power_out_of_bounds.
Theorem C61_full_refuted : ~ C61_full.
Proof.
  intros H. destruct (H Zr Z (fun _ => [7; 8]) (fun x => x) ex_laser (mkClock Zr 5 3 1)) as (l' & p & E & _).
  - reflexivity.
  - reflexivity.
  - vm_compute. split; discriminate.
  - vm_compute in E. discriminate E.
Qed.
Print Assumptions C61_full_refuted.
Example C61_example : l_power Zr Z (fun _ => [7; -8]) Z.abs (mkLaser Zr [1; 4] 5 2 (Some (mkClock Zr 5 2 1))) =
  Ok (mkLaser Zr [1; 4] 5 2 (Some (mkClock Zr 5 2 1)), [7; 8]).
Proof. reflexivity. Qed.
