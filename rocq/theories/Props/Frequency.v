(** Properties C18, C19: momentum grid (src/qdlib/Kspace.cpp) and spectrum axis (src/Reporter.cpp). *)
From Coq Require Import List ZArith Lia Bool Arith QArith Qcanon.
From Verif Require Import Base Arrays Algebra Model.Frequency Spec.Frequency Proofs.Frequency.
Import ListNotations.
Open Scope Z_scope.

Theorem C18_first_derivative : forall (F : fld) (dk factor : F) Nx, 0 <= Nx ->
  exists ks, Init1Dddx F dk Nx factor = Ok ks /\ zlen ks = Nx /\
    forall i, 0 <= i < Nx -> exists k, fft_bin Nx i k /\ rd ks i = Ok (ofZ k * dk * factor)%cr.
Proof. exact ddx_spec. Qed.
Print Assumptions C18_first_derivative.

(** second derivative: factor times (i k)^2 *)
Theorem C18_second_derivative : forall (F : fld) (dk factor : F) Nx, 0 <= Nx ->
  exists ks, Init1Dd2dx2 F dk Nx factor = Ok ks /\ zlen ks = Nx /\
    forall i, 0 <= i < Nx -> exists k, fft_bin Nx i k /\
      rd ks i = Ok (- (factor * ((ofZ k * dk) * (ofZ k * dk))))%cr.
Proof. exact d2dx2_spec. Qed.
Print Assumptions C18_second_derivative.

(** kinetic energy k^2 / 2m *)
Theorem C18_kinetic : forall (F : fld) (dk mass : F) Nx, 0 <= Nx -> mass <> c0 -> ofZ 2 <> c0 :> F ->
  exists ks, Init1Dd2dx2_mass F dk Nx mass = Ok ks /\ zlen ks = Nx /\
    forall i, 0 <= i < Nx -> exists k, fft_bin Nx i k /\
      rd ks i = Ok ((ofZ k * dk) * (ofZ k * dk) / (ofZ 2 * mass))%cr.
Proof. exact d2dx2_mass_spec. Qed.
Print Assumptions C18_kinetic.

(** the spacing is 2 pi over the period N dx *)
Theorem C18_spacing : forall (F : fld) (twopi xmin xmax : F) N,
  ofZ N <> c0 :> F -> ofZ (N - 1) <> c0 :> F -> (xmax - xmin)%cr <> c0 ->
  (Dk F twopi xmin xmax N = twopi / (ofZ N * Dx F xmin xmax N))%cr.
Proof. exact Dk_spec. Qed.
Print Assumptions C18_spacing.

(** each bin has one frequency *)
Theorem C18_bin_unique : forall N i k k', 0 < N -> fft_bin N i k -> fft_bin N i k' -> k = k'.
Proof. exact bin_unique. Qed.
Print Assumptions C18_bin_unique.

Example C18_example :
  Init1Dddx Qcf (ofZ 1) 4 (ofZ 1) = Ok [ofZ 0; ofZ 1; ofZ (-2); ofZ (-1)] /\
  Init1Dddx Qcf (ofZ 1) 5 (ofZ 1) = Ok [ofZ 0; ofZ 1; ofZ 2; ofZ (-2); ofZ (-1)] /\
  Init1Dd2dx2 Qcf (ofZ 1) 5 (ofZ (-1)) = Ok [ofZ 0; ofZ 1; ofZ 4; ofZ 4; ofZ 1] /\
  fft_bin 4 2 (-2) /\ fft_bin 5 3 (-2) /\ ofZ 2 <> c0 :> Qcf.
Proof.
  split; [|split; [|split; [|split; [|split]]]]; try (vm_compute; reflexivity); try (split; vm_compute; [reflexivity|split; congruence]).
  intros H. vm_compute in H. discriminate.
Qed.

(** ** C19 *)
Definition C19_full : Prop := forall (F : fld) (twopi dt : F) N i, 0 <= i < N ->
  exists k, least_rep N i k /\ (spectrum_freq F twopi dt N i = ofZ k * (twopi / (dt * ofZ N)))%cr.

Theorem C19_even_partial : forall (F : fld) (twopi dt : F) N i, 0 <= i < N -> Z.rem N 2 = 0 ->
  exists k, least_rep N i k /\ fft_bin N i k /\ (spectrum_freq F twopi dt N i = ofZ k * (twopi / (dt * ofZ N)))%cr.
Proof. exact spectrum_even. Qed.
Print Assumptions C19_even_partial.

Theorem C19_odd_partial : forall (F : fld) (twopi dt : F) N i, 0 <= i < N -> Z.rem N 2 <> 0 -> 2 * i + 1 <> N ->
  exists k, least_rep N i k /\ (spectrum_freq F twopi dt N i = ofZ k * (twopi / (dt * ofZ N)))%cr.
Proof. exact spectrum_odd. Qed.
Print Assumptions C19_odd_partial.

(** Finding: for every odd N the middle bin is labelled with i - N although i is the smaller frequency. *)
Theorem C19_middle_bin : forall (F : fld) (twopi dt : F) N i, 0 <= i < N -> 2 * i + 1 = N ->
  least_rep N i i /\ (spectrum_freq F twopi dt N i = ofZ (i - N) * (twopi / (dt * ofZ N)))%cr /\ ~ least_rep N i (i - N).
Proof. exact spectrum_mid. Qed.
Print Assumptions C19_middle_bin.

Theorem C19_axis_refuted : ~ C19_full.
Proof.
  intros H. destruct (H Qcf c1 c1 3 1) as (k & [A B] & E); [lia|].
  assert (K : k = 1).
  { specialize (B 1 eq_refl). pose proof (Z.div_mod k 3). assert (k = -1 \/ k = 0 \/ k = 1) as [->|[->| ->]] by lia; try reflexivity; discriminate. }
  subst k. vm_compute in E. discriminate.
Qed.
Print Assumptions C19_axis_refuted.
Example C19_example : Z.rem 8 2 = 0 /\ Z.rem 9 2 <> 0 /\ 2 * 7 + 1 <> 9 /\
  spectrum_freq Qcf (ofZ 8) c1 8 5 = ofZ (-3).
Proof. repeat split; vm_compute; congruence. Qed.
