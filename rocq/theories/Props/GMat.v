(** Property C73: the kinetic energy operator with a G-matrix. *)
From Coq Require Import Ascii String List ZArith Lia Bool QArith Qcanon Qabs Lqa.
From Verif Require Import Base Arrays Algebra Model.GMat Spec.Operators Spec.GMat Proofs.GMat.
Import ListNotations.
Open Scope Z_scope.

(** Full statement: with all files there, adding the operator's result to a wave function adds -1/2 sum_ij d_j G_ij d_i psi, whatever the buffers held, with or
    without the product rule carried out, the coordinates coupled or not. *)
Definition C73_full : Prop := forall R (M : cmodule R) V half (mul : V -> M -> M) (D : Z -> M -> M) dv (junk : M -> M) (P : Z -> M -> M) p files same,
  1 <= p_dims R p <= 4 -> available R V p files same -> p_pml R p = false -> cadd half half = c1 -> (forall i, linear R M (D i)) -> calculus R M V mul D dv ->
  exists o, made R V half dv p files (p_dims R p) same = Ok o /\
    forall b dest psi, apply_add R M V half mul D junk P o b dest psi = Ok (madd dest (kinetic R M half D (p_dims R p) (elem R M V mul p files) psi)).
(** It holds without the product rule, unless the coordinates are not coupled and there are off-diagonal grid functions. *)
Theorem C73_partial : forall R (M : cmodule R) V half (mul : V -> M -> M) (D : Z -> M -> M) dv (junk : M -> M) (P : Z -> M -> M) p files same,
  1 <= p_dims R p <= 4 -> available R V p files same -> p_pml R p = false -> p_chain R p = false -> safe R p -> (forall i, linear R M (D i)) ->
  exists o, made R V half dv p files (p_dims R p) same = Ok o /\
    forall b dest psi, apply_add R M V half mul D junk P o b dest psi = Ok (madd dest (kinetic R M half D (p_dims R p) (elem R M V mul p files) psi)).
Proof. intros R M V half mul D dv junk P p files same Hn Av Pp Pc S Lin. apply (plain_kinetic R M V half mul D dv junk P p files same); try assumption. intros i. apply Lin. Qed.
Print Assumptions C73_partial.
(** It holds with the product rule if every element is a grid function that counts. *)
Theorem C73_chain_partial : forall R (M : cmodule R) V half (mul : V -> M -> M) (D : Z -> M -> M) dv (junk : M -> M) (P : Z -> M -> M) p files same,
  1 <= p_dims R p <= 4 -> available R V p files same -> p_chain R p = true -> all_grid R p -> cadd half half = c1 -> calculus R M V mul D dv ->
  exists o, made R V half dv p files (p_dims R p) same = Ok o /\
    forall b dest psi, apply_add R M V half mul D junk P o b dest psi = Ok (madd dest (kinetic R M half D (p_dims R p) (elem R M V mul p files) psi)).
Proof. intros R M V half mul D dv junk P p files same Hn Av Pc Al Hh Ca. exact (chain_kinetic R M V half mul D dv junk P p files same Hn Av Pc Al Hh Ca). Qed.
Print Assumptions C73_chain_partial.
(** Off-diagonal grid functions without coupling: the elements are not read, but compared with the grid of the wave function. *)
Theorem C73_coup_code : forall R V half dv p files same i j,
  1 <= p_dims R p <= 4 -> available R V p files same -> p_coup R p = false -> 0 <= j < i -> i < p_dims R p -> kind R p i j = SGrid -> made R V half dv p files (p_dims R p) same = UB.
Proof. intros R V half dv p files same i j. exact (coup_ub R V half dv p files same i j). Qed.
Print Assumptions C73_coup_code.
(** The product rule with an element which is constant, left out or does not count: pointers and vectors that were never set are used. *)
Theorem C73_chain_code : forall R (M : cmodule R) V half (mul : V -> M -> M) (D : Z -> M -> M) dv (junk : M -> M) (P : Z -> M -> M) p files same i j,
  1 <= p_dims R p <= 4 -> available R V p files same -> p_chain R p = true -> 0 <= i < p_dims R p -> 0 <= j < p_dims R p -> counts R p i j = false \/ kind R p i j <> SGrid ->
  made R V half dv p files (p_dims R p) same = UB \/
  exists o, made R V half dv p files (p_dims R p) same = Ok o /\ forall b dest psi, apply_add R M V half mul D junk P o b dest psi = UB.
Proof.
  intros R M V half mul D dv junk P p files same i j Hn Av Pc Hi Hj H. apply (chain_ub R M V half mul D dv junk P p files same i j Hn Av Pc Hi Hj).
  unfold loaded. destruct H as [->|H]; [reflexivity|]. destruct (kind R p i j); rewrite ?andb_false_r; try reflexivity. contradiction.
Qed.
Print Assumptions C73_chain_code.

(** ** Hermitian *)
(** With derivatives which change the sign when they change sides, real constants and real grid functions, the operator may change sides. *)
Theorem C73_hermitian : forall R (M : cmodule R) V half (mul : V -> M -> M) (D : Z -> M -> M) dv (junk : M -> M) (P : Z -> M -> M) (S : cring) (dot : M -> M -> S) p files same,
  1 <= p_dims R p <= 4 -> available R V p files same -> p_pml R p = false -> p_chain R p = false -> safe R p -> (forall i, linear R M (D i)) -> (forall v, linear R M (mul v)) ->
  (forall x y z, dot x (madd y z) = cadd (dot x y) (dot x z)) -> (forall x y z, dot (madd y z) x = cadd (dot y x) (dot z x)) ->
  (forall i x y, dot (D i x) y = copp (dot x (D i y))) -> (forall v x y, dot (mul v x) y = dot x (mul v y)) ->
  (forall x y, dot (mscale (copp half) x) y = dot x (mscale (copp half) y)) -> (forall i j x y, dot (mscale (const R p i j) x) y = dot x (mscale (const R p i j) y)) ->
  exists o T, made R V half dv p files (p_dims R p) same = Ok o /\ (forall b psi, apply R M V half mul D junk P o b psi = Ok (T psi)) /\ forall x y, dot x (T y) = dot (T x) y.
Proof.
  intros R M V half mul D dv junk P S dot p files same Hn Av Pp Pc Sf Lin Lm Dr Dl An Ms Rh Rc.
  destruct (C73_partial R M V half mul D dv junk P p files same Hn Av Pp Pc Sf Lin) as (o & E & A). exists o, (kinetic R M half D (p_dims R p) (elem R M V mul p files)).
  split; [exact E|]. split; [intros b psi; unfold apply; rewrite A, madd_0; reflexivity|].
  apply (kinetic_herm R M half D S dot Dr Dl An Rh); [intros i; apply Lin| |].
  - intros i j x y. unfold elem. rewrite (counts_sym R p j i), (kind_sym R p j i), (const_sym R p j i), (Z.max_comm j i), (Z.min_comm j i). destruct (counts R p i j); [|rewrite (dot_zero_r R M S dot Dr), (dot_zero_l R M S dot Dl); reflexivity].
    destruct (kind R p i j); [rewrite (dot_zero_r R M S dot Dr), (dot_zero_l R M S dot Dl); reflexivity|symmetry; apply Rc|]. destruct (files (Z.max i j) (Z.min i j)); [symmetry; apply Ms|rewrite (dot_zero_r R M S dot Dr), (dot_zero_l R M S dot Dl); reflexivity].
  - intros i j a x. unfold elem. destruct (counts R p i j); [|symmetry; apply Projection.mscale_m0]. destruct (kind R p i j); [symmetry; apply Projection.mscale_m0| |].
    + rewrite <- !mscale_mul. f_equal. apply (Rmul_comm (cr_th R)).
    + destruct (files (Z.max i j) (Z.min i j)); [apply Lm|symmetry; apply Projection.mscale_m0].
Qed.
Print Assumptions C73_hermitian.

(** ** Absorbing layers *)
(** Full statement: with layers each derivative is followed by the transformation of its layer. *)
Definition C73_layers_full : Prop := forall R (M : cmodule R) V half (mul : V -> M -> M) (D : Z -> M -> M) dv (junk : M -> M) (P : Z -> M -> M) p files same,
  1 <= p_dims R p <= 4 -> available R V p files same -> p_pml R p = true -> p_chain R p = false -> safe R p -> (forall i, linear R M (D i)) -> (forall i, linear R M (P i)) ->
  exists o, made R V half dv p files (p_dims R p) same = Ok o /\
    forall b dest psi, apply_add R M V half mul D junk P o b dest psi = Ok (madd dest (kinetic R M half (layered R M D P) (p_dims R p) (elem R M V mul p files) psi)).
(** Instead the transformations come last, and for grid functions that of the inner derivative is left out. *)
Theorem C73_layers_code : forall R (M : cmodule R) V half (mul : V -> M -> M) (D : Z -> M -> M) dv (junk : M -> M) (P : Z -> M -> M) p files same,
  1 <= p_dims R p <= 4 -> available R V p files same -> p_pml R p = true -> p_chain R p = false -> safe R p ->
  exists o, made R V half dv p files (p_dims R p) same = Ok o /\
    forall b dest psi, apply_add R M V half mul D junk P o b dest psi = Ok (madd dest (dsum R M (p_dims R p) (layer_term R M V half mul D P p files psi))).
Proof.
  intros R M V half mul D dv junk P p files same Hn Av Pp Pc S. destruct (plain_code R M V half mul D dv junk P p files same Hn Av Pc S) as (o & E & A). exists o. split; [exact E|].
  intros b dest psi. rewrite A, Pp. reflexivity.
Qed.
Print Assumptions C73_layers_code.
(** Full statement: layers together with the product rule are refused. *)
Definition C73_layers_chain_full : Prop := forall R V half dv p files same, 1 <= p_dims R p <= 4 -> available R V p files same -> p_pml R p = true -> p_chain R p = true ->
  made R V half dv p files (p_dims R p) same = Throw.
(** They are not, and the layers have no effect. *)
Theorem C73_layers_chain_code : forall R (M : cmodule R) V half (mul : V -> M -> M) (D : Z -> M -> M) dv (junk : M -> M) (P : Z -> M -> M) p files same,
  1 <= p_dims R p <= 4 -> available R V p files same -> p_pml R p = true -> p_chain R p = true -> all_grid R p -> cadd half half = c1 -> calculus R M V mul D dv ->
  exists o, made R V half dv p files (p_dims R p) same = Ok o /\
    forall b dest psi, apply_add R M V half mul D junk P o b dest psi = Ok (madd dest (kinetic R M half D (p_dims R p) (elem R M V mul p files) psi)).
Proof. intros R M V half mul D dv junk P p files same Hn Av _ Pc Al Hh Ca. exact (chain_kinetic R M V half mul D dv junk P p files same Hn Av Pc Al Hh Ca). Qed.
Print Assumptions C73_layers_chain_code.

(** ** Wave functions of other grids *)
(** A wave function on another grid than that of an element which counts is refused. *)
Theorem C73_refused : forall R V half dv p files same i j v d,
  1 <= p_dims R p <= 4 -> available R V p files (fun _ => true) -> safe R p -> 0 <= j <= i -> i < d <= p_dims R p -> counts R p i j = true -> kind R p i j = SGrid -> files i j = Some v -> same v = false ->
  made R V half dv p files d same = Throw.
Proof.
  intros R V half dv p files same i j v d Hn Av Sf Hj Hi C K Fv Sv. apply (refused R V half dv p files same i j v d Hn Av Sf Hj Hi); auto. unfold loaded. rewrite C, K. reflexivity.
Qed.
Print Assumptions C73_refused.
(** Full statement: a wave function with another number of dimensions is refused. *)
Definition C73_dims_full : Prop := forall R V half dv p files same d, 1 <= p_dims R p <= 4 -> available R V p files same -> safe R p -> 0 <= d -> d <> p_dims R p ->
  (exists i j, 0 <= j <= i /\ i < d /\ i < p_dims R p /\ counts R p i j = true /\ kind R p i j = SGrid) \/ made R V half dv p files d same = Throw.
(** With too many dimensions the initialisation leaves the matrices; with too few and no grid function the application leaves the grid. *)
Theorem C73_dims_code : forall R (M : cmodule R) V half (mul : V -> M -> M) (D : Z -> M -> M) dv (junk : M -> M) (P : Z -> M -> M) p files same d,
  1 <= p_dims R p <= 4 -> available R V p files same ->
  (safe R p -> p_dims R p < d -> made R V half dv p files d same = UB) /\
  ((forall i j, kind R p i j <> SGrid) -> p_chain R p = false -> 0 <= d < p_dims R p ->
    exists o, made R V half dv p files d same = Ok o /\ forall b dest psi, apply_add R M V half mul D junk P o b dest psi = UB).
Proof.
  intros R M V half mul D dv junk P p files same d Hn Av. split.
  - intros S Hd. exact (dims_more R V half dv p files same d Hn Av S Hd).
  - intros K Pc Hd. exact (dims_less R M V half mul D dv junk P p files same d Hn Av K Pc Hd).
Qed.
Print Assumptions C73_dims_code.

(** ** Copies *)
(** Full statement: a copy does what the original does. *)
Definition C73_copy_full : Prop := forall R (M : cmodule R) V half (mul : V -> M -> M) (D : Z -> M -> M) dv (junk : M -> M) (P : Z -> M -> M) neg p files same o,
  1 <= p_dims R p <= 4 -> available R V p files same -> p_chain R p = false -> safe R p -> made R V half dv p files (p_dims R p) same = Ok o ->
  exists c c', copy R V neg o = Ok c /\ init_psi R V half dv c (p_dims R p) same = Ok c' /\
    forall b dest psi, apply_add R M V half mul D junk P c' b dest psi = apply_add R M V half mul D junk P o b dest psi.
(** No copy can be applied. *)
Theorem C73_copy_code : forall R (M : cmodule R) V half (mul : V -> M -> M) (D : Z -> M -> M) dv (junk : M -> M) (P : Z -> M -> M) neg p files same o,
  1 <= p_dims R p <= 4 -> available R V p files same -> p_chain R p = false -> safe R p -> made R V half dv p files (p_dims R p) same = Ok o ->
  exists c, copy R V neg o = Ok c /\ init_psi R V half dv c (p_dims R p) same = Ok c /\ forall b dest psi, apply_add R M V half mul D junk P c b dest psi = UB.
Proof.
  intros R M V half mul D dv junk P neg p files same o Hn Av Pc S E. destruct (made_plain R V half dv p files same Hn Av Pc S) as (o' & E' & Rd). rewrite E in E'. injection E' as <-.
  apply (copy_ub R M V half mul D dv junk P neg p files o (p_dims R p) same Rd). lia.
Qed.
Print Assumptions C73_copy_code.

(** ** Energy bounds *)
(** Full statement: the upper bound is one, for all momenta on the grid and at all points: for diagonal elements that are nowhere negative.
    (Both sides in units of pi^2/2.) *)
Definition C73_emax_full : Prop := forall n coup src c g dx m x k T, 0 <= n -> points src g m -> (x < m)%nat -> spaced dx -> momenta k ->
  (forall i, 0 <= i < n -> Qle 0 (value coup src c g x i i)) -> emax n coup src c g dx = Ok T -> Qle (form n coup src c g dx x k) T.
Theorem C73_emax_partial : forall n coup src c g dx m x k T, 0 <= n -> points src g m -> (x < m)%nat -> spaced dx -> momenta k -> fair n coup src c g dx m ->
  (forall i, 0 <= i < n -> Qle 0 (value coup src c g x i i)) -> emax n coup src c g dx = Ok T -> Qle (form n coup src c g dx x k) T.
Proof. intros n coup src c g dx m x k T Hn Pt Hx Sp Mo Fa Po E. exact (emax_bound n coup src c g dx m x k T Hn Pt Hx Sp Mo Fa Po E). Qed.
Print Assumptions C73_emax_partial.
(** The lower bound is never positive, so it is one for a form which is never negative. *)
Theorem C73_emin : forall n coup src c g dx x k T, 0 <= n -> emin n coup src c g dx = Ok T -> Qle 0 (form n coup src c g dx x k) -> Qle T (form n coup src c g dx x k).
Proof. intros n coup src c g dx x k T Hn E F. apply (Qle_trans _ 0 _); [exact (emin_neg n coup src c g dx T Hn E)|exact F]. Qed.
Print Assumptions C73_emin.

(** ** Examples *)
(** the integers modulo 7, where 4 is one half *)
Inductive f7 := F0 | F1 | F2 | F3 | F4 | F5 | F6.
Definition f7z (a : f7) : Z := match a with F0 => 0 | F1 => 1 | F2 => 2 | F3 => 3 | F4 => 4 | F5 => 5 | F6 => 6 end.
Definition zf7 (z : Z) : f7 := match z mod 7 with 0 => F0 | 1 => F1 | 2 => F2 | 3 => F3 | 4 => F4 | 5 => F5 | _ => F6 end.
Lemma f7_th : ring_theory F0 F1 (fun a b => zf7 (f7z a + f7z b)) (fun a b => zf7 (f7z a * f7z b)) (fun a b => zf7 (f7z a - f7z b)) (fun a => zf7 (- f7z a)) eq.
Proof. constructor; intros; repeat match goal with x : f7 |- _ => destruct x end; vm_compute; reflexivity. Qed.
Definition F7 : cring := mkRing f7 F0 F1 _ _ _ _ f7_th.
Add Ring F7R : (cr_th F7).
(** numbers a + b e with e * e = 0 as wave functions and as grid functions; the derivative along dimension i multiplies b with i + 1 *)
Definition dual : Type := (cr F7 * cr F7)%type.
Definition dual_mod : cmodule F7.
Proof.
  refine (mkMod F7 dual (c0, c0) (fun x y => (fst x + fst y, snd x + snd y)%cr) (fun x => (- fst x, - snd x)%cr) (fun a x => (a * fst x, a * snd x)%cr) _ _ _ _ _ _ _ _);
    intros; repeat match goal with x : dual |- _ => destruct x end; cbn [fst snd]; f_equal; ring.
Defined.
Definition du (a b : Z) : dual_mod := (zf7 a, zf7 b).
Definition dmul (u : dual) (x : dual_mod) : dual_mod := (fst u * fst x, fst u * snd x + snd u * fst x)%cr.
Definition num (z : Z) : F7 := zf7 z.
Definition dD (i : Z) (x : dual_mod) : dual_mod := (c0, num (i + 1) * snd x)%cr.
Definition ddv (a : F7) (i : Z) (v : dual) : dual := (c0, a * (num (i + 1) * snd v))%cr.
Definition dP (i : Z) (x : dual_mod) : dual_mod := (fst x, num 2 * snd x)%cr.
Definition dhalf : F7 := num 4.
Lemma dhalf_2 : cadd dhalf dhalf = c1.
Proof. reflexivity. Qed.
Lemma dD_lin i : linear F7 dual_mod (dD i).
Proof. split; [intros [x y] [x' y']|intros a [x y]]; unfold dD; cbn [madd mscale dual_mod fst snd]; generalize (num (i + 1)); intros; f_equal; ring. Qed.
Lemma dP_lin i : linear F7 dual_mod (dP i).
Proof. split; [intros [x y] [x' y']|intros a [x y]]; unfold dP; cbn [madd mscale dual_mod fst snd]; generalize (num 2); intros; f_equal; ring. Qed.
Lemma dual_calculus : calculus F7 dual_mod dual dmul dD ddv.
Proof.
  split; [|split].
  - intros i j [x y]. unfold dD. cbn [snd]. generalize (num (i + 1)) (num (j + 1)). intros. f_equal. ring.
  - intros a i [v w] [x y]. unfold dD, dmul, ddv. cbn [madd mscale dual_mod fst snd]. generalize (num (i + 1)). intros. f_equal; ring.
  - intros [v w]. split; [intros [x y] [x' y']|intros a [x y]]; unfold dmul; cbn [madd mscale dual_mod fst snd]; f_equal; ring.
Qed.
Definition dfiles (i j : Z) : option dual := Some (du (1 + i) (2 + j)).
Definition pars n coup chain pml G gdef : params F7 := mkParams F7 n coup chain pml G gdef (lit "gm").
Lemma d_avail n coup chain pml G gdef : available F7 _ (pars n coup chain pml G gdef) dfiles (fun _ => true).
Proof. intros i j _ _ _ _. split; [cbn; lia|]. eexists. split; reflexivity. Qed.
(** two dimensions, one constant, the coupling on the grid, one element left out *)
Example ex_plain : exists o, made F7 _ dhalf ddv (pars 2 true false false (Some [num 3]) (Some (lit "cgx"))) dfiles 2 (fun _ => true) = Ok o /\
  kind F7 (pars 2 true false false (Some [num 3]) (Some (lit "cgx"))) 0 1 = SGrid /\
  forall b, apply F7 dual_mod _ dhalf dmul dD (fun x => x) dP o b (du 5 2) = Ok (du 0 3).
Proof. eexists. split; [vm_compute; reflexivity|]. split; [reflexivity|]. intros [x y]. vm_compute. reflexivity. Qed.
Example ex_plain_hyps : let p := pars 2 true false false (Some [num 3]) (Some (lit "cgx")) in
  1 <= p_dims F7 p <= 4 /\ available F7 _ p dfiles (fun _ => true) /\ safe F7 p /\ (forall i, linear F7 dual_mod (dD i)).
Proof. cbn zeta. split; [cbn; lia|]. split; [apply d_avail|]. split; [left; reflexivity|apply dD_lin]. Qed.
(** the same operator with and without the product rule *)
Example ex_chain : forall chain, exists o, made F7 _ dhalf ddv (pars 2 true chain false None None) dfiles 2 (fun _ => true) = Ok o /\
  forall b, apply F7 dual_mod _ dhalf dmul dD (fun x => x) dP o b (du 5 2) = Ok (du 0 4).
Proof. intros []; (eexists; split; [vm_compute; reflexivity|]); intros [x y]; vm_compute; reflexivity. Qed.
Example ex_chain_hyps : let p := pars 2 true true false None None in all_grid F7 p /\ cadd dhalf dhalf = c1 /\ calculus F7 dual_mod dual dmul dD ddv.
Proof. split; [intros i j _ _; split; [unfold counts; apply orb_true_r|reflexivity]|]. split; [exact dhalf_2|exact dual_calculus]. Qed.
Theorem C73_refuted : ~ C73_full.
Proof.
  intros H. destruct (H F7 dual_mod _ dhalf dmul dD ddv (fun x => x) dP (pars 2 false false false None None) dfiles (fun _ => true)) as (o & E & _).
  - cbn; lia.
  - apply d_avail.
  - reflexivity.
  - exact dhalf_2.
  - exact dD_lin.
  - exact dual_calculus.
  - vm_compute in E. discriminate.
Qed.
Print Assumptions C73_refuted.
(** constants and the product rule *)
Example ex_chain_const : exists o, made F7 _ dhalf ddv (pars 1 true true false (Some [num 3]) None) dfiles 1 (fun _ => true) = Ok o /\ apply F7 dual_mod _ dhalf dmul dD (fun x => x) dP o m0 (du 5 2) = UB.
Proof. eexists. split; vm_compute; reflexivity. Qed.
Theorem C73_layers_refuted : ~ C73_layers_full.
Proof.
  intros H. destruct (H F7 dual_mod _ dhalf dmul dD ddv (fun x => x) dP (pars 1 true false true None None) dfiles (fun _ => true)) as (o & E & A).
  - cbn; lia.
  - apply d_avail.
  - reflexivity.
  - reflexivity.
  - left; reflexivity.
  - exact dD_lin.
  - exact dP_lin.
  - assert (E2 : exists o, made F7 _ dhalf ddv (pars 1 true false true None None) dfiles 1 (fun _ => true) = Ok o /\ apply_add F7 dual_mod _ dhalf dmul dD (fun x => x) dP o m0 m0 (du 0 1) = Ok (du 0 (-1)))
      by (eexists; split; vm_compute; reflexivity).
    destruct E2 as (o2 & E2 & A2). change (p_dims F7 (pars 1 true false true None None)) with 1 in E. rewrite E2 in E. injection E as <-. rewrite A in A2. vm_compute in A2. discriminate.
Qed.
Print Assumptions C73_layers_refuted.
Theorem C73_layers_chain_refuted : ~ C73_layers_chain_full.
Proof.
  intros H. specialize (H F7 _ dhalf ddv (pars 1 true true true None None) dfiles (fun _ => true)). assert (E : made F7 _ dhalf ddv (pars 1 true true true None None) dfiles 1 (fun _ => true) = Throw) by (apply H; [cbn; lia|apply d_avail|reflexivity|reflexivity]).
  vm_compute in E. discriminate.
Qed.
Print Assumptions C73_layers_chain_refuted.
Theorem C73_dims_refuted : ~ C73_dims_full.
Proof.
  intros H. specialize (H F7 _ dhalf ddv (pars 2 true false false (Some []) None) dfiles (fun _ => true) 3). destruct H as [(i & j & _ & _ & _ & _ & K)|E].
  - cbn; lia.
  - apply d_avail.
  - left; reflexivity.
  - lia.
  - cbn; lia.
  - unfold kind in K. cbn in K. discriminate.
  - vm_compute in E. discriminate.
Qed.
Print Assumptions C73_dims_refuted.
Theorem C73_copy_refuted : ~ C73_copy_full.
Proof.
  intros H. assert (Q : exists o, made F7 _ dhalf ddv (pars 1 true false false None None) dfiles 1 (fun _ => true) = Ok o /\ apply_add F7 dual_mod _ dhalf dmul dD (fun x => x) dP o m0 m0 (du 5 2) = Ok (du 0 6)) by (eexists; split; vm_compute; reflexivity).
  destruct Q as (o & E & A).
  destruct (H F7 dual_mod _ dhalf dmul dD ddv (fun x => x) dP (fun _ => false) (pars 1 true false false None None) dfiles (fun _ => true) o) as (c & c' & Ec & Ei & Ea).
  - cbn; lia.
  - apply d_avail.
  - reflexivity.
  - left; reflexivity.
  - exact E.
  - destruct (C73_copy_code F7 dual_mod _ dhalf dmul dD ddv (fun x => x) dP (fun _ => false) (pars 1 true false false None None) dfiles (fun _ => true) o) as (c2 & Ec2 & Ei2 & Ea2); [cbn; lia|apply d_avail|reflexivity|left; reflexivity|exact E|].
    rewrite Ec in Ec2. injection Ec2 as Hc. subst c2. rewrite Ei in Ei2. injection Ei2 as Hc. subst c'. specialize (Ea m0 m0 (du 5 2)). rewrite A, Ea2 in Ea. discriminate.
Qed.
Print Assumptions C73_copy_refuted.
Example ex_refused : made F7 _ dhalf ddv (pars 2 true false false None None) dfiles 2 (fun v => f7z (fst v) =? 1) = Throw.
Proof. vm_compute. reflexivity. Qed.
(** two components, the derivatives turn: hermitian *)
Definition rotD (i : Z) (x : dual_mod) : dual_mod := (num (i + 1) * snd x, - (num (i + 1) * fst x))%cr.
Definition rmul (v : dual) (x : dual_mod) : dual_mod := (fst v * fst x, snd v * snd x)%cr.
Definition rdot (x y : dual_mod) : F7 := (fst x * fst y + snd x * snd y)%cr.
Example ex_herm_hyps : (forall i, linear F7 dual_mod (rotD i)) /\ (forall v, linear F7 dual_mod (rmul v)) /\
  (forall x y z, rdot x (madd y z) = cadd (rdot x y) (rdot x z)) /\ (forall x y z, rdot (madd y z) x = cadd (rdot y x) (rdot z x)) /\
  (forall i x y, rdot (rotD i x) y = copp (rdot x (rotD i y))) /\ (forall v x y, rdot (rmul v x) y = rdot x (rmul v y)) /\ (forall a x y, rdot (mscale a x) y = rdot x (mscale a y)).
Proof.
  assert (P : forall a b c d : cr F7, a = c -> b = d -> (a, b) = (c, d)) by (intros; congruence).
  split; [|split; [|split; [|split; [|split; [|split]]]]].
  - intros i. split; [intros [x y] [x' y']|intros a [x y]]; unfold rotD; cbn [madd mscale dual_mod fst snd]; generalize (num (i + 1)); intros n; apply P; ring.
  - intros [v w]. split; [intros [x y] [x' y']|intros a [x y]]; unfold rmul; cbn [madd mscale dual_mod fst snd]; apply P; ring.
  - intros [x y] [x' y'] [x2 y2]. unfold rdot. cbn [madd dual_mod fst snd]. ring.
  - intros [x y] [x' y'] [x2 y2]. unfold rdot. cbn [madd dual_mod fst snd]. ring.
  - intros i [x y] [x' y']. unfold rdot, rotD. cbn [fst snd]. generalize (num (i + 1)). intros n. ring.
  - intros [v w] [x y] [x' y']. unfold rdot, rmul. cbn [fst snd]. ring.
  - intros a [x y] [x' y']. unfold rdot. cbn [mscale dual_mod fst snd]. ring.
Qed.
(** bounds: G = (1 -1; -1 1) with unit spacing, momenta of opposite sign *)
Theorem C73_emax_refuted : ~ C73_emax_full.
Proof.
  intros H. specialize (H 2 true (fun _ _ => SConst) (fun i j => if i =? j then 1 else -1)%Q (fun _ _ => []) (fun _ => 1%Q) 1%nat 0%nat (fun i => if i =? 0 then 1 else -1)%Q).
  assert (E : exists T, emax 2 true (fun _ _ => SConst) (fun i j => if i =? j then 1 else -1)%Q (fun _ _ => []) (fun _ => 1%Q) = Ok T /\ ~ Qle (form 2 true (fun _ _ => SConst) (fun i j => if i =? j then 1 else -1)%Q (fun _ _ => []) (fun _ => 1%Q) 0 (fun i => if i =? 0 then 1 else -1)%Q) T).
  { eexists. split; [vm_compute; reflexivity|]. vm_compute. intros Q. apply Q. reflexivity. }
  destruct E as (T & E & N). apply N. apply (H T); [lia|intros i j; discriminate|lia|intros i; reflexivity| | |exact E].
  - intros i. cbn beta. destruct (i =? 0); discriminate.
  - intros i Hi. unfold value. rewrite Z.eqb_refl. discriminate.
Qed.
Print Assumptions C73_emax_refuted.
Example ex_emax : let g := fun i j : Z => if i =? j then [2; 3]%Q else [-1; 1 # 2]%Q in let dx := fun _ : Z => (1 # 2)%Q in
  (exists T, emax 2 true (fun _ _ => SGrid) (fun _ _ => 0%Q) g dx = Ok T /\ Qeq T 32) /\ fair 2 true (fun _ _ => SGrid) (fun _ _ => 0%Q) g dx 2 /\ points (fun _ _ => SGrid) g 2 /\ spaced dx.
Proof.
  cbn zeta. split; [eexists; split; vm_compute; reflexivity|]. split; [|split].
  - intros i j Hj Hi _. exists 1%nat. split; [lia|]. left. unfold value. rewrite orb_true_r. destruct (Z.eqb_spec i j); [lia|]. discriminate.
  - intros i j _. destruct (i =? j); reflexivity.
  - intros i. reflexivity.
Qed.
Example ex_emin : exists T, emin 2 true (fun _ _ => SGrid) (fun _ _ => 0%Q) (fun i j : Z => if i =? j then [2; 3]%Q else [-1; 1 # 2]%Q) (fun _ : Z => (1 # 2)%Q) = Ok T /\ Qeq T (-4).
Proof. eexists. split; vm_compute; reflexivity. Qed.
