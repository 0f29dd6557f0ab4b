(** Property C71: eigenfunctions by relaxation in imaginary time, and their diagonalisation. *)
From Coq Require Import List ZArith Lia Bool QArith Qcanon Ring Field.
From Verif Require Import Base Arrays Algebra Complex Model.Operators Spec.Operators Spec.Projection Model.Eigen Spec.Eigen Proofs.Eigen.
Import ListNotations.
Open Scope Z_scope.

(** ** Relaxation *)
(** The end of a relaxation which is no worse than converged: every state is reached from the normalised initial wave function in at least one step and at most
    the given number, each step propagating, removing all lower states, and normalising; it ends with the first step that changes no more than demanded.  The file
    with the number of the state holds it.  Files outside of the range keep what they have. *)
Theorem C71_reached : forall D (M : cmodule (Cx D)) dot U H normalize dist lapack files nef start max conv psi E t fs,
  Qclt conv (Q2Qc 1) -> run D M dot U H normalize dist lapack files nef start max conv false psi = Ok (E, t, fs) ->
  exists P, zlen P = nef /\ (forall i, 0 <= i < nef -> disk D M files fs i = nth_error P (Z.to_nat i)) /\
    (forall i, start <= i < nef -> exists p w, normalize psi = Some p /\ disk D M files fs i = Some w /\ relaxes D M dot U normalize dist conv max (firstn (Z.to_nat i) P) p w) /\
    (forall i, ~ (start <= i < nef) -> disk D M files fs i = files i).
Proof.
  intros D M dot U H normalize dist lapack files nef start max conv psi E t fs Hc F. destruct (run_checks _ _ _ _ _ _ _ _ _ _ _ _ _ _ _ _ F) as (H1 & H2 & H3 & H4).
  destruct (run_states _ _ _ _ _ _ _ _ _ _ _ _ _ _ _ _ _ F) as (P & HP & HE & Hd & Hr & Ho & Hlow). exists P. split; [exact HP|].
  assert (G : forall i, 0 <= i < nef -> disk D M files fs i = nth_error P (Z.to_nat i)).
  { intros i Hi. destruct (nth_error P (Z.to_nat i)) as [w|] eqn:Ew; [|apply nth_error_None in Ew; unfold zlen in HP; lia]. rewrite <- (Hd _ _ Ew). f_equal. lia. }
  split; [exact G|]. split; [|exact Ho]. intros i Hi. destruct (Hr i Hi) as (p & w & Ep & Ew & Rw). exists p, w. split; [exact Ep|]. split; [rewrite G by lia; exact Ew|].
  apply (relaxed_path D M dot U normalize dist conv _ i max p w); try assumption; try lia. apply firstn_zlen. lia.
Qed.
Print Assumptions C71_reached.
(** Full statement: the states of a run that ends normally are orthonormal, if those read at a restart are. *)
Definition C71_full : Prop := forall D (M : cmodule (Cx D)) dot U H normalize dist lapack files nef start max conv psi E t fs,
  product D M dot -> normalizes D M dot normalize -> sound_files D M dot files start ->
  run D M dot U H normalize dist lapack files nef start max conv false psi = Ok (E, t, fs) -> sound_files D M dot (disk D M files fs) nef.
(** It holds for any propagator and any Hamiltonian unless the demanded convergence is 1 (values above are refused). *)
Theorem C71_partial : forall D (M : cmodule (Cx D)) dot U H normalize dist lapack files nef start max conv psi E t fs,
  product D M dot -> normalizes D M dot normalize -> sound_files D M dot files start -> conv <> Q2Qc 1 ->
  run D M dot U H normalize dist lapack files nef start max conv false psi = Ok (E, t, fs) -> sound_files D M dot (disk D M files fs) nef.
Proof.
  intros D M dot U H normalize dist lapack files nef start max conv psi E t fs Pr Nm Sf Hc F. destruct (run_checks _ _ _ _ _ _ _ _ _ _ _ _ _ _ _ _ F) as (H1 & H2 & H3 & H4).
  assert (Hc' : Qclt conv (Q2Qc 1)) by (destruct (Qcle_lt_or_eq _ _ H4); [assumption|contradiction]).
  destruct (run_ortho _ _ _ _ _ _ _ _ _ _ _ _ _ _ _ _ _ Pr Nm Sf Hc' F) as (P & HP & HE & Hd & On & _). intros i k x y Hi Hk Ex Ey.
  pose proof (Hd _ _ (st_nth D M P i ltac:(lia))) as Dx. pose proof (Hd _ _ (st_nth D M P k ltac:(lia))) as Dy. rewrite Z2Nat.id in Dx, Dy by lia. rewrite Dx in Ex. rewrite Dy in Ey. injection Ex as <-. injection Ey as <-.
  rewrite (On _ _ _ _ (st_nth D M P i ltac:(lia)) (st_nth D M P k ltac:(lia))). unfold delta. destruct (Nat.eqb_spec (Z.to_nat i) (Z.to_nat k)), (Z.eqb_spec i k); try reflexivity; lia.
Qed.
Print Assumptions C71_partial.
(** With 1 no step is done: every file holds the initial wave function. *)
Theorem C71_conv_one_code : forall D (M : cmodule (Cx D)) dot U H normalize dist lapack files nef start max psi E t fs,
  run D M dot U H normalize dist lapack files nef start max (Q2Qc 1) false psi = Ok (E, t, fs) -> forall i, start <= i < nef -> disk D M files fs i = normalize psi.
Proof.
  intros D M dot U H normalize dist lapack files nef start max psi E t fs F i Hi. destruct (run_checks _ _ _ _ _ _ _ _ _ _ _ _ _ _ _ _ F) as (H1 & H2 & H3 & H4).
  destruct (run_states _ _ _ _ _ _ _ _ _ _ _ _ _ _ _ _ _ F) as (P & HP & HE & Hd & Hr & _). destruct (Hr i Hi) as (p & w & Ep & Ew & Rw).
  unfold relaxed in Rw. destruct (Qclt_le_dec (Q2Qc 1) (Q2Qc 1)) as [C|_]; [exfalso; revert C; apply Qcle_not_lt; apply Qcle_refl|]. rewrite Ep, Rw, <- (Hd _ _ Ew). f_equal. lia.
Qed.
Print Assumptions C71_conv_one_code.

(** ** Energies *)
(** The energies are the expectation values of the states in the files; the table holds each, its distance from the first and from the one before. *)
Theorem C71_energies : forall D (M : cmodule (Cx D)) dot U H normalize dist lapack files nef start max conv psi E t fs,
  run D M dot U H normalize dist lapack files nef start max conv false psi = Ok (E, t, fs) ->
  zlen E = nef /\ forall i, 0 <= i < nef -> exists w, disk D M files fs i = Some w /\ rd E i = Ok (fst (dot w (H w))).
Proof.
  intros D M dot U H normalize dist lapack files nef start max conv psi E t fs F. destruct (run_states _ _ _ _ _ _ _ _ _ _ _ _ _ _ _ _ _ F) as (P & HP & -> & Hd & _). split; [rewrite zlen_map; exact HP|].
  intros i Hi. pose proof (Hd _ _ (st_nth D M P i ltac:(lia))) as Di. rewrite Z2Nat.id in Di by lia. exists (st D M P i). split; [exact Di|]. rewrite rd_map, (rd_nth P i m0) by lia. reflexivity.
Qed.
Print Assumptions C71_energies.
Theorem C71_table : forall D (M : cmodule (Cx D)) dot U H normalize dist lapack files nef start max conv diag psi E t fs,
  run D M dot U H normalize dist lapack files nef start max conv diag psi = Ok (E, t, fs) -> zlen t = nef /\ zlen E = nef /\
  forall i e, rd E i = Ok e -> exists e0, rd E 0 = Ok e0 /\
    (i = 0 -> rd t i = Ok (i, e, csub e e0, None)) /\ (0 < i -> exists p, rd E (i - 1) = Ok p /\ rd t i = Ok (i, e, csub e e0, Some (csub e p))).
Proof.
  intros D M dot U H normalize dist lapack files nef start max conv diag psi E t fs F.
  assert (G : zlen E = nef /\ energy_file D nef E = Ok t).
  { destruct diag.
    - destruct (run_diag _ _ _ _ _ _ _ _ _ _ _ _ _ _ _ _ _ F) as (E0 & t0 & fs0 & P & A & Ed & V & _ & HP & _ & _ & _ & -> & Et & _ & _ & H1). split; [|exact Et]. rewrite zlen_map, zlen_upto; lia.
    - pose proof (proj1 (C71_energies _ _ _ _ _ _ _ _ _ _ _ _ _ _ _ _ _ F)) as G. apply run_raw in F. split; [exact G|apply F]. }
  destruct G as [HE Et]. destruct (energy_ok D nef E HE) as (t' & Et' & Ht & Hrow). rewrite Et in Et'. injection Et' as <-. split; [exact Ht|]. split; [exact HE|]. intros i e Ee. specialize (Hrow i e Ee).
  pose proof (rd_bounds _ _ _ Ee) as B. destruct (proj1 (rd_ok E 0) ltac:(lia)) as [e0 E0]. exists e0. split; [exact E0|]. rewrite Hrow. unfold energy_row. rewrite Ee, E0. cbn [bind]. split.
  - intros ->. reflexivity.
  - intros Hi. destruct (proj1 (rd_ok E (i - 1)) ltac:(lia)) as [p Ep]. exists p. split; [exact Ep|]. rewrite (proj2 (Z.ltb_lt 0 i)) by lia. rewrite Ep. reflexivity.
Qed.
Print Assumptions C71_table.

(** ** Restart *)
(** Continuing after the first [k] states gives exactly what a run without interruption gives. *)
Theorem C71_restart : forall D (M : cmodule (Cx D)) dot U H normalize dist lapack files s k nef max conv psi E1 t1 fs1 E t fs,
  1 <= k <= nef -> run D M dot U H normalize dist lapack files k s max conv false psi = Ok (E1, t1, fs1) ->
  (run D M dot U H normalize dist lapack (disk D M files fs1) nef k max conv false psi = Ok (E, t, fs) <->
   run D M dot U H normalize dist lapack files nef s max conv false psi = Ok (E, t, fs1 ++ fs)).
Proof. intros. eapply run_continue; eassumption. Qed.
Print Assumptions C71_restart.
(** The run ends normally if the parameters are sensible, the files of a restart are there, and no norm vanishes. *)
Theorem C71_complete : forall D (M : cmodule (Cx D)) dot U H normalize dist lapack files nef start max conv psi,
  1 <= nef -> 0 <= start <= nef -> 1 <= max -> Qcle conv (Q2Qc 1) -> (forall i, 0 <= i < start -> files i <> None) -> (forall x, normalize x <> None) ->
  exists r, run D M dot U H normalize dist lapack files nef start max conv false psi = Ok r.
Proof.
  intros D M dot U H normalize dist lapack files nef start max conv psi H1 H2 H3 H4 Hf Hn.
  assert (L : exists P E fs, imag_time D M dot U H normalize dist files nef start max conv (normalize psi) = Ok (P, E, fs)).
  { destruct (normalize psi) as [p|] eqn:Ep; [|exfalso; apply (Hn psi Ep)].
    assert (Rl : forall conv P i n clk x, exists y, relax D M dot U normalize dist conv P i n clk x = Some y).
    { clear - Hn. intros conv P i n. induction n as [|n IH]; intros clk x; cbn [relax]; [eexists; reflexivity|]. destruct (normalize _) as [y|] eqn:Ey; [|exfalso; apply (Hn _ Ey)]. destruct (Qclt_le_dec conv (dist x y)); [apply IH|eexists; reflexivity]. }
    assert (Lp : forall n i P E fs, i = zlen P -> exists P' E' fs', ef_loop D M dot U H normalize dist conv max (Some p) n i (P, E, fs) = Ok (P', E', fs')).
    { induction n as [|n IH]; intros i P E fs Hi; cbn [ef_loop]; [repeat eexists|]. assert (R : exists y, relaxed D M dot U normalize dist conv P i max p = Some y) by (unfold relaxed; destruct (Qclt_le_dec conv (Q2Qc 1)); [apply Rl|eexists; reflexivity]).
      destruct R as [y Ry]. rewrite Ry. unfold set_state. rewrite (proj2 (Z.eqb_eq i (zlen P)) Hi). cbn [bind]. apply IH. unfold zlen in *. rewrite app_length. cbn. lia. }
    unfold imag_time. destruct (Z.ltb_spec 0 start) as [L|L].
    - assert (Rd : forall n i, (forall j, i <= j < i + Z.of_nat n -> files j <> None) -> exists l, read_states D M files n i = Some l /\ length l = n).
      { induction n as [|n IH]; intros i Hj; cbn [read_states]; [exists []; auto|]. destruct (files i) as [w|] eqn:Ew; [|exfalso; apply (Hj i); [lia|exact Ew]]. destruct (IH (i + 1)) as (l & El & Hl); [intros j Hj'; apply Hj; lia|].
        rewrite El. exists (w :: l). split; [reflexivity|cbn; lia]. }
      destruct (Rd (Z.to_nat start) 0) as (l & El & Hl); [intros j Hj; apply Hf; lia|]. rewrite El. cbn [bind]. apply Lp. unfold zlen. lia.
    - cbn [bind]. apply Lp. unfold zlen. cbn. lia. }
  destruct L as (P & E & fs & L). destruct (imag_ok _ _ _ _ _ _ _ _ _ _ _ _ _ _ _ _ H2 L) as (low & l & _ & _ & HP & HE & _). destruct (energy_ok D nef E) as (t & Et & _); [rewrite HE, zlen_map; exact HP|].
  exists (E, t, fs). apply run_raw. repeat split; try lia; try assumption. exists P. exact L.
Qed.
Print Assumptions C71_complete.
(** Parameters that make no sense and a missing file of a restart are refused; nothing is undefined. *)
Theorem C71_refused : forall D (M : cmodule (Cx D)) dot U H normalize dist lapack files nef start max conv diag psi,
  nef < 1 \/ start < 0 \/ nef < start \/ max < 1 \/ Qclt (Q2Qc 1) conv \/ (exists i, 0 <= i < start /\ files i = None) ->
  run D M dot U H normalize dist lapack files nef start max conv diag psi = Throw.
Proof.
  intros D M dot U H normalize dist lapack files nef start max conv diag psi Hb. unfold run.
  destruct (Z.ltb_spec nef 1); [reflexivity|]. destruct (Z.ltb_spec start 0); [reflexivity|]. destruct (Z.ltb_spec nef start); [reflexivity|]. destruct (Qclt_le_dec (Q2Qc 1) conv) as [|C]; [reflexivity|].
  destruct (Z.ltb_spec max 1); [reflexivity|]. destruct Hb as [?|[?|[?|[?|[Hb|(i & Hi & Hf)]]]]]; try lia; [exfalso; revert Hb; apply Qcle_not_lt; exact C|].
  unfold imag_time. rewrite (proj2 (Z.ltb_lt 0 start)) by lia. destruct (read_states D M files (Z.to_nat start) 0) as [l|] eqn:El; [|reflexivity]. exfalso. apply read_ok in El. destruct El as [Hl Hk].
  destruct (nth_error l (Z.to_nat i)) as [w|] eqn:Ew; [|apply nth_error_None in Ew; lia]. specialize (Hk _ _ Ew). replace (0 + Z.of_nat (Z.to_nat i)) with i in Hk by lia. congruence.
Qed.
Print Assumptions C71_refused.
Theorem C71_defined : forall D (M : cmodule (Cx D)) dot U H normalize dist lapack files nef start max conv diag psi,
  run D M dot U H normalize dist lapack files nef start max conv diag psi <> UB.
Proof. exact run_no_ub. Qed.
Print Assumptions C71_defined.

(** ** Diagonalisation *)
(** What is written: real combinations of the relaxed states with the eigenvectors of the real parts of the matrix elements. *)
Theorem C71_diag_code : forall D (M : cmodule (Cx D)) dot U H normalize dist lapack files nef start max conv psi E t fs,
  run D M dot U H normalize dist lapack files nef start max conv true psi = Ok (E, t, fs) ->
  exists E0 t0 fs0 A Ed V, run D M dot U H normalize dist lapack files nef start max conv false psi = Ok (E0, t0, fs0) /\ lapack nef A = Some (Ed, V) /\
    (forall j i x y, 0 <= j <= i -> i < nef -> disk D M files fs0 i = Some x -> disk D M files fs0 j = Some y -> A j i = fst (dot x (H y))) /\
    (forall i, 0 <= i < nef -> rd E i = Ok (Ed i)) /\
    forall i, 0 <= i < nef -> disk D M files fs i = Some (msum (Cx D) M (map (fun j => match disk D M files fs0 j with Some w => mscale (cx_of (V j i)) w | None => m0 end) (upto 0 nef))).
Proof.
  intros D M dot U H normalize dist lapack files nef start max conv psi E t fs F.
  destruct (run_diag _ _ _ _ _ _ _ _ _ _ _ _ _ _ _ _ _ F) as (E0 & t0 & fs0 & P & A & Ed & V & F0 & HP & HE0 & El & HA & HE & Et & D0 & D1 & H1).
  exists E0, t0, fs0, A, Ed, V. split; [exact F0|]. split; [exact El|]. split; [|split].
  - intros j i x y Hj Hi Ex Ey. rewrite D0 in Ex, Ey by lia. injection Ex as <-. injection Ey as <-. apply HA; assumption.
  - intros i Hi. rewrite HE, rd_map, rd_upto by lia. reflexivity.
  - intros i Hi. rewrite D1 by exact Hi. unfold comb. do 2 f_equal. apply map_ext_in. intros j Hj. apply in_upto in Hj. rewrite D0 by exact Hj. reflexivity.
Qed.
Print Assumptions C71_diag_code.
(** They are orthonormal ... *)
Theorem C71_diag_orthonormal : forall D (M : cmodule (Cx D)) dot U H normalize dist lapack files nef start max conv psi E t fs,
  product D M dot -> normalizes D M dot normalize -> dsyev D lapack -> sound_files D M dot files start -> conv <> Q2Qc 1 ->
  run D M dot U H normalize dist lapack files nef start max conv true psi = Ok (E, t, fs) -> sound_files D M dot (disk D M files fs) nef.
Proof.
  intros D M dot U H normalize dist lapack files nef start max conv psi E t fs Pr Nm Lp Sf Hc F.
  destruct (run_diag _ _ _ _ _ _ _ _ _ _ _ _ _ _ _ _ _ F) as (E0 & t0 & fs0 & P & A & Ed & V & F0 & HP & HE0 & El & HA & HE & Et & D0 & D1 & H1).
  pose proof (C71_partial _ _ _ _ _ _ _ _ _ _ _ _ _ _ _ _ _ Pr Nm Sf Hc F0) as S0. intros i k x y Hi Hk Ex Ey. rewrite D1 in Ex, Ey by lia. injection Ex as <-. injection Ey as <-.
  apply (comb_ortho D M dot lapack P A Ed V nef i k Pr Lp); try assumption. intros a b u v Eu Ev.
  pose proof (proj1 (nth_error_Some P a) ltac:(congruence)) as La. pose proof (proj1 (nth_error_Some P b) ltac:(congruence)) as Lb.
  pose proof (st_nth D M P (Z.of_nat a) ltac:(unfold zlen; lia)) as Sa. pose proof (st_nth D M P (Z.of_nat b) ltac:(unfold zlen; lia)) as Sb. rewrite Nat2Z.id in Sa, Sb. rewrite Eu in Sa. rewrite Ev in Sb. injection Sa as ->. injection Sb as ->.
  rewrite (S0 (Z.of_nat a) (Z.of_nat b) _ _ ltac:(unfold zlen in *; lia) ltac:(unfold zlen in *; lia) (D0 (Z.of_nat a) ltac:(unfold zlen in *; lia)) (D0 (Z.of_nat b) ltac:(unfold zlen in *; lia))).
  unfold delta. destruct (Nat.eqb_spec a b), (Z.eqb_spec (Z.of_nat a) (Z.of_nat b)); try reflexivity; lia.
Qed.
Print Assumptions C71_diag_orthonormal.
(** ... full statement: and the Hamiltonian is diagonal in them with the energies written. *)
Definition C71_diag_full : Prop := forall D (M : cmodule (Cx D)) dot U H normalize dist lapack files nef start max conv psi E t fs,
  product D M dot -> normalizes D M dot normalize -> linear_map D M H -> hermitian D M dot H -> dsyev D lapack -> sound_files D M dot files start -> conv <> Q2Qc 1 ->
  run D M dot U H normalize dist lapack files nef start max conv true psi = Ok (E, t, fs) ->
  forall i k x y e, 0 <= i < nef -> 0 <= k < nef -> disk D M files fs i = Some x -> disk D M files fs k = Some y -> rd E k = Ok e -> dot x (H y) = cmul (cx_of e) (delta D i k).
(** It holds if the matrix elements between the relaxed states are real. *)
Theorem C71_diag_partial : forall D (M : cmodule (Cx D)) dot U H normalize dist lapack files nef start max conv psi E t fs,
  product D M dot -> linear_map D M H -> hermitian D M dot H -> dsyev D lapack ->
  (forall E0 t0 fs0, run D M dot U H normalize dist lapack files nef start max conv false psi = Ok (E0, t0, fs0) -> real_files D M dot H (disk D M files fs0) nef) ->
  run D M dot U H normalize dist lapack files nef start max conv true psi = Ok (E, t, fs) ->
  forall i k x y e, 0 <= i < nef -> 0 <= k < nef -> disk D M files fs i = Some x -> disk D M files fs k = Some y -> rd E k = Ok e -> dot x (H y) = cmul (cx_of e) (delta D i k).
Proof.
  intros D M dot U H normalize dist lapack files nef start max conv psi E t fs Pr Lh Hh Lp Re F i k x y e Hi Hk Ex Ey Ee.
  destruct (run_diag _ _ _ _ _ _ _ _ _ _ _ _ _ _ _ _ _ F) as (E0 & t0 & fs0 & P & A & Ed & V & F0 & HP & HE0 & El & HA & HE & Et & D0 & D1 & H1).
  rewrite D1 in Ex, Ey by lia. injection Ex as <-. injection Ey as <-. rewrite HE, rd_map, rd_upto in Ee by lia. cbn [bind] in Ee. injection Ee as <-.
  apply (comb_diag D M dot H lapack P A Ed V nef i k Pr Lh Hh Lp HP); try assumption. intros j l Hj Hl. apply (Re _ _ _ F0 j l); try assumption; apply D0; assumption.
Qed.
Print Assumptions C71_diag_partial.

(** ** Examples *)
Definition Qx : cring := Cx Qcr.
Definition Q2m : cmodule Qx.
Proof.
  refine (mkMod Qx (Qx * Qx) (c0, c0) (fun x y => (cadd (fst x) (fst y), cadd (snd x) (snd y))) (fun x => (copp (fst x), copp (snd x))) (fun a x => (cmul a (fst x), cmul a (snd x))) _ _ _ _ _ _ _ _);
  intros; repeat match goal with x : (_ * _)%type |- _ => destruct x end; cbn [fst snd]; f_equal; apply cx_eq; cbn; ring.
Defined.
Definition qdot (x y : Q2m) : Qx := cadd (cmul (cx_conj (fst x)) (fst y)) (cmul (cx_conj (snd x)) (snd y)).
Definition qc (n : Z) (d : positive) : Qc := Q2Qc (n # d).
Definition cre (q : Qc) : Qx := (q, Q2Qc 0).
Definition cim (q : Qc) : Qx := (Q2Qc 0, q).
Definition vec (a b : Qc) : Q2m := ((a, Q2Qc 0), (b, Q2Qc 0)).
(** square root where it is rational *)
Definition qroot (q : Qc) : Qc := Q2Qc (Z.sqrt (Qnum q) # Z.to_pos (Z.sqrt (Zpos (Qden q)))).
Definition qnorm (x : Q2m) : option Q2m :=
  let n := fst (qdot x x) in let r := qroot n in
  if Qc_eq_dec (r * r) n then if Qc_eq_dec r (Q2Qc 0) then None else Some (mscale (@cx_of Qcr (/ r)%Qc) x) else None.
Definition qdist (x y : Q2m) : Qc := let d := (Q2Qc 1 - fst (qdot x y))%Qc in if Qclt_le_dec d (Q2Qc 0) then (- d)%Qc else d.
Definition rot (x : Q2m) : Q2m :=
  (csub (cmul (cre (qc 3 5)) (fst x)) (cmul (cre (qc 4 5)) (snd x)), cadd (cmul (cre (qc 4 5)) (fst x)) (cmul (cre (qc 3 5)) (snd x))).
Definition uu (clk : Z) (x : Q2m) : Q2m := if clk =? 0 then rot x else if clk =? 1 then (snd x, fst x) else x.
(** a real Hamiltonian with the eigenvectors (3, 4) / 5 of the energy 0 and (-4, 3) / 5 of 1, and one with imaginary elements only *)
Definition hr (x : Q2m) : Q2m :=
  (cadd (cmul (cre (qc 16 25)) (fst x)) (cmul (cre (qc (-12) 25)) (snd x)), cadd (cmul (cre (qc (-12) 25)) (fst x)) (cmul (cre (qc 9 25)) (snd x))).
Definition hi (x : Q2m) : Q2m := (cmul (cim (qc (-1) 1)) (snd x), cmul (cim (qc 1 1)) (fst x)).
(** dsyev on the matrices that occur *)
Definition lap (n : Z) (A : Z -> Z -> Qc) : option ((Z -> Qc) * (Z -> Z -> Qc)) :=
  if n =? 2 then
    if Qc_eq_dec (A 0 1) (Q2Qc 0) then if Qc_eq_dec (A 0 0) (A 1 1) then Some (fun _ => A 0 0, fun j i => if j =? i then Q2Qc 1 else Q2Qc 0) else None
    else if Qc_eq_dec (A 0 0) (qc 16 25) then if Qc_eq_dec (A 0 1) (qc (-12) 25) then if Qc_eq_dec (A 1 1) (qc 9 25) then
      Some (fun i => if i =? 0 then Q2Qc 0 else Q2Qc 1, fun j i => if j =? 0 then if i =? 0 then qc 3 5 else qc (-4) 5 else if i =? 0 then qc 4 5 else qc 3 5)
      else None else None else None
  else None.
Lemma qdot_product : product Qcr Q2m qdot.
Proof.
  split; [split|]; intros; repeat match goal with x : Q2m |- _ => destruct x as [[? ?] [? ?]] end; try match goal with a : Qx |- _ => destruct a end; unfold qdot; apply cx_eq; cbn; ring.
Qed.
Lemma qnorm_normalizes : normalizes Qcr Q2m qdot qnorm.
Proof.
  intros x y. unfold qnorm. cbv zeta. generalize (qroot (fst (qdot x x))) as r. intros r. destruct (Qc_eq_dec _ _) as [E|]; [|discriminate]. destruct (Qc_eq_dec _ _) as [|N]; [discriminate|]. intros [= <-]. split; [|eexists; reflexivity].
  destruct x as [[a b] [c d]]. unfold qdot in *. cbn in E. apply cx_eq; cbn.
  - change (Q2Qc 0) with 0%Qc. transitivity ((/ r) * (/ r) * (r * r))%Qc; [rewrite E; ring|]. field. exact N.
  - change (Q2Qc 0) with 0%Qc. ring.
Qed.
Lemma hr_linear : linear_map Qcr Q2m hr.
Proof. split; intros; repeat match goal with x : Q2m |- _ => destruct x as [[? ?] [? ?]] end; try match goal with a : Cx Qcr |- _ => destruct a end; unfold hr; cbn; f_equal; apply cx_eq; cbn; ring. Qed.
Lemma hr_hermitian : hermitian Qcr Q2m qdot hr.
Proof. intros [[? ?] [? ?]] [[? ?] [? ?]]. unfold qdot, hr. apply cx_eq; cbn; ring. Qed.
Lemma hi_linear : linear_map Qcr Q2m hi.
Proof. split; intros; repeat match goal with x : Q2m |- _ => destruct x as [[? ?] [? ?]] end; try match goal with a : Cx Qcr |- _ => destruct a end; unfold hi; cbn; f_equal; apply cx_eq; cbn; ring. Qed.
Lemma hi_hermitian : hermitian Qcr Q2m qdot hi.
Proof.
  intros [[? ?] [? ?]] [[? ?] [? ?]]. unfold qdot, hi. change (qc (-1) 1) with (- (1))%Qc. change (qc 1 1) with 1%Qc. change (Q2Qc 0) with 0%Qc. apply cx_eq; cbn; ring.
Qed.
Lemma lap_dsyev : dsyev Qcr lap.
Proof.
  intros n A E V. unfold lap. destruct (Z.eqb_spec n 2) as [->|]; [|discriminate]. change (upto 0 2) with [0; 1].
  destruct (Qc_eq_dec (A 0 1) (Q2Qc 0)) as [E1|].
  - destruct (Qc_eq_dec (A 0 0) (A 1 1)) as [E2|]; [|discriminate]. intros [= <- <-]. split; intros i j Hi Hj.
    + assert (i = 0 \/ i = 1) as [-> | ->] by lia; assert (j = 0 \/ j = 1) as [-> | ->] by lia; cbn; rewrite ?E1, <- ?E2; change (Q2Qc 0) with 0%Qc; change (Q2Qc 1) with 1%Qc; ring.
    + assert (i = 0 \/ i = 1) as [-> | ->] by lia; assert (j = 0 \/ j = 1) as [-> | ->] by lia; apply Qc_is_canon; reflexivity.
  - destruct (Qc_eq_dec (A 0 0) (qc 16 25)) as [E2|]; [|discriminate]. destruct (Qc_eq_dec (A 0 1) (qc (-12) 25)) as [E3|]; [|discriminate]. destruct (Qc_eq_dec (A 1 1) (qc 9 25)) as [E4|]; [|discriminate].
    intros [= <- <-]. split; intros i j Hi Hj; assert (i = 0 \/ i = 1) as [-> | ->] by lia; assert (j = 0 \/ j = 1) as [-> | ->] by lia; cbn; rewrite ?E2, ?E3, ?E4; apply Qc_is_canon; reflexivity.
Qed.
Definition nofiles (_ : Z) : option Q2m := None.
Definition basis (i : Z) : option Q2m := if i =? 0 then Some (vec 1 0) else if i =? 1 then Some (vec 0 1) else None.
Definition same (x y : Q2m) : bool := if Qc_eq_dec (fst (fst x)) (fst (fst y)) then if Qc_eq_dec (snd (fst x)) (snd (fst y)) then
  if Qc_eq_dec (fst (snd x)) (fst (snd y)) then if Qc_eq_dec (snd (snd x)) (snd (snd y)) then true else false else false else false else false.
Definition holds (o : outcome (list Qc * list (Z * Qc * Qc * option Qc) * list (Z * Q2m))) (e : list Qc) (l : list (Z * Q2m)) : bool :=
  match o with
  | Ok (E, _, fs) => forallb (fun p => if Qc_eq_dec (fst p) (snd p) then true else false) (List.combine E e) && (length E =? length e)%nat &&
      forallb (fun p => (fst (fst p) =? fst (snd p)) && same (snd (fst p)) (snd (snd p))) (List.combine fs l) && (length fs =? length l)%nat
  | _ => false
  end.
(** two states by two and three steps *)
Example ex_run : holds (run Qcr Q2m qdot uu hr qnorm qdist lap nofiles 2 0 5 (qc 1 10) false (vec (qc 2 1) 0))
  [qc 1 625 * qc 49 1; qc 1 625 * qc 576 1]%Qc [(0, vec (qc 4 5) (qc 3 5)); (1, vec (qc 3 5) (qc (-4) 5))] = true.
Proof. vm_compute. reflexivity. Qed.
(** continued from the first *)
Example ex_restart : holds (run Qcr Q2m qdot uu hr qnorm qdist lap (fun i => if i =? 0 then Some (vec (qc 4 5) (qc 3 5)) else None) 2 1 5 (qc 1 10) false (vec (qc 2 1) 0))
  [qc 1 625 * qc 49 1; qc 1 625 * qc 576 1]%Qc [(1, vec (qc 3 5) (qc (-4) 5))] = true.
Proof. vm_compute. reflexivity. Qed.
(** the second step not done *)
Example ex_max : holds (run Qcr Q2m qdot uu hr qnorm qdist lap nofiles 1 0 1 (qc 1 10) false (vec (qc 2 1) 0)) [Q2Qc 0] [(0, vec (qc 3 5) (qc 4 5))] = true.
Proof. vm_compute. reflexivity. Qed.
(** a vanishing norm *)
Example ex_zero : run Qcr Q2m qdot (fun _ x => x) hr qnorm qdist lap nofiles 2 0 5 (qc 1 10) false (vec 1 0) = Throw.
Proof. vm_compute. reflexivity. Qed.
Example ex_complete : exists r, run Qcr Q2m qdot uu hr (fun x => Some x) qdist lap basis 2 1 5 (qc 1 10) false (vec 1 0) = Ok r.
Proof. apply C71_complete; try lia; try discriminate. intros i Hi. replace i with 0 by lia. discriminate. Qed.
(** the files of a restart, and the diagonalisation of their basis *)
Example ex_diag : holds (run Qcr Q2m qdot uu hr qnorm qdist lap basis 2 2 5 (qc 1 10) true (vec 1 0))
  [Q2Qc 0; Q2Qc 1] [(0, vec (qc 3 5) (qc 4 5)); (1, vec (qc (-4) 5) (qc 3 5))] = true.
Proof. vm_compute. reflexivity. Qed.
Lemma basis_sound : sound_files Qcr Q2m qdot basis 2.
Proof.
  intros i k x y Hi Hk. assert (i = 0 \/ i = 1) as [-> | ->] by lia; assert (k = 0 \/ k = 1) as [-> | ->] by lia; cbn [basis Z.eqb]; intros [= <-] [= <-]; apply cx_eq; apply Qc_is_canon; reflexivity.
Qed.
(** a convergence of 1 *)
Theorem C71_refuted : ~ C71_full.
Proof.
  intros F. assert (N : qnorm (vec 1 0) = Some (mscale (@cx_of Qcr (/ qroot (fst (qdot (vec 1 0) (vec 1 0))))%Qc) (vec 1 0))).
  { unfold qnorm. destruct (Qc_eq_dec _ _) as [|N]; [|exfalso; apply N; apply Qc_is_canon; reflexivity]. destruct (Qc_eq_dec _ _) as [C|]; [discriminate (f_equal this C)|]. reflexivity. }
  destruct (run Qcr Q2m qdot uu hr qnorm qdist lap nofiles 2 0 5 (Q2Qc 1) false (vec 1 0)) as [[[E t] fs]| |] eqn:R.
  - assert (S0 : sound_files Qcr Q2m qdot nofiles 0) by (intros i k x y Hi; lia).
    pose proof (F Qcr Q2m qdot uu hr qnorm qdist lap nofiles 2 0 5 (Q2Qc 1) (vec 1 0) E t fs qdot_product qnorm_normalizes S0 R) as G.
    pose proof (C71_conv_one_code _ _ _ _ _ _ _ _ _ _ _ _ _ _ _ _ R) as C. pose proof (C 0 ltac:(lia)) as C0. pose proof (C 1 ltac:(lia)) as C1. rewrite N in C0, C1.
    specialize (G 0 1 _ _ ltac:(lia) ltac:(lia) C0 C1). discriminate (f_equal (fun c : Qx => this (fst c)) G).
  - assert (X : holds (run Qcr Q2m qdot uu hr qnorm qdist lap nofiles 2 0 5 (Q2Qc 1) false (vec 1 0)) [qc 16 25; qc 16 25] [(0, vec 1 0); (1, vec 1 0)] = true) by (vm_compute; reflexivity). rewrite R in X. discriminate X.
  - exact (C71_defined _ _ _ _ _ _ _ _ _ _ _ _ _ _ _ R).
Qed.
Print Assumptions C71_refuted.
(** imaginary matrix elements *)
Theorem C71_diag_refuted : ~ C71_diag_full.
Proof.
  intros F. assert (X : holds (run Qcr Q2m qdot uu hi qnorm qdist lap basis 2 2 5 (qc 1 10) true (vec 1 0)) [Q2Qc 0; Q2Qc 0] [(0, vec 1 0); (1, vec 0 1)] = true) by (vm_compute; reflexivity).
  destruct (run Qcr Q2m qdot uu hi qnorm qdist lap basis 2 2 5 (qc 1 10) true (vec 1 0)) as [[[E t] fs]| |] eqn:R; [|discriminate X|discriminate X].
  destruct (C71_table _ _ _ _ _ _ _ _ _ _ _ _ _ _ _ _ _ _ R) as (_ & HE & _). destruct (proj1 (rd_ok E 1) ltac:(lia)) as [e Ee].
  destruct (C71_diag_code _ _ _ _ _ _ _ _ _ _ _ _ _ _ _ _ _ R) as (E0 & t0 & fs0 & A & Ed & V & R0 & El & HA & HEd & HV).
  assert (Z01 : exists x y, disk Qcr Q2m basis fs 0 = Some x /\ disk Qcr Q2m basis fs 1 = Some y /\ same x (vec 1 0) = true /\ same y (vec 0 1) = true).
  { unfold holds in X. destruct fs as [|[i x] [|[k y] [|f fs]]]; try (rewrite !andb_false_r in X; discriminate X). apply andb_true_iff in X. destruct X as [X _]. apply andb_true_iff in X. destruct X as [_ X]. cbn [List.combine forallb fst snd] in X.
    apply andb_true_iff in X. destruct X as [Xa X]. apply andb_true_iff in X. destruct X as [Xb _]. apply andb_true_iff in Xa. destruct Xa as [Xi Xx]. apply andb_true_iff in Xb. destruct Xb as [Xk Xy].
    apply Z.eqb_eq in Xi, Xk. subst i k. exists x, y. repeat split; assumption. }
  destruct Z01 as (x & y & Dx & Dy & Sx & Sy).
  assert (Same : forall u v, same u v = true -> u = v).
  { intros [[a b] [c d]] [[a' b'] [c' d']]. unfold same. cbn [fst snd]. destruct (Qc_eq_dec a a'), (Qc_eq_dec b b'), (Qc_eq_dec c c'), (Qc_eq_dec d d'); intros S; try discriminate S. subst. reflexivity. }
  apply Same in Sx, Sy. subst x y. assert (Nc : qc 1 10 <> Q2Qc 1) by (intros C; discriminate (f_equal this C)).
  pose proof (F Qcr Q2m qdot uu hi qnorm qdist lap basis 2 2 5 (qc 1 10) (vec 1 0) E t fs qdot_product qnorm_normalizes hi_linear hi_hermitian lap_dsyev basis_sound Nc R 0 1 _ _ e ltac:(lia) ltac:(lia) Dx Dy Ee) as G.
  pose proof (f_equal (fun c : Qx => snd c) G) as G1. cbn [snd] in G1. change (delta Qcr 0 1) with (c0 : Qx) in G1. assert (G2 : qc (-1) 1 = Q2Qc 0); [|discriminate (f_equal this G2)].
  transitivity (snd (qdot (vec 1 0) (hi (vec 0 1)))); [apply Qc_is_canon; reflexivity|]. rewrite G1. cbn. ring.
Qed.
Print Assumptions C71_diag_refuted.
