(** Property C72: eigenfunctions from the auto correlation of a propagation. *)
From Coq Require Import List ZArith Lia Bool QArith Qcanon Ring.
From Verif Require Import Base Arrays Algebra Complex Model.Operators Spec.Operators Spec.Projection Spec.Eigen Model.AutoCorr Spec.AutoCorr Proofs.AutoCorr.
Import ListNotations.
Open Scope Z_scope.

(** The state and the energy made of a vector. *)
Definition state {D} {M : cmodule (Cx D)} (dot : M -> M -> Cx D) (H : M -> M) (norm : M -> option M) (x : M) : option (M * D) :=
  match norm x with Some p => Some (p, fst (dot p (H p))) | None => None end.
(** the wave functions of an origin, and the time between two *)
Definition waves {D} {M : cmodule (Cx D)} (U : Z -> M -> M) (steps : Z) (o : origin D M) : list M :=
  match o with Run psi => psi :: propagate D M U (Z.to_nat (steps - 1)) 0 psi | Files _ ws => ws end.
Definition interval {D} {M : cmodule (Cx D)} (dt : Qc) (o : origin D M) : Qc := match o with Files (Some (mdt, wcycle, _)) _ => (mdt * qz wcycle)%Qc | _ => dt end.
Definition sensible {D} {M : cmodule (Cx D)} (o : origin D M) : Prop :=
  match o with Run _ => True | Files meta ws => 2 <= zlen ws /\ match meta with Some (mdt, wcycle, nt) => Qclt (Q2Qc 0) mdt /\ 1 <= wcycle /\ 2 <= nt | None => True end end.
(** The wave functions of a run: the first is the initial one, each other is propagated from the one before. *)
Theorem C72_waves : forall D (M : cmodule (Cx D)) (U : Z -> M -> M) steps (psi : M), 1 <= steps -> let ws := waves U steps (Run psi) in zlen ws = steps /\ rd ws 0 = Ok psi /\
  forall s x, 0 <= s -> s + 1 < steps -> rd ws s = Ok x -> rd ws (s + 1) = Ok (U s x).
Proof.
  intros D M U steps psi Hs ws. split; [|split].
  - unfold ws, waves, zlen. cbn [length]. rewrite propagate_length. lia.
  - reflexivity.
  - assert (G : forall n clk psi k x, (k < n)%nat -> nth_error (psi :: propagate D M U n clk psi) k = Some x -> nth_error (propagate D M U n clk psi) k = Some (U (clk + Z.of_nat k) x)).
    { clear. induction n as [|n IH]; intros clk psi [|k] x Hk E; try lia; cbn [propagate nth_error] in *; [injection E as <-; do 2 f_equal; lia|]. rewrite (IH (clk + 1) (U clk psi) k x ltac:(lia) E). do 2 f_equal. lia. }
    intros s x H0 H1 E. unfold rd in *. rewrite (proj2 (Z.leb_le 0 s)) in E by lia. rewrite (proj2 (Z.leb_le 0 (s + 1))) by lia. destruct (nth_error ws (Z.to_nat s)) as [y|] eqn:Ey; [|discriminate]. injection E as ->.
    replace (Z.to_nat (s + 1)) with (S (Z.to_nat s)) by lia. unfold ws, waves in Ey |- *. cbn [nth_error]. rewrite (G (Z.to_nat (steps - 1)) 0 psi (Z.to_nat s) x ltac:(lia) Ey). do 2 f_equal. lia.
Qed.
Print Assumptions C72_waves.
(** Full statement: for every peak of the spectrum the state is the normalised component of the wave functions with this energy, all others being removed. *)
Definition C72_full : Prop := forall D (M : cmodule (Cx D)) dot (U : Z -> M -> M) H norm cis peaks dt steps (o : origin D M) a, 1 <= steps -> sensible o -> interval dt o <> Q2Qc 0 -> dt <> Q2Qc 0 ->
  let ws := waves U steps o in let n := zlen ws in
  domain D -> phases D cis n -> series D M cis n a ws -> distinct D M n a ->
  ac D M dot U H norm cis peaks dt steps o = Ok (map (fun idx => state dot H norm (mscale (ofZ n) (component D M n a idx))) (peaks (autocorr D M dot ws))).
(** The signal in which the peaks are searched: the products of all wave functions with a normalised first one. *)
Theorem C72_signal : forall D (M : cmodule (Cx D)) (dot : M -> M -> Cx D) (ws : list M) w0, rd ws 0 = Ok w0 -> dot w0 w0 = c1 -> autocorr D M dot ws = map (fun w => dot w w0) ws.
Proof. intros D M dot [|w t] w0 E Hn; [discriminate|]. injection E as ->. cbn. rewrite Hn. reflexivity. Qed.
Print Assumptions C72_signal.
(** The general form: Fourier components of any wave functions, if the length of the propagation is the one given in the input. *)
Theorem C72_dft : forall D (M : cmodule (Cx D)) dot (U : Z -> M -> M) H norm cis peaks dt steps (o : origin D M), 1 <= steps -> sensible o -> interval dt o <> Q2Qc 0 ->
  let ws := waves U steps o in let n := zlen ws in
  phases D cis n -> (interval dt o * qz n = dt * qz steps)%Qc ->
  ac D M dot U H norm cis peaks dt steps o = Ok (map (fun idx => state dot H norm (dft D M cis n ws idx)) (peaks (autocorr D M dot ws))).
Proof.
  intros D M dot U H norm cis peaks dt steps o Hs So Hi ws n Ph Eq. unfold ac. rewrite (proj2 (Z.ltb_ge steps 1)) by lia. destruct o as [psi|meta fs].
  - cbn [waves interval] in *. fold ws. assert (Hn : 0 < n) by (unfold n, ws, zlen; cbn [length]; lia). apply (extract_grid D M dot cis H norm peaks ws n dt dt steps Hn Ph eq_refl (eq_sym Eq) Hi).
  - cbn [waves interval sensible] in *. destruct So as [Hl Hm]. rewrite (proj2 (Z.ltb_ge (zlen fs) 2)) by lia.
    assert (X : extract D M dot H norm cis peaks fs (interval dt (Files meta fs)) dt steps = Ok (map (fun idx => state dot H norm (dft D M cis n ws idx)) (peaks (autocorr D M dot ws)))).
    { assert (Hn : 0 < n) by (unfold n, ws; lia). apply (extract_grid D M dot cis H norm peaks fs n _ dt steps Hn Ph eq_refl (eq_sym Eq) Hi). }
    destruct meta as [[[mdt wc] nt]|].
    + destruct Hm as (Hm1 & Hm2 & Hm3). destruct (Qclt_le_dec (Q2Qc 0) mdt) as [L|L]; [|exfalso; revert Hm1; apply Qcle_not_lt; exact L]. rewrite (proj2 (Z.leb_gt wc 0)), (proj2 (Z.ltb_ge nt 2)) by lia. exact X.
    + exact X.
Qed.
Print Assumptions C72_dft.
(** The statement holds for a propagation that is run now, and for one that is read if its length is the one of the input. *)
Theorem C72_partial : forall D (M : cmodule (Cx D)) dot (U : Z -> M -> M) H norm cis peaks dt steps (o : origin D M) a, 1 <= steps -> sensible o -> interval dt o <> Q2Qc 0 ->
  let ws := waves U steps o in let n := zlen ws in
  (interval dt o * qz n = dt * qz steps)%Qc ->
  domain D -> phases D cis n -> series D M cis n a ws -> distinct D M n a ->
  ac D M dot U H norm cis peaks dt steps o = Ok (map (fun idx => state dot H norm (mscale (ofZ n) (component D M n a idx))) (peaks (autocorr D M dot ws))).
Proof.
  intros D M dot U H norm cis peaks dt steps o a Hs So Hi ws n Eq Dm Ph Se Nd. rewrite (C72_dft D M dot U H norm cis peaks dt steps o Hs So Hi Ph Eq). f_equal. apply map_ext. intros idx. f_equal.
  assert (Hn : 0 < n). { unfold n, ws. destruct o as [psi|meta fs]; cbn [waves sensible] in *; [unfold zlen; cbn; lia|lia]. }
  apply (fourier_series D M cis n Hn Ph Dm a ws idx Se Nd).
Qed.
Print Assumptions C72_partial.
Theorem C72_run : forall D (M : cmodule (Cx D)) dot (U : Z -> M -> M) H norm cis peaks dt steps (psi : M) a, 1 <= steps -> dt <> Q2Qc 0 ->
  let ws := waves U steps (Run psi) in
  domain D -> phases D cis steps -> series D M cis steps a ws -> distinct D M steps a ->
  ac D M dot U H norm cis peaks dt steps (Run psi) = Ok (map (fun idx => state dot H norm (mscale (ofZ steps) (component D M steps a idx))) (peaks (autocorr D M dot ws))).
Proof.
  intros D M dot U H norm cis peaks dt steps psi a Hs Hd ws Dm Ph Se Nd. pose proof (proj1 Se) as Hl.
  pose proof (C72_partial D M dot U H norm cis peaks dt steps (Run psi) a Hs I Hd) as P. cbv zeta in P. fold ws in P. rewrite Hl in P. apply P; try assumption. reflexivity.
Qed.
Print Assumptions C72_run.
(** The energy is the one of the component, if it is an eigenfunction. *)
Theorem C72_energy : forall D (M : cmodule (Cx D)) (dot : M -> M -> Cx D) (H : M -> M) norm (x : M) (e : D) n p E, product D M dot -> linear_map D M H -> normalizes D M dot norm -> H x = mscale (cx_of e) x ->
  state dot H norm (mscale (ofZ n) x) = Some (p, E) -> dot p p = c1 /\ E = e /\ exists c, p = mscale c x.
Proof.
  intros D M dot H norm x e n p E Pr [La Lm] Nm Hx F. unfold state in F. destruct (norm (mscale (ofZ n) x)) as [q|] eqn:Eq; [|discriminate]. injection F as -> <-. destruct (Nm _ _ Eq) as [Hu [r Er]]. split; [exact Hu|].
  assert (Ep : p = mscale (cmul (cx_of r) (ofZ n)) x) by (rewrite Er, (mscale_mul (Cx D) M); reflexivity). split; [|exists (cmul (cx_of r) (ofZ n)); exact Ep].
  assert (Hp : H p = mscale (cx_of e) p). { rewrite Ep, Lm, Hx, <- !(mscale_mul (Cx D) M). f_equal. apply cmul_swap. }
  rewrite Hp, (proj2 (proj1 Pr)), Hu. apply of_one.
Qed.
Print Assumptions C72_energy.
(** What is done with a propagation that is read: the frequencies are those of the input's time step and number of steps, the times those of the files. *)
Theorem C72_files_code : forall D (M : cmodule (Cx D)) dot (U : Z -> M -> M) H norm cis peaks dt steps meta (ws : list M) idx l, 1 <= steps -> sensible (Files meta ws) -> peaks (autocorr D M dot ws) = [idx] ->
  ac D M dot U H norm cis peaks dt steps (Files meta ws) = Ok l ->
  let f := (qz (if idx <? zlen ws / 2 then idx else idx - zlen ws) / (dt * qz steps))%Qc in
  l = [state dot H norm (fold_left (fun psi s => madd psi (mscale (cis (f * qz s * interval dt (Files meta ws))%Qc) (nth (Z.to_nat s) ws m0))) (upto 1 (zlen ws)) (nth 0%nat ws m0))].
Proof.
  intros D M dot U H norm cis peaks dt steps meta ws idx l Hs [Hl Hm] Hp. unfold ac. rewrite (proj2 (Z.ltb_ge steps 1)), (proj2 (Z.ltb_ge (zlen ws) 2)) by lia.
  assert (X : forall fdt, extract D M dot H norm cis peaks ws fdt dt steps = Ok l -> let f := (qz (if idx <? zlen ws / 2 then idx else idx - zlen ws) / (dt * qz steps))%Qc in
    l = [state dot H norm (fold_left (fun psi s => madd psi (mscale (cis (f * qz s * fdt)%Qc) (nth (Z.to_nat s) ws m0))) (upto 1 (zlen ws)) (nth 0%nat ws m0))]).
  { intros fdt E. unfold extract in E. rewrite Hp in E. cbn [foldM] in E. unfold integrate in E. rewrite (rd_nth ws 0 m0) in E by lia. cbn [bind] in E.
    assert (Ef : frequency (zlen ws) dt steps idx = (qz (if (idx <? zlen ws / 2)%Z then idx else (idx - zlen ws)%Z) / (dt * qz steps))%Qc).
    { unfold frequency. rewrite Z.quot_div_nonneg by lia. unfold Qcdiv. destruct (idx <? zlen ws / 2); ring. }
    rewrite Ef in E. clear Ef.
    match type of E with context [foldM ?F ?L ?S] => assert (Y : foldM F L S = Ok (fold_left (fun psi s => madd psi (mscale (cis (qz (if (idx <? zlen ws / 2)%Z then idx else (idx - zlen ws)%Z) / (dt * qz steps) * qz s * fdt)%Qc) (nth (Z.to_nat s) ws m0))) L S)) end.
    { generalize (nth (Z.to_nat 0) ws m0). assert (B : forall s, In s (upto 1 (zlen ws)) -> 0 <= s < zlen ws) by (intros s Hin; apply in_upto in Hin; lia). revert B. generalize (upto 1 (zlen ws)) as L. induction L as [|s L IH]; intros B x; [reflexivity|]. cbn [foldM fold_left].
      rewrite (rd_nth ws s m0) by (apply B; left; reflexivity). cbn [bind]. apply IH. intros s' Hs'. apply B. right. exact Hs'. }
    rewrite Y in E. cbn [bind app] in E. injection E as <-. reflexivity. }
  destruct meta as [[[mdt wc] nt]|]; cbn [interval].
  - destruct Hm as (Hm1 & Hm2 & Hm3). destruct (Qclt_le_dec (Q2Qc 0) mdt) as [L|L]; [|exfalso; revert Hm1; apply Qcle_not_lt; exact L]. rewrite (proj2 (Z.leb_gt wc 0)), (proj2 (Z.ltb_ge nt 2)) by lia. apply X.
  - apply X.
Qed.
Print Assumptions C72_files_code.
(** Too few files and meta files that make no sense are refused. *)
Theorem C72_refused : forall D (M : cmodule (Cx D)) dot (U : Z -> M -> M) H norm cis peaks dt steps (o : origin D M), steps < 1 \/ ~ sensible o -> ac D M dot U H norm cis peaks dt steps o = Throw.
Proof.
  intros D M dot U H norm cis peaks dt steps o Hb. unfold ac. destruct (Z.ltb_spec steps 1) as [|Hs]; [reflexivity|]. destruct Hb as [?|Hb]; [lia|]. destruct o as [psi|meta ws]; [exfalso; apply Hb; exact I|]. cbn [sensible] in Hb.
  destruct meta as [[[mdt wc] nt]|].
  - destruct (Qclt_le_dec (Q2Qc 0) mdt) as [L|]; [|reflexivity]. destruct (Z.leb_spec wc 0); [reflexivity|]. destruct (Z.ltb_spec nt 2); [reflexivity|]. cbn [bind]. destruct (Z.ltb_spec (zlen ws) 2) as [|G]; [reflexivity|]. exfalso. apply Hb. split; [exact G|]. split; [exact L|]. lia.
  - cbn [bind]. destruct (Z.ltb_spec (zlen ws) 2) as [|G]; [reflexivity|]. exfalso. apply Hb. split; [exact G|exact I].
Qed.
Print Assumptions C72_refused.

(** ** Examples: four wave functions over the Gaussian integers *)
Definition Gi : cring := Cx Zr.
Add Ring GiR : (cr_th Gi).
Definition G1 : cmodule Gi.
Proof. refine (mkMod Gi Gi c0 cadd copp cmul _ _ _ _ _ _ _ _); intros; ring. Defined.
Definition ipow (k : Z) : Gi := if k =? 0 then (1, 0) else if k =? 1 then (0, 1) else if k =? 2 then (-1, 0) else (0, -1).
Definition cis4 (q : Qc) : Gi := let r := (q * qz 4)%Qc in if (Qden r =? 1)%positive then ipow (Qnum r mod 4) else (2, 0).
Lemma cis4_grid k : cis4 (qz k / qz 4)%Qc = ipow (k mod 4).
Proof.
  unfold cis4. assert (E : (qz k / qz 4 * qz 4 = qz k)%Qc) by (unfold Qcdiv; rewrite <- Qcmult_assoc, (Qcmult_comm (/ qz 4)), Qcmult_inv_r, Qcmult_1_r; [reflexivity|discriminate]). rewrite E.
  assert (Ek : this (qz k) = (k # 1)%Q). { unfold qz, Q2Qc, inject_Z. cbn [this]. unfold Qred. pose proof (Z.ggcd_gcd k 1) as Hg. destruct (Z.ggcd k 1) as [g [aa bb]] eqn:Eg. pose proof (Z.ggcd_correct_divisors k 1) as Hd. rewrite Eg in Hd. cbn in Hg. rewrite Z.gcd_1_r in Hg. subst g. destruct Hd as [Hd1 Hd2]. rewrite Z.mul_1_l in Hd1, Hd2. subst. reflexivity. }
  rewrite Ek. reflexivity.
Qed.
Lemma mod4 k : k mod 4 = 0 \/ k mod 4 = 1 \/ k mod 4 = 2 \/ k mod 4 = 3.
Proof. pose proof (Z.mod_pos_bound k 4). lia. Qed.
Lemma cis4_phases : phases Zr cis4 4.
Proof.
  split.
  - intros j k. rewrite !cis4_grid. rewrite Zplus_mod. destruct (mod4 j) as [E|[E|[E|E]]], (mod4 k) as [F|[F|[F|F]]]; rewrite E, F; reflexivity.
  - intros k. rewrite cis4_grid. destruct (mod4 k) as [E|[E|[E|E]]]; rewrite E; split; intros X; try reflexivity; try discriminate X; lia.
Qed.
Lemma gauss_domain : domain Zr.
Proof.
  intros [a b] [c d] E. injection E as E1 E2. assert (N : (a * a + b * b) * (c * c + d * d) = 0).
  { transitivity ((a * c - b * d) * (a * c - b * d) + (a * d + b * c) * (a * d + b * c)); [ring|]. rewrite E1, E2. reflexivity. }
  apply Z.mul_eq_0 in N. destruct N as [N|N]; [left|right]; apply cx_eq; cbn; nia.
Qed.
Definition gdot (x y : G1) : Gi := cmul (cx_conj (x : Gi)) y.
(** components 5 with the energy 1 and 3 with the energy -1, that is 3 modulo 4 *)
Definition parts : list (Z * G1) := [(1, (5, 0)); (-1, (3, 0))].
Definition four : list G1 := [(8, 0); (0, -2); (-8, 0); (0, 2)].
Lemma four_series : series Zr G1 cis4 4 parts four.
Proof. split; [reflexivity|]. intros s Hs. assert (s = 0 \/ s = 1 \/ s = 2 \/ s = 3) as [-> | [-> | [-> | ->]]] by lia; vm_compute; reflexivity. Qed.
Lemma parts_distinct : distinct Zr G1 4 parts.
Proof. unfold distinct. cbn. repeat constructor; cbn; intuition discriminate. Qed.
(** a propagator with this series *)
Definition u4 (clk : Z) (x : G1) : G1 := nth (Z.to_nat (clk + 1)) four m0.
Example ex_ac : ac Zr G1 gdot u4 (fun x => x) (fun x => Some x) cis4 (fun _ => [1; 3; 0]) (qz 2) 4 (Run ((8, 0) : G1)) = Ok [Some ((20, 0), 400); Some ((12, 0), 144); Some ((0, 0), 0)].
Proof. vm_compute. reflexivity. Qed.
Example ex_run : ac Zr G1 gdot u4 (fun x => x) (fun x => Some x) cis4 (fun _ => [1; 3; 0]) (qz 2) 4 (Run ((8, 0) : G1)) =
  Ok (map (fun idx => state gdot (fun x => x) (fun x => Some x) (mscale (ofZ 4 : Gi) (component Zr G1 4 parts idx))) [1; 3; 0]).
Proof. apply (C72_run Zr G1 gdot u4 (fun x => x) (fun x => Some x) cis4 (fun _ => [1; 3; 0]) (qz 2) 4 ((8, 0) : G1) parts); [lia|discriminate|apply gauss_domain|apply cis4_phases|apply four_series|apply parts_distinct]. Qed.
(** the same files with a wrong number of steps in the input, where nothing else tells that *)
Theorem C72_refuted : ~ C72_full.
Proof.
  intros F. assert (So : sensible (Files (Some (qz 1, 1, 3)) four : origin Zr G1)) by (split; [discriminate|]; split; [reflexivity|lia]).
  pose proof (F Zr G1 gdot u4 (fun x => x) (fun x => Some x) cis4 (fun _ => [1]) (qz 1) 2 (Files (Some (qz 1, 1, 3)) four) parts ltac:(lia) So ltac:(discriminate) ltac:(discriminate) gauss_domain cis4_phases four_series parts_distinct) as G.
  vm_compute in G. discriminate G.
Qed.
Print Assumptions C72_refuted.
