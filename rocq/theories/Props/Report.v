(** Property C103: the table and the spectrum of a propagation. *)
From Coq Require Import QArith Qcanon Ascii String List NArith ZArith Lia Bool Arith.
From Verif Require Import Base Arrays Algebra Complex Model.Params Model.Frequency Model.Report Spec.Report Proofs.Report.
Import ListNotations.
Open Scope Z_scope.

(** The wave functions of a run with k states: [l] are the reported ones with the number of their time step; no population is "not a number". *)
Definition sane {F : fld} {W} (norm : W -> F) (states : W -> option (list F)) (bad : F -> bool) (c : container) (k : Z) (l : list (Z * W)) : Prop :=
  Forall (fun x => uniform states k (snd x) /\ (on c (lit "norm") true -> bad (norm (snd x) * norm (snd x))%cr = false)) l.
(** A table: the columns asked for, and a row for every report. *)
Definition table {F : fld} {W} (norm energy : W -> F) (states : W -> option (list F)) (dt : F) (c : container) (k : Z) (proj : W -> Cx F) (l : list (Z * W)) (out : list (line F)) : Prop :=
  exists cols rows, out = Head cols :: map Row rows /\ chosen (asked c) (all_columns k) cols /\
    Forall2 (fun x row => row_shows norm energy states dt (proj (snd x)) cols (fst x) (snd x) row) l rows.
(** What the code does: under <Psi0|PsiT> it prints <PsiT|Psi0>. *)
Theorem C103_table_code : forall (F : fld) W norm energy states dot bad cabs cosn cis junk twopi dt steps dir c (psi0 : W) k l stopped opens,
  l <> [] -> zlen l <= steps -> uniform states k psi0 -> sane norm states bad c k l -> Forall (fun x => modulus cabs (dot (snd x) psi0)) l ->
  exists out e, report F W norm energy states dot bad cabs cosn cis junk twopi dt steps dir c psi0 l stopped opens = Ok (out, e) /\
    table norm energy states dt c k (fun psi => dot psi psi0) l out.
Proof.
  intros F W norm energy states dot bad cabs cosn cis junk twopi dt steps dir c psi0 k l stopped opens Hne Hn Hu Hl Hm.
  destruct (report_ok F W norm energy states dot bad cabs cosn cis junk twopi dt steps dir c psi0 k l stopped opens Hne Hn Hu Hl) as (b & e & E & _).
  eexists _, e. split; [exact E|]. exists (cols F W (begun F W states junk steps dir c psi0) k), (map (fun x => cells F W norm energy states dot cabs dt (begun F W states junk steps dir c psi0) psi0 (fst x) (snd x)) l).
  split; [rewrite map_map; reflexivity|]. split; [apply (cols_chosen F W norm energy states dot bad cabs cosn cis junk dt steps)|].
  clear E Hne Hn. induction l as [|x l IH]; [constructor|]. inversion Hl as [|? ? [H1 _] Hl']; subst. inversion Hm as [|? ? H2 Hm']; subst. cbn [map]. constructor; [|apply IH; assumption].
  apply (row_ok F W norm energy states dot bad cabs junk dt); [exact H1|reflexivity|intros _; exact H2].
Qed.
Print Assumptions C103_table_code.
(** Full statement: the table has the columns asked for and shows what their titles say. *)
Definition C103_table : Prop := forall (F : fld) W norm energy states dot bad cabs cosn cis junk twopi dt steps dir c (psi0 : W) k l stopped opens,
  l <> [] -> zlen l <= steps -> uniform states k psi0 -> sane norm states bad c k l -> Forall (fun x => modulus cabs (dot (snd x) psi0)) l -> hermitian dot ->
  exists out e, report F W norm energy states dot bad cabs cosn cis junk twopi dt steps dir c psi0 l stopped opens = Ok (out, e) /\
    table norm energy states dt c k (fun psi => dot psi0 psi) l out.
(** It holds as long as the projection itself is not printed; its square is right. *)
Theorem C103_table_partial : forall (F : fld) W norm energy states dot bad cabs cosn cis junk twopi dt steps dir c (psi0 : W) k l stopped opens,
  l <> [] -> zlen l <= steps -> uniform states k psi0 -> sane norm states bad c k l -> Forall (fun x => modulus cabs (dot (snd x) psi0)) l -> hermitian dot ->
  ~ asked c CProj ->
  exists out e, report F W norm energy states dot bad cabs cosn cis junk twopi dt steps dir c psi0 l stopped opens = Ok (out, e) /\
    table norm energy states dt c k (fun psi => dot psi0 psi) l out.
Proof.
  intros F W norm energy states dot bad cabs cosn cis junk twopi dt steps dir c psi0 k l stopped opens Hne Hn Hu Hl Hm Hh Hp.
  destruct (C103_table_code F W norm energy states dot bad cabs cosn cis junk twopi dt steps dir c psi0 k l stopped opens Hne Hn Hu Hl Hm) as (out & e & E & cl & rows & T1 & T2 & T3).
  exists out, e. split; [exact E|]. exists cl, rows. split; [exact T1|split; [exact T2|]].
  assert (N : ~ In CProj cl). { intros Hi. apply Hp. clear - T2 Hi. induction T2 as [|x a m Px Hc IH|x a m Nx Hc IH]; [destruct Hi|destruct Hi as [->|Hi]; [exact Px|exact (IH Hi)]|exact (IH Hi)]. }
  clear - T3 N Hh. induction T3 as [|x row l rows H T IH]; constructor; [|exact IH]. unfold row_shows in *. clear - H N Hh.
  set (v := map snd row) in *. clearbody v. clear row. revert N. induction H as [|col n cl v H T IH]; intros N; constructor; [|apply IH; intros Hi; apply N; right; exact Hi].
  destruct H; try (econstructor; eassumption); try constructor.
  - exfalso. apply N. left. reflexivity.
  - rewrite (Hh (snd x) psi0). replace (sqr (cx_conj (dot psi0 (snd x)))) with (sqr (dot psi0 (snd x))); [constructor|]. unfold sqr, cx_conj. cbn [fst snd].
    f_equal. destruct (dot psi0 (snd x)) as [a b]. cbn. symmetry. apply sqr_opp.
Qed.
Print Assumptions C103_table_partial.

(** A population that is not a number ends the report at once, if populations are printed: the rows before it are complete. *)
Theorem C103_stop : forall (F : fld) W norm energy states dot bad cabs junk dt steps dir c (psi0 : W) k l t psi l',
  zlen l < steps -> uniform states k psi0 -> sane norm states bad c k l -> Forall (fun x => modulus cabs (dot (snd x) psi0)) l ->
  uniform states k psi -> on c (lit "norm") true -> bad (norm psi * norm psi)%cr = true ->
  exists out r cut, analyze_all F W norm energy states dot bad cabs junk dt steps (l ++ (t, psi) :: l') (setup F W states dir c psi0) [] = Ok (false, (r, out ++ [Cut cut])) /\
    table norm energy states dt c k (fun psi => dot psi psi0) l out /\
    Forall2 (shows norm energy states dt c0 t psi) [CStep; CTime; CPop] (map snd cut).
Proof.
  intros F W norm energy states dot bad cabs junk dt steps dir c psi0 k l t psi l' Hn Hu Hl Hm Hu' Hno Hb.
  destruct (all_stop F W norm energy states dot bad cabs junk dt steps (setup F W states dir c psi0) k psi0 l t psi l' Hn (setup_fits F W states dir c psi0 k Hu)) as (b & E & _).
  - apply Forall_forall. intros x Hx. unfold sane in Hl. rewrite Forall_forall in Hl. destruct (Hl x Hx) as [H1 H2]. split; [exact H1|]. intros H. apply H2. rewrite setup_norm in H. apply get_bool_on. exact H.
  - apply setup_step.
  - exact Hu'.
  - rewrite setup_norm. apply get_bool_on. exact Hno.
  - exact Hb.
  - eexists (Head _ :: map Row (map (fun x => cells F W norm energy states dot cabs dt (begun F W states junk steps dir c psi0) psi0 (fst x) (snd x)) l)), _, _. split; [rewrite E, map_map; reflexivity|]. split.
    + eexists _, _. split; [reflexivity|]. split; [apply (cols_chosen F W norm energy states dot bad cabs (fun _ _ => c0) (fun _ _ => c0) junk dt steps)|].
      clear - Hl Hm. induction l as [|x l IH]; [constructor|]. inversion Hl as [|? ? [H1 _] Hl']; subst. inversion Hm as [|? ? H2 Hm']; subst. cbn [map]. constructor; [|apply IH; assumption].
      apply (row_ok F W norm energy states dot bad cabs junk dt); [exact H1|reflexivity|intros _; exact H2].
    + unfold lead. change (r_norm (started F W junk steps (setup F W states dir c psi0))) with (r_norm (setup F W states dir c psi0)).
      rewrite setup_norm, (proj2 (get_bool_on c (lit "norm") true) Hno). cbn [app map snd]. repeat constructor.
Qed.
Print Assumptions C103_stop.
(** Full statement: the numbers behind the time are printed with at least 6 decimals. *)
Definition precise {F} (out : list (line F)) : Prop := forall cs, In (Row cs) out -> Forall (fun x => 6 <= decimals (fst x)) (skipn 2 cs).
Definition C103_precision : Prop := forall (F : fld) W norm energy states dot bad cabs cosn cis junk twopi dt steps dir c (psi0 : W) k l stopped opens,
  l <> [] -> zlen l <= steps -> uniform states k psi0 -> sane norm states bad c k l ->
  exists out e, report F W norm energy states dot bad cabs cosn cis junk twopi dt steps dir c psi0 l stopped opens = Ok (out, e) /\ precise out.
Theorem C103_precision_partial : forall (F : fld) W norm energy states dot bad cabs cosn cis junk twopi dt steps dir c (psi0 : W) k l stopped opens,
  l <> [] -> zlen l <= steps -> uniform states k psi0 -> sane norm states bad c k l -> on c (lit "norm") true \/ on c (lit "energy") true ->
  exists out e, report F W norm energy states dot bad cabs cosn cis junk twopi dt steps dir c psi0 l stopped opens = Ok (out, e) /\ precise out.
Proof.
  intros F W norm energy states dot bad cabs cosn cis junk twopi dt steps dir c psi0 k l stopped opens Hne Hn Hu Hl Ho.
  destruct (report_ok F W norm energy states dot bad cabs cosn cis junk twopi dt steps dir c psi0 k l stopped opens Hne Hn Hu Hl) as (b & e & E & _).
  eexists _, e. split; [exact E|]. intros cs [H|H]; [discriminate|]. apply in_map_iff in H as (x & H & _). injection H as <-.
  apply (cells_prec F W norm energy states dot bad cabs junk dt). change (r_norm (begun F W states junk steps dir c psi0)) with (r_norm (setup F W states dir c psi0)).
  rewrite setup_norm, begun_energy. destruct Ho as [H|H]; [left|right]; apply get_bool_on; exact H.
Qed.
Print Assumptions C103_precision_partial.
(** the population is in scientific notation exactly if scinorm is given *)
Theorem C103_format : forall (F : fld) W norm energy states dot bad cabs cosn cis junk twopi dt steps dir c (psi0 : W) k l stopped opens,
  l <> [] -> zlen l <= steps -> uniform states k psi0 -> sane norm states bad c k l -> on c (lit "norm") true ->
  exists out e, report F W norm energy states dot bad cabs cosn cis junk twopi dt steps dir c psi0 l stopped opens = Ok (out, e) /\
    forall cs, In (Row cs) out -> exists x, rd cs 2 = Ok x /\ (on c (lit "scinorm") false -> fst x = Sci 8) /\ (~ on c (lit "scinorm") false -> fst x = Fixed 6).
Proof.
  intros F W norm energy states dot bad cabs cosn cis junk twopi dt steps dir c psi0 k l stopped opens Hne Hn Hu Hl Ho.
  destruct (report_ok F W norm energy states dot bad cabs cosn cis junk twopi dt steps dir c psi0 k l stopped opens Hne Hn Hu Hl) as (b & e & E & _).
  eexists _, e. split; [exact E|]. intros cs [H|H]; [discriminate|]. apply in_map_iff in H as (x & H & _). injection H as <-.
  assert (N : r_norm (begun F W states junk steps dir c psi0) = true) by (change (r_norm (setup F W states dir c psi0) = true); rewrite setup_norm; apply get_bool_on; exact Ho).
  assert (S : r_sci (begun F W states junk steps dir c psi0) = snd (get_bool c (lit "scinorm") false)) by (unfold begun, started, setup, hamilton, psi_initial, options; destruct (get_value c (lit "spectrum")); reflexivity).
  unfold cells, lead. rewrite N. eexists. split; [reflexivity|]. cbn [fst]. unfold f1. rewrite N, S. split; intros H; [apply get_bool_on in H|apply get_bool_off in H]; rewrite H; reflexivity.
Qed.
Print Assumptions C103_format.
(** a negative number of steps is an exception at the first report *)
Theorem C103_negative : forall (F : fld) W norm energy states dot bad cabs junk dt steps dir c (psi0 : W) t psi l', steps < 0 ->
  exists r, analyze_all F W norm energy states dot bad cabs junk dt steps ((t, psi) :: l') (setup F W states dir c psi0) [] = Ok (false, (r, [])).
Proof.
  intros F W norm energy states dot bad cabs junk dt steps dir c psi0 t psi l' H. cbn [analyze_all]. unfold analyze. rewrite setup_step. cbn [Z.eqb]. unfold header. rewrite (proj2 (Z.ltb_lt steps 0) H). eexists. reflexivity.
Qed.
Print Assumptions C103_negative.


(** The spectrum of the signal g: a line for every frequency, with the transform of the signal under the window. *)
Definition spectrum {F : fld} (cabs : Cx F -> F) (cosn : Z -> Z -> F) (cis : Z -> Z -> Cx F) (twopi dt : F) (n : Z) (win : bool) (g : Z -> Cx F) (rows : list (row F)) : Prop :=
  zlen rows = n /\ forall m, 0 <= m < n -> let z := transform cis n (window cosn win n g) m in
    rd rows m = Ok (spectrum_freq F twopi dt n m, (cabs z / ofZ (Z.quot n 2))%cr, (fst z / ofZ (Z.quot n 2))%cr, (snd z / ofZ (Z.quot n 2))%cr).
(** the auto correlation of the reported wave functions *)
Definition correlation {F : fld} {W} (dot : W -> W -> Cx F) (c : container) (psi0 : W) (l : list (Z * W)) (g : Z -> Cx F) : Prop :=
  forall j x, rd l j = Ok x -> (~ on c (lit "proj0Abs") false -> g j = dot (snd x) psi0) /\ (on c (lit "proj0Abs") false -> g j = cx_of (sqr (dot (snd x) psi0))).
Definition wrote {F} (name : str) (rows : option (list (row F))) (e : ending F) : Prop := exists log, e = Ended log (Some (mkSfile name rows)) /\ In (Written name) log.
(** Full statement: if the file can be written it has the spectrum of the auto correlation of all reports, however the run ended. *)
Definition C103_spectrum : Prop := forall (F : fld) W norm energy states dot bad cabs cosn cis junk twopi dt steps dir c s (psi0 : W) k l stopped g,
  l <> [] -> zlen l <= steps -> uniform states k psi0 -> sane norm states bad c k l -> Forall (fun x => modulus cabs (dot (snd x) psi0)) l ->
  get_value c (lit "spectrum") = Some s -> correlation dot c psi0 l g ->
  exists out e win rows, report F W norm energy states dot bad cabs cosn cis junk twopi dt steps dir c psi0 l stopped true = Ok (out, e) /\
    (win = true <-> on c (lit "win") true) /\ wrote (dir ++ s) (Some rows) e /\ spectrum cabs cosn cis twopi dt (zlen l) win g rows.
Lemma correlation_signal {F : fld} {W} states dot cabs dir c (psi0 : W) l (g : Z -> Cx F) : Forall (fun x => modulus cabs (dot (snd x) psi0)) l -> correlation dot c psi0 l g ->
  forall j x, rd l j = Ok x -> g j = signal F W dot cabs (setup F W states dir c psi0) psi0 (snd x).
Proof.
  intros Hm Hg j x E. destruct (Hg j x E) as [G1 G2]. unfold signal. rewrite setup_sq. destruct (snd (get_bool c (lit "proj0Abs") false)) eqn:Es.
  - rewrite (G2 (proj1 (get_bool_on _ _ _) Es)). rewrite Forall_forall in Hm. rewrite <- (Hm x); [reflexivity|]. unfold rd in E. destruct (0 <=? j); [|discriminate]. destruct (nth_error l (Z.to_nat j)) as [y|] eqn:Ey; [|discriminate]. injection E as ->. apply nth_error_In in Ey. exact Ey.
  - exact (G1 (proj1 (get_bool_off _ _ _) Es)).
Qed.
(** It holds for complete runs of at least two steps. *)
Theorem C103_spectrum_partial : forall (F : fld) W norm energy states dot bad cabs cosn cis junk twopi dt steps dir c s (psi0 : W) k l stopped g,
  2 <= steps -> zlen l = steps -> uniform states k psi0 -> sane norm states bad c k l -> Forall (fun x => modulus cabs (dot (snd x) psi0)) l ->
  get_value c (lit "spectrum") = Some s -> correlation dot c psi0 l g ->
  exists out e win rows, report F W norm energy states dot bad cabs cosn cis junk twopi dt steps dir c psi0 l stopped true = Ok (out, e) /\
    (win = true <-> on c (lit "win") true) /\ wrote (dir ++ s) (Some rows) e /\ spectrum cabs cosn cis twopi dt (zlen l) win g rows.
Proof.
  intros F W norm energy states dot bad cabs cosn cis junk twopi dt steps dir c s psi0 k l stopped g H2 Hn Hu Hl Hm Hs Hg.
  assert (Hne : l <> []) by (intros ->; unfold zlen in Hn; cbn in Hn; lia).
  destruct (report_spectrum F W norm energy states dot bad cabs cosn cis junk twopi dt steps dir c psi0 k l stopped true s g Hne Hn Hu Hl Hs (correlation_signal states dot cabs dir c psi0 l g Hm Hg)) as (out & E).
  exists out, (sfinal F W cabs cosn cis twopi dt steps stopped true (setup F W states dir c psi0) steps g), (snd (get_bool c (lit "win") true)), (lines F cabs cis twopi dt steps (window cosn (snd (get_bool c (lit "win") true)) steps g)).
  split; [exact E|]. split; [apply get_bool_on|]. split.
  - unfold sfinal. rewrite (setup_name F W states dir c psi0 s Hs), (setup_win F W states dir c psi0 s Hs). rewrite (proj2 (Z.eqb_neq (Z.quot steps 2) 0)); [|intros H; pose proof (Z.quot_le_mono 2 steps 2 ltac:(lia) H2) as Q; rewrite H in Q; cbn in Q; lia].
    eexists. split; [reflexivity|]. apply in_or_app. right. left. reflexivity.
  - rewrite Hn. split; [unfold lines; rewrite zlen_map; unfold zlen; rewrite upto_length; lia|]. intros m Hm0 z. unfold lines. rewrite rd_map, rd_upto by lia. cbn [bind]. rewrite Z.add_0_l. reflexivity.
Qed.
Print Assumptions C103_spectrum_partial.
(** A run of one step: the file has no finite number. *)
Theorem C103_single_code : forall (F : fld) W norm energy states dot bad cabs cosn cis junk twopi dt dir c s (psi0 : W) k t psi stopped,
  uniform states k psi0 -> sane norm states bad c k [(t, psi)] -> get_value c (lit "spectrum") = Some s ->
  exists out e, report F W norm energy states dot bad cabs cosn cis junk twopi dt 1 dir c psi0 [(t, psi)] stopped true = Ok (out, e) /\ wrote (dir ++ s) None e.
Proof.
  intros F W norm energy states dot bad cabs cosn cis junk twopi dt dir c s psi0 k t psi stopped Hu Hl Hs.
  destruct (report_spectrum F W norm energy states dot bad cabs cosn cis junk twopi dt 1 dir c psi0 k [(t, psi)] stopped true s (fun _ => signal F W dot cabs (setup F W states dir c psi0) psi0 psi) ltac:(discriminate) eq_refl Hu Hl Hs) as (out & E).
  - intros j x E. unfold rd in E. destruct (0 <=? j); [|discriminate]. destruct (Z.to_nat j) as [|[|n]]; cbn in E; try discriminate. injection E as <-. reflexivity.
  - eexists out, _. split; [exact E|]. unfold sfinal. rewrite (setup_name F W states dir c psi0 s Hs). eexists. split; [reflexivity|]. apply in_or_app. right. left. reflexivity.
Qed.
Print Assumptions C103_single_code.
(** A stationary state of energy 2 pi k / (n dt) gives one line, number k; all others are 0. *)
Theorem C103_stationary : forall (F : fld) W norm energy states dot bad cabs cosn cis junk twopi dt steps dir c s (psi0 : W) ns k l stopped,
  2 <= steps -> zlen l = steps -> uniform states ns psi0 -> sane norm states bad c ns l -> Forall (fun x => modulus cabs (dot (snd x) psi0)) l -> hermitian dot ->
  get_value c (lit "spectrum") = Some s -> ~ on c (lit "win") true -> ~ on c (lit "proj0Abs") false ->
  roots cis steps -> 0 <= k < steps -> (forall j x, rd l j = Ok x -> dot psi0 (snd x) = cis (- (j * k)) steps) ->
  exists out e rows, report F W norm energy states dot bad cabs cosn cis junk twopi dt steps dir c psi0 l stopped true = Ok (out, e) /\ wrote (dir ++ s) (Some rows) e /\ zlen rows = steps /\
    forall m, 0 <= m < steps -> exists a, rd rows m = Ok (spectrum_freq F twopi dt steps m, a, if m =? k then (ofZ steps / ofZ (Z.quot steps 2))%cr else c0, c0).
Proof.
  intros F W norm energy states dot bad cabs cosn cis junk twopi dt steps dir c s psi0 ns k l stopped H2 Hn Hu Hl Hm Hh Hs Hw Ha R Hk Hd.
  destruct (C103_spectrum_partial F W norm energy states dot bad cabs cosn cis junk twopi dt steps dir c s psi0 ns l stopped (fun j => cis (j * k) steps) H2 Hn Hu Hl Hm Hs) as (out & e & win & rows & E & Ew & Wr & Sp).
  { intros j x E. split; [intros _|contradiction]. rewrite Hh, (Hd j x E). destruct R as (_ & _ & R3 & _). rewrite R3, Z.opp_involutive. reflexivity. }
  assert (win = false) by (destruct win; [exfalso; apply Hw, Ew; reflexivity|reflexivity]). subst win.
  exists out, e, rows. split; [exact E|split; [exact Wr|]]. rewrite Hn in Sp. destruct Sp as [Sz Sr]. split; [exact Sz|]. intros m Hm'. specialize (Sr m Hm'). cbn zeta in Sr.
  replace (transform cis steps (window cosn false steps (fun j => cis (j * k) steps)) m) with (transform cis steps (fun j => cis (j * k) steps) m) in Sr by reflexivity.
  rewrite (transform_stationary F bad cabs cosn cis junk dt steps k m ltac:(lia) Hk Hm' R) in Sr. rewrite Sr.
  assert (Z0 : forall y : F, (c0 / y)%cr = c0) by (intros y; rewrite div_mul; apply zero_mul). destruct (m =? k); eexists; cbn [cx_of fst snd]; [rewrite Z0; reflexivity|].
  change (fst (@c0 (Cx F))) with (@c0 F). change (snd (@c0 (Cx F))) with (@c0 F). rewrite Z0. reflexivity.
Qed.
Print Assumptions C103_stationary.

(** Full statement: line m of the spectrum of n points has the frequency m dw below half of the points and (m - n) dw above. *)
Definition C103_axis : Prop := forall (F : fld) (twopi dt : F) n m, 2 <= n -> 0 <= m < n ->
  spectrum_freq F twopi dt n m = (if 2 * m <? n then ofZ m * (twopi / (dt * ofZ n)) else ofZ (m - n) * (twopi / (dt * ofZ n)))%cr.
Theorem C103_axis_partial : forall (F : fld) (twopi dt : F) n m, 2 <= n -> 0 <= m < n -> Z.even n = true \/ n <> 2 * m + 1 ->
  spectrum_freq F twopi dt n m = (if 2 * m <? n then ofZ m * (twopi / (dt * ofZ n)) else ofZ (m - n) * (twopi / (dt * ofZ n)))%cr.
Proof.
  intros F twopi dt n m H2 Hm He. unfold spectrum_freq. assert (Q : (m <? Z.quot n 2) = (2 * m <? n)).
  { assert (H : n = 2 * Z.quot n 2 + Z.rem n 2) by apply Z.quot_rem'. pose proof (Z.rem_bound_pos n 2 ltac:(lia) ltac:(lia)) as B.
    destruct (Z.ltb_spec m (Z.quot n 2)), (Z.ltb_spec (2 * m) n); try reflexivity; try lia. exfalso. assert (R : Z.rem n 2 = 1) by lia. destruct He as [He|He]; [|lia]. apply Z.even_spec in He as [q Hq]. lia. }
  rewrite Q. destruct (2 * m <? n); [reflexivity|]. f_equal. f_equal. lia.
Qed.
Print Assumptions C103_axis_partial.
Lemma one_nz : (1 : Qc)%Qc <> 0%Qc. Proof. discriminate. Qed.
Theorem C103_axis_refuted : ~ C103_axis.
Proof.
  intros H. specialize (H Qcf (Q2Qc 3) (Q2Qc 1) 3 1 ltac:(lia) ltac:(lia)). apply (f_equal Qcanon.this) in H. vm_compute in H. discriminate.
Qed.
Print Assumptions C103_axis_refuted.

(** One point, complex numbers as wave functions: <x|y> = conj x y. *)
Definition qdot (x y : Cx Qcf) : Cx Qcf := (cx_conj x * y)%cr.
Lemma qdot_hermitian : hermitian (F := Qcf) qdot.
Proof. intros x y. unfold qdot. rewrite conj_mul, conj_conj. apply (Rmul_comm (cr_th (Cx Qcf))). Qed.
Definition opt (l : list (string * string)) : container := mkC (map (fun p => (lit (fst p), lit (snd p))) l) [].
Definition q1 : Cx Qcf := (1%Qc, 0%Qc).
Definition qi : Cx Qcf := (0%Qc, 1%Qc).
Definition qreport := report Qcf (Cx Qcf) (fun _ => 1%Qc) (fun _ => 0%Qc) (fun _ => None) qdot (fun _ => false) (fun z => if Qc_eq_dec (snd z) 0%Qc then fst z else snd z).
Lemma qsane c k l : k = 0 -> sane (F := Qcf) (fun _ : Cx Qcf => 1%Qc) (fun _ => None) (fun _ => false) c k l.
Proof. intros ->. apply Forall_forall. intros x _. split; reflexivity. Qed.
Example C103_format_ex : on (opt [("scinorm", "true")]%string) (lit "scinorm") false /\ on (opt [("scinorm", "true")]%string) (lit "norm") true /\ ~ on (opt []) (lit "scinorm") false.
Proof. repeat split; [left; reflexivity|right; split; [reflexivity|discriminate]|intros [H|[H _]]; discriminate H]. Qed.
Theorem C103_table_refuted : ~ C103_table.
Proof.
  intros H. set (c := opt [("energy", "false"); ("norm", "false"); ("proj0", "true")]%string).
  destruct (H Qcf (Cx Qcf) (fun _ => 1%Qc) (fun _ => 0%Qc) (fun _ => None) qdot (fun _ => false) (fun z => if Qc_eq_dec (snd z) 0%Qc then fst z else snd z) (fun _ _ => 0%Qc) (fun _ _ => q1) (fun _ => q1) 1%Qc 1%Qc 1
    [] c q1 0 [(0, qi)] false true ltac:(discriminate) ltac:(cbn; lia) eq_refl (qsane c 0 _ eq_refl)) as (out & e & E & cl & rows & -> & Ch & T).
  - repeat constructor.
  - exact qdot_hermitian.
  - destruct (report_ok Qcf (Cx Qcf) (fun _ => 1%Qc) (fun _ => 0%Qc) (fun _ => None) qdot (fun _ => false) (fun z => if Qc_eq_dec (snd z) 0%Qc then fst z else snd z) (fun _ _ => 0%Qc) (fun _ _ => q1) (fun _ => q1) 1%Qc 1%Qc 1
      [] c q1 0 [(0, qi)] false true ltac:(discriminate) ltac:(cbn; lia) eq_refl (qsane c 0 _ eq_refl)) as (b & e' & E' & _).
    rewrite E in E'. injection E' as E1 E2 _. subst cl. destruct rows as [|row [|]]; try discriminate. injection E2 as ->.
    inversion T as [|? ? ? ? T1 _]; subst. unfold row_shows in T1. cbn [fst snd] in T1.
    replace (cols Qcf (Cx Qcf) (begun Qcf (Cx Qcf) (fun _ => None) (fun _ => q1) 1 [] c q1) 0) with [CStep; CTime; CProj] in T1 by reflexivity.
    match type of T1 with Forall2 _ _ (map snd ?v) => replace (map snd v) with [NInt 0; NReal (ofZ 0 * 1)%cr; NCx (qdot qi q1)] in T1 by reflexivity end.
    inversion T1 as [|? ? ? ? _ T2]; subst. inversion T2 as [|? ? ? ? _ T3]; subst. inversion T3 as [|? ? ? ? T4 _]; subst. inversion T4.
Qed.
Print Assumptions C103_table_refuted.
Theorem C103_precision_refuted : ~ C103_precision.
Proof.
  intros H. set (c := opt [("energy", "false"); ("norm", "false"); ("proj0", "true")]%string).
  destruct (H Qcf (Cx Qcf) (fun _ => 1%Qc) (fun _ => 0%Qc) (fun _ => None) qdot (fun _ => false) (fun z => if Qc_eq_dec (snd z) 0%Qc then fst z else snd z) (fun _ _ => 0%Qc) (fun _ _ => q1) (fun _ => q1) 1%Qc 1%Qc 1
    [] c q1 0 [(0, qi)] false true ltac:(discriminate) ltac:(cbn; lia) eq_refl (qsane c 0 _ eq_refl)) as (out & e & E & P).
  destruct (report_ok Qcf (Cx Qcf) (fun _ => 1%Qc) (fun _ => 0%Qc) (fun _ => None) qdot (fun _ => false) (fun z => if Qc_eq_dec (snd z) 0%Qc then fst z else snd z) (fun _ _ => 0%Qc) (fun _ _ => q1) (fun _ => q1) 1%Qc 1%Qc 1
    [] c q1 0 [(0, qi)] false true ltac:(discriminate) ltac:(cbn; lia) eq_refl (qsane c 0 _ eq_refl)) as (b & e' & E' & _).
  rewrite E in E'. injection E' as -> _. specialize (P _ (or_intror (or_introl eq_refl))). cbn in P. inversion P as [|? ? P1 _]. cbn in P1. lia.
Qed.
Print Assumptions C103_precision_refuted.
Theorem C103_spectrum_refuted : ~ C103_spectrum.
Proof.
  intros H. set (c := opt [("spectrum", "s")]%string).
  destruct (H Qcf (Cx Qcf) (fun _ => 1%Qc) (fun _ => 0%Qc) (fun _ => None) qdot (fun _ => false) (fun z => if Qc_eq_dec (snd z) 0%Qc then fst z else snd z) (fun _ _ => 0%Qc) (fun _ _ => q1) (fun _ => q1) 1%Qc 1%Qc 1
    [] c (lit "s") q1 0 [(0, q1)] false (fun _ => qdot q1 q1) ltac:(discriminate) ltac:(cbn; lia) eq_refl (qsane c 0 _ eq_refl)) as (out & e & win & rows & E & _ & W1 & _).
  - repeat constructor.
  - reflexivity.
  - intros j x E. unfold rd in E. destruct (0 <=? j); [|discriminate]. destruct (Z.to_nat j) as [|[|n]]; cbn in E; try discriminate. injection E as <-. split; [reflexivity|]. intros [K|[K _]]; discriminate.
  - destruct (C103_single_code Qcf (Cx Qcf) (fun _ => 1%Qc) (fun _ => 0%Qc) (fun _ => None) qdot (fun _ => false) (fun z => if Qc_eq_dec (snd z) 0%Qc then fst z else snd z) (fun _ _ => 0%Qc) (fun _ _ => q1) (fun _ => q1) 1%Qc 1%Qc
      [] c (lit "s") q1 0 0 q1 false eq_refl (qsane c 0 _ eq_refl) eq_refl) as (out' & e' & E' & W2).
    rewrite E in E'. injection E' as _ <-. destruct W1 as (l1 & -> & _), W2 as (l2 & K & _). discriminate.
Qed.
Print Assumptions C103_spectrum_refuted.

(** Full statement: the report is a function of the options and the wave functions. *)
Definition C103_defined : Prop := forall (F : fld) W norm energy states dot bad cabs cosn cis junk junk' twopi dt steps dir c (psi0 : W) k l stopped opens,
  l <> [] -> zlen l <= steps -> uniform states k psi0 -> sane norm states bad c k l ->
  report F W norm energy states dot bad cabs cosn cis junk twopi dt steps dir c psi0 l stopped opens = report F W norm energy states dot bad cabs cosn cis junk' twopi dt steps dir c psi0 l stopped opens.
(** It holds for complete runs and without a spectrum. *)
Theorem C103_defined_partial : forall (F : fld) W norm energy states dot bad cabs cosn cis junk junk' twopi dt steps dir c (psi0 : W) k l stopped opens,
  l <> [] -> zlen l <= steps -> uniform states k psi0 -> sane norm states bad c k l -> zlen l = steps \/ ~ with_spectrum c ->
  report F W norm energy states dot bad cabs cosn cis junk twopi dt steps dir c psi0 l stopped opens = report F W norm energy states dot bad cabs cosn cis junk' twopi dt steps dir c psi0 l stopped opens.
Proof.
  intros F W norm energy states dot bad cabs cosn cis junk junk' twopi dt steps dir c psi0 k l stopped opens Hne Hn Hu Hl Hc.
  destruct (report_ok F W norm energy states dot bad cabs cosn cis junk twopi dt steps dir c psi0 k l stopped opens Hne Hn Hu Hl) as (b & e & E & Ef & Eb).
  destruct (report_ok F W norm energy states dot bad cabs cosn cis junk' twopi dt steps dir c psi0 k l stopped opens Hne Hn Hu Hl) as (b' & e' & E' & Ef' & Eb').
  rewrite E, E'. assert (e = e'); [|subst; reflexivity].
  assert (Q : Ok e = Ok e'); [|congruence]. rewrite <- Ef, <- Ef'. apply final_same; try reflexivity. intros Hsp. change (r_spec (setup F W states dir c psi0) = true) in Hsp. rewrite setup_spec in Hsp.
  assert (Hw : with_spectrum c) by (unfold with_spectrum; destruct (get_value c (lit "spectrum")); discriminate). destruct Hc as [Hc|Hc]; [|contradiction].
  change (b = b'). rewrite (Eb Hw), (Eb' Hw), Hc, !(upto_nil steps steps) by lia. reflexivity.
Qed.
Print Assumptions C103_defined_partial.
Theorem C103_defined_refuted : ~ C103_defined.
Proof.
  intros H. set (c := opt [("spectrum", "s"); ("win", "false")]%string).
  assert (G : forall jk, exists out log, report Qcf (Cx Qcf) (fun _ => 1%Qc) (fun _ => 0%Qc) (fun _ => None) qdot (fun _ => false) (fun _ => 0%Qc) (fun _ _ => 0%Qc) (fun _ _ => q1) (fun _ => jk) 1%Qc 1%Qc 2 [] c q1 [(2, q1)] false true
     = Ok (out, Ended log (Some (mkSfile (lit "s") (Some (lines Qcf (fun _ => 0%Qc) (fun _ _ => q1) 1%Qc 1%Qc 2 (fun j => if j =? 0 then qdot q1 q1 else jk))))))).
  { intros jk. destruct (report_ok Qcf (Cx Qcf) (fun _ => 1%Qc) (fun _ => 0%Qc) (fun _ => None) qdot (fun _ => false) (fun _ => 0%Qc) (fun _ _ => 0%Qc) (fun _ _ => q1) (fun _ => jk) 1%Qc 1%Qc 2
      [] c q1 0 [(2, q1)] false true ltac:(discriminate) ltac:(cbn; lia) eq_refl (qsane c 0 _ eq_refl)) as (b & e & E & Ef & Eb).
    rewrite (final_map Qcf (Cx Qcf) (fun _ => false) (fun _ => 0%Qc) (fun _ _ => 0%Qc) (fun _ _ => q1) (fun _ => jk) 1%Qc 1%Qc 2 false true _ 2 (fun j => if j =? 0 then qdot q1 q1 else jk)) in Ef; [|lia|reflexivity|].
    - injection Ef as <-. eexists _, _. exact E.
    - cbn [with_buf r_buf]. rewrite Eb by (intros K; discriminate K). reflexivity. }
  destruct (G (@c0 (Cx Qcf))) as (o1 & l1 & E1), (G q1) as (o2 & l2 & E2).
  specialize (H Qcf (Cx Qcf) (fun _ => 1%Qc) (fun _ => 0%Qc) (fun _ => None) qdot (fun _ => false) (fun _ => 0%Qc) (fun _ _ => 0%Qc) (fun _ _ => q1) (fun _ => @c0 (Cx Qcf)) (fun _ => q1) 1%Qc 1%Qc 2 [] c q1 0 [(2, q1)] false true
    ltac:(discriminate) ltac:(cbn; lia) eq_refl (qsane c 0 _ eq_refl)).
  pose proof (eq_trans (eq_sym E1) (eq_trans H E2)) as K. apply (f_equal (fun x : outcome (list (line Qcf) * ending Qcf) => match x with Ok (_, Ended _ (Some f)) => match f_rows f with Some ((_, _, re, _) :: _) => Qcanon.this re | _ => 0%Q end | _ => 0%Q end)) in K.
  cbn in K. vm_compute in K. discriminate.
Qed.
Print Assumptions C103_defined_refuted.

(** Full statement: if the file of the spectrum cannot be written, a message says so and the program goes on. *)
Definition C103_unwritable : Prop := forall (F : fld) W norm energy states dot bad cabs cosn cis junk twopi dt steps dir c (psi0 : W) k l stopped,
  l <> [] -> zlen l <= steps -> uniform states k psi0 -> sane norm states bad c k l -> with_spectrum c ->
  exists out log, report F W norm energy states dot bad cabs cosn cis junk twopi dt steps dir c psi0 l stopped false = Ok (out, Ended log None) /\ In NotWritten log.
(** That is so only while an exception is handled; otherwise the program is terminated. *)
Theorem C103_unwritable_code : forall (F : fld) W norm energy states dot bad cabs cosn cis junk twopi dt steps dir c (psi0 : W) k l stopped,
  l <> [] -> zlen l <= steps -> uniform states k psi0 -> sane norm states bad c k l -> with_spectrum c ->
  exists out log, report F W norm energy states dot bad cabs cosn cis junk twopi dt steps dir c psi0 l stopped false = Ok (out, if stopped then Ended (log ++ [NotWritten]) None else Terminated log).
Proof.
  intros F W norm energy states dot bad cabs cosn cis junk twopi dt steps dir c psi0 k l stopped Hne Hn Hu Hl Hw.
  destruct (report_ok F W norm energy states dot bad cabs cosn cis junk twopi dt steps dir c psi0 k l stopped false Hne Hn Hu Hl) as (b & e & E & Ef & _).
  eexists. unfold finalize in Ef. cbn [with_buf r_spec r_win r_buf r_name] in Ef. change (r_spec (begun F W states junk steps dir c psi0)) with (r_spec (setup F W states dir c psi0)) in Ef. rewrite setup_spec in Ef.
  unfold with_spectrum in Hw. destruct (get_value c (lit "spectrum")); [|congruence]. unfold write_spectrum in Ef. cbn [negb] in Ef.
  destruct (r_win (begun F W states junk steps dir c psi0)); injection Ef as <-; eexists; exact E.
Qed.
Print Assumptions C103_unwritable_code.
Theorem C103_unwritable_refuted : ~ C103_unwritable.
Proof.
  intros H. set (c := opt [("spectrum", "s")]%string). assert (Hw : with_spectrum c) by (intros K; discriminate K).
  destruct (H Qcf (Cx Qcf) (fun _ => 1%Qc) (fun _ => 0%Qc) (fun _ => None) qdot (fun _ => false) (fun _ => 0%Qc) (fun _ _ => 0%Qc) (fun _ _ => q1) (fun _ => q1) 1%Qc 1%Qc 2
    [] c q1 0 [(0, q1); (1, qi)] false ltac:(discriminate) ltac:(cbn; lia) eq_refl (qsane c 0 _ eq_refl) Hw) as (out & log & E & _).
  destruct (C103_unwritable_code Qcf (Cx Qcf) (fun _ => 1%Qc) (fun _ => 0%Qc) (fun _ => None) qdot (fun _ => false) (fun _ => 0%Qc) (fun _ _ => 0%Qc) (fun _ _ => q1) (fun _ => q1) 1%Qc 1%Qc 2
    [] c q1 0 [(0, q1); (1, qi)] false ltac:(discriminate) ltac:(cbn; lia) eq_refl (qsane c 0 _ eq_refl) Hw) as (out' & log' & E').
  rewrite E in E'. discriminate.
Qed.
Print Assumptions C103_unwritable_refuted.
(** Full statement: the last message tells the number of steps that were made. *)
Definition says {F} (n : Z) (e : ending F) : Prop := exists t, match e with Ended l _ | Terminated l => In (Done n t) l end.
Definition C103_done : Prop := forall (F : fld) W norm energy states dot bad cabs cosn cis junk twopi dt steps dir c (psi0 : W) k l stopped opens,
  l <> [] -> zlen l <= steps -> uniform states k psi0 -> sane norm states bad c k l ->
  exists out e, report F W norm energy states dot bad cabs cosn cis junk twopi dt steps dir c psi0 l stopped opens = Ok (out, e) /\ says (zlen l) e.
(** It tells the number of steps that were to be made. *)
Theorem C103_done_code : forall (F : fld) W norm energy states dot bad cabs cosn cis junk twopi dt steps dir c (psi0 : W) k l stopped opens,
  l <> [] -> zlen l <= steps -> uniform states k psi0 -> sane norm states bad c k l ->
  exists out e, report F W norm energy states dot bad cabs cosn cis junk twopi dt steps dir c psi0 l stopped opens = Ok (out, e) /\ forall n, says n e <-> n = steps.
Proof.
  intros F W norm energy states dot bad cabs cosn cis junk twopi dt steps dir c psi0 k l stopped opens Hne Hn Hu Hl.
  destruct (report_ok F W norm energy states dot bad cabs cosn cis junk twopi dt steps dir c psi0 k l stopped opens Hne Hn Hu Hl) as (b & e & E & Ef & _).
  eexists _, e. split; [exact E|]. intros n. exact (final_done F W bad cabs cosn cis junk twopi dt steps stopped opens _ e n Ef).
Qed.
Print Assumptions C103_done_code.
Theorem C103_done_refuted : ~ C103_done.
Proof.
  intros H. set (c := opt []). 
  destruct (H Qcf (Cx Qcf) (fun _ => 1%Qc) (fun _ => 0%Qc) (fun _ => None) qdot (fun _ => false) (fun _ => 0%Qc) (fun _ _ => 0%Qc) (fun _ _ => q1) (fun _ => q1) 1%Qc 1%Qc 5
    [] c q1 0 [(0, q1); (1, qi)] true true ltac:(discriminate) ltac:(cbn; lia) eq_refl (qsane c 0 _ eq_refl)) as (out & e & E & K).
  destruct (C103_done_code Qcf (Cx Qcf) (fun _ => 1%Qc) (fun _ => 0%Qc) (fun _ => None) qdot (fun _ => false) (fun _ => 0%Qc) (fun _ _ => 0%Qc) (fun _ _ => q1) (fun _ => q1) 1%Qc 1%Qc 5
    [] c q1 0 [(0, q1); (1, qi)] true true ltac:(discriminate) ltac:(cbn; lia) eq_refl (qsane c 0 _ eq_refl)) as (out' & e' & E' & K').
  rewrite E in E'. injection E' as _ <-. apply K' in K. discriminate.
Qed.
Print Assumptions C103_done_refuted.

(** Four points: the powers of i. *)
Definition pow_i (a : Z) : Cx Qcf := match a mod 4 with 0 => q1 | 1 => qi | 2 => (- q1)%cr | _ => (- qi)%cr end.
Lemma pow_i_mod a : pow_i a = pow_i (a mod 4). Proof. unfold pow_i. rewrite Z.mod_mod by lia. reflexivity. Qed.
Lemma four a : a mod 4 = 0 \/ a mod 4 = 1 \/ a mod 4 = 2 \/ a mod 4 = 3.
Proof. pose proof (Z.mod_pos_bound a 4 ltac:(lia)). lia. Qed.
Lemma cxq (x y : Cx Qcf) : Qcanon.this (fst x) = Qcanon.this (fst y) -> Qcanon.this (snd x) = Qcanon.this (snd y) -> x = y.
Proof. intros H1 H2. apply cx_eq; apply Qc_is_canon; [rewrite H1|rewrite H2]; reflexivity. Qed.
Example C103_roots_ex : roots (F := Qcf) (fun k _ => pow_i k) 4.
Proof.
  split; [|split; [|split]].
  - intros a b. rewrite (pow_i_mod (a + b)), (pow_i_mod a), (pow_i_mod b), Z.add_mod by lia. destruct (four a) as [-> | [-> | [-> | ->]]], (four b) as [-> | [-> | [-> | ->]]]; apply cxq; reflexivity.
  - reflexivity.
  - intros a. rewrite (pow_i_mod a), (pow_i_mod (- a)). replace ((- a) mod 4) with ((- (a mod 4)) mod 4) by (rewrite <- !Z.sub_0_l; rewrite Zminus_mod_idemp_r; reflexivity).
    destruct (four a) as [-> | [-> | [-> | ->]]]; apply cxq; reflexivity.
  - intros m Hm. change (upto 0 4) with [0; 1; 2; 3]. cbn [lsum].
    assert (P : forall j, pow_i (j * m) = pow_i (j * (m mod 4))) by (intros j; rewrite (pow_i_mod (j * m)), (pow_i_mod (j * (m mod 4))), Z.mul_mod_idemp_r by lia; reflexivity).
    rewrite !P. destruct (four m) as [H | [-> | [-> | ->]]]; try (apply cxq; reflexivity). exfalso. apply Hm. apply Z.rem_divide; [lia|]. apply Z.mod_divide; [lia|exact H].
Qed.
(** A run of four steps of a stationary state with energy 2 pi / (4 dt). *)
Definition run4 : list (Z * Cx Qcf) := [(0, q1); (1, (- qi)%cr); (2, (- q1)%cr); (3, qi)].
Example C103_stationary_ex : exists out e rows, qreport (fun _ _ => 0%Qc) (fun k _ => pow_i k) (fun _ => q1) 1%Qc 1%Qc 4 (lit "d/") (opt [("spectrum", "s"); ("win", "false")]%string) q1 run4 false true = Ok (out, e) /\ wrote (lit "d/s") (Some rows) e /\ zlen rows = 4 /\ forall m, 0 <= m < 4 -> exists a, rd rows m = Ok (spectrum_freq Qcf 1%Qc 1%Qc 4 m, a, if m =? 1 then (ofZ 4 / ofZ 2)%cr else c0, c0).
Proof.
  apply (C103_stationary Qcf (Cx Qcf) (fun _ => 1%Qc) (fun _ => 0%Qc) (fun _ => None) qdot (fun _ => false) (fun z => if Qc_eq_dec (snd z) 0%Qc then fst z else snd z) (fun _ _ => 0%Qc) (fun k _ => pow_i k) (fun _ => q1) 1%Qc 1%Qc 4
    (lit "d/") (opt [("spectrum", "s"); ("win", "false")]%string) (lit "s") q1 0 1 run4 false).
  - lia.
  - reflexivity.
  - reflexivity.
  - apply qsane. reflexivity.
  - repeat (apply Forall_cons; [unfold modulus; apply Qc_is_canon; reflexivity|]). constructor.
  - exact qdot_hermitian.
  - reflexivity.
  - intros [K|[_ K]]; [discriminate K|apply K; reflexivity].
  - intros [K|[K _]]; discriminate.
  - exact C103_roots_ex.
  - lia.
  - intros j x E. pose proof (rd_bounds _ _ _ E) as B. change (zlen run4) with 4 in B. assert (J : j = 0 \/ j = 1 \/ j = 2 \/ j = 3) by lia.
    destruct J as [-> | [-> | [-> | ->]]]; injection E as <-; apply cxq; reflexivity.
Qed.
(** Two states: the table of two steps with all columns. *)
Example C103_table_ex : forall junk, exists out e, report Qcf (list Qc) (fun _ => 1%Qc) (fun _ => 0%Qc) (fun l => Some l) (fun _ _ => q1) (fun _ => false) (fun _ => 1%Qc) (fun _ _ => 0%Qc) (fun _ _ => q1) junk 1%Qc 1%Qc 2 [] (opt [("proj0Abs", "true")]%string)
   [1%Qc; 0%Qc] [(0, [1%Qc; 0%Qc]); (1, [0%Qc; 1%Qc])] false true = Ok (out, e) /\ exists rows, out = Head [CStep; CTime; CPop; CState 0; CState 1; CEnergy; CProjSq] :: map Row rows /\ length rows = 2%nat.
Proof.
  intros junk.
  destruct (report_ok Qcf (list Qc) (fun _ => 1%Qc) (fun _ => 0%Qc) (fun l => Some l) (fun _ _ => q1) (fun _ => false) (fun _ => 1%Qc) (fun _ _ => 0%Qc) (fun _ _ => q1) junk 1%Qc 1%Qc 2 [] (opt [("proj0Abs", "true")]%string)
    [1%Qc; 0%Qc] 2 [(0, [1%Qc; 0%Qc]); (1, [0%Qc; 1%Qc])] false true) as (b & e & E & _).
  - discriminate.
  - cbn; lia.
  - unfold uniform. cbn. try split; try reflexivity; lia.
  - repeat (apply Forall_cons; [split; [unfold uniform; cbn; try split; try reflexivity; lia|reflexivity]|]). constructor.
  - eexists _, e. split; [exact E|]. eexists (map _ [(0, [1%Qc; 0%Qc]); (1, [0%Qc; 1%Qc])]). split; [|rewrite map_length; reflexivity].
    rewrite <- map_map. f_equal.
Qed.
