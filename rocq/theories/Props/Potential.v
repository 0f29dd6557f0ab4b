(** C88: potentials read from files *)
From Coq Require Import Ascii String List ZArith Lia Bool Arith QArith Qcanon.
From Verif Require Import Base Arrays Algebra Complex Ordered Model.Potential Spec.Potential Proofs.Potential.
Import ListNotations.
Open Scope Z_scope.

(** [names p]: the parameters name a file and no dimensions; [complete f g d]: the file f holds the values d on the grid g, in one
    of the two formats; [asked p d e]: e are the values d, the lowest moved to zero if so asked, plus the offset, times the scale *)

(** ** every complete file is loaded, in both formats, into an operator in any state but inside of a failed load *)
Theorem C88_load : forall (F : ofld) fs (V : pot F) p f g d, po_init V = false -> names p -> fs (p_file p) = Some f -> complete f g d ->
  exists V', pot_init F fs vec_min V p = (V', Ok tt) /\ po_grid V' = g /\ asked p d (po_data V') /\ po_init V' = false.
Proof.
  intros F fs V p f g d I N E C. destruct (load_ok F fs V p f g d I N E C) as (V' & E' & G & I' & A & _). exists V'. auto.
Qed.
Print Assumptions C88_load.
Definition box3 : list (axis Qco) := [@mkAx Qco 3 (Q2Qc 0) (Q2Qc 1)].
Definition well : list Qc := [Q2Qc 5; Q2Qc 2; Q2Qc 4].
Definition ask (n : string) (z : bool) (o : Qc) (s : option Qc) : pars Qco := @mkPars Qco 0 (lit n) z o s [].
Definition disk (n : str) : option (file Qco) :=
  if str_eqb n (lit "V.strm") then Some (Strm box3 well)
  else if str_eqb n (lit "V.raw") then Some (Raw (@mkPars Qco 1 [] false (Q2Qc 0) None box3) well) else None.
Lemma box3_good : good_grid box3.
Proof. split; [cbn; lia|]. intros a [<-|[]]. split; [cbn; lia|reflexivity]. Qed.
Example C88_load_ex : exists f g d, disk (lit "V.raw") = Some f /\ complete f g d /\ names (ask "V.raw" true (Q2Qc 1) (Some (Q2Qc 2))).
Proof.
  do 3 eexists. split; [reflexivity|]. split; [|split; [cbn; lia|discriminate]].
  split; [apply holds_raw with (g := box3); reflexivity|]. split; [exact box3_good|reflexivity].
Qed.

(** ** with "setzero" the lowest value is the scaled offset *)
Theorem C88_setzero : forall (F : ofld) fs (V : pot F) p f g d, po_init V = false -> names p -> fs (p_file p) = Some f -> complete f g d ->
  p_setzero p = true -> ole c0 (match p_scale p with Some s => s | None => c1 end) ->
  exists V', pot_init F fs vec_min V p = (V', Ok tt) /\
    pot_emin V' = Ok (cmul (p_offset p) (match p_scale p with Some s => s | None => c1 end)).
Proof.
  intros F fs V p f g d I N E C Z S. destruct (load_ok F fs V p f g d I N E C) as (V' & E' & G & I' & A & _). exists V'. split; [exact E'|].
  pose proof (setzero_min F p _ _ Z S A) as L. assert (X : po_data V' <> []) by (intros X; rewrite X in L; destruct L as [[] _]).
  destruct (vec_min_ok F _ X) as (m & Em & Lm). unfold pot_emin. rewrite Em. f_equal. exact (lowest_unique F _ _ _ Lm L).
Qed.
Print Assumptions C88_setzero.

(** ** files that are refused: not there, no dimension or more than four, dimensions missing, without points or length, too short *)
Theorem C88_refused : forall (F : ofld) fs em (V : pot F) p, po_init V = false -> names p ->
  (fs (p_file p) = None \/ exists h d, fs (p_file p) = Some (Raw h d) /\
     ((p_dims h < 1 \/ 4 < p_dims h) \/ (exists a, In a (firstn (Z.to_nat (p_dims h)) (p_axes h)) /\ ~ good_axis a) \/
      zlen (p_axes h) < p_dims h \/ zlen d < volume (firstn (Z.to_nat (p_dims h)) (p_axes h)))) ->
  exists V1, pot_init F fs em V p = (V1, Throw).
Proof. exact refused. Qed.
Print Assumptions C88_refused.
Example C88_refused_ex : disk (lit "V.none") = None.
Proof. reflexivity. Qed.

(** ** after a failed load another file can be loaded *)
Definition C88_retry : Prop := forall (F : ofld) fs (V V1 : pot F) p p' f g d, po_init V = false -> names p ->
  pot_init F fs vec_min V p = (V1, Throw) -> names p' -> fs (p_file p') = Some f -> complete f g d ->
  exists V2, pot_init F fs vec_min V1 p' = (V2, Ok tt) /\ asked p' d (po_data V2).
(** no file is read any more: the operator is empty, and Init reports success *)
Theorem C88_retry_code : forall (F : ofld) fs em (V V1 : pot F) p p' r, po_init V = false -> names p ->
  pot_init F fs em V p = (V1, r) -> r <> Ok tt -> p_dims p' = 0 ->
  exists V2, pot_init F fs em V1 p' = (V2, Ok tt) /\ po_grid V2 = [] /\ po_data V2 = [] /\ po_init V2 = true.
Proof. exact stuck_code. Qed.
Print Assumptions C88_retry_code.
Theorem C88_retry_refuted : ~ C88_retry.
Proof.
  intros H. destruct (refused Qco disk vec_min new_pot (ask "V.none" false (Q2Qc 0) None) eq_refl) as (V1 & E1);
    [split; [cbn; lia|discriminate]|left; reflexivity|].
  destruct (H Qco disk new_pot V1 (ask "V.none" false (Q2Qc 0) None) (ask "V.strm" false (Q2Qc 0) None) (Strm box3 well) box3 well) as (V2 & E2 & m & _ & A);
    [reflexivity|split; [cbn; lia|discriminate]|exact E1|split; [cbn; lia|discriminate]|reflexivity| |].
  - split; [constructor|]. split; [exact box3_good|reflexivity].
  - destruct (stuck_code Qco disk vec_min new_pot V1 (ask "V.none" false (Q2Qc 0) None) (ask "V.strm" false (Q2Qc 0) None) Throw) as (V3 & E3 & _ & D3 & _);
      [reflexivity|split; [cbn; lia|discriminate]|exact E1|discriminate|reflexivity|].
    rewrite E2 in E3. injection E3 as <-. rewrite D3 in A. discriminate A.
Qed.
Print Assumptions C88_retry_refuted.
(** the grid of the wave function is compared later, and the empty operator refused there *)
Theorem C88_retry_psi : forall (F : ofld) eps (V : pot F) g, po_grid V = [] -> g <> [] -> pot_psi F eps V (Some g) = Throw.
Proof. intros F eps V g E N. unfold pot_psi. rewrite E. destruct g; [contradiction|reflexivity]. Qed.
Print Assumptions C88_retry_psi.

(** ** what is written can be read *)
Definition C88_rewrite : Prop := forall (F : ofld) fs (V V1 : pot F) p f g d fs' p', po_init V = false -> names p ->
  fs (p_file p) = Some f -> complete f g d -> pot_init F fs vec_min V p = (V1, Ok tt) ->
  names p' -> plain p' -> fs' (p_file p') = Some (write_raw V1) ->
  exists V2, pot_init F fs' vec_min new_pot p' = (V2, Ok tt) /\ po_data V2 = po_data V1 /\ po_grid V2 = po_grid V1.
(** a potential from a stream has not the parameters of its grid: its meta file has no dimensions and is refused *)
Theorem C88_rewrite_code : forall (F : ofld) fs (V V1 : pot F) p g d fs' p' em, po_init V = false -> names p ->
  fs (p_file p) = Some (Strm g d) -> complete (Strm g d) g d -> pot_init F fs vec_min V p = (V1, Ok tt) ->
  names p' -> fs' (p_file p') = Some (write_raw V1) -> exists V2, pot_init F fs' em new_pot p' = (V2, Throw).
Proof.
  intros F fs V V1 p g d fs' p' em I N E C EV N' E'. destruct (load_ok F fs V p _ g d I N E C) as (W & EW & _ & _ & _ & P).
  rewrite EV in EW. injection EW as <-. apply refused; [reflexivity|exact N'|]. right. exists (po_par V1), (po_data V1). split; [exact E'|].
  left. rewrite P. destruct N as [N _]. lia.
Qed.
Print Assumptions C88_rewrite_code.
Theorem C88_rewrite_refuted : ~ C88_rewrite.
Proof.
  intros H. set (p := ask "V.strm" false (Q2Qc 0) None). assert (N : names p) by (split; [cbn; lia|discriminate]).
  assert (C : complete (Strm box3 well) box3 well) by (split; [constructor|split; [exact box3_good|reflexivity]]).
  destruct (load_ok Qco disk new_pot p (Strm box3 well) box3 well eq_refl N eq_refl C) as (V1 & E1 & _).
  destruct (H Qco disk new_pot V1 p (Strm box3 well) box3 well (fun _ => Some (write_raw V1)) p eq_refl N eq_refl C E1 N) as (V2 & E2 & _);
    [split; [reflexivity|split; reflexivity]|reflexivity|].
  destruct (C88_rewrite_code Qco disk new_pot V1 p box3 well (fun _ => Some (write_raw V1)) p vec_min eq_refl N eq_refl C E1 N eq_refl) as (V3 & E3).
  rewrite E2 in E3. discriminate E3.
Qed.
Print Assumptions C88_rewrite_refuted.
(** true of potentials read from a raw file, and for all of them when they are written as a stream *)
Theorem C88_rewrite_partial : forall (F : ofld) fs (V V1 : pot F) p f g d fs' p', po_init V = false -> names p ->
  fs (p_file p) = Some f -> complete f g d -> pot_init F fs vec_min V p = (V1, Ok tt) ->
  names p' -> plain p' ->
  ((exists h, f = Raw h d) /\ fs' (p_file p') = Some (write_raw V1)) \/ fs' (p_file p') = Some (write_stream V1) ->
  exists V2, pot_init F fs' vec_min new_pot p' = (V2, Ok tt) /\ po_data V2 = po_data V1 /\ po_grid V2 = po_grid V1.
Proof.
  intros F fs V V1 p f g d fs' p' I N E C EV N' PL H.
  assert (X : exists f', fs' (p_file p') = Some f' /\ complete f' g (po_data V1)).
  { destruct H as [[(h & Hf) H]|H].
    - eexists. split; [exact H|]. exact (rewrite_raw F fs V V1 p f g d h I N E C Hf EV).
    - eexists. split; [exact H|]. exact (rewrite_stream F fs V V1 p f g d I N E C EV). }
  destruct X as (f' & E' & C'). destruct (load_ok F fs' new_pot p' f' g _ eq_refl N' E' C') as (V2 & E2 & G2 & _ & A & _).
  destruct (load_ok F fs V p f g d I N E C) as (W & EW & GW & _). rewrite EV in EW. injection EW as <-.
  exists V2. split; [exact E2|]. split; [exact (asked_plain F p' _ _ PL A)|congruence].
Qed.
Print Assumptions C88_rewrite_partial.

(** ** the operator: multiplication by the values, hermitian; Emin and Emax are exact bounds of the energy *)
Theorem C88_apply : forall (F : ofld) (V : pot F) psi dest, length psi = length (po_data V) -> length dest = length (po_data V) ->
  exists r, pot_apply V psi = Ok r /\ length r = length psi /\
  (forall j v c, nth_error (po_data V) j = Some v -> nth_error psi j = Some c -> nth_error r j = Some (cx_scale v c)) /\
  pot_apply_add V dest psi = Ok (map (fun yc => cadd (fst yc) (snd yc)) (combine dest r)).
Proof.
  intros F V psi dest L L'. exists (mult (po_data V) psi).
  split; [unfold pot_apply, zlen; rewrite L, Z.eqb_refl; reflexivity|]. split; [rewrite mult_len by exact L; symmetry; exact L|]. split.
  - clear L' dest. revert psi L. generalize (po_data V) as w. induction w as [|x w IH]; intros psi L j v c Hv Hc; [destruct j; discriminate Hv|].
    destruct psi as [|y psi]; [discriminate L|]. injection L as L. destruct j as [|j]; [cbn in *; congruence|]. exact (IH psi L j v c Hv Hc).
  - unfold pot_apply_add, zlen. rewrite L, L', Z.eqb_refl. cbn [andb]. f_equal. apply mult_add_spec; assumption.
Qed.
Print Assumptions C88_apply.
Theorem C88_hermitian : forall (F : ofld) (V : pot F) a b ra rb, pot_apply V a = Ok ra -> pot_apply V b = Ok rb ->
  braket ra b = braket a rb.
Proof.
  intros F V a b ra rb A B. unfold pot_apply in *.
  destruct (zlen a =? zlen (po_data V)) eqn:La; [|discriminate A]. destruct (zlen b =? zlen (po_data V)) eqn:Lb; [|discriminate B].
  injection A as <-. injection B as <-. unfold zlen in *. apply mult_sym; lia.
Qed.
Print Assumptions C88_hermitian.
Theorem C88_energy : forall (F : ofld) (V : pot F), po_data V <> [] -> exists lo hi, pot_emin V = Ok lo /\ pot_emax V = Ok hi /\
  (forall psi r, pot_apply V psi = Ok r -> snd (braket psi r) = c0 /\
     ole (cmul lo (norm2 psi)) (fst (braket psi r)) /\ ole (fst (braket psi r)) (cmul hi (norm2 psi))) /\
  (exists psi r, pot_apply V psi = Ok r /\ norm2 psi = c1 /\ fst (braket psi r) = lo) /\
  (exists psi r, pot_apply V psi = Ok r /\ norm2 psi = c1 /\ fst (braket psi r) = hi).
Proof.
  intros F V N. destruct (vec_min_ok F _ N) as (lo & El & Il & Ll). destruct (vec_max_ok F _ N) as (hi & Eh & Ih & Lh).
  exists lo, hi. split; [exact El|]. split; [exact Eh|]. split; [|split].
  - intros psi r A. unfold pot_apply in A. destruct (zlen psi =? zlen (po_data V)) eqn:L; [|discriminate A]. injection A as <-.
    assert (L' : length psi = length (po_data V)) by (unfold zlen in L; lia).
    split; [apply braket_im|]. split; [apply energy_low; assumption|apply energy_high; assumption].
  - destruct (attained F _ _ Il) as (psi & L & Nm & B). exists psi. eexists. split; [unfold pot_apply, zlen; rewrite L, Z.eqb_refl; reflexivity|]. auto.
  - destruct (attained F _ _ Ih) as (psi & L & Nm & B). exists psi. eexists. split; [unfold pot_apply, zlen; rewrite L, Z.eqb_refl; reflexivity|]. auto.
Qed.
Print Assumptions C88_energy.
Example C88_energy_ex : pot_emin (@mkPot Qco (ask "V" false (Q2Qc 0) None) box3 well false) = Ok (Q2Qc 2) /\
  pot_emax (@mkPot Qco (ask "V" false (Q2Qc 0) None) box3 well false) = Ok (Q2Qc 5).
Proof. split; reflexivity. Qed.

(** ** a wave function is accepted exactly when its grid has the same points and bounds, up to the tolerance *)
Theorem C88_fits : forall (F : ofld) eps (V : pot F) psi, ole c0 eps ->
  (pot_psi F eps V psi = Ok tt <-> exists g, psi = Some g /\ fits eps (po_grid V) g).
Proof.
  intros F eps V psi P. unfold pot_psi. destruct psi as [g|]; [|split; [discriminate 1|intros (g & X & _); discriminate X]].
  destruct (grid_eqb F eps (po_grid V) g) eqn:E.
  - split; [intros _; exists g; split; [reflexivity|apply grid_eqb_fits; assumption]|reflexivity].
  - split; [discriminate 1|]. intros (g' & X & Y). injection X as <-. apply (grid_eqb_fits F eps P) in Y. congruence.
Qed.
Print Assumptions C88_fits.

(** ** a copy is the same potential; copied into an operator whose load failed, that still reads no file *)
Theorem C88_copy : forall (F : ofld) (V o : pot F), po_data (pot_copy V o) = po_data o /\ po_grid (pot_copy V o) = po_grid o /\
  po_par (pot_copy V o) = po_par o /\ forall fs em p, po_init V = true -> p_dims p = 0 ->
  exists V2, pot_init F fs em (pot_copy V o) p = (V2, Ok tt) /\ po_data V2 = [].
Proof.
  intros F V o. do 3 (split; [reflexivity|]). intros fs em p I D. eexists. split; [apply stuck; [exact I|exact D]|]. cbn. apply resize0.
Qed.
Print Assumptions C88_copy.
