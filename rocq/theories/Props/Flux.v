(** C97: the flux operator *)
From Coq Require Import Ascii String List ZArith Lia Bool Arith QArith Qcanon Ring.
From Verif Require Import Base Arrays Algebra Complex Ordered Model.Flux Spec.Flux Proofs.Flux.
Import ListNotations.

(** [flux_out w g T psi]: - 2 integral g Im (psi* T psi), the flux out of the volume g of the handbook; [weight w g psi]: the weight of psi
    in g; [after tau T psi]: psi - i tau T psi; [ready T G g k o]: an operator of T and G set up with a wave function of the size of g *)
Definition ready {F : ofld} (T G : list (Cx F) -> list (Cx F)) (g : list F) (k : bool) (o : flux F) : Prop :=
  flux_psi (flux_new [T; G]) k (length g) = (o, Ok tt).
Lemma ready_set (F : ofld) (T G : list (Cx F) -> list (Cx F)) g k o : ready T G g k o -> fx_ops o = [T; G] /\ fx_buf o = Some (k, length g) /\ fx_one o = Some (length g).
Proof. intros [= <-]. repeat split. Qed.
Definition qc (z : Z) : Qco := Q2Qc (inject_Z z).
(** two points, the hopping operator with the strength 2; the volume is the first point *)
Definition hop (x : list (Cx Qco)) : list (Cx Qco) := match x with [a; b] => [cx_scale (R := Qco) (qc 2) b; cx_scale (R := Qco) (qc 2) a] | _ => x end.
Definition left (x : list (Cx Qco)) : list (Cx Qco) := map (fun y => cx_scale (R := Qco) (fst y) (snd y)) (combine [qc 1; qc 0] x).
Definition moving : list (Cx Qco) := [((qc 3, qc 0) : Cx Qco); ((qc 1, qc 2) : Cx Qco)].
Lemma hop_keeps : keeps_size 2 hop.
Proof. intros [|a [|b [|c x]]] L; try discriminate L. reflexivity. Qed.
Lemma left_volume : within_volume [qc 1; qc 0] left.
Proof. intros x _. reflexivity. Qed.

(** ** the value is the flux out of the volume *)
Definition C97_value : Prop := forall (F : ofld) (w : F) T G g k o psi, within_volume g G -> keeps_size (length g) T -> length psi = length g -> ready T G g k o ->
  flux_element w o psi psi = Ok (cx_of (flux_out w g T psi)).
(** it has the other sign: T psi is conjugated instead of psi *)
Theorem C97_value_code : forall (F : ofld) (w : F) T G g k o psi, within_volume g G -> keeps_size (length g) T -> length psi = length g -> ready T G g k o ->
  flux_element w o psi psi = Ok (cx_of (copp (flux_out w g T psi))).
Proof.
  intros F w T G g k o psi V K L R. destruct (ready_set F _ _ _ _ _ R) as (A & B & C). rewrite (element_ok F w T G o k g psi psi A B C V K L L). do 2 f_equal. unfold flux_out.
  exact (opp_opp F _).
Qed.
Print Assumptions C97_value_code.
Theorem C97_value_refuted : ~ C97_value.
Proof.
  intros H. specialize (H Qco (qc 1) hop left [qc 1; qc 0] true (mkFlux [hop; left] (Some (true, 2%nat)) (Some 2%nat)) moving left_volume hop_keeps eq_refl eq_refl).
  rewrite (element_ok Qco (qc 1) hop left (mkFlux [hop; left] (Some (true, 2%nat)) (Some 2%nat)) true [qc 1; qc 0] moving moving eq_refl eq_refl eq_refl left_volume hop_keeps eq_refl eq_refl) in H.
  apply (f_equal (fun r => match r with Ok z => Qcanon.this (fst z) | _ => 0%Q end)) in H. vm_compute in H. discriminate H.
Qed.
Print Assumptions C97_value_refuted.
(** between two states: 2 integral g Im (bra* T ket) *)
Theorem C97_element : forall (F : ofld) (w : F) T G g k o bra ket, within_volume g G -> keeps_size (length g) T -> length bra = length g -> length ket = length g -> ready T G g k o ->
  flux_element w o bra ket = Ok (cx_of (cmul (cadd c1 c1) (integral w g (im_density bra (T ket))))).
Proof. intros F w T G g k o bra ket V K Lb Lk R. destruct (ready_set F _ _ _ _ _ R) as (A & B & C). exact (element_ok F w T G o k g bra ket A B C V K Lb Lk). Qed.
Print Assumptions C97_element.
Example C97_value_ex : within_volume [qc 1; qc 0] left /\ keeps_size 2 hop /\ ready hop left [qc 1; qc 0] true (mkFlux [hop; left] (Some (true, 2%nat)) (Some 2%nat)) /\
  Qcanon.this (flux_out (F := Qco) (qc 1) [qc 1; qc 0] hop moving) = ((-24) # 1)%Q.
Proof. split; [apply left_volume|]. split; [apply hop_keeps|]. split; reflexivity. Qed.

(** ** it says how the weight in the volume changes in a short time *)
Definition C97_outgoing : Prop := forall (F : ofld) (w : F) T G g k o psi v tau, within_volume g G -> keeps_size (length g) T -> length psi = length g -> ready T G g k o ->
  flux_element w o psi psi = Ok (cx_of v) -> weight w g (after tau T psi) = cadd (cadd (weight w g psi) (copp (cmul tau v))) (cmul (cmul tau tau) (weight w g (T psi))).
(** it is the weight that comes in *)
Theorem C97_outgoing_code : forall (F : ofld) (w : F) T G g k o psi v tau, within_volume g G -> keeps_size (length g) T -> length psi = length g -> ready T G g k o ->
  flux_element w o psi psi = Ok (cx_of v) -> weight w g (after tau T psi) = cadd (cadd (weight w g psi) (cmul tau v)) (cmul (cmul tau tau) (weight w g (T psi))).
Proof.
  intros F w T G g k o psi v tau V K L R E. destruct (ready_set F _ _ _ _ _ R) as (A & B & C). rewrite (element_ok F w T G o k g psi psi A B C V K L L) in E.
  injection E as <-. exact (weight_after F w g tau psi (T psi) L (K _ L)).
Qed.
Print Assumptions C97_outgoing_code.
Theorem C97_outgoing_refuted : ~ C97_outgoing.
Proof.
  intros H. specialize (H Qco (qc 1) hop left [qc 1; qc 0] true (mkFlux [hop; left] (Some (true, 2%nat)) (Some 2%nat)) moving _ (qc 1) left_volume hop_keeps eq_refl eq_refl
    (element_ok Qco (qc 1) hop left (mkFlux [hop; left] (Some (true, 2%nat)) (Some 2%nat)) true [qc 1; qc 0] moving moving eq_refl eq_refl eq_refl left_volume hop_keeps eq_refl eq_refl)).
  apply (f_equal Qcanon.this) in H. vm_compute in H. discriminate H.
Qed.
Print Assumptions C97_outgoing_refuted.
Example C97_outgoing_ex : Qcanon.this (weight (F := Qco) (qc 1) [qc 1; qc 0] moving) = (9 # 1)%Q /\
  Qcanon.this (weight (F := Qco) (qc 1) [qc 1; qc 0] (after (F := Qco) (qc 1) hop moving)) = (53 # 1)%Q /\ Qcanon.this (weight (F := Qco) (qc 1) [qc 1; qc 0] (hop moving)) = (20 # 1)%Q.
Proof. repeat split. Qed.

(** ** nothing flows out of the whole space, and what leaves a volume enters the rest *)
Theorem C97_conserved : forall (F : ofld) (w : F) T G G' g h k k' o o' psi v v', within_volume g G -> within_volume h G' -> keeps_size (length g) T -> length h = length g -> length psi = length g ->
  hermitian w (length g) T -> map (fun x => cadd (fst x) (snd x)) (combine g h) = repeat c1 (length g) -> ready T G g k o -> ready T G' h k' o' ->
  flux_element w o psi psi = Ok (cx_of v) -> flux_element w o' psi psi = Ok (cx_of v') -> cadd v v' = c0.
Proof.
  intros F w T G G' g h k k' o o' psi v v' V V' K Lh L H S R R' E E'. destruct (ready_set F _ _ _ _ _ R) as (A & B & C). destruct (ready_set F _ _ _ _ _ R') as (A' & B' & C').
  rewrite (element_ok F w T G o k g psi psi A B C V K L L) in E. rewrite Lh in B', C'. rewrite <- Lh in K. pose proof L as L'. rewrite <- Lh in L'.
  rewrite <- Lh in B', C'. rewrite (element_ok F w T G' o' k' h psi psi A' B' C' V' K L' L') in E'. rewrite Lh in K.
  injection E as <-. injection E' as <-. exact (parts_zero F w T g h psi Lh S H K L).
Qed.
Print Assumptions C97_conserved.
Lemma hop_hermitian : hermitian (F := Qco) (qc 1) 2 hop.
Proof. intros [|a [|b [|c x]]] [|a' [|b' [|c' y]]] L L'; try discriminate L; try discriminate L'. exact (hop2 Qco (qc 1) (qc 2) a b a' b'). Qed.
Example C97_conserved_ex : hermitian (F := Qco) (qc 1) 2 hop /\ map (fun x : Qco * Qco => cadd (fst x) (snd x)) (combine [qc 1; qc 0] [qc 0; qc 1]) = repeat (c1 : Qco) 2.
Proof. split; [exact hop_hermitian|]. cbn. repeat f_equal; apply Qc_is_canon; reflexivity. Qed.

(** ** only two operators are accepted *)
Definition C97_two : Prop := forall (F : ofld) (w : F) l ks bra ket v,
  flux_element w (fold_left (fun o x => fst (flux_psi o (fst x) (snd x))) ks (flux_new l)) bra ket = Ok v -> length l = 2%nat.
(** the first Init refuses, a second one and matrix elements with three operators do not *)
Theorem C97_two_refuted : ~ C97_two.
Proof.
  intros H. assert (P : exists v, flux_element (qc 1) (fold_left (fun o x => fst (flux_psi o (fst x) (snd x))) [(true, 2%nat)] (flux_new [hop; left; hop])) moving moving = Ok v) by (eexists; reflexivity).
  destruct P as (v & P). discriminate (H Qco (qc 1) _ _ _ _ v P).
Qed.
Print Assumptions C97_two_refuted.
Theorem C97_two_partial : forall (F : ofld) l k n, snd (flux_psi (@flux_new F l) k n) = Ok tt <-> length l = 2%nat.
Proof. intros F l k n. cbn. destruct (Nat.eqb_spec (length l) 2); split; intros; congruence. Qed.
Print Assumptions C97_two_partial.
(** fewer than two are always refused, and the operator is never applied *)
Theorem C97_few : forall (F : ofld) (w : F) o bra ket v, (length (fx_ops o) < 2)%nat -> flux_element w o bra ket <> Ok v.
Proof.
  intros F w o bra ket v L H. unfold flux_element in H. destruct (fx_buf o) as [[k n]|]; [|discriminate H]. destruct (fx_one o) as [m|]; [|discriminate H].
  unfold get in H. destruct (fx_ops o) as [|T [|G l]]; cbn in L; [discriminate H| |lia]. cbn in H. destruct (negb _); [discriminate H|]. destruct (negb _); discriminate H.
Qed.
Print Assumptions C97_few.
Theorem C97_apply : forall (F : ofld) (o : flux F) psi, flux_apply o psi = Throw.
Proof. reflexivity. Qed.
Print Assumptions C97_apply.
Example C97_two_ex : snd (flux_psi (flux_new [hop; left]) true 2) = Ok tt /\ snd (flux_psi (flux_new [hop]) true 2) = Throw /\ snd (flux_psi (fst (flux_psi (flux_new [hop]) true 2)) true 2) = Ok tt.
Proof. repeat split. Qed.

(** ** a second Init changes nothing; without Init there is no buffer *)
Theorem C97_init_twice : forall (F : ofld) (o : flux F) k n k' n', fst (flux_psi (fst (flux_psi o k n)) k' n') = fst (flux_psi o k n).
Proof. intros F o k n k' n'. unfold flux_psi. destruct (fx_buf o) eqn:E; cbn; rewrite ?E; reflexivity. Qed.
Print Assumptions C97_init_twice.
Definition C97_defined : Prop := forall (F : ofld) (w : F) l bra ket, flux_element w (flux_new l) bra ket <> UB.
Theorem C97_defined_refuted : ~ C97_defined.
Proof. intros H. exact (H Qco (qc 1) [hop; left] moving moving eq_refl). Qed.
Print Assumptions C97_defined_refuted.
Example C97_init_ex : fst (flux_psi (fst (flux_psi (flux_new [hop; left]) true 2)) true 3) = mkFlux [hop; left] (Some (true, 2%nat)) (Some 2%nat).
Proof. reflexivity. Qed.

(** ** copies act as the original *)
Definition C97_copy : Prop := forall (F : ofld) (w : F) t o c bra ket, flux_copy t (Some o) = Ok c -> flux_element w c bra ket = flux_element w o bra ket.
(** a copy into a new operator has no buffer until its Init *)
Theorem C97_copy_refuted : ~ C97_copy.
Proof.
  intros H. specialize (H Qco (qc 1) (flux_new []) (mkFlux [hop; left] (Some (true, 2%nat)) (Some 2%nat)) (mkFlux [hop; left] None None) moving moving eq_refl). discriminate H.
Qed.
Print Assumptions C97_copy_refuted.
Theorem C97_copy_partial : forall (F : ofld) T G g k k' o l c c', @ready F T G g k o -> flux_copy (flux_new l) (Some o) = Ok c -> flux_psi c k' (length g) = (c', Ok tt) ->
  forall (w : F) bra ket, flux_element w c' bra ket = flux_element w o bra ket.
Proof. intros F T G g k k' o l c c' [= <-] [= <-] [= <-] w bra ket. reflexivity. Qed.
Print Assumptions C97_copy_partial.
(** copying anything else is undefined, as is copying an operator that was not set up into one that was *)
Definition C97_copy_defined : Prop := forall (F : ofld) t (o : option (flux F)), flux_copy t o <> UB.
Theorem C97_copy_defined_refuted : ~ C97_copy_defined.
Proof. intros H. exact (H Qco (flux_new []) None eq_refl). Qed.
Print Assumptions C97_copy_defined_refuted.
Theorem C97_copy_defined_partial : forall (F : ofld) t (o : option (flux F)), flux_copy t o = UB <-> o = None \/ (fx_buf t <> None /\ exists o', o = Some o' /\ fx_buf o' = None).
Proof.
  intros F t [o|]; cbn; [|split; auto]. destruct (fx_buf t) as [b|] eqn:Et.
  - destruct (fx_buf o) as [[k n]|] eqn:E; split; intros H; try discriminate H; try reflexivity.
    + destruct H as [H|(_ & o' & [= <-] & H)]; [discriminate H|congruence].
    + right. split; [discriminate|]. exists o. split; [reflexivity|exact E].
  - split; [discriminate|]. intros [H|(H & _)]; [discriminate H|exfalso; apply H; reflexivity].
Qed.
Print Assumptions C97_copy_defined_partial.
(** copied into an operator of a larger grid, the constant wave function keeps the old size and the arrays are left *)
Theorem C97_copy_size_refuted : ~ (forall (F : ofld) (w : F) t o c bra ket n, fx_buf t = Some (true, n) -> fx_one t = Some n -> flux_copy t (Some o) = Ok c ->
  flux_element w o bra ket <> UB -> flux_element w c bra ket <> UB).
Proof.
  intros H. refine (H Qco (qc 1) (mkFlux [] (Some (true, 3%nat)) (Some 3%nat)) (mkFlux [hop; left] (Some (true, 2%nat)) (Some 2%nat)) (mkFlux [hop; left] (Some (true, 2%nat)) (Some 3%nat))
    moving moving 3%nat eq_refl eq_refl eq_refl _ eq_refl).
  rewrite (element_ok Qco (qc 1) hop left (mkFlux [hop; left] (Some (true, 2%nat)) (Some 2%nat)) true [qc 1; qc 0] moving moving eq_refl eq_refl eq_refl left_volume hop_keeps eq_refl eq_refl). discriminate.
Qed.
Print Assumptions C97_copy_size_refuted.
Example C97_copy_ex : flux_copy (flux_new []) (Some (mkFlux [hop; left] (Some (true, 2%nat)) (Some 2%nat))) = Ok (mkFlux [hop; left] None None).
Proof. reflexivity. Qed.
