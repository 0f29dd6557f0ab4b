(** Witnesses for Props/ODMultistate.v. *)
From Coq Require Import QArith Qcanon.
From Coq Require Import List ZArith Lia Bool Ring Field Lqa.
From Verif Require Import Base Arrays Algebra Complex Ordered Model.ODMultistate Spec.ODMultistate Proofs.ODMultistate.
Import ListNotations.
Open Scope Z_scope.

Definition q (z : Z) : Qc := Q2Qc (inject_Z z).
Definition fr (a : Z) (b : positive) : Qc := Q2Qc (a # b).
Lemma qc_eq (a b : Qc) : this a = this b -> a = b.
Proof. destruct a as [a Ha], b as [b Hb]; cbn. intros ->. f_equal. apply Eqdep_dec.UIP_dec. decide equality; [apply Pos.eq_dec|apply Z.eq_dec]. Qed.
(** A diagonalisation that is right for all matrices with the eigenvectors (3,4)/5 and (4,-3)/5. *)
Definition qX (i j : Z) : Qco := if i =? 0 then (if j =? 0 then fr 3 5 else fr 4 5) else (if j =? 0 then fr 4 5 else fr (-3) 5).
Definition qev (M : Z -> Z -> Qco) (j : Z) : Qco :=
  if j =? 0 then (fr 9 25 * M 0%Z 0%Z + fr 24 25 * M 0%Z 1%Z + fr 16 25 * M 1%Z 1%Z)%Qc else (fr 16 25 * M 0%Z 0%Z - fr 24 25 * M 0%Z 1%Z + fr 9 25 * M 1%Z 1%Z)%Qc.
Definition qeig (n : Z) (M : Z -> Z -> Qco) : (Z -> Z -> Qco) * (Z -> Qco) := (qX, qev M).
Lemma upto2 : upto 0 2 = [0; 1]. Proof. reflexivity. Qed.
Ltac two k Hk := assert (k = 0 \/ k = 1) as [->| ->] by lia; clear Hk.
Lemma q_orth : orthonormal Qco 2 qX.
Proof.
  split; intros i j Hi Hj; two i Hi; two j Hj; rewrite upto2; apply qc_eq; vm_compute; reflexivity.
Qed.
Add Field Qcfield : Qcft.
Ltac toQ := apply Qc_is_canon; unfold fr, q, Qcminus, Qcopp; unfold Qcplus, Qcmult; cbn [this Q2Qc]; rewrite ?Qred_correct.
Lemma q_lapack (H : Z -> Z -> Qco) (a b g : Qc) : H 0 0 = a -> H 1 1 = b -> H 0 1 = g -> H 1 0 = g -> (q 12 * (a - b) + q 7 * g)%Qc = q 0 -> lapack Qco qeig 2 H.
Proof.
  intros H0 H1 H2 H3 HD M HM. split; [exact q_orth|]. cbn [qeig fst snd].
  assert (D : (12 * (this a - this b) + 7 * this g == 0)%Q).
  { assert (X : (this (q 12 * (a - b) + q 7 * g)%Qc == this (q 0))%Q) by (rewrite HD; reflexivity).
    unfold q, Qcminus, Qcopp in X. unfold Qcplus, Qcmult in X. cbn [this Q2Qc] in X. rewrite !Qred_correct in X. unfold inject_Z in X. lra. }
  intros k j Hk Hj. two k Hk; two j Hj; rewrite upto2; unfold qev; cbn [Z.eqb]; rewrite !HM by lia; cbn [lsum];
    rewrite ?H0, ?H1, ?H2, ?H3; unfold qX; cbn [Z.eqb Pos.eqb]; cbn [cadd cmul c0 Qco o_f f_ring Qcf Qcr]; toQ; unfold inject_Z; lra.
Qed.

Lemma table_inj {A} n size (f g : Z -> Z -> A) k i : table n size f = table n size g -> 0 <= k < n -> 0 <= i < size -> f k i = g k i.
Proof.
  intros E Hk Hi. assert (X : rd (table n size f) k = rd (table n size g) k) by (rewrite E; reflexivity). rewrite !table_rd in X by lia. injection X as X.
  assert (Y : rd (map (f k) (upto 0 size)) i = rd (map (g k) (upto 0 size)) i) by (rewrite X; reflexivity). rewrite !rd_mapto in Y by lia. congruence.
Qed.
(** an element with the diagonal [d] and the factor [f] *)
Definition pot (f : Qc) (d : list Qc) : elem Qco := @mkEl Qco true None d f.
(** two states: elements (0,0), (0,1), (1,0), (1,1) *)
Definition m22 (a b c d : option (elem Qco)) : Z -> Z -> option (elem Qco) :=
  fun k l => if k =? 0 then (if l =? 0 then a else if l =? 1 then b else None) else if k =? 1 then (if l =? 0 then c else if l =? 1 then d else None) else None.
Definition one_more (z : Cx Qco) : Cx Qco := cadd z c1.
Definition q1 : Cx Qco := (q 1, q 0).
Definition q0 : Cx Qco := (q 0, q 0).
Ltac four m := let k := fresh in let l := fresh in let e := fresh in let Hk := fresh in let Hl := fresh in let E := fresh in
  intros k l e Hk Hl E; assert (k = 0 \/ k = 1) as [->| ->] by lia; assert (l = 0 \/ l = 1) as [->| ->] by lia; cbn in E; try discriminate E; injection E as <-.

Lemma start22 m sz : (forall k l e, 0 <= k < 2 -> 0 <= l < 2 -> m k l = Some e -> el_ods Qco e = true /\ el_t Qco e = None) ->
  exists s, od_init Qco 2 m [sz; sz] = Ok s.
Proof.
  intros H. destruct (init_exact Qco 2 m [sz; sz]) as [[(i & j & Hi & Hj & e & E & Hb) _]|(_ & s & E & _)]; [lia|reflexivity| |exists s; exact E].
  exfalso. destruct (H i j e Hi Hj E) as [O T]. destruct Hb as [Hb|[Hb _]]; congruence.
Qed.

(** the field of a dipole element *)
Definition m_field : Z -> Z -> option (elem Qco) :=
  m22 (Some (pot (q 1) [q 16])) (Some (pot (q 0) [q (-12)])) (Some (pot (q 0) [q (-12)])) (Some (pot (q 1) [q 9])).
(** only the upper triangle *)
Definition m_tri : Z -> Z -> option (elem Qco) :=
  m22 (Some (pot (q 1) [q 16])) (Some (pot (q 1) [q (-12)])) (Some (pot (q 1) [q 0])) (Some (pot (q 1) [q 9])).
(** a missing diagonal element *)
Definition m_unity : Z -> Z -> option (elem Qco) :=
  m22 None (Some (pot (q 1) [fr 12 7])) (Some (pot (q 1) [fr 12 7])) (Some (pot (q 1) [q 1])).
Definition raw {F : ofld} (m : Z -> Z -> option (elem F)) : Z -> Z -> option (F * list F) := fun k l => option_map (fun e => (c1 : F, el_d F e)) (m k l).
(** the matrix LAPACK is asked to diagonalise *)
Definition asked {F : ofld} (m : Z -> Z -> option (elem F)) (i : Z) : Z -> Z -> F := fun k l => op_matrix F false (raw m) i (Z.min k l) (Z.max k l).

(** what a claim about eigenvectors says *)
Definition follows (F : ofld) (cexp : Cx F -> Cx F) (eig : Z -> (Z -> Z -> F) -> (Z -> Z -> F) * (Z -> F)) (junk : F) (n size : Z)
  (m : Z -> Z -> option (elem F)) (u : bool) : Prop :=
  forall sizes s c g, zlen sizes = n -> od_init F n m sizes = Ok s -> rd sizes 0 = Ok size ->
  exists s' h, od_step F cexp eig junk s m c (table n size g) = Ok (s', table n size h) /\
    forall i lam, 0 <= i < size -> eigvec F n (op_matrix F u (els F m) i) lam (fun k => g k i) ->
      forall k, 0 <= k < n -> h k i = cmul (cexp (cmul (cx_of lam) c)) (g k i).
Lemma not_follows m u (lam : Qco) (g : Z -> Z -> Cx Qco) k : (forall k l e, 0 <= k < 2 -> 0 <= l < 2 -> m k l = Some e -> el_ods Qco e = true /\ el_t Qco e = None) ->
  couples Qco 2 m -> covered Qco 2 1 m -> eigvec Qco 2 (op_matrix Qco u (els Qco m) 0) lam (fun k => g k 0) -> 0 <= k < 2 ->
  result Qco one_more 2 (Xq Qco qeig 2 m 0) (Eq Qco qeig 2 m 0) q1 (fun s => g s 0) k <> cmul (one_more (cmul (cx_of lam) q1)) (g k 0) ->
  ~ follows Qco one_more qeig (q 0) 2 1 m u.
Proof.
  intros He Hc Hv Hw Hk N H. destruct (start22 m 1 He) as [s Es]. destruct (H [1; 1] s q1 g eq_refl Es eq_refl) as (s' & h & E & P).
  destruct (main_step Qco one_more qeig (q 0) 2 1 m [1; 1] s ltac:(lia) ltac:(lia) eq_refl Es eq_refl) with (c := q1) (g := g) as (s2 & _ & E2).
  { intros k0 l e Hk0 Hl E0. apply (He k0 l e Hk0 Hl E0). } { exact Hc. } { exact Hv. }
  rewrite E2 in E. apply N. rewrite <- (P 0 lam ltac:(lia) Hw k Hk). assert (E3 := f_equal (fun o => match o with Ok p => snd p | _ => [] end) E). cbv beta iota in E3. cbn [snd] in E3.
  exact (table_inj _ _ _ _ k 0 E3 Hk ltac:(lia)).
Qed.
Lemma cx_qc (a b : Cx Qco) : this (fst a) = this (fst b) -> this (snd a) = this (snd b) -> a = b.
Proof. intros H1 H2. apply (@cx_eq Qco); apply qc_eq; assumption. Qed.
Definition e10 (k i : Z) : Cx Qco := if k =? 0 then q1 else q0.
Definition e11 (k i : Z) : Cx Qco := q1.
Ltac entries := let k := fresh in let l := fresh in let e := fresh in let Hk := fresh in let Hl := fresh in let E := fresh in
  intros k l e Hk Hl E; two k Hk; two l Hl; cbn in E; try discriminate E; injection E as <-.

Lemma field_ok : unscaled Qco 2 m_tri /\ diagonal_given Qco 2 m_field /\ couples Qco 2 m_field /\ covered Qco 2 1 m_field /\ on_grid Qco 2 m_field /\
  symmetric Qco 2 (op_matrix Qco true (els Qco m_field) 0) /\ lapack Qco qeig 2 (asked m_field 0).
Proof.
  split; [entries; reflexivity|]. split; [intros k Hk; two k Hk; discriminate|]. split; [exists 0, 1; eexists; split; [lia|]; split; [lia|]; split; [lia|reflexivity]|].
  split; [entries; vm_compute; discriminate|]. split; [entries; reflexivity|]. split; [intros k l Hk Hl; two k Hk; two l Hl; reflexivity|].
  apply (q_lapack _ (q 16) (q 9) (q (-12))); apply qc_eq; vm_compute; reflexivity.
Qed.
Lemma field_bad : ~ follows Qco one_more qeig (q 0) 2 1 m_field true.
Proof.
  apply (not_follows m_field true (q 16) e10 1).
  - entries; split; reflexivity.
  - apply field_ok.
  - apply field_ok.
  - intros k Hk. two k Hk; rewrite upto2; apply cx_qc; vm_compute; reflexivity.
  - lia.
  - intros E. apply (f_equal (fun z : Cx Qco => this (fst z))) in E. vm_compute in E. discriminate E.
Qed.
Lemma tri_ok : unscaled Qco 2 m_tri /\ diagonal_given Qco 2 m_tri /\ couples Qco 2 m_tri /\ covered Qco 2 1 m_tri /\ on_grid Qco 2 m_tri /\ lapack Qco qeig 2 (asked m_tri 0).
Proof.
  split; [entries; reflexivity|]. split; [intros k Hk; two k Hk; discriminate|]. split; [exists 0, 1; eexists; split; [lia|]; split; [lia|]; split; [lia|reflexivity]|].
  split; [entries; vm_compute; discriminate|]. split; [entries; reflexivity|].
  apply (q_lapack _ (q 16) (q 9) (q (-12))); apply qc_eq; vm_compute; reflexivity.
Qed.
Lemma tri_bad : ~ follows Qco one_more qeig (q 0) 2 1 m_tri true.
Proof.
  apply (not_follows m_tri true (q 16) e10 1).
  - entries; split; reflexivity.
  - apply tri_ok.
  - apply tri_ok.
  - intros k Hk. two k Hk; rewrite upto2; apply cx_qc; vm_compute; reflexivity.
  - lia.
  - intros E. apply (f_equal (fun z : Cx Qco => this (fst z))) in E. vm_compute in E. discriminate E.
Qed.
Lemma unity_ok : unscaled Qco 2 m_unity /\ couples Qco 2 m_unity /\ covered Qco 2 1 m_unity /\ on_grid Qco 2 m_unity /\
  symmetric Qco 2 (op_matrix Qco true (els Qco m_unity) 0) /\ lapack Qco qeig 2 (asked m_unity 0).
Proof.
  split; [entries; reflexivity|]. split; [exists 0, 1; eexists; split; [lia|]; split; [lia|]; split; [lia|reflexivity]|].
  split; [entries; vm_compute; discriminate|]. split; [entries; reflexivity|]. split; [intros k l Hk Hl; two k Hk; two l Hl; reflexivity|].
  apply (q_lapack _ (q 0) (q 1) (fr 12 7)); apply qc_eq; vm_compute; reflexivity.
Qed.
Lemma unity_bad : ~ follows Qco one_more qeig (q 0) 2 1 m_unity true.
Proof.
  apply (not_follows m_unity true (fr 19 7) e11 0).
  - entries; split; reflexivity.
  - apply unity_ok.
  - apply unity_ok.
  - intros k Hk. two k Hk; rewrite upto2; apply cx_qc; vm_compute; reflexivity.
  - lia.
  - intros E. apply (f_equal (fun z : Cx Qco => this (fst z))) in E. vm_compute in E. discriminate E.
Qed.

(** states of different size *)
Lemma sizes_accepted : exists s, od_init Qco 2 m_tri [2; 1] = Ok s /\
  forall s2, od_init Qco 2 (m22 (Some (pot (q 1) [q 1; q 2])) (Some (pot (q 1) [q 1; q 2])) None (Some (pot (q 1) [q 1; q 2]))) [2; 1] = Ok s2 ->
  od_step Qco one_more qeig (q 0) s2 (m22 (Some (pot (q 1) [q 1; q 2])) (Some (pot (q 1) [q 1; q 2])) None (Some (pot (q 1) [q 1; q 2]))) q1 [[q1; q1]; [q1]] = UB.
Proof.
  eexists. split; [reflexivity|]. intros s2 E. assert (X : s2 = mkOdm Qco 2 2 false None None) by (injection E as <-; reflexivity). rewrite X. clear X E s2.
  reflexivity.
Qed.

(** transformations *)
Definition tr (k : Qc) (t : trafo Qco) : elem Qco := @mkEl Qco true (Some t) [k] (q 1).
Definition t_one : trafo Qco := mkTr Qco (fun x => x) (fun x => x) (q 1).
(** not normalised: there and back doubles *)
Definition t_two : trafo Qco := mkTr Qco (fun x => x) (map (cmul (cx_of (q 2 : Qco)))) (fr 1 2).
Definition m_cpl : Z -> Z -> option (elem Qco) := m22 (Some (tr (q 1) t_one)) (Some (pot (q 1) [q 5])) (Some (pot (q 1) [q 5])) (Some (tr (q 1) t_one)).
Lemma cpl_accepted : exists s, od_init Qco 2 m_cpl [1; 1] = Ok s. Proof. eexists. reflexivity. Qed.
Definition m_norm : Z -> Z -> option (elem Qco) := m22 (Some (tr (q 1) t_one)) None None (Some (tr (q 1) t_two)).
Definition norm_exp (z : Cx Qco) : Cx Qco := cadd z c1.
Lemma norm_bad s : od_init Qco 2 m_norm [1; 1] = Ok s -> od_step Qco one_more qeig (q 0) s m_norm c0 [[q1]; [q1]] <> Ok (s, [[q1]; [q1]]).
Proof.
  intros E H. destruct (ext_step Qco one_more qeig (q 0) s 2 1 m_norm (fun k => if k =? 0 then tr (q 1) t_one else tr (q 1) t_two) (fun k => if k =? 0 then t_one else t_two) c0 [[q1]; [q1]])
    as (w & E2 & L & P).
  - lia.
  - apply (init_ext Qco 2 m_norm [1; 1] 1 s ltac:(lia) eq_refl E eq_refl). exists 0. split; [lia|discriminate].
  - lia.
  - reflexivity.
  - intros k Hk. two k Hk; (split; [reflexivity|split; [vm_compute; discriminate|reflexivity]]).
  - rewrite H in E2. assert (Ew := f_equal (fun o => match o with Ok p => snd p | _ => [] end) E2). cbn [snd] in Ew. pose proof (P 1 [q1] eq_refl) as X. rewrite <- Ew in X.
    assert (Y := f_equal (fun o => match o with Ok [z] => this (fst z) | _ => 0%Q end) X). vm_compute in Y. discriminate Y.
Qed.
