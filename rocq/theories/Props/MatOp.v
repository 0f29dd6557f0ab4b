(** C91: matrix operators and dipole matrices read from files *)
From Coq Require Import Ascii String List ZArith Lia Bool Arith QArith Qcanon.
From Verif Require Import Base Arrays Algebra Complex Ordered Model.Potential Spec.Potential Proofs.Potential Model.MatOp Spec.MatOp Proofs.MatOp.
Import ListNotations.
Open Scope Z_scope.

(** [eig n d]: eigenvalues of the n x n matrix d in ascending order; [junk]: content of new matrices; [fs], [lfs]: files with
    matrices and with laser fields; [whole f n d]: f has the complete n x n matrix d; [lowered n d m d']: d' is d with m taken
    from the diagonal; [in_effect f p]: the parameters the operator has after reading f when asked for p *)
Definition plain {F : ofld} (x : F) : outcome F := Ok x.

(** ** loading gives the stored matrix, with "setzero" its lowest eigenvalue is moved to zero *)
Definition C91_load : Prop := forall (F : ofld) eig junk fs (s : mop F) p name f n d l r,
  mo_init s = false -> mp_file p = Some name -> fs name = Some f -> whole f n d -> eig n d = l :: r ->
  exists s', mat_init F eig junk fs plain s p = (s', Ok tt) /\ mo_n s' = n /\ lowered n d (if mp_zero p then l else c0) (mo_d s').
(** "setzero" is looked up after reading, when the parameters are those of the meta file; a stream does not mark old eigenvalues
    as invalid *)
Theorem C91_load_code : forall (F : ofld) eig junk fs (s : mop F) p name f n d l r,
  mo_init s = false -> mo_valid s = false -> mp_file p = Some name -> fs name = Some f -> whole f n d -> eig n d = l :: r ->
  exists s', mat_init F eig junk fs plain s p = (s', Ok tt) /\ mo_n s' = n /\
    lowered n d (if mp_zero (in_effect f p) then l else c0) (mo_d s') /\ mo_valid s' = false /\ mo_init s' = false.
Proof.
  intros F eig junk fs s p name f n d l r I V P E W G.
  destruct (load F eig junk fs s p name f n d plain (if mp_zero (in_effect f p) then l else c0) P I E W) as (s' & A & B & C & D & K & _).
  - intros Z. rewrite Z. exists l, r. split; [|reflexivity]. unfold believed. rewrite V, G. destruct f; reflexivity.
  - intros Z. rewrite Z. reflexivity.
  - exists s'. auto.
Qed.
Print Assumptions C91_load_code.
Definition ask (z : bool) : mpars Qco := @mkMP Qco 0 (Some (lit "H")) z false false None None.
Definition own (n : nat) (d : list Qco) : list Qco := d.
Definition noise (n : nat) : list Qco := repeat (Q2Qc 9) (n * n).
Definition two : list Qco := [Q2Qc 2].
Definition raw2 : mfile Qco := MRaw (@mkMP Qco 1 None false false false None None) two.
Definition strm2 : mfile Qco := MStrm 1 two.
Lemma raw2_whole : whole raw2 1 two. Proof. split; [lia|]. repeat split. Qed.
Lemma strm2_whole : whole strm2 1 two. Proof. split; [lia|]. repeat split. Qed.
Lemma two_zero : lowered 1 two c0 two. Proof. exact (lowered_0 Qco 1 two eq_refl). Qed.
Theorem C91_load_refuted : ~ C91_load.
Proof.
  intros H. destruct (H Qco own noise (fun _ => Some raw2) new_mop (ask true) (lit "H") raw2 1%nat two (Q2Qc 2) [] eq_refl eq_refl eq_refl raw2_whole eq_refl) as (s & E & _ & [_ L]).
  specialize (L 0%nat 0%nat (Nat.lt_succ_diag_r 0) (Nat.lt_succ_diag_r 0)).
  assert (X : mo_d s = two). { change (mo_d s) with (mo_d (fst (s, Ok tt))). rewrite <- E. reflexivity. }
  rewrite X in L. apply (f_equal Qcanon.this) in L. vm_compute in L. discriminate L.
Qed.
Print Assumptions C91_load_refuted.
(** an operator used before, loaded again from a stream: the new matrix is lowered by the old eigenvalue *)
Definition used : mop Qco := @mkMop Qco no_mpars 1 [Q2Qc 5] (Some [Q2Qc 5]) true true true false.
Theorem C91_load_again_refuted : ~ (forall (F : ofld) eig junk fs (s : mop F) p name f n d l r,
  mo_init s = false -> mo_valid s = true -> mo_ev s = Some (eig (mo_n s) (mo_d s)) ->
  mp_file p = Some name -> fs name = Some f -> whole f n d -> mp_zero (in_effect f p) = mp_zero p -> eig n d = l :: r ->
  exists s', mat_init F eig junk fs plain s p = (s', Ok tt) /\ lowered n d (if mp_zero p then l else c0) (mo_d s')).
Proof.
  intros H. destruct (H Qco own noise (fun _ => Some strm2) used (ask true) (lit "H") strm2 1%nat two (Q2Qc 2) [] eq_refl eq_refl eq_refl eq_refl eq_refl strm2_whole eq_refl eq_refl) as (s & E & [_ L]).
  specialize (L 0%nat 0%nat (Nat.lt_succ_diag_r 0) (Nat.lt_succ_diag_r 0)).
  assert (X : mo_d s = shift 1 two (Q2Qc 5)). { change (mo_d s) with (mo_d (fst (s, Ok tt))). rewrite <- E. reflexivity. }
  rewrite X in L. apply (f_equal Qcanon.this) in L. vm_compute in L. discriminate L.
Qed.
Print Assumptions C91_load_again_refuted.
(** true for a new operator when the meta file agrees about "setzero" *)
Theorem C91_load_partial : forall (F : ofld) eig junk fs p name f n d l r,
  mp_file p = Some name -> fs name = Some f -> whole f n d -> mp_zero (in_effect f p) = mp_zero p -> eig n d = l :: r ->
  exists s', mat_init F eig junk fs plain new_mop p = (s', Ok tt) /\ mo_n s' = n /\ lowered n d (if mp_zero p then l else c0) (mo_d s').
Proof.
  intros F eig junk fs p name f n d l r P E W Z G.
  destruct (C91_load_code F eig junk fs new_mop p name f n d l r eq_refl eq_refl P E W G) as (s' & A & B & C & _). rewrite Z in C. exists s'. auto.
Qed.
Print Assumptions C91_load_partial.
Example C91_load_ex : whole raw2 1 two /\ whole strm2 1 two /\ mp_zero (in_effect strm2 (ask true)) = mp_zero (ask true) /\ own 1 two = [Q2Qc 2].
Proof. split; [apply raw2_whole|]. split; [apply strm2_whole|]. split; reflexivity. Qed.

(** the lowest eigenvalue reported afterwards is zero, if lowering the diagonal lowers the eigenvalues *)
Theorem C91_zero : forall (F : ofld) eig junk fs (s : mop F) p name f n d l r,
  mo_init s = false -> mo_valid s = false -> mp_file p = Some name -> fs name = Some f -> whole f n d -> eig n d = l :: r ->
  mp_zero (in_effect f p) = true -> (forall d', lowered n d l d' -> eig n d' = map (fun x => csub x l) (eig n d)) ->
  exists s', mat_init F eig junk fs plain s p = (s', Ok tt) /\ snd (low_ev F eig s') = Ok c0.
Proof.
  intros F eig junk fs s p name f n d l r I V P E W G Z H.
  destruct (C91_load_code F eig junk fs s p name f n d l r I V P E W G) as (s' & A & B & C & D & _). rewrite Z in C. exists s'. split; [exact A|].
  rewrite (low_after F eig s' (csub l l) (map (fun x => csub x l) r) D); [f_equal; rewrite (Ring_theory.Rsub_def (cr_th F)); apply (Ring_theory.Ropp_def (cr_th F))|].
  rewrite B, (H _ C), G. reflexivity.
Qed.
Print Assumptions C91_zero.
Example C91_zero_ex : forall d', lowered 1 two (Q2Qc 2) d' -> own 1 d' = map (fun x : Qco => csub x (Q2Qc 2)) (own 1 two).
Proof.
  intros d' H. rewrite (lowered_unique Qco 1 two (Q2Qc 2) _ _ H (shift_spec Qco 1 two (Q2Qc 2))). reflexivity.
Qed.

(** ** an operator that failed to load can be loaded later *)
Definition C91_retry : Prop := forall (F : ofld) eig junk fs (s0 s : mop F) p p' name name' f n d l r,
  mo_init s0 = false -> mp_file p = Some name -> fs name = None -> mat_init F eig junk fs plain s0 p = (s, Throw) ->
  mp_file p' = Some name' -> fs name' = Some f -> whole f n d -> eig n d = l :: r ->
  exists s', mat_init F eig junk fs plain s p' = (s', Ok tt) /\ mo_n s' = n.
Definition one_file (n : str) : option (mfile Qco) := if list_eq_dec ascii_dec n (lit "H") then Some strm2 else None.
Definition ask_other : mpars Qco := @mkMP Qco 0 (Some (lit "h")) false false false None None.
Theorem C91_retry_refuted : ~ C91_retry.
Proof.
  intros H. destruct (H Qco own noise one_file new_mop _ ask_other (ask false) (lit "h") (lit "H") strm2 1%nat two (Q2Qc 2) [] eq_refl eq_refl eq_refl eq_refl eq_refl eq_refl strm2_whole eq_refl) as (s & E & _).
  apply (f_equal snd) in E. discriminate E.
Qed.
Print Assumptions C91_retry_refuted.
(** the file is never read again: without a size Init throws, with a size the matrix keeps the content of a new one *)
Theorem C91_retry_code : forall (F : ofld) eig junk fs (s0 : mop F) p name, mo_init s0 = false -> mp_file p = Some name -> fs name = None ->
  exists s, mat_init F eig junk fs plain s0 p = (s, Throw) /\ forall p' name', mp_file p' = Some name' ->
    (mp_size p' = 0 -> snd (mat_init F eig junk fs plain s p') = Throw) /\
    (mp_size p' > 0 -> Z.to_nat (mp_size p') <> mo_n s0 -> exists s', mat_init F eig junk fs plain s p' = (s', Ok tt) /\ mo_d s' = junk (Z.to_nat (mp_size p'))).
Proof.
  intros F eig junk fs s0 p name I P E. unfold mat_init at 1. rewrite P. cbn [set_par mo_init]. rewrite I. unfold read_mat. rewrite E. eexists. split; [reflexivity|].
  intros p' name' P'. unfold mat_init. rewrite P'. cbn [set_par set_init mo_init]. unfold init_size. split.
  - intros ->. reflexivity.
  - intros G N. rewrite (proj2 (Z.eqb_neq (mp_size p') 0)), (proj2 (Z.ltb_ge (mp_size p') 0)) by lia. eexists. split; [reflexivity|].
    unfold newsize. cbn [mo_n set_par set_init]. rewrite (proj2 (Nat.eqb_neq _ _) N). destruct (mp_qdiag p'); reflexivity.
Qed.
Print Assumptions C91_retry_code.
Example C91_retry_ex : one_file (lit "h") = None /\ one_file (lit "H") = Some strm2 /\ mp_size (@mkMP Qco 2 (Some (lit "H")) false false false None None) > 0.
Proof. repeat split. Qed.

(** ** without file the size is asked for; 0 is refused *)
Theorem C91_size : forall (F : ofld) eig junk fs (s : mop F) p, mp_file p = None ->
  (mp_size p = 0 -> snd (mat_init F eig junk fs plain s p) = Throw) /\
  (mp_size p > 0 -> exists s', mat_init F eig junk fs plain s p = (s', Ok tt) /\ Z.of_nat (mo_n s') = mp_size p).
Proof.
  intros F eig junk fs s p P. unfold mat_init. rewrite P. unfold init_size. split.
  - intros ->. reflexivity.
  - intros G. rewrite (proj2 (Z.eqb_neq (mp_size p) 0)), (proj2 (Z.ltb_ge (mp_size p) 0)) by lia. eexists. split; [reflexivity|].
    assert (X : forall s1, mo_n (if mp_qdiag p then init_dspace F eig (set_x s1) else s1) = mo_n s1) by (intros s1; destruct (mp_qdiag p); reflexivity).
    rewrite X. unfold newsize. destruct (Z.to_nat (mp_size p) =? mo_n (set_par s p))%nat eqn:B; [apply Nat.eqb_eq in B|]; cbn [set_valid mo_n] in *; lia.
Qed.
Print Assumptions C91_size.
Example C91_size_ex : mp_file (@mkMP Qco 3 None false true false None None) = None /\ mp_size (@mkMP Qco 3 None false true false None None) > 0.
Proof. repeat split. Qed.

(** ** the exponential is that of the matrix: the exponents are the factor times its eigenvalues *)
Definition C91_exponents : Prop := forall (F : ofld) eig junk fs p name f n d l r s' a,
  mp_file p = Some name -> fs name = Some f -> whole f n d -> eig n d = l :: r ->
  mat_init F eig junk fs plain new_mop p = (s', Ok tt) ->
  exponents F eig s' a = map (fun x => cx_scale x a) (eig n (mo_d s')).
(** with "setzero" the eigenvalues computed before the shift stay *)
Theorem C91_exponents_code : forall (F : ofld) eig junk fs p name f n d l r s' a,
  mp_file p = Some name -> fs name = Some f -> whole f n d -> eig n d = l :: r ->
  mat_init F eig junk fs plain new_mop p = (s', Ok tt) ->
  exponents F eig s' a = map (fun x => cx_scale x a) (eig n d).
Proof.
  intros F eig junk fs p name f n d l r s' a P E W G R.
  destruct (load F eig junk fs new_mop p name f n d plain (if mp_zero (in_effect f p) then l else c0) P eq_refl E W) as (s1 & A & B & C & _ & _ & _ & K0 & K1).
  - intros Z. rewrite Z. exists l, r. split; [|reflexivity]. unfold believed. cbn [new_mop mo_valid]. rewrite G. destruct f; reflexivity.
  - intros Z. rewrite Z. reflexivity.
  - rewrite A in R. injection R as <-. unfold exponents. destruct (mp_zero (in_effect f p)) eqn:Z.
    + rewrite (K1 eq_refl), (K1 eq_refl). unfold believed. cbn [new_mop mo_valid]. destruct f; reflexivity.
    + destruct (K0 eq_refl) as (K & _). rewrite K. cbn [new_mop mo_ev init_dspace]. rewrite B. rewrite (lowered_unique F n d c0 _ d C (lowered_0 F n d (proj1 (proj2 W)))). reflexivity.
Qed.
Print Assumptions C91_exponents_code.
Theorem C91_exponents_refuted : ~ C91_exponents.
Proof.
  intros H. pose proof (H Qco own noise (fun _ => Some strm2) (ask true) (lit "H") strm2 1%nat two (Q2Qc 2) [] _ c1 eq_refl eq_refl strm2_whole eq_refl eq_refl) as X.
  apply (f_equal (fun l => match l with z :: _ => Qcanon.this (fst z) | [] => 0%Q end)) in X. vm_compute in X. discriminate X.
Qed.
Print Assumptions C91_exponents_refuted.
(** true without "setzero" *)
Theorem C91_exponents_partial : forall (F : ofld) eig junk fs p name f n d l r s' a,
  mp_file p = Some name -> fs name = Some f -> whole f n d -> eig n d = l :: r -> mp_zero (in_effect f p) = false ->
  mat_init F eig junk fs plain new_mop p = (s', Ok tt) ->
  exponents F eig s' a = map (fun x => cx_scale x a) (eig n (mo_d s')).
Proof.
  intros F eig junk fs p name f n d l r s' a P E W G Z R. rewrite (C91_exponents_code F eig junk fs p name f n d l r s' a P E W G R).
  destruct (C91_load_code F eig junk fs new_mop p name f n d l r eq_refl eq_refl P E W G) as (s1 & A & _ & C & _). rewrite A in R. injection R as <-. rewrite Z in C.
  rewrite (lowered_unique F n d c0 _ d C (lowered_0 F n d (proj1 (proj2 W)))). reflexivity.
Qed.
Print Assumptions C91_exponents_partial.
Example C91_exponents_ex : mp_zero (in_effect strm2 (ask false)) = false /\ snd (mat_init Qco own noise (fun _ => Some strm2) plain new_mop (ask false)) = Ok tt.
Proof. split; reflexivity. Qed.

(** ** whenever eigenvectors are there, the transformation into the eigenbasis uses them *)
Definition C91_transform : Prop := forall (F : ofld) eig junk fs p s' m, mat_init F eig junk fs plain new_mop p = (s', Ok tt) ->
  low_ev F eig s' = m -> mo_x (fst m) = true -> mo_xt (fst m) = true.
(** "qdiag" makes the matrix of eigenvectors itself and so keeps the transformation from being told *)
Theorem C91_transform_code : forall (F : ofld) eig junk fs p, mp_file p = None -> mp_size p > 0 ->
  exists s', mat_init F eig junk fs plain new_mop p = (s', Ok tt) /\ mo_x (fst (low_ev F eig s')) = true /\ mo_xt (fst (low_ev F eig s')) = negb (mp_qdiag p).
Proof.
  intros F eig junk fs p P G. unfold mat_init. rewrite P. unfold init_size.
  rewrite (proj2 (Z.eqb_neq (mp_size p) 0)), (proj2 (Z.ltb_ge (mp_size p) 0)) by lia. eexists. split; [reflexivity|].
  unfold newsize. cbn [new_mop set_par mo_n]. rewrite (proj2 (Nat.eqb_neq (Z.to_nat (mp_size p)) 0)) by lia. destruct (mp_qdiag p); split; reflexivity.
Qed.
Print Assumptions C91_transform_code.
Theorem C91_transform_refuted : ~ C91_transform.
Proof.
  intros H. destruct (C91_transform_code Qco own noise (fun _ => None) (@mkMP Qco 1 None false true false None None) eq_refl eq_refl) as (s & E & X & T).
  rewrite (H Qco own noise (fun _ => None) _ s _ E eq_refl X) in T. discriminate T.
Qed.
Print Assumptions C91_transform_refuted.
(** true for files whose meta data does not ask for "qdiag" *)
Theorem C91_transform_partial : forall (F : ofld) eig junk fs p name f n d l r,
  mp_file p = Some name -> fs name = Some f -> whole f n d -> eig n d = l :: r -> mp_zero (in_effect f p) = false ->
  exists s', mat_init F eig junk fs plain new_mop p = (s', Ok tt) /\ mo_x (fst (low_ev F eig s')) = true /\ mo_xt (fst (low_ev F eig s')) = true.
Proof.
  intros F eig junk fs p name f n d l r P E W G Z.
  destruct (load F eig junk fs new_mop p name f n d plain c0 P eq_refl E W) as (s' & A & B & C & _ & V & _ & K & _); [intros X; rewrite Z in X; discriminate X|reflexivity|].
  exists s'. split; [exact A|]. destruct (K Z) as (_ & X & T). unfold low_ev. rewrite V. cbn [fst init_dspace mo_x mo_xt]. rewrite X. split; reflexivity.
Qed.
Print Assumptions C91_transform_partial.
Example C91_transform_ex : mp_size (@mkMP Qco 1 None false true false None None) > 0 /\ mp_qdiag (@mkMP Qco 1 None false true false None None) = true.
Proof. repeat split. Qed.

(** ** applying multiplies with the matrix; a wave function of another size is left out silently *)
Theorem C91_apply : forall (F : ofld) (s : mop F) dest psi,
  (length psi = mo_n s -> product (mo_n s) (mo_d s) c1 psi (mat_apply s dest psi)) /\ (length psi <> mo_n s -> mat_apply s dest psi = dest).
Proof.
  intros F s dest psi. unfold mat_apply. split; intros L.
  - rewrite L, Nat.eqb_refl. split; [unfold mat_vec; rewrite map_length, seq_length; reflexivity|]. intros i Hi. rewrite (mat_vec_spec F _ _ psi i Hi). f_equal.
    match goal with |- ?z = _ => destruct z as [x y] end. unfold cx_scale. cbn [fst snd]. rewrite !(Ring_theory.Rmul_1_l (cr_th F)). reflexivity.
  - rewrite (proj2 (Nat.eqb_neq (mo_n s) (length psi))) by congruence. reflexivity.
Qed.
Print Assumptions C91_apply.
Example C91_apply_ex : length [c1 : Cx Qco] = mo_n used /\ length ([] : list (Cx Qco)) <> mo_n used.
Proof. split; [reflexivity|discriminate]. Qed.

(** ** a dipole matrix couples as - scale mu E(t) *)
Definition C91_coupling : Prop := forall (F : ofld) eig junk fs lfs p name f n d L E dt c t e dest psi,
  mp_file p = Some name -> fs name = Some f -> whole f n d -> mp_zero (in_effect f p) = false -> mp_empty p = false ->
  mp_laser p = Some L -> lfs L = Some (E, dt) -> fits c (E, dt) -> nth_error E t = Some e -> length psi = n ->
  exists D r, mdip_start F eig junk fs lfs p c t = Ok D /\ mdip_apply D dest psi = Ok r /\ product n d (copp (cmul e (mscale_of p))) psi r.
(** the scale is that of the parameters in effect after reading *)
Theorem C91_coupling_code : forall (F : ofld) eig junk fs lfs p name f n d L E dt c t e dest psi,
  mp_file p = Some name -> fs name = Some f -> whole f n d -> mp_zero (in_effect f p) = false -> mp_empty p = false ->
  mp_laser p = Some L -> lfs L = Some (E, dt) -> fits c (E, dt) -> nth_error E t = Some e -> length psi = n ->
  exists D r, mdip_start F eig junk fs lfs p c t = Ok D /\ mdip_apply D dest psi = Ok r /\ product n d (copp (cmul e (mscale_of (in_effect f p)))) psi r.
Proof.
  intros F eig junk fs lfs p name f n d L E dt c t e dest psi P Ef W Z Em PL EL Fi He Lp.
  destruct (start_ok F eig junk fs lfs p name f n d L E dt c t P Ef W Z Em PL EL Fi) as (D & S & N & Dd & La & Cl & _).
  destruct (apply_ok F D n d (cmul e (mscale_of (in_effect f p))) dest psi N Dd) as (r & A & R); [unfold mfield; rewrite Cl, La; cbn [cl_step la_data la_scale]; rewrite He; reflexivity|exact Lp|].
  exists D, r. auto.
Qed.
Print Assumptions C91_coupling_code.
Definition mu_raw : mfile Qco := raw2.
Definition askd : mpars Qco := @mkMP Qco 0 (Some (lit "mu")) false false false (Some (Q2Qc 3)) (Some (lit "E")).
Definition field2 (_ : str) : option (list Qco * Qco) := Some ([Q2Qc 1; Q2Qc 2], Q2Qc 1).
Definition clock2 : clock Qco := @mkClock Qco (Q2Qc 1) 2 0.
Lemma fits2 : fits clock2 ([Q2Qc 1; Q2Qc 2], Q2Qc 1). Proof. split; [reflexivity|cbn; lia]. Qed.
Theorem C91_coupling_refuted : ~ C91_coupling.
Proof.
  intros H.
  destruct (H Qco own noise (fun _ => Some raw2) field2 askd (lit "mu") raw2 1%nat two (lit "E") [Q2Qc 1; Q2Qc 2] (Q2Qc 1) clock2 0%nat (Q2Qc 1) [] [c1]) as (D & r & S & A & [_ R]); try reflexivity; [exact raw2_whole|exact fits2|].
  destruct (C91_coupling_code Qco own noise (fun _ => Some raw2) field2 askd (lit "mu") raw2 1%nat two (lit "E") [Q2Qc 1; Q2Qc 2] (Q2Qc 1) clock2 0%nat (Q2Qc 1) [] [c1]) as (D' & r' & S' & A' & [_ R']); try reflexivity; [exact raw2_whole|exact fits2|].
  rewrite S in S'. injection S' as <-. rewrite A in A'. injection A' as <-.
  specialize (R 0%nat (Nat.lt_succ_diag_r 0)). rewrite (R' 0%nat (Nat.lt_succ_diag_r 0)) in R.
  apply (f_equal (fun o => match o with Some z => Qcanon.this (fst z) | None => 0%Q end)) in R. vm_compute in R. discriminate R.
Qed.
Print Assumptions C91_coupling_refuted.
(** true for streams, and for meta files with the same scale *)
Theorem C91_coupling_partial : forall (F : ofld) eig junk fs lfs p name f n d L E dt c t e dest psi,
  mp_file p = Some name -> fs name = Some f -> whole f n d -> mp_zero (in_effect f p) = false -> mp_empty p = false -> mp_scale (in_effect f p) = mp_scale p ->
  mp_laser p = Some L -> lfs L = Some (E, dt) -> fits c (E, dt) -> nth_error E t = Some e -> length psi = n ->
  exists D r, mdip_start F eig junk fs lfs p c t = Ok D /\ mdip_apply D dest psi = Ok r /\ product n d (copp (cmul e (mscale_of p))) psi r.
Proof.
  intros F eig junk fs lfs p name f n d L E dt c t e dest psi P Ef W Z Em Sc PL EL Fi He Lp.
  destruct (C91_coupling_code F eig junk fs lfs p name f n d L E dt c t e dest psi P Ef W Z Em PL EL Fi He Lp) as (D & r & A & B & C).
  exists D, r. replace (mscale_of p) with (mscale_of (in_effect f p)); [auto|]. unfold mscale_of. rewrite Sc. reflexivity.
Qed.
Print Assumptions C91_coupling_partial.
Example C91_coupling_ex : whole strm2 1 two /\ mp_scale (in_effect strm2 askd) = mp_scale askd /\ fits clock2 ([Q2Qc 1; Q2Qc 2], Q2Qc 1) /\ nth_error [Q2Qc 1; Q2Qc 2] 1 = Some (Q2Qc 2).
Proof. split; [apply strm2_whole|]. split; [reflexivity|]. split; [apply fits2|reflexivity]. Qed.

(** ** the exponents of a dipole matrix are the factor times the eigenvalues of the coupling: what applying the operator does to a vector
    that the matrix multiplies with the eigenvalue x *)
Theorem C91_dipole_exponents : forall (F : ofld) eig (D : mdip F) a e, mfield D = Ok e ->
  mdip_exponents F eig D a = Ok (map (fun x => cx_scale (copp (cmul e x)) a) (match mo_ev (md_op D) with Some l => l | None => eig (mo_n (md_op D)) (mo_d (md_op D)) end)) /\
  (forall x dest psi, length psi = mo_n (md_op D) -> product (mo_n (md_op D)) (mo_d (md_op D)) c1 psi (map (cx_scale x) psi) ->
    mdip_apply D dest psi = Ok (map (cx_scale (copp (cmul e x))) psi)).
Proof. intros F eig. exact (dipole_exponents F eig (fun _ => [])). Qed.
Print Assumptions C91_dipole_exponents.
Definition dip_now : mdip Qco := @mkMdip Qco used (@mkLaser Qco [Q2Qc 2] (Q2Qc 1) (Q2Qc 1)) true (Some (@mkClock Qco (Q2Qc 1) 1 0)).
Example C91_dipole_exponents_ex : mfield dip_now = Ok (Q2Qc 2 : Qco) /\ (length [(Q2Qc 1, Q2Qc 1)] = mo_n (md_op dip_now))%nat /\ product (mo_n (md_op dip_now)) (mo_d (md_op dip_now)) c1 [(Q2Qc 1, Q2Qc 1) : Cx Qco] (map (cx_scale (Q2Qc 5 : Qco)) [(Q2Qc 1, Q2Qc 1) : Cx Qco]).
Proof. split; [reflexivity|]. split; [reflexivity|]. split; [reflexivity|]. intros [|i] I; [reflexivity|cbn in I; lia]. Qed.

(** ** "setzero" for a dipole matrix moves its lowest eigenvalue to zero *)
Definition C91_dipole_zero : Prop := forall (F : ofld) eig junk fs lfs p name f n d l r L E dt,
  mp_file p = Some name -> fs name = Some f -> whole f n d -> mp_zero (in_effect f p) = true -> mp_empty p = false ->
  mp_laser p = Some L -> lfs L = Some (E, dt) -> E <> [] -> eig n d = l :: r ->
  exists D, mdip_init F eig junk fs lfs new_mdip p = (D, Ok tt) /\ lowered n d l (mo_d (md_op D)).
(** the virtual Emin is the eigenvalue times the lowest field, and this is what is taken from the diagonal *)
Theorem C91_dipole_zero_code : forall (F : ofld) eig junk fs lfs p name f n d l r L E dt,
  mp_file p = Some name -> fs name = Some f -> whole f n d -> mp_zero (in_effect f p) = true -> mp_empty p = false ->
  mp_laser p = Some L -> lfs L = Some (E, dt) -> E <> [] -> eig n d = l :: r ->
  exists D e, mdip_init F eig junk fs lfs new_mdip p = (D, Ok tt) /\ lowest E e /\ lowered n d (cmul l e) (mo_d (md_op D)).
Proof.
  intros F eig junk fs lfs p name f n d l r L E dt P Ef W Z Em PL EL NE G. destruct (vec_min_ok F E NE) as (e & Ve & Lo).
  destruct (load F eig junk fs new_mop p name f n d (dip_min (mkLaser E dt c1)) (cmul l e) P eq_refl Ef W) as (s & A & _ & C & _).
  - intros _. exists l, r. split; [unfold believed; cbn [new_mop mo_valid]; rewrite G; destruct f; reflexivity|]. unfold dip_min. cbn [la_data]. rewrite Ve. reflexivity.
  - intros X. rewrite Z in X. discriminate X.
  - unfold mdip_init. cbn [new_mdip md_init md_laser md_op md_clock orb la_scale]. rewrite Em, PL, EL. rewrite A. eexists. exists e. split; [reflexivity|]. split; [exact Lo|exact C].
Qed.
Print Assumptions C91_dipole_zero_code.
Definition askz : mpars Qco := @mkMP Qco 0 (Some (lit "mu")) true false false None (Some (lit "E")).
Definition field5 (_ : str) : option (list Qco * Qco) := Some ([Q2Qc 5], Q2Qc 1).
Theorem C91_dipole_zero_refuted : ~ C91_dipole_zero.
Proof.
  intros H.
  destruct (H Qco own noise (fun _ => Some strm2) field5 askz (lit "mu") strm2 1%nat two (Q2Qc 2) [] (lit "E") [Q2Qc 5] (Q2Qc 1)) as (D & S & [_ R]); try reflexivity; [exact strm2_whole|discriminate|].
  destruct (C91_dipole_zero_code Qco own noise (fun _ => Some strm2) field5 askz (lit "mu") strm2 1%nat two (Q2Qc 2) [] (lit "E") [Q2Qc 5] (Q2Qc 1)) as (D' & e & S' & [Ie _] & [_ R']); try reflexivity; [exact strm2_whole|discriminate|].
  rewrite S in S'. injection S' as <-. destruct Ie as [<-|[]].
  specialize (R 0%nat 0%nat (Nat.lt_succ_diag_r 0) (Nat.lt_succ_diag_r 0)). rewrite (R' 0%nat 0%nat (Nat.lt_succ_diag_r 0) (Nat.lt_succ_diag_r 0)) in R.
  apply (f_equal Qcanon.this) in R. vm_compute in R. discriminate R.
Qed.
Print Assumptions C91_dipole_zero_refuted.
Example C91_dipole_zero_ex : whole strm2 1 two /\ mp_zero (in_effect strm2 askz) = true /\ field5 (lit "E") = Some ([Q2Qc 5], Q2Qc 1).
Proof. split; [apply strm2_whole|]. split; reflexivity. Qed.

(** ** the eigenvalues of the coupling at every step lie between the reported bounds *)
Definition C91_bounds : Prop := forall (F : ofld) eig junk fs lfs p name f n d L E dt c t e D lo hi x,
  mp_file p = Some name -> fs name = Some f -> whole f n d -> mp_zero (in_effect f p) = false -> mp_empty p = false -> mscale_of (in_effect f p) = c1 ->
  mp_laser p = Some L -> lfs L = Some (E, dt) -> fits c (E, dt) -> mdip_start F eig junk fs lfs p c t = Ok D -> mfield D = Ok e ->
  mdip_emin F eig D = Ok lo -> mdip_emax F eig D = Ok hi -> In x (eig n d) -> between lo (copp (cmul e x)) hi.
Definition ask1 : mpars Qco := @mkMP Qco 0 (Some (lit "mu")) false false false None (Some (lit "E")).
Theorem C91_bounds_refuted : ~ C91_bounds.
Proof.
  intros H.
  destruct (start_ok Qco own noise (fun _ => Some strm2) field5 ask1 (lit "mu") strm2 1%nat two (lit "E") [Q2Qc 5] (Q2Qc 1) (@mkClock Qco (Q2Qc 1) 1 0) 0%nat) as (D & S & N & Dd & La & Cl & Ev);
    try reflexivity; [exact strm2_whole|split; [reflexivity|cbn; lia]|].
  pose proof (valid_ok Qco own noise (fun _ => Some strm2) field5 ask1 (lit "mu") strm2 1%nat two _ _ D eq_refl eq_refl strm2_whole eq_refl S) as V.
  assert (E1 : mdip_emin Qco own D = Ok (cmul (Q2Qc 2 : Qco) (Q2Qc 5))). { unfold mdip_emin, low_ev. rewrite V. cbn [init_dspace mo_ev snd]. rewrite Dd, La. reflexivity. }
  assert (E2 : mdip_emax Qco own D = Ok (cmul (Q2Qc 2 : Qco) (Q2Qc 5))). { unfold mdip_emax, high_ev. rewrite V. cbn [init_dspace mo_ev snd]. rewrite Dd, La. reflexivity. }
  assert (E3 : mfield D = Ok (cmul (Q2Qc 5 : Qco) c1)). { unfold mfield. rewrite Cl, La. reflexivity. }
  assert (B : between (cmul (Q2Qc 2 : Qco) (Q2Qc 5)) (copp (cmul (cmul (Q2Qc 5 : Qco) c1) (Q2Qc 2))) (cmul (Q2Qc 2 : Qco) (Q2Qc 5))).
  { apply (H Qco own noise (fun _ => Some strm2) field5 ask1 (lit "mu") strm2 1%nat two (lit "E") [Q2Qc 5] (Q2Qc 1) (@mkClock Qco (Q2Qc 1) 1 0) 0%nat _ D); try assumption; try reflexivity;
      [exact strm2_whole|split; [reflexivity|cbn; lia]|left; reflexivity]. }
  destruct B as [B _].
  destruct B as [B|B]; [unfold olt in B; vm_compute in B; discriminate B|apply (f_equal Qcanon.this) in B; vm_compute in B; discriminate B].
Qed.
Print Assumptions C91_bounds_refuted.
(** true is, for a spectrum and a field both within their highest value in magnitude: the coupling lies between -Emax and Emax *)
Theorem C91_bounds_partial : forall (F : ofld) eig junk fs lfs p name f n d l r L E dt c t e D x,
  mp_file p = Some name -> fs name = Some f -> whole f n d -> mp_zero (in_effect f p) = false -> mp_empty p = false -> mscale_of (in_effect f p) = c1 ->
  mp_laser p = Some L -> lfs L = Some (E, dt) -> fits c (E, dt) -> mdip_start F eig junk fs lfs p c t = Ok D -> mfield D = Ok e ->
  eig n d = l :: r -> (forall y, In y (l :: r) -> between (copp (last (l :: r) l)) y (last (l :: r) l)) ->
  (forall y z, highest E z -> In y E -> between (copp z) y z) -> In x (l :: r) ->
  exists hi, mdip_emax F eig D = Ok hi /\ between (copp hi) (copp (cmul e x)) hi.
Proof.
  intros F eig junk fs lfs p name f n d l r L E dt c t e D x P Ef W Z Em Sc PL EL Fi St Fe G B1 B2 Ix. exact (bounds_ok F eig junk fs lfs p name f n d l r L E dt c t e D x P Ef W Z Em Sc PL EL Fi St Fe G B1 B2 Ix).
Qed.
Print Assumptions C91_bounds_partial.
Example C91_bounds_ex : own 1 two = [Q2Qc 2] /\ between (copp (Q2Qc 2 : Qco)) (Q2Qc 2) (Q2Qc 2) /\ between (copp (Q2Qc 5 : Qco)) (Q2Qc 5) (Q2Qc 5).
Proof. split; [reflexivity|]. split; (split; [left; reflexivity|right; reflexivity]). Qed.
