(** Properties C39, C40: projection and jump operators. *)
From Coq Require Import List ZArith Lia Bool QArith Qcanon.
From Verif Require Import Base Arrays Algebra Model.Operators Spec.Operators Proofs.OMultistate Model.Projection Spec.Projection Proofs.Projection.
Import ListNotations.
Open Scope Z_scope.

(** * C39 *)
(** What the operator computes in both forms, for any states. *)
Theorem C39_apply : forall (R : cring) (M : cmodule R) dot s dest src, j_buf R M s = true ->
  let p := mscale (j_sign R M s) (onto R M dot (j_states R M s) src) in
  let r := if j_inv R M s then madd src (mopp p) else p in
  j_cp R M dot s dest src = Ok r /\ j_ip R M dot s src = Ok r.
Proof.
  intros R M dot s dest src B p r. split; [apply cp_ok; auto|]. unfold j_ip. rewrite B. apply cp_ok. auto.
Qed.
Print Assumptions C39_apply.
(** A positive projector applied twice is the projector applied once, direct or inverse. *)
Theorem C39_idempotent : forall (R : cring) (M : cmodule R) dot s x y, linear_dot R M dot -> orthonormal R M dot (j_states R M s) ->
  j_buf R M s = true -> j_sign R M s = c1 -> j_ip R M dot s x = Ok y -> j_ip R M dot s y = Ok y.
Proof.
  intros R M dot s x y L O B Sg E. rewrite (proj2 (C39_apply R M dot s x x B)) in E. rewrite (proj2 (C39_apply R M dot s y y B)). injection E as E. subst y. rewrite Sg, mscale_1. f_equal.
  destruct (j_inv R M s).
  - rewrite (onto_zero R M dot (j_states R M s) (madd x (mopp (onto R M dot (j_states R M s) x)))) by (intros w Hw; apply rest_zero; assumption).
    rewrite (mscale_m0 R M c1), (mopp_scale R M m0), (mscale_m0 R M), madd_0r, ?mscale_1. reflexivity.
  - rewrite !mscale_1. apply onto_idem; assumption.
Qed.
(** The projector keeps the overlaps with its states and its states themselves; the inverse projector removes exactly these
    states: nothing of them is left, and what has nothing of them is not changed. *)
Theorem C39_keeps : forall (R : cring) (M : cmodule R) dot s x y w, linear_dot R M dot -> orthonormal R M dot (j_states R M s) ->
  j_buf R M s = true -> j_sign R M s = c1 -> j_inv R M s = false -> In w (j_states R M s) -> j_ip R M dot s x = Ok y -> dot w y = dot w x /\ j_ip R M dot s w = Ok w.
Proof.
  intros R M dot s x y w L O B Sg I Hw E. rewrite (proj2 (C39_apply R M dot s x x B)) in E. rewrite (proj2 (C39_apply R M dot s w w B)). rewrite I, Sg in *. rewrite mscale_1 in *. injection E as <-.
  split; [apply dot_onto; assumption|]. f_equal. apply onto_member; assumption.
Qed.
Print Assumptions C39_keeps.
Theorem C39_removes : forall (R : cring) (M : cmodule R) dot s x y, linear_dot R M dot -> orthonormal R M dot (j_states R M s) ->
  j_buf R M s = true -> j_sign R M s = c1 -> j_inv R M s = true -> j_ip R M dot s x = Ok y ->
  (forall w, In w (j_states R M s) -> dot w y = c0) /\ ((forall w, In w (j_states R M s) -> dot w x = c0) -> y = x) /\ forall w, In w (j_states R M s) -> j_ip R M dot s w = Ok m0.
Proof.
  intros R M dot s x y L O B Sg I E. rewrite (proj2 (C39_apply R M dot s x x B)) in E. rewrite I, Sg in E. rewrite mscale_1 in E. injection E as <-. split; [|split].
  - intros w Hw. apply rest_zero; assumption.
  - intros H. rewrite (onto_zero R M dot _ x H). rewrite mopp_scale, mscale_m0, madd_0r. reflexivity.
  - intros w Hw. rewrite (proj2 (C39_apply R M dot s w w B)). rewrite I, Sg, mscale_1, (onto_member R M dot _ w O Hw), madd_opp. reflexivity.
Qed.
Print Assumptions C39_removes.
(** The parameters: without 'positive' the projection is subtracted instead of added, so that such an operator applied twice is the
    positive projector, and its inverse form doubles the states instead of removing them. *)
Theorem C39_params_code : forall (R : cring) (M : cmodule R) dot s pos inv src, j_buf R M s = true ->
  let p := onto R M dot (j_states R M s) src in
  j_ip R M dot (j_params R M s pos inv) src =
    Ok (match pos, inv with true, false => p | true, true => madd src (mopp p) | false, false => mopp p | false, true => madd src p end).
Proof.
  intros R M dot s pos inv src B p. rewrite (proj2 (C39_apply R M dot (j_params R M s pos inv) src src B)). cbn [j_params j_sign j_states j_inv]. f_equal. fold p.
  destruct pos, inv; rewrite ?mscale_1; try reflexivity.
  - rewrite <- mopp_scale. f_equal. apply mopp_opp.
  - rewrite <- mopp_scale. reflexivity.
Qed.
Print Assumptions C39_params_code.
(** Full statement for copies: a copy acts like the original. *)
Definition C39_copy_full : Prop := forall (R : cring) (M : cmodule R) dot this o dest src, j_buf R M this = true -> j_buf R M o = true ->
  exists c, j_copy R M this o = Ok c /\ j_cp R M dot c dest src = j_cp R M dot o dest src.
(** A copy has no states at all, whatever the original had. *)
Theorem C39_copy_code : forall (R : cring) (M : cmodule R) dot this o, exists c, j_copy R M this o = Ok c /\ j_states R M c = [] /\
  (j_inv R M o = false -> forall dest src, j_cp R M dot c dest src = Ok m0) /\ (j_states R M this <> [] -> forall psi, j_ip R M dot c psi = UB).
Proof.
  intros R M dot this o. eexists. split; [exact (copy_empty R M dot this o)|]. split; [reflexivity|]. split.
  - intros I dest src. unfold j_cp. cbn [j_states j_inv]. rewrite (foldM_rd (fun d w => madd d (mscale (cmul (dot w src) (j_sign R M o)) w))). cbn [bind fold_left]. rewrite I. reflexivity.
  - intros N psi. unfold j_ip. cbn [j_buf]. destruct (Z.ltb_spec 0 (zlen (j_states R M this))) as [|Q]; [reflexivity|]. destruct (j_states R M this); [congruence|unfold zlen in Q; cbn in Q; lia].
Qed.
Print Assumptions C39_copy_code.
(** States added before the operator is initialised with a wave function: no buffer, and the in place form fails. *)
Theorem C39_init_code : forall (R : cring) (M : cmodule R) dot w psi, j_ip R M dot (j_init R M (j_add R M (j_new R M) w)) psi = UB.
Proof. reflexivity. Qed.
Print Assumptions C39_init_code.

(** Pairs of integers. *)
Definition Z2 : cmodule Zr.
Proof.
  refine (mkMod Zr (Z * Z) (0, 0) (fun x y => (fst x + fst y, snd x + snd y)) (fun x => (- fst x, - snd x)) (fun a x => (a * fst x, a * snd x)) _ _ _ _ _ _ _ _);
    intros; repeat match goal with x : (_ * _)%type |- _ => destruct x end; cbn [fst snd Zr cadd cmul c1]; f_equal; ring.
Defined.
Definition ex_dot (x y : Z2) : Zr := fst x * fst y + snd x * snd y.
Definition ex_p : proj Zr Z2 := j_add Zr Z2 (j_init Zr Z2 (j_new Zr Z2)) ((0, -1) : Z2).
Example C39_ex : linear_dot Zr Z2 ex_dot /\ orthonormal Zr Z2 ex_dot (j_states Zr Z2 ex_p) /\ j_buf Zr Z2 ex_p = true /\ j_sign Zr Z2 ex_p = c1 /\ j_ip Zr Z2 ex_dot ex_p (3, 4) = Ok ((0, 4) : Z2) /\
  j_ip Zr Z2 ex_dot (j_params Zr Z2 ex_p true true) (3, 4) = Ok ((3, 0) : Z2).
Proof.
  split; [split; [intros [] [] []|intros [] a []]; unfold ex_dot; cbn; ring|]. split.
  - intros [|i] [|j] x y Hx Hy; cbn in Hx, Hy; try (destruct i; discriminate); try (destruct j; discriminate). injection Hx as <-. injection Hy as <-. reflexivity.
  - repeat split.
Qed.
Example C39_params_ex : j_ip Zr Z2 ex_dot (j_params Zr Z2 ex_p false false) (3, 4) = Ok ((0, -4) : Z2) /\ j_ip Zr Z2 ex_dot (j_params Zr Z2 ex_p false true) (3, 4) = Ok ((3, 8) : Z2).
Proof. split; reflexivity. Qed.
Theorem C39_copy_refuted : ~ C39_copy_full.
Proof.
  intros H. destruct (H Zr Z2 ex_dot (j_init Zr Z2 (j_new Zr Z2)) ex_p (0, 0) (3, 4) eq_refl eq_refl) as (c & E & P).
  cbn in E. injection E as <-. discriminate P.
Qed.
Print Assumptions C39_copy_refuted.
Print Assumptions C39_idempotent.

(** * C40 *)
(** For at least one jump operator with probabilities that are not negative: the step is refused if the total probability is
    not below the maximum; without that, nothing but the normalisation happens if the random number is not below the total, and operator i is
    applied if the random number lies in the i-th interval of the cumulative probabilities. *)
Theorem C40_partial : forall (R : cring) (M : cmodule R) junk normalize prob l fs mx rnd n psi,
  Forall2 (implements R M) l fs -> l <> [] ->
  let p := map (fun f : M -> M => prob (f (normalize psi))) fs in Forall (fun x => Q2Qc 0 <= x)%Qc p ->
  ((mx <= cum p (length fs))%Qc -> jump R M junk normalize prob l mx rnd n psi = Throw) /\
  ((cum p (length fs) < mx)%Qc -> (cum p (length fs) <= rnd)%Qc -> exists n', jump R M junk normalize prob l mx rnd n psi = Ok (normalize psi, n')) /\
  ((cum p (length fs) < mx)%Qc -> forall i f, nth_error fs i = Some f -> (i = O \/ (cum p i <= rnd)%Qc) -> (rnd < cum p (S i))%Qc ->
     exists n', jump R M junk normalize prob l mx rnd n psi = Ok (normalize (f (normalize psi)), n')).
Proof. intros R M junk normalize prob l fs mx rnd n psi F NE p Pos. exact (jump_ok R M junk normalize prob l fs mx rnd n psi F NE Pos). Qed.
(** These cases are all there are: a random number below the total lies in one of the intervals. *)
Theorem C40_cases : forall p rnd, (Q2Qc 0 <= rnd)%Qc -> (rnd < cum p (length p))%Qc -> exists i, (i < length p)%nat /\ (cum p i <= rnd)%Qc /\ (rnd < cum p (S i))%Qc.
Proof.
  intros p rnd H0 H. assert (G : forall k, (rnd < cum p k)%Qc -> exists i, (i < k)%nat /\ (cum p i <= rnd)%Qc /\ (rnd < cum p (S i))%Qc).
  { induction k as [|k IH]; intros Hk; [exfalso; exact (Qclt_not_le _ _ Hk H0)|]. destruct (Qclt_le_dec rnd (cum p k)) as [Q|Q].
    - destruct (IH Q) as (i & A & B). exists i. split; [lia|exact B].
    - exists k. split; [lia|]. split; [exact Q|exact Hk]. }
  exact (G _ H).
Qed.
Print Assumptions C40_cases.
(** Full statement: any number of jump operators, at least no undefined behaviour. *)
Definition C40_full : Prop := forall (R : cring) (M : cmodule R) junk normalize prob l fs mx rnd n psi,
  Forall2 (implements R M) l fs -> jump R M junk normalize prob l mx rnd n psi <> UB.
Theorem C40_refuted : ~ C40_full.
Proof. intros H. apply (H Zr Z2 (fun _ => m0) (fun x => x) (fun _ => Q2Qc 0) [] [] (Q2Qc 1) (Q2Qc 0) O m0 (Forall2_nil _)). reflexivity. Qed.
Print Assumptions C40_refuted.
Definition ex_act (f : Z2 -> Z2) : acts Zr Z2 := mkActs Zr Z2 (fun n _ s => Ok (f s, n)) (fun n p => Ok (f p, n)) (fun n d s => Ok (madd d (f s), n)).
Definition ex_fs : list (Z2 -> Z2) := [fun x => (snd x, fst x); fun x => (fst x, 0)].
Definition ex_prob (x : Z2) : Qc := Q2Qc (inject_Z (ex_dot x x) / 100).
Example C40_ex : Forall2 (implements Zr Z2) (map ex_act ex_fs) ex_fs /\ Forall (fun x => Q2Qc 0 <= x)%Qc (map (fun f : Z2 -> Z2 => ex_prob (f (3, 4))) ex_fs) /\
  (exists n, jump Zr Z2 (fun _ => m0) (fun x => x) ex_prob (map ex_act ex_fs) (Q2Qc (1 # 2)) (Q2Qc (1 # 4)) O (3, 4) = Ok ((3, 0) : Z2, n)) /\
  (exists n, jump Zr Z2 (fun _ => m0) (fun x => x) ex_prob (map ex_act ex_fs) (Q2Qc (1 # 2)) (Q2Qc (1 # 5)) O (3, 4) = Ok ((4, 3) : Z2, n)) /\
  jump Zr Z2 (fun _ => m0) (fun x => x) ex_prob (map ex_act ex_fs) (Q2Qc (1 # 3)) (Q2Qc (1 # 5)) O (3, 4) = Throw.
Proof.
  split; [|split; [|split; [|split]]].
  - repeat (apply Forall2_cons; [split; [|split]; intros; exists n; reflexivity|]). apply Forall2_nil.
  - repeat (apply Forall_cons; [discriminate|]). apply Forall_nil.
  - eexists. vm_compute. reflexivity.
  - eexists. vm_compute. reflexivity.
  - vm_compute. reflexivity.
Qed.
Print Assumptions C40_partial.
