(** Proofs about the Arnoldi propagator. *)
From Coq Require Import List Lia Bool Arith Field.
From Verif Require Import Base Arrays Algebra Model.Arnoldi Spec.Arnoldi.
Import ListNotations.

Section Mod.
  Variable K : fld.
  Variable M : cmodule K.
  Open Scope cr_scope.
  Add Ring KrA : (cr_th K).
  Implicit Types (x y z : M) (v w : nat -> K) (q : nat -> M).

  Lemma m0_r x : madd x m0 = x.
  Proof. rewrite madd_comm. apply madd_0. Qed.
  Lemma cancel x y z : madd x y = madd x z -> y = z.
  Proof.
    intros H. assert (E : madd (mopp x) (madd x y) = madd (mopp x) (madd x z)) by (rewrite H; reflexivity).
    rewrite !madd_assoc in E. rewrite (madd_comm K M (mopp x) x), madd_opp, !madd_0 in E. exact E.
  Qed.
  Lemma ms_0 x : mscale 0 x = m0.
  Proof. apply (cancel (mscale 0 x)). rewrite <- mscale_add_l, m0_r. f_equal. ring. Qed.
  Lemma ms_m0 (a : K) : mscale a (m0 : M) = m0.
  Proof. apply (cancel (mscale a m0)). rewrite <- mscale_add_r, m0_r, m0_r. reflexivity. Qed.
  Lemma swap4 x y z (u : M) : madd (madd x y) (madd z u) = madd (madd x z) (madd y u).
  Proof. rewrite <- !madd_assoc. f_equal. rewrite !madd_assoc. f_equal. apply madd_comm. Qed.

  Lemma comb_ext n q q' v v' : (forall i, (i < n)%nat -> q i = q' i) -> (forall i, (i < n)%nat -> v i = v' i) -> combine n q v = combine n q' v'.
  Proof.
    induction n as [|n IH]; intros Hq Hv; [reflexivity|]. cbn [combine]. rewrite Hq, Hv by lia.
    rewrite IH; [reflexivity| |]; intros i Hi; [apply Hq|apply Hv]; lia.
  Qed.
  Lemma comb_0 n q v : (forall i, (i < n)%nat -> v i = 0) -> combine n q v = m0.
  Proof. induction n as [|n IH]; intros H; [reflexivity|]. cbn [combine]. rewrite H by lia. rewrite IH by (intros; apply H; lia). rewrite ms_0. apply madd_0. Qed.
  Lemma comb_add n q v w : combine n q (fun i => v i + w i) = madd (combine n q v) (combine n q w).
  Proof. induction n as [|n IH]; cbn [combine]; [symmetry; apply madd_0|]. rewrite IH, mscale_add_l. apply swap4. Qed.
  Lemma comb_scale n q (c : K) v : combine n q (fun i => c * v i) = mscale c (combine n q v).
  Proof. induction n as [|n IH]; cbn [combine]; [symmetry; apply ms_m0|]. rewrite IH, mscale_add_r, mscale_mul. reflexivity. Qed.
  Lemma comb_more n k q v : (forall i, (n <= i)%nat -> v i = 0) -> combine (n + k) q v = combine n q v.
  Proof.
    intros H. induction k as [|k IH]; [f_equal; lia|]. rewrite Nat.add_succ_r. cbn [combine]. rewrite IH, (H (n + k)%nat) by lia. rewrite ms_0. apply m0_r.
  Qed.
  Lemma comb_lin (h : M -> M) n q v : linear h -> h (combine n q v) = combine n (fun i => h (q i)) v.
  Proof.
    intros [HA HS]. induction n as [|n IH]; cbn [combine]; [|rewrite HA, HS, IH; reflexivity].
    rewrite <- (ms_0 m0) at 1. rewrite HS. apply ms_0.
  Qed.
  Lemma seq_last a n : seq a (S n) = seq a n ++ [(a + n)%nat].
  Proof. apply seq_S. Qed.
  Lemma mvec_S n (A : nat -> nat -> K) v i : mat_vec (S n) A v i = mat_vec n A v i + A i n * v n.
  Proof. unfold mat_vec. rewrite seq_last, lsum_app. cbn [lsum Nat.add]. ring. Qed.
  Lemma comb_mat n k q (A : nat -> nat -> K) v :
    combine n (fun j => combine k q (fun i => A i j)) v = combine k q (mat_vec n A v).
  Proof.
    induction n as [|n IH]; cbn [combine].
    - symmetry. apply comb_0. reflexivity.
    - rewrite IH, <- comb_scale, <- comb_add. apply comb_ext; [reflexivity|]. intros i _. rewrite mvec_S. ring.
  Qed.
  Lemma mvec_ext n (A B : nat -> nat -> K) v w i : (forall j, (j < n)%nat -> A i j = B i j) -> (forall j, (j < n)%nat -> v j = w j) -> mat_vec n A v i = mat_vec n B w i.
  Proof. intros HA HV. unfold mat_vec. apply lsum_ext. intros j Hj. apply in_seq in Hj. rewrite HA, HV by lia. reflexivity. Qed.
  Lemma mvec_add n (A : nat -> nat -> K) v w i : mat_vec n A (fun j => v j + w j) i = mat_vec n A v i + mat_vec n A w i.
  Proof. unfold mat_vec. rewrite <- lsum_add. apply lsum_ext. intros j _. ring. Qed.
  Lemma mvec_scale n (A : nat -> nat -> K) (c : K) v i : mat_vec n A (fun j => c * v j) i = c * mat_vec n A v i.
  Proof. unfold mat_vec. rewrite <- lsum_mul. apply lsum_ext. intros j _. ring. Qed.

  (** h Q = Q A on columns supported before m; polynomials of at most m terms *)
  Lemma poly_krylov (h : M -> M) n m q (A : nat -> nat -> K) : linear h -> (1 <= m <= n)%nat ->
    (forall j, (S j < m)%nat -> h (q j) = combine n q (fun i => A i j)) -> (forall i j, (S j < i)%nat -> j < n -> A i j = 0) ->
    forall cs, (length cs <= m)%nat -> op_poly h cs (q 0%nat) = combine n q (mat_poly n A cs first_unit) /\
      (forall i, (length cs <= i)%nat -> mat_poly n A cs first_unit i = 0).
  Proof.
    intros L Hm R Z. induction cs as [|c cs IH]; intros Hl.
    - split; [symmetry; apply comb_0; reflexivity|reflexivity].
    - cbn [length] in Hl. destruct (IH ltac:(lia)) as [E S0]. cbn [op_poly mat_poly]. split.
      + rewrite E, (comb_lin h) by exact L.
        rewrite (comb_add n q (fun i => c * first_unit i) (mat_vec n A (mat_poly n A cs first_unit))). f_equal.
        * rewrite (comb_scale n q c first_unit). f_equal.
          replace n with (1 + (n - 1))%nat by lia. rewrite comb_more by (intros [|i] Hi; [lia|reflexivity]).
          cbn [combine first_unit]. rewrite madd_0, mscale_1. reflexivity.
        * rewrite <- comb_mat. set (v := mat_poly n A cs first_unit) in *.
          assert (G : forall k, (k <= n)%nat -> combine k (fun i => h (q i)) v = combine k (fun j => combine n q (fun i => A i j)) v).
          { induction k as [|k IHk]; intros Hk; [reflexivity|]. cbn [combine]. rewrite IHk by lia. f_equal.
            destruct (Nat.lt_ge_cases (S k) m) as [H|H]; [rewrite R by exact H; reflexivity|]. rewrite S0 by lia. rewrite !ms_0. reflexivity. }
          apply G. lia.
      + intros i Hi. destruct i as [|i]; [cbn [length] in Hi; lia|]. cbn [first_unit].
        replace (c * 0) with (0 : K) by ring. replace (mat_vec n A (mat_poly n A cs first_unit) (S i)) with (0 : K); [ring|].
        symmetry. apply lsum_zero. intros j Hj. apply in_seq in Hj. cbn [length] in Hi.
        destruct (Nat.lt_ge_cases j (length cs)) as [H|H]; [rewrite Z by lia; ring|rewrite S0 by exact H; ring].
  Qed.
  (** with an invariant space *)
  Lemma poly_closed (h : M -> M) n q (A : nat -> nat -> K) : linear h -> (1 <= n)%nat ->
    (forall j, (j < n)%nat -> h (q j) = combine n q (fun i => A i j)) ->
    forall cs, op_poly h cs (q 0%nat) = combine n q (mat_poly n A cs first_unit).
  Proof.
    intros L Hm R. induction cs as [|c cs IH]; [symmetry; apply comb_0; reflexivity|]. cbn [op_poly mat_poly].
    rewrite IH, (comb_lin h) by exact L.
    rewrite (comb_add n q (fun i => c * first_unit i) (mat_vec n A (mat_poly n A cs first_unit))). f_equal.
    - rewrite (comb_scale n q c first_unit). f_equal.
      replace n with (1 + (n - 1))%nat by lia. rewrite comb_more by (intros [|i] Hi; [lia|reflexivity]).
      cbn [combine first_unit]. rewrite madd_0, mscale_1. reflexivity.
    - rewrite <- comb_mat. apply comb_ext; [intros i Hi; apply R, Hi|reflexivity].
  Qed.
  (** functions of a diagonalised matrix *)
  Lemma poly_diag n (A z l : nat -> nat -> K) d (f : K -> K) cs : diagonal n A z l d -> (forall i, (i < n)%nat -> f (d i) = num_poly cs (d i)) ->
    forall v i, (i < n)%nat -> mat_vec n z (fun j => f (d j) * mat_vec n l v j) i = mat_poly n A cs v i.
  Proof.
    intros [D I] H v i Hi.
    rewrite (mvec_ext n z z _ (fun j => num_poly cs (d j) * mat_vec n l v j)) by (reflexivity || (intros j Hj; cbv beta; rewrite H by exact Hj; reflexivity)).
    clear H. revert i Hi. induction cs as [|c cs IH]; intros i Hi.
    - cbn [num_poly mat_poly]. apply lsum_zero. intros j _. ring.
    - cbn [mat_poly]. rewrite <- (mvec_ext n A A _ _ i (fun _ _ => eq_refl) (fun j Hj => IH j Hj)).
      rewrite D by exact Hi. rewrite <- (I v i Hi) at 1. rewrite <- mvec_scale, <- mvec_add. apply mvec_ext; [reflexivity|].
      intros j _. cbn [num_poly]. ring.
  Qed.
  Lemma comb_fold n q v x : fold_left (fun a i => madd a (mscale (v i) (q i))) (seq 1 n) x = madd x (combine n (fun i => q (S i)) (fun i => v (S i))).
  Proof.
    induction n as [|n IH]; [symmetry; apply m0_r|]. rewrite seq_last, fold_left_app, IH. cbn [fold_left combine Nat.add]. symmetry. apply madd_assoc.
  Qed.
  Lemma comb_head n q v : combine (S n) q v = madd (mscale (v 0%nat) (q 0%nat)) (combine n (fun i => q (S i)) (fun i => v (S i))).
  Proof.
    induction n as [|n IH]; [cbn [combine]; apply madd_comm|]. change (combine (S (S n)) q v) with (madd (combine (S n) q v) (mscale (v (S n)) (q (S n)))).
    rewrite IH. cbn [combine]. symmetry. apply madd_assoc.
  Qed.

  Lemma comb_unit n q j : (j < n)%nat -> combine n q (fun i => if (i =? j)%nat then 1 else 0) = q j.
  Proof.
    induction n as [|n IH]; intros Hj; [lia|]. cbn [combine]. destruct (Nat.eq_dec j n) as [->|N].
    - rewrite comb_0 by (intros i Hi; rewrite (proj2 (Nat.eqb_neq i n)) by lia; reflexivity). rewrite Nat.eqb_refl, mscale_1. apply madd_0.
    - rewrite IH by lia. rewrite (proj2 (Nat.eqb_neq n j)) by lia. rewrite ms_0. apply m0_r.
  Qed.
  Section Ip.
    Variables (conj : K -> K) (ip : M -> M -> K) (nrm : M -> K).
    Hypothesis H : herm conj ip nrm.
    Lemma ip_0 x : ip x m0 = 0.
    Proof. rewrite <- (ms_0 m0), (hm_scale _ _ _ _ _ H). ring. Qed.
    Lemma ip_comb0 x n q v : (forall i, (i < n)%nat -> ip x (q i) = 0) -> ip x (combine n q v) = 0.
    Proof.
      induction n as [|n IH]; intros Z; [apply ip_0|]. cbn [combine]. rewrite (hm_add _ _ _ _ _ H), (hm_scale _ _ _ _ _ H), IH, Z by (intros; apply Z || idtac; lia). ring.
    Qed.
    Lemma ip_comb n q v i : orthonormal ip n q -> (i < n)%nat -> ip (q i) (combine n q v) = v i.
    Proof.
      intros O Hi. assert (G : forall k, (k <= n)%nat -> ip (q i) (combine k q v) = if (i <? k)%nat then v i else 0).
      { induction k as [|k IH]; intros Hk; [apply ip_0|]. cbn [combine]. rewrite (hm_add _ _ _ _ _ H), (hm_scale _ _ _ _ _ H), IH, O by lia.
        destruct (i =? k)%nat eqn:E; [apply Nat.eqb_eq in E; subst k; rewrite Nat.ltb_irrefl, (proj2 (Nat.ltb_lt i (S i))) by lia; ring|].
        apply Nat.eqb_neq in E. destruct (i <? k)%nat eqn:E1; [apply Nat.ltb_lt in E1|apply Nat.ltb_ge in E1].
        - rewrite (proj2 (Nat.ltb_lt i (S k))) by lia. ring.
        - rewrite (proj2 (Nat.ltb_ge i (S k))) by lia. ring. }
      rewrite G by lia. rewrite (proj2 (Nat.ltb_lt i n)) by exact Hi. reflexivity.
    Qed.
  End Ip.
End Mod.

Section Loop.
  Variable K : fld.
  Variable M : cmodule K.
  Variable ip : M -> M -> K.
  Variable nrm : M -> K.
  Variable tiny : K -> bool.
  Variable conv : nat -> mat K -> bool.
  Variable h : M -> M.
  Variable fresh : M.
  Variable eig : nat -> mat K -> (nat -> K) * mat K.
  Variable inv : nat -> mat K -> mat K.
  Variable cj : K -> K.
  Open Scope cr_scope.
  Add Ring KrB : (cr_th K).
  Add Field KfB : (f_th K).
  Hypothesis tiny_0 : tiny 0 = true.
  Notation put := (put K M fresh).
  Notation get := (get K M).
  Notation pass := (pass K M ip nrm tiny conv h fresh).
  Notation build := (build K M ip nrm tiny conv h fresh).
  Notation arn := (arn K M).
  Notation qn := (@vec K M).

  Lemma get_ok q i : (i < length q)%nat -> get q i = Ok (qn q i).
  Proof. intros H. unfold Model.Arnoldi.get, vec. rewrite (nth_error_nth' q m0 H). reflexivity. Qed.
  Lemma put_len q i x : (i <= length q)%nat -> length (put q i x) = Nat.max (length q) (S i).
  Proof.
    intros H. unfold Model.Arnoldi.put. rewrite app_length, firstn_length, app_length, repeat_length. cbn [length]. rewrite skipn_length. lia.
  Qed.
  Lemma put_same q i x : (i <= length q)%nat -> qn (put q i x) i = x.
  Proof.
    intros H. unfold vec, Model.Arnoldi.put. rewrite app_nth2; rewrite firstn_length, app_length, repeat_length; [|lia].
    replace (i - Nat.min i (length q + (i - length q)))%nat with 0%nat by lia. reflexivity.
  Qed.
  Lemma put_before q i x j : (i <= length q)%nat -> (j < i)%nat -> qn (put q i x) j = qn q j.
  Proof.
    intros H Hj. unfold vec, Model.Arnoldi.put. rewrite app_nth1 by (rewrite firstn_length, app_length, repeat_length; lia).
    replace (i - length q)%nat with 0%nat by lia. cbn [repeat]. rewrite app_nil_r. rewrite <- (firstn_skipn i q) at 2. rewrite app_nth1; [reflexivity|]. rewrite firstn_length. lia.
  Qed.

  Definition nice (psi : M) : Prop := herm cj ip nrm /\ ip psi psi = 1.

  Lemma ortho_ok q it x t : (1 <= it <= length q)%nat -> exists x' c t', ortho K M ip q it x t = Ok (x', t') /\
    x = madd x' (combine it (qn q) c) /\ (forall i j, t' i j = if ((j =? it - 1) && (i <? it))%nat then c i else t i j) /\
    c 0%nat = ip (qn q 0) x /\
    (herm cj ip nrm -> orthonormal ip it (qn q) -> (forall i, (i < it)%nat -> c i = ip (qn q i) x) /\ (forall i, (i < it)%nat -> ip (qn q i) x' = 0)).
  Proof.
    intros Hit. unfold ortho.
    assert (G : forall k, (k <= it)%nat -> exists x' c t', foldM (ortho1 K M ip q it) (seq 0 k) (x, t) = Ok (x', t') /\
      x = madd x' (combine k (qn q) c) /\ (forall i j, t' i j = if ((j =? it - 1) && (i <? k))%nat then c i else t i j) /\
      ((1 <= k)%nat -> c 0%nat = ip (qn q 0) x) /\
      (herm cj ip nrm -> orthonormal ip it (qn q) -> (forall i, (i < k)%nat -> c i = ip (qn q i) x) /\ (forall i, (i < k)%nat -> ip (qn q i) x' = 0))).
    { induction k as [|k IH]; intros Hk.
      - exists x, (fun _ => 0), t. split; [reflexivity|]. split; [symmetry; apply m0_r|]. split; [|split; [lia|intros _ _; split; lia]].
        intros i j. rewrite (proj2 (Nat.ltb_ge i 0)) by lia. rewrite andb_false_r. reflexivity.
      - destruct (IH ltac:(lia)) as (x' & c & t' & E & EX & ET & C0 & HO). rewrite seq_last, foldM_app, E. cbn [bind foldM Nat.add].
        unfold ortho1. rewrite get_ok by lia. cbn [bind].
        set (w := qn q k) in *. set (ck := ip w x').
        exists (madd x' (mscale (- (1) * ck) w)), (fun i => if (i =? k)%nat then ck else c i), (mset K t' k (it - 1) ck).
        split; [reflexivity|]. split; [|split; [|split]].
        + cbn [combine]. rewrite Nat.eqb_refl.
          rewrite (comb_ext K M k _ (qn q) _ c (fun _ _ => eq_refl)) by (intros i Hi; destruct (i =? k)%nat eqn:Ei; [apply Nat.eqb_eq in Ei; lia|reflexivity]).
          rewrite EX at 1. change (qn q k) with w. rewrite (madd_comm K M (combine k (qn q) c)). rewrite <- madd_assoc.
          rewrite (madd_assoc K M (mscale (- (1) * ck) w)). rewrite <- mscale_add_l. replace (- (1) * ck + ck) with (0 : K) by ring. rewrite ms_0, madd_0. reflexivity.
        + intros i j. unfold mset. destruct ((i =? k)%nat && (j =? it - 1)%nat) eqn:B.
          * apply andb_true_iff in B. destruct B as [B1 B2]. apply Nat.eqb_eq in B1. subst i. rewrite B2, Nat.eqb_refl, (proj2 (Nat.ltb_lt k (S k))) by lia. reflexivity.
          * rewrite ET. destruct (j =? it - 1)%nat; [|reflexivity]. cbn [andb]. rewrite andb_true_r in B. rewrite B. apply Nat.eqb_neq in B.
            destruct (i <? k)%nat eqn:B2; [apply Nat.ltb_lt in B2; rewrite (proj2 (Nat.ltb_lt i (S k))) by lia; reflexivity|].
            apply Nat.ltb_ge in B2. rewrite (proj2 (Nat.ltb_ge i (S k))) by lia. reflexivity.
        + intros _. destruct k as [|k]; [|cbn [Nat.eqb]; apply C0; lia]. cbn [Nat.eqb]. unfold ck, w. rewrite EX. cbn [combine]. rewrite m0_r. reflexivity.
        + intros H O. destruct (HO H O) as [HC HZ]. split.
          * intros i Hi. destruct (i =? k)%nat eqn:Ei; [apply Nat.eqb_eq in Ei; subst i|apply Nat.eqb_neq in Ei; apply HC; lia].
            change (qn q k) with w. rewrite EX, (hm_add _ _ _ _ _ H). rewrite (ip_comb0 K M cj ip nrm H); [unfold ck; ring|].
            intros i Hi'. unfold w. rewrite O by lia. destruct (k =? i)%nat eqn:Ek; [apply Nat.eqb_eq in Ek; lia|reflexivity].
          * intros i Hi. rewrite (hm_add _ _ _ _ _ H), (hm_scale _ _ _ _ _ H). unfold w. rewrite O by lia.
            destruct (i =? k)%nat eqn:Ei; [apply Nat.eqb_eq in Ei; subst i; unfold ck, w; ring|]. apply Nat.eqb_neq in Ei. rewrite HZ by lia. ring. }
    destruct (G it (le_n _)) as (x' & c & t' & E & EX & ET & C0 & HO). exists x', c, t'. split; [exact E|]. split; [exact EX|]. split; [exact ET|]. split; [apply C0; lia|exact HO].
  Qed.

  Section Run.
    Variables (psi : M) (o0 len : nat).
    Notation st := (nat * list M * mat K * bool)%type.
    (** before pass [it] *)
    Notation residual := (rest ip h psi).
    Record loop_inv (it m : nat) (o : nat) (q : list M) (t : mat K) (stop : bool) : Prop := {
      li_m : (1 <= m <= it)%nat;
      li_go : stop = false -> m = it;
      li_len : (m <= length q)%nat /\ (len <= length q)%nat;
      li_psi : qn q 0 = psi;
      li_rel : forall j, (S j < m)%nat -> h (qn q j) = combine (S (S j)) (qn q) (fun i => t i j);
      li_hess : forall i j, (S j < i)%nat -> t i j = 0;
      li_zero : forall i j, (m <= S j)%nat -> (j < i)%nat -> t i j = 0;
      li_order : (m = 1%nat -> o = o0) /\ ((2 <= m)%nat -> o = m);
      li_first : m = 1%nat -> stop = true -> tiny (nrm residual) = true /\ t 0%nat 0%nat = ip psi (h psi);
      li_second : (2 <= m)%nat -> tiny (nrm residual) = false;
      li_orth : nice psi -> orthonormal ip m (qn q);
      li_proj : nice psi -> forall i j, (i <= j)%nat -> (S j < m)%nat -> t i j = ip (qn q i) (h (qn q j)) }.

    Lemma pass_ok it m o q t stop : (1 <= it)%nat -> loop_inv it m o q t stop ->
      exists m' o' q' t' stop', pass (o, q, t, stop) it = Ok (o', q', t', stop') /\ loop_inv (S it) m' o' q' t' stop'.
    Proof.
      intros Hit I. unfold Model.Arnoldi.pass. destruct stop.
      - exists m, o, q, t, true. split; [reflexivity|]. destruct I. constructor; auto; try lia; discriminate.
      - destruct I as [Im Ig [Il1 Il2] Ip Ir Ih Iz Io If Is Iorth Ipr]. specialize (Ig eq_refl). subst m.
        rewrite get_ok by lia. cbn [bind]. set (w := qn q (it - 1)).
        destruct (ortho_ok q it (h w) t ltac:(lia)) as (x & c & t1 & E & EX & ET & C0 & HO). rewrite E. cbn [bind].
        assert (FR : it = 1%nat -> x = residual /\ t1 0%nat 0%nat = ip psi (h psi)).
        { intros ->. assert (W : w = psi) by exact Ip. rewrite W in *. rewrite Ip in C0. split.
          - unfold rest. rewrite EX at 1. rewrite <- C0. cbn [combine]. rewrite madd_0, Ip, <- madd_assoc, <- mscale_add_l.
            replace (c 0%nat + - (1) * c 0%nat) with (0 : K) by ring. rewrite ms_0, m0_r. reflexivity.
          - rewrite ET. cbn. exact C0. }
        destruct (tiny (nrm x)) eqn:T.
        + exists it, o, q, t1, true. split; [reflexivity|]. constructor; auto; try lia; try discriminate.
          * intros j Hj. rewrite Ir by exact Hj. apply comb_ext; [reflexivity|]. intros i Hi. rewrite ET.
            destruct (j =? it - 1)%nat eqn:B; [apply Nat.eqb_eq in B; lia|reflexivity].
          * intros i j Hj. rewrite ET. destruct (j =? it - 1)%nat eqn:B; [apply Nat.eqb_eq in B; rewrite (proj2 (Nat.ltb_ge i it)) by lia|]; apply Ih, Hj.
          * intros i j H1 H2. rewrite ET. destruct (j =? it - 1)%nat eqn:B; [apply Nat.eqb_eq in B; rewrite (proj2 (Nat.ltb_ge i it)) by lia|]; apply Iz; assumption.
          * intros -> _. destruct (FR eq_refl) as [-> ->]. split; [exact T|reflexivity].
          * intros N i j H1 H2. rewrite ET. destruct (j =? it - 1)%nat eqn:B; [apply Nat.eqb_eq in B; lia|]. apply Ipr; assumption.
        + set (n := nrm x) in *. assert (N0 : n <> 0) by (intros X; rewrite X in T; rewrite tiny_0 in T; discriminate T).
          set (y := mscale (1 / n) x). exists (S it), (S it), (put q it y), (mset K t1 it (it - 1) n), (conv it (mset K t1 it (it - 1) n)).
          split; [reflexivity|].
          assert (QB : forall j, (j < it)%nat -> qn (put q it y) j = qn q j) by (intros j Hj; apply put_before; lia).
          assert (QS : qn (put q it y) it = y) by (apply put_same; lia).
          assert (TB : forall i j, (j <> it - 1)%nat -> mset K t1 it (it - 1) n i j = t i j).
          { intros i j Hj. unfold mset. rewrite ET. rewrite (proj2 (Nat.eqb_neq j (it - 1))) by exact Hj. rewrite andb_false_r. reflexivity. }
          assert (TC : forall i, (i < it)%nat -> mset K t1 it (it - 1) n i (it - 1)%nat = c i).
          { intros i Hi. unfold mset. rewrite ET, Nat.eqb_refl. rewrite (proj2 (Nat.eqb_neq i it)) by lia. rewrite (proj2 (Nat.ltb_lt i it)) by exact Hi. reflexivity. }
          assert (TN : mset K t1 it (it - 1) n it (it - 1)%nat = n) by (unfold mset; rewrite !Nat.eqb_refl; reflexivity).
          assert (TZ : forall i, (it < i)%nat -> mset K t1 it (it - 1) n i (it - 1)%nat = t i (it - 1)%nat).
          { intros i Hi. unfold mset. rewrite ET, (proj2 (Nat.eqb_neq i it)), (proj2 (Nat.ltb_ge i it)), andb_false_r by lia. reflexivity. }
          constructor; try lia.
          * rewrite put_len by lia. lia.
          * rewrite QB by lia. exact Ip.
          * intros j Hj. destruct (Nat.eq_dec j (it - 1)) as [->|Nj].
            -- rewrite QB by lia. change (qn q (it - 1)) with w. replace (S (S (it - 1))) with (S it) by lia. cbn [combine]. rewrite TN, QS. unfold y.
               rewrite <- mscale_mul. replace (n * (1 / n)) with (1 : K) by (field; exact N0). rewrite mscale_1, madd_comm. rewrite EX at 1. f_equal.
               apply comb_ext; [intros i Hi; rewrite QB by exact Hi; reflexivity|]. intros i Hi. rewrite TC by exact Hi. reflexivity.
            -- rewrite QB by lia. rewrite Ir by lia. apply comb_ext; [intros i Hi; rewrite QB by lia; reflexivity|]. intros i Hi. rewrite TB by exact Nj. reflexivity.
          * intros i j Hj. destruct (Nat.eq_dec j (it - 1)) as [->|Nj]; [rewrite TZ by lia|rewrite TB by exact Nj]; apply Ih, Hj.
          * intros i j H1 H2. rewrite TB by lia. apply Iz; lia.
          * intros _. destruct (Nat.eq_dec it 1) as [->|N1]; [|apply Is; lia]. destruct (FR eq_refl) as [<- _]. exact T.
          * intros [H U]. specialize (Iorth (conj H U)). destruct (HO H Iorth) as [_ HZ].
            assert (YB : forall i, (i < it)%nat -> ip (qn q i) y = 0) by (intros i Hi; unfold y; rewrite (hm_scale _ _ _ _ _ H), HZ by exact Hi; ring).
            assert (YX : ip y x = n).
            { rewrite (hm_sym _ _ _ _ _ H). unfold y. rewrite (hm_scale _ _ _ _ _ H), (hm_norm _ _ _ _ _ H). fold n. replace (1 / n * (n * n)) with n by (field; exact N0). apply (hm_real _ _ _ _ _ H). }
            intros i j Hi Hj. destruct (Nat.eq_dec i it) as [->|Ni]; destruct (Nat.eq_dec j it) as [->|Nj].
            -- rewrite Nat.eqb_refl, !QS. unfold y at 2. rewrite (hm_scale _ _ _ _ _ H), YX. field. exact N0.
            -- rewrite (proj2 (Nat.eqb_neq it j)) by lia. rewrite QS, QB by lia. rewrite (hm_sym _ _ _ _ _ H), YB by lia. apply (hm_0 _ _ _ _ _ H).
            -- rewrite (proj2 (Nat.eqb_neq i it)) by lia. rewrite QS, QB by lia. apply YB. lia.
            -- rewrite !QB by lia. apply Iorth; lia.
          * intros [H U] i j H1 H2. destruct (Nat.eq_dec j (it - 1)) as [->|Nj].
            -- rewrite TC by lia. rewrite !QB by lia. destruct (HO H (Iorth (conj H U))) as [HC _]. apply HC. lia.
            -- rewrite TB by exact Nj. rewrite !QB by lia. apply Ipr; [exact (conj H U)|lia|lia].
    Qed.

    Lemma loop_ok max q0 : len = length q0 -> exists m o q t stop,
      foldM pass (seq 1 (max - 1)) (o0, put q0 0 psi, (fun _ _ => 0) : mat K, false) = Ok (o, q, t, stop) /\ loop_inv (S (max - 1)) m o q t stop.
    Proof.
      intros L. destruct (foldM_inv pass (fun d s => exists m, let '(o, q, t, stop) := s in loop_inv (S (length d)) m o q t stop)
        (seq 1 (max - 1)) (o0, put q0 0 psi, (fun _ _ => 0) : mat K, false)) as (s1 & E & m & I).
      - exists 1%nat. cbn [length]. constructor; try lia; try discriminate; try reflexivity.
        + rewrite put_len by lia. lia.
        + intros [H U] i j Hi Hj. assert (i = 0%nat) as -> by lia. assert (j = 0%nat) as -> by lia. rewrite put_same by lia. exact U.
      - intros d a r s El [m I]. destruct s as (((o, q), t), stop).
        assert (A : a = S (length d)).
        { assert (X : nth (length d) (seq 1 (max - 1)) 0%nat = a) by (rewrite El, app_nth2, Nat.sub_diag by lia; reflexivity).
          rewrite seq_nth in X; [lia|]. rewrite <- (seq_length (max - 1) 1), El, app_length. cbn [length]. lia. }
        subst a. destruct (pass_ok (S (length d)) m o q t stop ltac:(lia) I) as (m' & o' & q' & t' & stop' & E & I').
        exists (o', q', t', stop'). split; [exact E|]. exists m'. rewrite app_length. cbn [length]. rewrite Nat.add_1_r. exact I'.
      - destruct s1 as (((o, q), t), stop). rewrite seq_length in I. exists m, o, q, t, stop. split; [exact E|exact I].
    Qed.

    Lemma last_ok q o x t k : (k <= length q)%nat -> exists t', foldM (last1 K M ip q o x) (seq 0 k) t = Ok t' /\
      forall i j, t' i j = if ((j =? o - 1) && (i <? k))%nat then ip (qn q i) x else t i j.
    Proof.
      induction k as [|k IH]; intros Hk.
      - exists t. split; [reflexivity|]. intros i j. rewrite (proj2 (Nat.ltb_ge i 0)), andb_false_r by lia. reflexivity.
      - destruct (IH ltac:(lia)) as (t' & E & ET). rewrite seq_last, foldM_app, E. cbn [bind foldM Nat.add]. unfold last1. rewrite get_ok by lia. cbn [bind].
        eexists. split; [reflexivity|]. intros i j. unfold mset. rewrite ET. destruct (j =? o - 1)%nat; [|rewrite andb_false_r; reflexivity]. rewrite andb_true_r. cbn [andb].
        destruct (i =? k)%nat eqn:B; [apply Nat.eqb_eq in B; subst i; rewrite (proj2 (Nat.ltb_lt k (S k))) by lia; reflexivity|]. apply Nat.eqb_neq in B.
        destruct (i <? k)%nat eqn:B2; [apply Nat.ltb_lt in B2; rewrite (proj2 (Nat.ltb_lt i (S k))) by lia; reflexivity|].
        apply Nat.ltb_ge in B2. rewrite (proj2 (Nat.ltb_ge i (S k))) by lia. reflexivity.
    Qed.
  End Run.

  Notation residual := (rest ip h).
  (** what BuildLZB leaves *)
  Record built (psi : M) (s s' : arn) : Prop := {
    bu_max : ar_max s' = ar_max s;
    bu_psi : qn (ar_q s') 0 = psi;
    bu_len : (ar_order s' <= length (ar_q s'))%nat /\ (length (ar_q s) <= length (ar_q s'))%nat;
    bu_order : (2 <= ar_order s')%nat /\ (ar_order s' <= ar_max s)%nat;
    bu_hess : forall i j, (S j < i)%nat -> (j < ar_order s')%nat -> ar_h s' i j = 0;
    bu_case : (tiny (nrm (residual psi)) = true /\ ar_order s' = ar_order s /\ ar_h s' 0%nat 0%nat = ip psi (h psi) /\ forall i, (1 <= i)%nat -> ar_h s' i 0%nat = 0) \/
      (tiny (nrm (residual psi)) = false /\
       (forall j, (S j < ar_order s')%nat -> h (qn (ar_q s') j) = combine (ar_order s') (qn (ar_q s')) (fun i => ar_h s' i j)) /\
       (forall i, (i < ar_order s')%nat -> ar_h s' i (ar_order s' - 1)%nat = ip (qn (ar_q s') i) (h (qn (ar_q s') (ar_order s' - 1)))) /\
       (nice psi -> orthonormal ip (ar_order s') (qn (ar_q s')) /\
          forall i j, (i <= j)%nat -> (S j < ar_order s')%nat -> ar_h s' i j = ip (qn (ar_q s') i) (h (qn (ar_q s') j)))) }.

  Lemma build_ok (s : arn) psi : (3 <= ar_max s)%nat -> (2 <= ar_order s <= ar_max s)%nat -> (ar_order s <= length (ar_q s))%nat ->
    exists s', build s psi = Ok s' /\ built psi s s'.
  Proof.
    intros Hmax Ho Hl. unfold Model.Arnoldi.build.
    destruct (loop_ok psi (ar_order s) (length (ar_q s)) (ar_max s) (ar_q s) eq_refl) as (m & o & q & t & stop & E & I). rewrite E. cbn [bind].
    destruct I as [Im Ig [Il1 Il2] Ip Ir Ih Iz [Io1 Io2] If Is Iorth Ipr].
    assert (O : (2 <= o <= ar_max s)%nat /\ (o <= length q)%nat) by (destruct (Nat.eq_dec m 1) as [Em|Nm]; [rewrite (Io1 Em); lia|rewrite Io2 by lia; lia]).
    destruct O as [O1 O2]. rewrite get_ok by lia. cbn [bind]. rewrite (proj2 (Nat.ltb_ge (ar_max s) o)) by lia.
    destruct (last_ok q o (h (qn q (o - 1))) t o O2) as (t' & E' & ET). rewrite E'. cbn [bind]. eexists. split; [reflexivity|].
    assert (H' : forall i j, (j <> o - 1)%nat -> t' i j = t i j) by (intros i j Hj; rewrite ET, (proj2 (Nat.eqb_neq j (o - 1))) by exact Hj; reflexivity).
    constructor; cbn [ar_max ar_q ar_order ar_h]; auto; try lia.
    - intros i j Hj Hj'. rewrite ET. destruct (j =? o - 1)%nat eqn:B; [apply Nat.eqb_eq in B; rewrite (proj2 (Nat.ltb_ge i o)) by lia|]; apply Ih; exact Hj.
    - destruct (Nat.eq_dec m 1) as [Em|Nm].
      + left. assert (stop = true) as St by (destruct stop; [reflexivity|]; specialize (Ig eq_refl); lia). destruct (If Em St) as [T T0].
        split; [exact T|]. split; [apply Io1, Em|]. rewrite !H' by lia. split; [exact T0|]. intros i Hi. rewrite H' by lia. apply Iz; lia.
      + right. split; [apply Is; lia|]. specialize (Io2 ltac:(lia)). subst o. split; [|split].
        * intros j Hj. rewrite Ir by exact Hj. replace m with (S (S j) + (m - S (S j)))%nat by lia.
          rewrite comb_more by (intros i Hi; rewrite H' by lia; apply Ih; lia). apply comb_ext; [reflexivity|]. intros i _. rewrite H' by lia. reflexivity.
        * intros i Hi. rewrite ET, Nat.eqb_refl, (proj2 (Nat.ltb_lt i m)) by exact Hi. reflexivity.
        * intros N. split; [apply Iorth, N|]. intros i j H1 H2. rewrite H' by lia. apply Ipr; assumption.
  Qed.

  (** exact for polynomials *)
  Lemma krylov (s s' : arn) psi cs : linear h -> (tiny (nrm (residual psi)) = true -> residual psi = m0) -> built psi s s' -> (length cs <= ar_order s')%nat ->
    op_poly h cs psi = combine (ar_order s') (qn (ar_q s')) (mat_poly (ar_order s') (ar_h s') cs first_unit).
  Proof.
    intros L R B Hc. destruct (bu_case _ _ _ B) as [(T & EO & H0 & HZ)|(T & HR & _)].
    - (* eigenvector: only the first column matters *)
      specialize (R T). set (n := ar_order s') in *. set (A := ar_h s') in *. set (l := ip psi (h psi)) in *.
      assert (E : h psi = mscale l psi).
      { unfold rest in R. fold l in R. apply (cancel K M (mscale (- (1) * l) psi)). rewrite madd_comm, R, <- mscale_add_l. replace (- (1) * l + l) with (0 : K) by ring. symmetry. apply ms_0. }
      assert (G : op_poly h cs psi = mscale (num_poly cs l) psi /\ forall i, mat_poly n A cs first_unit i = num_poly cs l * first_unit i).
      { clear Hc. induction cs as [|c cs [IH1 IH2]]; cbn [op_poly num_poly mat_poly].
        - split; [symmetry; apply ms_0|intros i; ring].
        - split.
          + rewrite IH1. destruct L as [_ LS]. rewrite LS, E, <- mscale_mul, <- mscale_add_l. f_equal. ring.
          + intros i. rewrite (mvec_ext K n A A _ (fun j => num_poly cs l * first_unit j) i (fun _ _ => eq_refl) (fun j _ => IH2 j)). rewrite mvec_scale.
            replace (mat_vec n A first_unit i) with (A i 0%nat).
            * destruct i as [|i]; [rewrite H0; cbn [first_unit]; ring|rewrite HZ by lia; cbn [first_unit]; ring].
            * unfold mat_vec. destruct (bu_order _ _ _ B) as [N2 _]. fold n in N2. replace n with (S (n - 1)) by lia. cbn [seq lsum first_unit].
              rewrite lsum_zero; [ring|]. intros j Hj. apply in_seq in Hj. destruct j as [|j]; [lia|]. cbn [first_unit]. ring. }
      destruct G as [-> G2]. destruct (bu_order _ _ _ B) as [N2 _]. fold n in N2. replace n with (1 + (n - 1))%nat at 1 by lia.
      rewrite comb_more; [|intros [|i] Hi; [lia|rewrite G2; cbn [first_unit]; ring]].
      cbn [combine]. rewrite madd_0, G2, (bu_psi _ _ _ B). cbn [first_unit]. f_equal. ring.
    - rewrite <- (bu_psi _ _ _ B). refine (proj1 (poly_krylov K M h _ (ar_order s') _ _ L _ HR _ cs Hc)).
      + pose proof (bu_order _ _ _ B). lia.
      + intros i j Hj Hj'. apply (bu_hess _ _ _ B); assumption.
  Qed.

  (** one step is the polynomial that agrees with the function on the Ritz values *)
  Lemma step_ok (f : K -> K) (s s' : arn) psi cs d z l : linear h -> (tiny (nrm (residual psi)) = true -> residual psi = m0) -> built psi s s' ->
    eig (ar_order s') (ar_h s') = (d, z) -> inv (ar_order s') z = l -> diagonal (ar_order s') (ar_h s') z l d ->
    (length cs <= ar_order s')%nat -> (forall i, (i < ar_order s')%nat -> f (d i) = num_poly cs (d i)) ->
    build s psi = Ok s' -> step K M ip nrm tiny conv h fresh eig inv f s psi = Ok (s', op_poly h cs psi).
  Proof.
    intros L R B E EI D Hc Hf EB. unfold step. rewrite EB. cbn [bind]. set (n := ar_order s') in *.
    assert (CF : forall i, (i < n)%nat -> coef K eig inv f n (ar_h s') i = mat_poly n (ar_h s') cs first_unit i).
    { intros i Hi. unfold coef. rewrite E, EI. change (mv K) with (@mat_vec K). rewrite <- (poly_diag K n (ar_h s') z l d f cs D Hf first_unit i Hi).
      apply mvec_ext; [reflexivity|]. intros j Hj. f_equal. apply mvec_ext; [reflexivity|]. intros [|k] _; reflexivity. }
    set (v := coef K eig inv f n (ar_h s')) in *.
    assert (G : forall k x, (S k <= length (ar_q s'))%nat -> foldM (add1 K M (ar_q s') v) (seq 1 k) x = Ok (fold_left (fun a i => madd a (mscale (v i) (qn (ar_q s') i))) (seq 1 k) x)).
    { induction k as [|k IH]; intros x Hk; [reflexivity|]. rewrite seq_last, foldM_app, IH, fold_left_app by lia. cbn [bind foldM fold_left Nat.add]. unfold add1.
      rewrite get_ok by lia. reflexivity. }
    pose proof (bu_order _ _ _ B) as [N2 _]. pose proof (bu_len _ _ _ B) as [N3 _]. fold n in N2, N3.
    rewrite G by lia. cbn [bind]. f_equal. f_equal. rewrite comb_fold. rewrite <- (bu_psi _ _ _ B) at 1. rewrite <- (comb_head K M (n - 1)).
    replace (S (n - 1)) with n by lia. rewrite (krylov s s' psi cs L R B Hc). apply comb_ext; [reflexivity|exact CF].
  Qed.

  (** the matrix is the projection of the Hamiltonian *)
  Lemma projection (s s' : arn) psi : built psi s s' -> tiny (nrm (residual psi)) = false -> nice psi ->
    orthonormal ip (ar_order s') (qn (ar_q s')) /\
    forall i j, (i < ar_order s')%nat -> (j < ar_order s')%nat -> ar_h s' i j = ip (qn (ar_q s') i) (h (qn (ar_q s') j)).
  Proof.
    intros B T N. destruct (bu_case _ _ _ B) as [(T' & _)|(_ & HR & HL & HN)]; [rewrite T in T'; discriminate T'|].
    destruct (HN N) as [O P]. split; [exact O|]. intros i j Hi Hj.
    destruct (Nat.eq_dec j (ar_order s' - 1)) as [->|Nj]; [apply HL, Hi|].
    destruct (Nat.le_gt_cases i j) as [H|H]; [apply P; lia|].
    rewrite HR by lia. destruct N as [HM _]. rewrite (ip_comb K M cj ip nrm HM) by assumption. reflexivity.
  Qed.
  Lemma exhausted (s s' : arn) psi cs : linear h -> built psi s s' -> tiny (nrm (residual psi)) = false -> nice psi -> closed h (ar_order s') (qn (ar_q s')) ->
    op_poly h cs psi = combine (ar_order s') (qn (ar_q s')) (mat_poly (ar_order s') (ar_h s') cs first_unit).
  Proof.
    intros L B T N C. destruct (projection s s' psi B T N) as [O P]. rewrite <- (bu_psi _ _ _ B). apply poly_closed; [exact L|pose proof (bu_order _ _ _ B); lia|].
    intros j Hj. destruct (C j Hj) as [v Hv]. rewrite Hv. apply comb_ext; [reflexivity|]. intros i Hi. rewrite P by assumption. rewrite Hv.
    destruct N as [HM _]. symmetry. apply (ip_comb K M cj ip nrm HM); assumption.
  Qed.

  (** an eigenvector *)
  Lemma eigen_poly (g : M -> M) (c : K) x cs : linear g -> g x = mscale c x -> op_poly g cs x = mscale (num_poly cs c) x.
  Proof.
    intros L H. induction cs as [|a cs IH]; cbn [op_poly num_poly]; [symmetry; apply ms_0|].
    rewrite IH, (proj2 L), H, <- mscale_mul, <- mscale_add_l. f_equal. ring.
  Qed.
  Lemma mvec_head n (A : nat -> nat -> K) (a : K) v i : (1 <= n)%nat -> (forall j, (j < n)%nat -> v j = a * first_unit j) -> mat_vec n A v i = a * A i 0%nat.
  Proof.
    intros Hn Hv. induction n as [|n IH]; [lia|]. rewrite mvec_S. destruct n as [|n].
    - unfold mat_vec. cbn [seq lsum]. rewrite Hv by lia. cbn [first_unit]. ring.
    - rewrite IH by (try lia; intros; apply Hv; lia). rewrite Hv by lia. cbn [first_unit]. ring.
  Qed.
  Lemma eigen_mat n (A : nat -> nat -> K) (c : K) cs : (1 <= n)%nat -> A 0%nat 0%nat = c -> (forall i, (1 <= i)%nat -> A i 0%nat = 0) ->
    forall i, (i < n)%nat -> mat_poly n A cs first_unit i = num_poly cs c * first_unit i.
  Proof.
    intros Hn H0 HZ. induction cs as [|a cs IH]; intros i Hi; cbn [mat_poly num_poly]; [ring|].
    rewrite (mvec_head n A (num_poly cs c)) by (try lia; exact IH). destruct i as [|i]; cbn [first_unit]; [rewrite H0; ring|rewrite HZ by lia; ring].
  Qed.
  Lemma exact_all (s s' : arn) psi cs : linear h -> (tiny (nrm (residual psi)) = true -> residual psi = m0) -> built psi s s' -> nice psi ->
    closed h (ar_order s') (qn (ar_q s')) -> op_poly h cs psi = combine (ar_order s') (qn (ar_q s')) (mat_poly (ar_order s') (ar_h s') cs first_unit).
  Proof.
    intros L R B N C. destruct (tiny (nrm (residual psi))) eqn:T; [|apply (exhausted s s' psi cs L B T N C)].
    destruct (bu_case _ _ _ B) as [(_ & _ & H0 & HZ)|(T' & _)]; [|rewrite T in T'; discriminate T'].
    assert (E : h psi = mscale (ip psi (h psi)) psi).
    { specialize (R eq_refl). unfold rest in R. apply (f_equal (fun y => madd y (mscale (ip psi (h psi)) psi))) in R.
      rewrite madd_0, <- madd_assoc, <- mscale_add_l in R. replace (- (1) * ip psi (h psi) + ip psi (h psi)) with (0 : K) in R by ring. rewrite ms_0, m0_r in R. exact R. }
    rewrite (eigen_poly h _ psi cs L E). pose proof (bu_order _ _ _ B) as [B1 _].
    rewrite (comb_ext K M (ar_order s') (qn (ar_q s')) (qn (ar_q s')) _ (fun i => num_poly cs (ip psi (h psi)) * first_unit i));
      [|reflexivity|intros i Hi; apply eigen_mat; [lia|exact H0|exact HZ|exact Hi]].
    rewrite comb_scale. f_equal. rewrite <- (bu_psi _ _ _ B) at 1. destruct (ar_order s') as [|n]; [lia|].
    rewrite comb_head. cbn [first_unit]. rewrite mscale_1, comb_0 by reflexivity. symmetry. apply m0_r.
  Qed.
  Lemma hermitian_ok (s s' : arn) psi : built psi s s' -> tiny (nrm (residual psi)) = false -> nice psi -> hermitian ip h ->
    forall i j, (i < ar_order s')%nat -> (j < ar_order s')%nat -> ar_h s' i j = cj (ar_h s' j i).
  Proof.
    intros B T N Hh i j Hi Hj. destruct (projection s s' psi B T N) as [_ P]. rewrite !P by assumption. rewrite Hh. destruct N as [N _]. apply (hm_sym _ _ _ _ _ N).
  Qed.

  (** histories do not matter when the first residual is not tiny *)
  Definition agree (psi : M) (m : nat) (a b : nat * list M * mat K * bool) : Prop :=
    let '(o, q, t, st) := a in let '(o', q', t', st') := b in
    t = t' /\ st = st' /\ (1 <= m)%nat /\ (m <= length q)%nat /\ (m <= length q')%nat /\ (forall i, (i < m)%nat -> qn q i = qn q' i) /\ ((2 <= m)%nat -> o = m /\ o' = m) /\
    qn q 0 = psi /\ (m = 1%nat -> st = true -> tiny (nrm (residual psi)) = true).
  Lemma ortho_agree q q' it x t : (it <= length q)%nat -> (it <= length q')%nat -> (forall i, (i < it)%nat -> qn q i = qn q' i) -> ortho K M ip q it x t = ortho K M ip q' it x t.
  Proof.
    intros H1 H2 HQ. unfold ortho.
    assert (G : forall l s, (forall i, In i l -> (i < it)%nat) -> foldM (ortho1 K M ip q it) l s = foldM (ortho1 K M ip q' it) l s).
    { induction l as [|a l IH]; intros [y u] Hl; [reflexivity|]. cbn [foldM]. unfold ortho1 at 1 3. pose proof (Hl a (or_introl eq_refl)).
      rewrite !get_ok, HQ by lia. cbn [bind]. apply IH. intros i Hi. apply Hl. right. exact Hi. }
    apply G. intros i Hi. apply in_seq in Hi. lia.
  Qed.
  Lemma ortho_first q t x : (1 <= length q)%nat -> exists t', ortho K M ip q 1 x t = Ok (madd x (mscale (- (1) * ip (qn q 0) x) (qn q 0)), t').
  Proof. intros H. unfold ortho. cbn [seq foldM]. unfold ortho1. rewrite get_ok by lia. cbn [bind]. eexists. reflexivity. Qed.
  Lemma pass_agree psi it m a b : (1 <= it)%nat -> agree psi m a b -> (snd a = false -> m = it) ->
    exists m' a' b', pass a it = Ok a' /\ pass b it = Ok b' /\ agree psi m' a' b' /\ (snd a' = false -> m' = S it).
  Proof.
    destruct a as (((o, q), t), st), b as (((o', q'), t'), st'). intros Hit (-> & -> & H1 & H2 & H3 & HQ & HO & HP & HT) Hm. cbn [snd] in *.
    unfold Model.Arnoldi.pass. destruct st'.
    - exists m, (o, q, t', true), (o', q', t', true). repeat (split; [reflexivity|]). split; [|discriminate]. unfold agree. auto 12.
    - specialize (Hm eq_refl). subst m. rewrite !get_ok by lia. cbn [bind]. rewrite <- (HQ (it - 1)%nat) by lia.
      rewrite (ortho_agree q q' it) by assumption. destruct (ortho_ok q' it (h (qn q (it - 1))) t' ltac:(lia)) as (x & c & t1 & E & _). rewrite E. cbn [bind].
      destruct (tiny (nrm x)) eqn:T.
      + exists it, (o, q, t1, true), (o', q', t1, true). repeat (split; [reflexivity|]). split; [|discriminate]. unfold agree. repeat (split; [auto|]).
        intros -> _. destruct (ortho_first q' t' (h (qn q (1 - 1))) ltac:(lia)) as [t2 E2]. rewrite E2 in E. injection E as <- _.
        change (1 - 1)%nat with 0%nat in T. rewrite <- (HQ 0%nat) in T by lia. rewrite HP in T. exact T.
      + exists (S it). eexists. eexists. split; [reflexivity|]. split; [reflexivity|]. cbn [snd]. split; [|reflexivity]. unfold agree.
        rewrite !put_len by lia. repeat (split; [reflexivity || lia|]). split; [|split; [auto|split; [|lia]]].
        * intros i Hi. destruct (Nat.eq_dec i it) as [->|Ni]; [rewrite !put_same by lia; reflexivity|]. rewrite !put_before by lia. apply HQ. lia.
        * rewrite put_before by lia. exact HP.
  Qed.
  Lemma fold_agree psi l : forall k m a b, l = seq k (length l) -> (1 <= k)%nat -> agree psi m a b -> (snd a = false -> m = k) ->
    exists m' a' b', foldM pass l a = Ok a' /\ foldM pass l b = Ok b' /\ agree psi m' a' b' /\ (snd a' = false -> m' = (k + length l)%nat).
  Proof.
    induction l as [|x l IH]; intros k m a b El Hk Ha Hm.
    - exists m, a, b. repeat (split; [reflexivity || exact Ha|]). cbn [length]. rewrite Nat.add_0_r. exact Hm.
    - cbn [length seq] in El. injection El as -> El. cbn [foldM]. destruct (pass_agree psi k m a b Hk Ha Hm) as (m1 & a1 & b1 & E1 & E2 & A1 & M1).
      rewrite E1, E2. cbn [bind]. destruct (IH (S k) m1 a1 b1 El ltac:(lia) A1 M1) as (m2 & a2 & b2 & E3 & E4 & A2 & M2).
      exists m2, a2, b2. repeat (split; [assumption|]). intros H. rewrite (M2 H). cbn [length]. lia.
  Qed.
  (** what two operators have in common *)
  Definition same_basis (s s' : arn) : Prop := ar_order s = ar_order s' /\ ar_h s = ar_h s' /\ forall i, (i < ar_order s)%nat -> nth_error (ar_q s) i = nth_error (ar_q s') i.
  Lemma build_same (s1 s2 : arn) psi : (3 <= ar_max s1)%nat -> ar_max s1 = ar_max s2 -> tiny (nrm (residual psi)) = false ->
    exists r1 r2, build s1 psi = Ok r1 /\ build s2 psi = Ok r2 /\ same_basis r1 r2 /\ (2 <= ar_order r1 <= ar_max s1)%nat /\ (ar_order r1 <= length (ar_q r1))%nat /\ ar_max r1 = ar_max s1.
  Proof.
    intros H3 HM T. unfold Model.Arnoldi.build. rewrite <- HM.
    set (l := seq 1 (ar_max s1 - 1)).
    destruct (fold_agree psi l 1 1 (ar_order s1, put (ar_q s1) 0 psi, (fun _ _ => 0) : mat K, false) (ar_order s2, put (ar_q s2) 0 psi, (fun _ _ => 0) : mat K, false)) as (m & a & b & E1 & E2 & A & Mm).
    - unfold l. rewrite seq_length. reflexivity.
    - lia.
    - unfold agree. rewrite !put_len by lia. repeat (split; [reflexivity || lia|]). split; [|split; [lia|split; [apply put_same; lia|discriminate]]].
      intros i Hi. assert (i = 0%nat) as -> by lia. rewrite !put_same by lia. reflexivity.
    - reflexivity.
    - rewrite E1, E2. cbn [bind]. destruct (loop_ok psi (ar_order s1) (length (ar_q s1)) (ar_max s1) (ar_q s1) eq_refl) as (m' & o1 & q1 & t1 & st1 & E & I).
      unfold l in E1. rewrite E1 in E. injection E as ->. destruct b as (((o2, q2), t2), st2). destruct A as (<- & <- & A1 & A2 & A3 & AQ & AO & AP & AT).
      assert (Hm : (2 <= m)%nat).
      { destruct (Nat.eq_dec m 1) as [->|]; [|lia]. destruct st1; [rewrite (AT eq_refl eq_refl) in T; discriminate T|].
        specialize (Mm eq_refl). unfold l in Mm. rewrite seq_length in Mm. lia. }
      destruct (AO Hm) as [-> ->]. rewrite !get_ok by lia. cbn [bind]. rewrite <- (AQ (m - 1)%nat) by lia.
      assert (Lm : (m <= ar_max s1)%nat).
      { destruct (li_order _ _ _ _ _ _ _ _ _ I) as [_ X]. pose proof (li_m _ _ _ _ _ _ _ _ _ I). destruct (Nat.eq_dec m' 1) as [N|N].
        - exfalso. subst m'. destruct st1; [destruct (li_first _ _ _ _ _ _ _ _ _ I eq_refl eq_refl) as [Y _]; rewrite Y in T; discriminate T|].
          pose proof (li_go _ _ _ _ _ _ _ _ _ I eq_refl). lia.
        - rewrite X by lia. lia. }
      rewrite (proj2 (Nat.ltb_ge (ar_max s1) m)) by exact Lm.
      assert (G : forall l t, (forall i, In i l -> (i < m)%nat) -> foldM (last1 K M ip q1 m (h (qn q1 (m - 1)))) l t = foldM (last1 K M ip q2 m (h (qn q1 (m - 1)))) l t).
      { clear - A2 A3 AQ. induction l as [|x l IH]; intros t Hl; [reflexivity|]. cbn [foldM]. unfold last1 at 1 3. pose proof (Hl x (or_introl eq_refl)).
        rewrite !get_ok, AQ by lia. cbn [bind]. apply IH. intros i Hi. apply Hl. right. exact Hi. }
      rewrite <- G by (intros i Hi; apply in_seq in Hi; lia).
      destruct (last_ok q1 m (h (qn q1 (m - 1))) t1 m A2) as (t' & E' & _). rewrite E'. cbn [bind]. eexists. eexists. split; [reflexivity|]. split; [reflexivity|].
      cbn [ar_order ar_h ar_q ar_max]. split; [|lia]. unfold same_basis. cbn [ar_order ar_h ar_q]. repeat (split; [reflexivity|]). intros i Hi.
      rewrite (nth_error_nth' q1 m0), (nth_error_nth' q2 m0) by lia. f_equal. apply AQ, Hi.
  Qed.
  Lemma step_same (f : K -> K) (s1 s2 : arn) psi : (3 <= ar_max s1)%nat -> ar_max s1 = ar_max s2 -> tiny (nrm (residual psi)) = false ->
    exists r1 r2 y, step K M ip nrm tiny conv h fresh eig inv f s1 psi = Ok (r1, y) /\ step K M ip nrm tiny conv h fresh eig inv f s2 psi = Ok (r2, y).
  Proof.
    intros H3 HM T. destruct (build_same s1 s2 psi H3 HM T) as (r1 & r2 & E1 & E2 & (S1 & S2 & S3) & O & L & _).
    unfold step. rewrite E1, E2. cbn [bind]. rewrite <- S1, <- S2. set (v := coef K eig inv f (ar_order r1) (ar_h r1)).
    assert (G : forall l x, (forall i, In i l -> (i < ar_order r1)%nat) -> exists y, foldM (add1 K M (ar_q r1) v) l x = Ok y /\ foldM (add1 K M (ar_q r2) v) l x = Ok y).
    { induction l as [|a l IH]; intros x Hl; [exists x; split; reflexivity|]. cbn [foldM]. unfold add1 at 1 3. pose proof (Hl a (or_introl eq_refl)) as Ha.
      unfold Model.Arnoldi.get. rewrite <- (S3 a Ha). destruct (nth_error (ar_q r1) a) eqn:En; [|apply nth_error_None in En; lia]. cbn [bind]. apply IH. intros i Hi. apply Hl. right. exact Hi. }
    destruct (G (seq 1 (ar_order r1 - 1)) (mscale (v 0%nat) psi)) as (y & G1 & G2); [intros i Hi; apply in_seq in Hi; lia|].
    rewrite G1, G2. cbn [bind]. exists r1, r2, y. split; reflexivity.
  Qed.
End Loop.

(** ** Witnesses: numbers as wave functions *)
From Coq Require Import QArith Qcanon.
From Verif Require Import Spec.Arnoldi.
Import ListNotations.
Section Witness.
  Open Scope cr_scope.
  Definition Qm : cmodule Qcf.
  Proof. apply (mkMod Qcf Qc 0%Qc Qcplus Qcopp Qcmult); intros; cbn; ring. Defined.
  Add Ring QfR : (cr_th Qcf).
  Definition w_ip (x y : Qm) : Qcf := (x * y)%Qc.
  Definition w_nrm (x : Qm) : Qcf := if Qlt_le_dec (Qcanon.this x) 0 then (- x)%Qc else x.
  Definition w_tiny (x : Qcf) : bool := Qeq_bool (Qcanon.this x) 0.
  Definition w_id (x : Qm) : Qm := x.
  Definition qn (z : Z) : Qcf := Q2Qc (inject_Z z).
  Notation wbuild := (build Qcf Qm w_ip w_nrm w_tiny (fun _ _ => false) w_id (0%Qc : Qm)).
  Lemma w_tiny_0 : w_tiny 0 = true. Proof. reflexivity. Qed.
  Lemma w_herm : herm (fun x : Qcf => x) w_ip w_nrm.
  Proof.
    constructor; intros; unfold w_ip, w_nrm; cbn; try ring. destruct (Qlt_le_dec (Qcanon.this x) 0); ring.
  Qed.
  Lemma w_lin : linear w_id. Proof. split; reflexivity. Qed.
  Lemma w_hermitian : hermitian w_ip w_id. Proof. intros x y. reflexivity. Qed.
  Lemma qeq (x y : Qc) : Qeq_bool (Qcanon.this x) (Qcanon.this y) = true -> x = y.
  Proof. intros H. apply Qc_is_canon. apply Qeq_bool_iff. exact H. Qed.
  Lemma qne (x y : Qc) : Qeq_bool (Qcanon.this x) (Qcanon.this y) = false -> x <> y.
  Proof. intros H E. subst y. rewrite (proj2 (Qeq_bool_iff _ _) (Qeq_refl _)) in H. discriminate H. Qed.
  Lemma w_tiny_eq (x : Qm) : w_tiny (w_nrm x) = true -> x = m0.
  Proof.
    unfold w_tiny, w_nrm. intros H. apply Qeq_bool_iff in H. destruct (Qlt_le_dec (Qcanon.this x) 0) as [L|L]; apply Qc_is_canon.
    - exfalso. change (Qcanon.this (- x)%Qc) with (Qred (- Qcanon.this x)) in H. rewrite Qred_correct in H.
      apply (Qlt_irrefl 0). rewrite <- H at 2. apply (Qplus_lt_r _ _ (Qcanon.this x)). rewrite Qplus_opp_r, Qplus_0_r. exact L.
    - exact H.
  Qed.
  Definition w_new : arn Qcf Qm := mkArn 3 3 (repeat (0%Qc : Qm) 3) (fun _ _ => 0).
  (** the first wave function is not normalised: 2 *)
  Definition w_two : arn Qcf Qm := match wbuild w_new (qn 2) with Ok s => s | _ => w_new end.
  Lemma ok_inj {A} (x y : A) : Ok x = Ok y -> x = y. Proof. intros H. injection H as ->. reflexivity. Qed.
  Definition is_ok {A} (x : outcome A) : bool := match x with Ok _ => true | _ => false end.
  Lemma w_two_ok : wbuild w_new (qn 2) = Ok w_two.
  Proof. unfold w_two. assert (H : is_ok (wbuild w_new (qn 2)) = true) by (vm_compute; reflexivity). destruct (wbuild w_new (qn 2)); [reflexivity|discriminate H|discriminate H]. Qed.
  Lemma w_two_order : ar_order w_two = 2%nat. Proof. vm_compute. reflexivity. Qed.
  Lemma w_two_len : length (ar_q w_two) = 3%nat. Proof. vm_compute. reflexivity. Qed.
  Lemma w_two_max : ar_max w_two = 3%nat. Proof. vm_compute. reflexivity. Qed.
  (** then an eigenvector: 1 *)
  Definition w_one : arn Qcf Qm := match wbuild w_two (qn 1) with Ok s => s | _ => w_new end.
  Lemma w_one_ok : wbuild w_two (qn 1) = Ok w_one.
  Proof. unfold w_one. assert (H : is_ok (wbuild w_two (qn 1)) = true) by (vm_compute; reflexivity). destruct (wbuild w_two (qn 1)); [reflexivity|discriminate H|discriminate H]. Qed.
  Lemma w_one_order : ar_order w_one = 2%nat. Proof. vm_compute. reflexivity. Qed.
  Lemma w_one_h : ar_h w_one 0%nat 0%nat = qn 1 /\ ar_h w_one 0%nat 1%nat = qn (-1) /\ ar_h w_one 1%nat 0%nat = qn 0 /\ ar_h w_one 1%nat 1%nat = qn 1.
  Proof. repeat split; apply qeq; vm_compute; reflexivity. Qed.
  Lemma jordan : forall p r e : Qc, (p - r = p * e)%Qc -> (r = r * e)%Qc -> r = 0%Qc.
  Proof. intros p r e E1 E2. destruct (Qc_eq_dec r 0) as [R|R]; [exact R|]. exfalso.
        assert (X : (r * (e - 1) = 0)%Qc) by (rewrite <- (Qcplus_opp_r r) at 1; rewrite E2 at 2; ring).
        apply Qcmult_integral in X. destruct X as [X|X]; [contradiction|]. assert (Y : e = 1%Qc) by (rewrite <- (Qcplus_0_r 1), <- X; ring). subst e.
        apply R. assert (V : (p - (p - r) = 0)%Qc) by (rewrite E1; ring). rewrite <- V. ring.
  Qed.
  Lemma w_one_bad : ~ diagonalisable (ar_order w_one) (ar_h w_one).
  Proof.
    rewrite w_one_order. destruct w_one_h as (A & B & C & D). intros (d & z & l & HD & HI).
    assert (Z0 : forall j, (j < 2)%nat -> z 1%nat j = 0).
    { intros j Hj. pose proof (HD (fun i => if (i =? j)%nat then 1 else 0) 0%nat ltac:(lia)) as H0. pose proof (HD (fun i => if (i =? j)%nat then 1 else 0) 1%nat ltac:(lia)) as H1.
      unfold mat_vec in H0, H1. cbn [seq lsum] in H0, H1. rewrite A, B in H0. rewrite C, D in H1.
      assert (N1 : qn (-1) = - (1) :> Qcf) by (apply qeq; reflexivity). assert (N0 : qn 0 = 0 :> Qcf) by (apply qeq; reflexivity). assert (N2 : qn 1 = 1 :> Qcf) by (apply qeq; reflexivity).
      rewrite N1, N2 in H0. rewrite N0, N2 in H1.
      assert (G : forall p r e : Qcf, p - r = p * e -> r = r * e -> r = 0) by exact jordan.
      destruct j as [|[|j]]; [| |lia]; cbn [Nat.eqb] in H0, H1; [apply (G (z 0%nat 0%nat) _ (d 0%nat))|apply (G (z 0%nat 1%nat) _ (d 1%nat))].
      - transitivity (1 * (z 0%nat 0%nat * 1 + (z 0%nat 1%nat * 0 + 0)) + (- (1) * (z 1%nat 0%nat * 1 + (z 1%nat 1%nat * 0 + 0)) + 0)); [ring|]. etransitivity; [exact H0|]. ring.
      - transitivity (0 * (z 0%nat 0%nat * 1 + (z 0%nat 1%nat * 0 + 0)) + (1 * (z 1%nat 0%nat * 1 + (z 1%nat 1%nat * 0 + 0)) + 0)); [ring|]. etransitivity; [exact H1|]. ring.
      - transitivity (1 * (z 0%nat 0%nat * 0 + (z 0%nat 1%nat * 1 + 0)) + (- (1) * (z 1%nat 0%nat * 0 + (z 1%nat 1%nat * 1 + 0)) + 0)); [ring|]. etransitivity; [exact H0|]. ring.
      - transitivity (0 * (z 0%nat 0%nat * 0 + (z 0%nat 1%nat * 1 + 0)) + (1 * (z 1%nat 0%nat * 0 + (z 1%nat 1%nat * 1 + 0)) + 0)); [ring|]. etransitivity; [exact H1|]. ring. }
    pose proof (HI (fun i => if (i =? 1)%nat then 1 else 0) 1%nat ltac:(lia)) as H. unfold mat_vec in H. cbn [seq lsum] in H. rewrite !Z0 in H by lia.
    assert (X : (0 : Qcf) = 1) by (transitivity (0 * (l 0%nat 0%nat * 0 + (l 0%nat 1%nat * 1 + 0)) + (0 * (l 1%nat 0%nat * 0 + (l 1%nat 1%nat * 1 + 0)) + 0)); [ring|exact H]).
    apply (f_equal (fun x : Qc => Qcanon.this x)) in X. discriminate X.
  Qed.
  Lemma w_two_exact : op_poly w_id [0; 0; 1] (qn 2 : Qm) = qn 2 /\ combine (ar_order w_two) (vec (ar_q w_two)) (mat_poly (ar_order w_two) (ar_h w_two) [0; 0; 1] first_unit) = qn (-22).
  Proof. split; apply qeq; vm_compute; reflexivity. Qed.
  Lemma w_two_closed : closed w_id (ar_order w_two) (vec (ar_q w_two)).
  Proof.
    generalize (ar_order w_two), (vec (ar_q w_two)). intros n q j Hj. exists (fun i => if (i =? j)%nat then 1 else 0). unfold w_id. symmetry. apply comb_unit, Hj.
  Qed.
End Witness.

Section Wrap.
  Variable K : fld.
  Variable M : cmodule K.
  Open Scope cr_scope.
  Let E0 (n : nat) (A : mat K) : (nat -> K) * mat K := (fun _ => 0, A).
  Let I0 (n : nat) (A : mat K) : mat K := A.
  Lemma init_ok (fresh : M) m : ((m < 3)%nat -> arn_init K M fresh m = Throw) /\
    ((3 <= m)%nat -> exists s, arn_init K M fresh m = Ok s /\ ar_max s = m /\ usable (ar_max s) (ar_order s) (length (ar_q s))).
  Proof.
    unfold arn_init. split; intros H.
    - rewrite (proj2 (Nat.ltb_lt m 3)) by exact H. reflexivity.
    - rewrite (proj2 (Nat.ltb_ge m 3)) by exact H. eexists. split; [reflexivity|]. cbn [ar_max ar_order ar_q]. rewrite repeat_length. unfold usable. split; [reflexivity|]. lia.
  Qed.
  Lemma runs_ok ip nrm tiny conv h fresh (s : arn K M) psi : tiny 0 = true -> usable (ar_max s) (ar_order s) (length (ar_q s)) ->
    exists s', build K M ip nrm tiny conv h fresh s psi = Ok s' /\ ar_max s' = ar_max s /\ usable (ar_max s') (ar_order s') (length (ar_q s')) /\ vec (ar_q s') 0 = psi.
  Proof.
    intros T (U1 & U2 & U3). destruct (build_ok K M ip nrm tiny conv h fresh E0 I0 (fun x => x) T s psi U1 U2 U3) as (s' & E & B). exists s'. split; [exact E|].
    pose proof (bu_max _ _ _ _ _ _ _ _ _ _ B). pose proof (bu_order _ _ _ _ _ _ _ _ _ _ B). pose proof (bu_len _ _ _ _ _ _ _ _ _ _ B). unfold usable.
    split; [assumption|]. split; [lia|]. exact (bu_psi _ _ _ _ _ _ _ _ _ _ B).
  Qed.
  Lemma built_of ip nrm tiny conv h fresh cj (s s' : arn K M) psi : tiny 0 = true -> usable (ar_max s) (ar_order s) (length (ar_q s)) ->
    build K M ip nrm tiny conv h fresh s psi = Ok s' -> built K M ip nrm tiny h cj psi s s'.
  Proof.
    intros T (U1 & U2 & U3) E. destruct (build_ok K M ip nrm tiny conv h fresh E0 I0 cj T s psi U1 U2 U3) as (s2 & E2 & B). rewrite E in E2. injection E2 as <-. exact B.
  Qed.
  Lemma krylov_ok ip nrm tiny conv h fresh (s s' : arn K M) psi cs : tiny 0 = true -> linear h ->
    (tiny (nrm (rest ip h psi)) = true -> rest ip h psi = m0) -> usable (ar_max s) (ar_order s) (length (ar_q s)) ->
    build K M ip nrm tiny conv h fresh s psi = Ok s' -> (length cs <= ar_order s')%nat ->
    op_poly h cs psi = combine (ar_order s') (vec (ar_q s')) (mat_poly (ar_order s') (ar_h s') cs first_unit).
  Proof.
    intros T L R U E C. apply (krylov K M ip nrm tiny conv h E0 I0 (fun x => x) s s' psi cs L R); [|exact C]. apply (built_of ip nrm tiny conv h fresh); assumption.
  Qed.
  Lemma step_poly ip nrm tiny conv h fresh eig inv f (s s' : arn K M) psi cs d z : tiny 0 = true -> linear h ->
    (tiny (nrm (rest ip h psi)) = true -> rest ip h psi = m0) -> usable (ar_max s) (ar_order s) (length (ar_q s)) ->
    build K M ip nrm tiny conv h fresh s psi = Ok s' ->
    eig (ar_order s') (ar_h s') = (d, z) -> diagonal (ar_order s') (ar_h s') z (inv (ar_order s') z) d ->
    (length cs <= ar_order s')%nat -> (forall i, (i < ar_order s')%nat -> f (d i) = num_poly cs (d i)) ->
    step K M ip nrm tiny conv h fresh eig inv f s psi = Ok (s', op_poly h cs psi).
  Proof.
    intros T L R U E G D C F. eapply (step_ok K M ip nrm tiny conv h fresh eig inv (fun x => x) f s s' psi cs); try eassumption; try reflexivity.
    apply (built_of ip nrm tiny conv h fresh); assumption.
  Qed.
  Lemma projection_ok ip nrm tiny conv h fresh cj (s s' : arn K M) psi : tiny 0 = true ->
    herm cj ip nrm -> ip psi psi = 1 -> tiny (nrm (rest ip h psi)) = false -> usable (ar_max s) (ar_order s) (length (ar_q s)) ->
    build K M ip nrm tiny conv h fresh s psi = Ok s' ->
    orthonormal ip (ar_order s') (vec (ar_q s')) /\
    forall i j, (i < ar_order s')%nat -> (j < ar_order s')%nat -> ar_h s' i j = ip (vec (ar_q s') i) (h (vec (ar_q s') j)).
  Proof.
    intros T H N R U E. apply (projection K M ip nrm tiny conv h E0 I0 cj s s' psi); [|exact R|split; assumption]. apply (built_of ip nrm tiny conv h fresh); assumption.
  Qed.
  Lemma order_code ip nrm tiny conv h fresh (s s' : arn K M) psi : tiny 0 = true -> tiny (nrm (rest ip h psi)) = true ->
    usable (ar_max s) (ar_order s) (length (ar_q s)) -> build K M ip nrm tiny conv h fresh s psi = Ok s' -> ar_order s' = ar_order s.
  Proof.
    intros T R U E. destruct (bu_case _ _ _ _ _ _ _ _ _ _ (built_of ip nrm tiny conv h fresh (fun x => x) s s' psi T U E)) as [(_ & O & _)|(R' & _)]; [exact O|].
    rewrite R in R'. discriminate R'.
  Qed.
  Lemma herm_partial ip nrm tiny conv h fresh cj (s s' : arn K M) psi : tiny 0 = true ->
    herm cj ip nrm -> ip psi psi = 1 -> tiny (nrm (rest ip h psi)) = false -> hermitian ip h -> usable (ar_max s) (ar_order s) (length (ar_q s)) ->
    build K M ip nrm tiny conv h fresh s psi = Ok s' -> forall i j, (i < ar_order s')%nat -> (j < ar_order s')%nat -> ar_h s' i j = cj (ar_h s' j i).
  Proof.
    intros T H N R HH U E. apply (hermitian_ok K M ip nrm tiny conv h E0 I0 cj s s' psi); [|exact R|split; assumption|exact HH]. apply (built_of ip nrm tiny conv h fresh); assumption.
  Qed.
  Lemma exact_partial ip nrm tiny conv h fresh cj (s s' : arn K M) psi cs : tiny 0 = true -> linear h ->
    herm cj ip nrm -> ip psi psi = 1 -> (forall x, tiny (nrm x) = true -> x = m0) -> usable (ar_max s) (ar_order s) (length (ar_q s)) ->
    build K M ip nrm tiny conv h fresh s psi = Ok s' -> closed h (ar_order s') (vec (ar_q s')) ->
    op_poly h cs psi = combine (ar_order s') (vec (ar_q s')) (mat_poly (ar_order s') (ar_h s') cs first_unit).
  Proof.
    intros T L H N R U E C. apply (exact_all K M ip nrm tiny conv h fresh E0 I0 cj s s' psi cs L); [apply R|apply (built_of ip nrm tiny conv h fresh); assumption|split; assumption|exact C].
  Qed.
  Lemma history_partial ip nrm tiny conv h fresh eig inv f (s1 s2 : arn K M) psi : tiny 0 = true ->
    (3 <= ar_max s1)%nat -> ar_max s1 = ar_max s2 -> tiny (nrm (rest ip h psi)) = false ->
    exists r1 r2 y, step K M ip nrm tiny conv h fresh eig inv f s1 psi = Ok (r1, y) /\ step K M ip nrm tiny conv h fresh eig inv f s2 psi = Ok (r2, y).
  Proof. intros T. apply (step_same K M ip nrm tiny conv h fresh eig inv (fun x => x) T). Qed.
  Lemma copy_partial ip nrm tiny conv h fresh eig inv f (s : arn K M) psi : tiny 0 = true ->
    usable (ar_max s) (ar_order s) (length (ar_q s)) -> tiny (nrm (rest ip h psi)) = false ->
    exists r1 r2 y, step K M ip nrm tiny conv h fresh eig inv f s psi = Ok (r1, y) /\ step K M ip nrm tiny conv h fresh eig inv f (arn_copy arn_new s) psi = Ok (r2, y).
  Proof. intros T (U & _) R. apply history_partial; [exact T|exact U|reflexivity|exact R]. Qed.
End Wrap.

Section Refute.
  Open Scope cr_scope.
  Add Ring QfR2 : (cr_th Qcf).
  Notation wbuild := (build Qcf Qm w_ip w_nrm w_tiny (fun _ _ => false) w_id (0%Qc : Qm)).
  Lemma w_usable : usable (ar_max w_new) (ar_order w_new) (length (ar_q w_new)).
  Proof. unfold usable, w_new. cbn [ar_max ar_order ar_q]. rewrite repeat_length. lia. Qed.
  Lemma w_one_unit : w_ip (qn 1) (qn 1) = 1. Proof. apply qeq. vm_compute. reflexivity. Qed.
  Definition w_first : arn Qcf Qm := match wbuild w_new (qn 1) with Ok s => s | _ => w_new end.
  Lemma w_first_ok : wbuild w_new (qn 1) = Ok w_first.
  Proof. unfold w_first. assert (H : is_ok (wbuild w_new (qn 1)) = true) by (vm_compute; reflexivity). destruct (wbuild w_new (qn 1)); [reflexivity|discriminate H|discriminate H]. Qed.
  Lemma w_first_order : ar_order w_first = 3%nat. Proof. vm_compute. reflexivity. Qed.
  Lemma projection_refuted : ~ (forall (K : fld) (M : cmodule K) ip nrm tiny conv h fresh cj (s s' : arn K M) psi, tiny 0 = true -> linear h ->
    herm cj ip nrm -> ip psi psi = 1 -> (forall x, tiny (nrm x) = true -> x = m0) -> usable (ar_max s) (ar_order s) (length (ar_q s)) ->
    build K M ip nrm tiny conv h fresh s psi = Ok s' ->
    orthonormal ip (ar_order s') (vec (ar_q s')) /\
    forall i j, (i < ar_order s')%nat -> (j < ar_order s')%nat -> ar_h s' i j = ip (vec (ar_q s') i) (h (vec (ar_q s') j))).
  Proof.
    intros H. destruct (H Qcf Qm w_ip w_nrm w_tiny (fun _ _ => false) w_id (0%Qc : Qm) (fun x => x) w_new w_first (qn 1) w_tiny_0 w_lin w_herm w_one_unit w_tiny_eq w_usable w_first_ok) as [O _].
    rewrite w_first_order in O. specialize (O 1%nat 1%nat ltac:(lia) ltac:(lia)). revert O. apply qne. vm_compute. reflexivity.
  Qed.
  Lemma diagonal_refuted : ~ (forall (K : fld) (M : cmodule K) ip nrm tiny conv h fresh cj m (s0 : arn K M) psis (s s' : arn K M) psi, tiny 0 = true -> linear h ->
    herm cj ip nrm -> hermitian ip h -> ip psi psi = 1 -> (forall x, tiny (nrm x) = true -> x = m0) ->
    arn_init K M fresh m = Ok s0 -> foldM (build K M ip nrm tiny conv h fresh) psis s0 = Ok s ->
    build K M ip nrm tiny conv h fresh s psi = Ok s' -> diagonalisable (ar_order s') (ar_h s')).
  Proof.
    intros H. apply w_one_bad. apply (H Qcf Qm w_ip w_nrm w_tiny (fun _ _ => false) w_id (0%Qc : Qm) (fun x => x) 3%nat w_new [qn 2 : Qm] w_two w_one (qn 1) w_tiny_0 w_lin w_herm w_hermitian w_one_unit w_tiny_eq).
    - reflexivity.
    - cbn [foldM]. rewrite w_two_ok. reflexivity.
    - exact w_one_ok.
  Qed.
  Lemma exact_refuted : ~ (forall (K : fld) (M : cmodule K) ip nrm tiny conv h fresh cj (s s' : arn K M) psi cs, tiny 0 = true -> linear h ->
    herm cj ip nrm -> (forall x, tiny (nrm x) = true -> x = m0) -> usable (ar_max s) (ar_order s) (length (ar_q s)) ->
    build K M ip nrm tiny conv h fresh s psi = Ok s' -> closed h (ar_order s') (vec (ar_q s')) ->
    op_poly h cs psi = combine (ar_order s') (vec (ar_q s')) (mat_poly (ar_order s') (ar_h s') cs first_unit)).
  Proof.
    intros H. pose proof (H Qcf Qm w_ip w_nrm w_tiny (fun _ _ => false) w_id (0%Qc : Qm) (fun x => x) w_new w_two (qn 2) [0; 0; 1] w_tiny_0 w_lin w_herm w_tiny_eq w_usable w_two_ok w_two_closed) as X.
    destruct w_two_exact as [A B]. rewrite A, B in X. revert X. apply qne. vm_compute. reflexivity.
  Qed.
  Lemma history_refuted : ~ (forall (K : fld) (M : cmodule K) ip nrm tiny conv h fresh (s1 s2 : arn K M) psi, tiny 0 = true ->
    usable (ar_max s1) (ar_order s1) (length (ar_q s1)) -> usable (ar_max s2) (ar_order s2) (length (ar_q s2)) -> ar_max s1 = ar_max s2 ->
    exists r1 r2, build K M ip nrm tiny conv h fresh s1 psi = Ok r1 /\ build K M ip nrm tiny conv h fresh s2 psi = Ok r2 /\ ar_order r1 = ar_order r2 /\ ar_h r1 = ar_h r2).
  Proof.
    intros H. destruct (H Qcf Qm w_ip w_nrm w_tiny (fun _ _ => false) w_id (0%Qc : Qm) w_new w_two (qn 1) w_tiny_0 w_usable) as (r1 & r2 & E1 & E2 & O & _).
    - unfold usable. rewrite w_two_max, w_two_order, w_two_len. lia.
    - rewrite w_two_max. reflexivity.
    - rewrite w_first_ok in E1. rewrite w_one_ok in E2. apply ok_inj in E1. apply ok_inj in E2. rewrite <- E1, <- E2, w_first_order, w_one_order in O. discriminate O.
  Qed.
  Lemma copy_refuted : ~ (forall (K : fld) (M : cmodule K) ip nrm tiny conv h fresh (s : arn K M) psi, tiny 0 = true ->
    usable (ar_max s) (ar_order s) (length (ar_q s)) -> exists r, build K M ip nrm tiny conv h fresh (arn_copy arn_new s) psi = Ok r).
  Proof.
    intros H. destruct (H Qcf Qm w_ip w_nrm w_tiny (fun _ _ => false) w_id (0%Qc : Qm) w_new (qn 1) w_tiny_0 w_usable) as (r & E).
    assert (B : is_ok (wbuild (arn_copy arn_new w_new) (qn 1)) = false) by (vm_compute; reflexivity). rewrite E in B. discriminate B.
  Qed.
  Definition unit_mat (i j : nat) : Qcf := if (i =? j)%nat then 1 else 0.
  Lemma w_first_h i j : (i < 3)%nat -> (j < 3)%nat -> ar_h w_first i j = if ((i =? 0) && (j =? 0))%nat then 1 else 0.
  Proof. intros Hi Hj. destruct i as [|[|[|i]]]; [| | |lia]; (destruct j as [|[|[|j]]]; [| | |lia]); apply qeq; vm_compute; reflexivity. Qed.
  Lemma w_first_diag : diagonal (ar_order w_first) (ar_h w_first) unit_mat unit_mat (fun i => if (i =? 0)%nat then 1 else 0).
  Proof.
    rewrite w_first_order. split; intros v i Hi.
    - unfold mat_vec. cbn [seq lsum]. rewrite !w_first_h by lia. destruct i as [|[|[|i]]]; [| | |lia]; cbn [Nat.eqb andb unit_mat]; unfold unit_mat; cbn [Nat.eqb]; ring.
    - unfold mat_vec. cbn [seq lsum]. destruct i as [|[|[|i]]]; [| | |lia]; unfold unit_mat; cbn [Nat.eqb]; ring.
  Qed.
End Refute.

(** ** Two states with real amplitudes *)
From Coq Require Import Reals Lra.
From Verif Require Import RealField.
Section Two.
  Definition Vm : cmodule Rf.
  Proof.
    apply (mkMod Rf (R * R) (0, 0)%R (fun x y => (fst x + fst y, snd x + snd y)%R) (fun x => (- fst x, - snd x)%R) (fun c x => (c * fst x, c * snd x)%R));
      intros; cbn; try (destruct x; cbn); f_equal; ring.
  Defined.
  Definition v_ip (x y : Vm) : Rf := (fst x * fst y + snd x * snd y)%R.
  Definition v_nrm (x : Vm) : Rf := sqrt (fst x * fst x + snd x * snd x)%R.
  Definition v_tiny (x : Rf) : bool := if Req_EM_T x 0%R then true else false.
  Definition v_swap (x : Vm) : Vm := (snd x, fst x).
  Definition v_psi : Vm := (1, 0)%R.
  Definition v_new : arn Rf Vm := mkArn 3 3 (repeat (m0 : Vm) 3) (fun _ _ => c0).
  Lemma v_example : herm (fun x : Rf => x) v_ip v_nrm /\ hermitian v_ip v_swap /\ Spec.Arnoldi.linear v_swap /\ v_ip v_psi v_psi = Algebra.c1 /\ v_tiny c0 = true /\
    v_tiny (v_nrm (rest v_ip v_swap v_psi)) = false /\ usable (ar_max v_new) (ar_order v_new) (length (ar_q v_new)).
  Proof.
    split; [|split; [|split; [|split; [|split; [|split]]]]].
    - constructor; intros; unfold v_ip, v_nrm; cbn; try ring. rewrite sqrt_sqrt; [reflexivity|]. nra.
    - intros [a b] [c d]. unfold v_ip, v_swap. cbn. ring.
    - split; reflexivity.
    - unfold v_ip, v_psi. cbn. ring.
    - unfold v_tiny. cbn. destruct (Req_EM_T 0 0) as [_|N]; [reflexivity|exfalso; apply N; reflexivity].
    - unfold v_tiny, v_nrm, rest, v_ip, v_swap, v_psi. cbn. match goal with |- context [Req_EM_T ?a 0] => destruct (Req_EM_T a 0) as [E|_] end; [|reflexivity].
      exfalso. apply sqrt_eq_0 in E; lra.
    - unfold usable, v_new. cbn [ar_max ar_order ar_q]. rewrite repeat_length. lia.
  Qed.
End Two.
