From Coq Require Import List ZArith Lia Bool Arith Field.
From Verif Require Import Base Arrays Algebra Complex Ordered Model.Grid Spec.Grid Proofs.Grid Model.Derive Spec.Derive Proofs.Derive
  Model.Kick Spec.Kick.
Import ListNotations.
Open Scope Z_scope.

Section KickProofs.
  Variable F : ofld.
  Variable cexp : Cx F -> Cx F.
  Add Ring KR : (cr_th F).
  Add Field KF : (f_th F).
  Add Ring KC : (cr_th (Cx F)).
  Notation kgeom := (kgeom F).
  Notation kick := (kick F).

  Lemma feq_true (a b : F) : feq F a b = true -> a = b.
  Proof. unfold feq. destruct (ocmp a b) as [[|]|]; congruence. Qed.

  Record kvalid (p : kparams F) (q : kgeom) : Prop := {
    kv_dims : match kp_dims p with Some n => n = Z.of_nat (length (kg_ds q)) | None => True end;
    kv_len : (1 <= length (kg_ds q) <= 4)%nat;
    kv_k : (length (kp_k p) <= length (kg_ds q))%nat;
    kv_pos : Forall (fun d => 0 < d) (kg_ds q) }.
  Definition kstart (p : kparams F) (q : kgeom) : outcome kick :=
    let* K := kick_params F (new_kick F) p in kick_psi F cexp K (Some q).
  Definition kvec (p : kparams F) : list F :=
    map (fun x => (match kp_scale p with Some s => s | None => c1 end) * x)%cr (kp_k p).

  Lemma momenta_nth dim s raw n : (n < dim)%nat -> nth n (momenta F dim s raw) c0 = (s * nth n raw c0)%cr.
  Proof.
    intros H. unfold momenta. set (h := fun i => match nth_error raw i with Some x => (x * s)%cr | None => c0 end).
    rewrite (nth_indep _ c0 (h 0%nat)) by (rewrite map_length, seq_length; exact H).
    rewrite map_nth, seq_nth by exact H. unfold h. cbn [Nat.add]. destruct (nth_error raw n) as [x|] eqn:E.
    - rewrite (nth_error_nth _ _ _ E). ring.
    - apply nth_error_None in E. rewrite nth_overflow by exact E. ring.
  Qed.
  Lemma momenta_length dim s raw : length (momenta F dim s raw) = dim.
  Proof. unfold momenta. rewrite map_length, seq_length. reflexivity. Qed.

  Lemma skip_filter {A} (b : nat -> bool) (f : A -> nat -> outcome A) l v :
    foldM (fun v n => if b n then Ok v else f v n) l v = foldM f (filter (fun n => negb (b n)) l) v.
  Proof.
    revert v. induction l as [|n l IH]; intros v; cbn [foldM filter]; [reflexivity|]. destruct (b n); cbn [negb bind]; [apply IH|].
    cbn [foldM]. destruct (f v n); cbn [bind]; [apply IH|reflexivity|reflexivity].
  Qed.
  Lemma lsum_filter {A} (b : A -> bool) (f : A -> F) l : (forall a, b a = true -> f a = c0) ->
    lsum f (filter (fun a => negb (b a)) l) = lsum f l.
  Proof.
    intros H. induction l as [|a l IH]; cbn [filter]; [reflexivity|]. destruct (b a) eqn:E; cbn [negb].
    - change (lsum f (a :: l)) with (f a + lsum f l)%cr. rewrite (H a E), IH. ring.
    - change (lsum f (a :: l)) with (f a + lsum f l)%cr. change (lsum f (a :: filter (fun a => negb (b a)) l)) with (f a + lsum f (filter (fun a => negb (b a)) l))%cr.
      rewrite IH. reflexivity.
  Qed.

  Lemma phases_ok (q : kgeom) kn : Forall (fun d => 0 < d) (kg_ds q) -> kg_ds q <> [] ->
    exists ph, phases F q kn = Ok ph /\ table F (kg_ds q) ph (kdotx F (kg_ds q) (kg_x0 q) (kg_dx q) kn).
  Proof.
    intros Pos NE. unfold phases. rewrite grid_size_spec by exact NE.
    rewrite (skip_filter (fun n => feq F (nth n kn c0) c0) (fun v n => view_add F v n (ramp F q n (nth n kn c0)))).
    set (val := fun (d : nat) (cs : list Z) => (nth d kn c0 * (kg_x0 q d + ofZ (nth d cs 0%Z) * kg_dx q d))%cr).
    pose proof (table_const F (kg_ds q) Pos c0) as T0.
    destruct (sum_views F (kg_ds q) Pos (fun n => Ok (ramp F q n (nth n kn c0))) val
       (filter (fun n => negb (feq F (nth n kn c0) c0)) (seq 0 (length (kg_ds q))))
       (new_view (repeat c0 (Z.to_nat (points (kg_ds q)))) (kg_ds q)) (fun _ => c0)) as (v & E & T).
    - intros d Hd. apply filter_In in Hd. destruct Hd as [Hd _]. apply in_seq in Hd. split; [lia|].
      eexists. split; [reflexivity|]. pose proof (nth_pos (kg_ds q) d Pos ltac:(lia)) as Np. unfold size_of in Np. split.
      + unfold ramp, zlen. rewrite map_length, upto_length. unfold size_of. lia.
      + exists (fun i => ((kg_x0 q d + ofZ i * kg_dx q d) * nth d kn c0)%cr). split.
        * intros i Hi. unfold ramp. rewrite rd_map, rd_upto by (unfold size_of; lia). reflexivity.
        * intros cs. unfold val. ring.
    - apply NoDup_filter, seq_NoDup.
    - apply new_vinv. apply T0.
    - exact T0.
    - cbn [bind] in E. rewrite E. cbn [bind]. exists (v_data v). split; [reflexivity|]. apply (table_ext F (kg_ds q) _ _ _ T). intros cs _.
      rewrite (lsum_filter (fun n => feq F (nth n kn c0) c0)).
      + unfold kdotx, val. ring.
      + intros d Hd. apply feq_true in Hd. unfold val. rewrite Hd. ring.
  Qed.

  Lemma kset_ok (q : kgeom) : (1 <= length (kg_ds q) <= 4)%nat -> exists g, kset_dim F (Z.of_nat (length (kg_ds q))) = Ok g /\ length (kg_ds g) = length (kg_ds q).
  Proof.
    intros H. unfold kset_dim. destruct (Z.ltb_spec 4 (Z.of_nat (length (kg_ds q)))); [lia|]. destruct (Z.ltb_spec (Z.of_nat (length (kg_ds q))) 0); [lia|].
    eexists. split; [reflexivity|]. cbn [kg_ds]. rewrite repeat_length. lia.
  Qed.
  Lemma kdotx_ext ds x0 dx k k' cs : (forall d, (d < length ds)%nat -> nth d k c0 = nth d k' c0) -> kdotx F ds x0 dx k cs = kdotx F ds x0 dx k' cs.
  Proof. intros H. unfold kdotx. apply lsum_ext. intros d Hd. apply in_seq in Hd. rewrite (H d) by lia. reflexivity. Qed.

  Lemma kstart_ok p q : kvalid p q -> exists K t, kstart p q = Ok K /\ k_exp K = Some t /\ k_grid K = q /\ k_par K = p /\
    length (k_kn K) = length (kg_ds q) /\ (forall d, (d < length (kg_ds q))%nat -> nth d (k_kn K) c0 = nth d (kvec p) c0) /\
    wave_table F cexp (kg_ds q) (kg_x0 q) (kg_dx q) (kvec p) t.
  Proof.
    intros V. destruct (kset_ok q (kv_len p q V)) as (g & Eg & Lg). unfold kstart, kick_params.
    assert (P : exists g1, match kp_dims p with Some n => if n <? 1 then Throw else let* g := kset_dim F n in Ok (mkKick (k_kn (new_kick F)) (k_exp (new_kick F)) g p)
        | None => Ok (mkKick (k_kn (new_kick F)) (k_exp (new_kick F)) (k_grid (new_kick F)) p) end = Ok (mkKick [] None g1 p) /\
        (length (kg_ds g1) = 0 \/ length (kg_ds g1) = length (kg_ds q))%nat).
    { pose proof (kv_dims p q V) as D. pose proof (kv_len p q V) as L. destruct (kp_dims p) as [n|].
      - subst n. destruct (Z.ltb_spec (Z.of_nat (length (kg_ds q))) 1); [lia|]. rewrite Eg. cbn [bind]. exists g. split; [reflexivity|right; exact Lg].
      - eexists. split; [reflexivity|]. left. reflexivity. }
    destruct P as (g1 & -> & L1). cbn [bind kick_psi k_exp k_grid k_par].
    assert (P : exists g2, (if (length (kg_ds g1) =? 0)%nat then kset_dim F (Z.of_nat (length (kg_ds q))) else Ok g1) = Ok g2 /\ length (kg_ds g2) = length (kg_ds q)).
    { pose proof (kv_len p q V) as L. destruct (Nat.eqb_spec (length (kg_ds g1)) 0); [exists g; auto|]. exists g1. split; [reflexivity|]. lia. }
    destruct P as (g2 & -> & L2). cbn [bind]. rewrite L2, Nat.eqb_refl. cbn [negb].
    pose proof (kv_k p q V) as Lk. destruct (Nat.ltb_spec (length (kg_ds q)) (length (kp_k p))); [lia|].
    set (s := match kp_scale p with Some s => s | None => c1 end). set (kn := momenta F (length (kg_ds q)) s (kp_k p)).
    assert (NE : kg_ds q <> []) by (intros X; pose proof (kv_len p q V) as L; rewrite X in L; cbn in L; lia).
    destruct (phases_ok q kn (kv_pos p q V) NE) as (ph & Ep & T1 & T2). rewrite Ep. cbn [bind].
    assert (Kn : forall d, (d < length (kg_ds q))%nat -> nth d kn c0 = nth d (kvec p) c0).
    { intros d Hd. unfold kn. rewrite momenta_nth by exact Hd. unfold kvec. fold s.
      rewrite <- (map_nth (fun x => (s * x)%cr) (kp_k p) c0 d). replace (s * c0)%cr with (c0 : F) by ring. reflexivity. }
    do 2 eexists. split; [reflexivity|]. cbn [k_exp k_grid k_par k_kn]. split; [reflexivity|]. split; [reflexivity|]. split; [reflexivity|].
    split; [unfold kn; apply momenta_length|]. split; [exact Kn|]. split; [unfold zlen in *; rewrite map_length; exact T1|].
    intros cs Hc. rewrite rd_map, (T2 cs Hc). cbn [bind]. f_equal. unfold expo_i. f_equal.
    rewrite (kdotx_ext _ _ _ _ _ cs Kn). unfold im. apply cx_eq; cbn; ring.
  Qed.

  (** ** application *)
  Hypothesis EX : exp_law F cexp.
  Definition unit_list (t : list (Cx F)) : Prop := forall z, In z t -> (fst z * fst z + snd z * snd z = c1)%cr.
  Lemma unit_exp (x : F) : (fst (cexp (im F x)) * fst (cexp (im F x)) + snd (cexp (im F x)) * snd (cexp (im F x)) = c1)%cr.
  Proof.
    pose proof (ex_conj F cexp EX (im F x)) as C. pose proof (ex_add F cexp EX (im F x) (cx_conj (im F x))) as A.
    replace (cadd (im F x) (cx_conj (im F x))) with (c0 : Cx F) in A by (apply cx_eq; cbn; ring).
    rewrite (ex_0 F cexp EX), <- C in A. apply (f_equal fst) in A. cbn in A. rewrite A. ring.
  Qed.
  Lemma kmul_norm psi t : unit_list t -> length psi = length t -> knorm F (kmul F psi t) = knorm F psi.
  Proof.
    revert t. induction psi as [|a psi IH]; intros [|z t] U L; try discriminate; [reflexivity|]. injection L as L.
    unfold knorm in *. cbn [kmul]. change (lsum ?f (?x :: ?l)) with (f x + lsum f l)%cr.
    cbv beta. rewrite IH; [|intros y Hy; apply U; right; exact Hy|exact L]. specialize (U z (or_introl eq_refl)).
    transitivity ((fst a * fst a + snd a * snd a) * (fst z * fst z + snd z * snd z) + lsum (fun a => fst a * fst a + snd a * snd a) psi)%cr; [cbn; ring|].
    rewrite U. ring.
  Qed.
  Lemma rd_in {A} (t : list A) i x : rd t i = Ok x -> In x t.
  Proof. unfold rd. destruct (0 <=? i); [|discriminate]. destruct (nth_error t (Z.to_nat i)) eqn:E; [|discriminate]. intros [= <-]. eapply nth_error_In, E. Qed.
  Lemma in_rd {A} (t : list A) x : In x t -> exists i, 0 <= i < zlen t /\ rd t i = Ok x.
  Proof.
    intros H. apply In_nth_error in H. destruct H as [k Hk]. exists (Z.of_nat k). assert (Bk : (k < length t)%nat) by (apply nth_error_Some; congruence).
    split; [unfold zlen; lia|]. unfold rd. destruct (Z.leb_spec 0 (Z.of_nat k)); [|lia]. rewrite Nat2Z.id, Hk. reflexivity.
  Qed.
  Lemma wave_unit ds x0 dx k t : Forall (fun d => 0 < d) ds -> wave_table F cexp ds x0 dx k t -> unit_list t.
  Proof.
    intros Pos [L T] z Hz. apply in_rd in Hz. destruct Hz as (i & Hi & E). destruct (flat_surj ds i Pos) as (cs & Hc & <-); [lia|].
    rewrite (T cs Hc) in E. injection E as <-. apply unit_exp.
  Qed.

  Lemma kmul_len a b : length a = length b -> length (kmul F a b) = length a.
  Proof. revert b. induction a as [|x a IH]; intros [|y b] L; try discriminate; [reflexivity|]. injection L as L. cbn [kmul length]. rewrite IH by exact L. reflexivity. Qed.
  Lemma kmul_assoc a b c : length a = length b -> length a = length c -> kmul F (kmul F a b) c = kmul F a (kmul F b c).
  Proof.
    revert b c. induction a as [|x a IH]; intros [|y b] [|z c] L1 L2; try discriminate; [reflexivity|]. injection L1 as L1. injection L2 as L2.
    cbn [kmul]. rewrite IH by assumption. f_equal. ring.
  Qed.
  Lemma kmul_rd a b i x y : length a = length b -> rd a i = Ok x -> rd b i = Ok y -> rd (kmul F a b) i = Ok (x * y)%cr.
  Proof.
    unfold rd. destruct (0 <=? i); [|discriminate]. generalize (Z.to_nat i). intros n L. revert b n L. induction a as [|u a IH]; intros [|v b] n L; try discriminate.
    - destruct n; discriminate.
    - injection L as L. destruct n as [|n]; cbn; [intros [= <-] [= <-]; reflexivity|]. apply IH, L.
  Qed.
  Lemma kdotx_add ds x0 dx k k' k'' cs : (forall d, (d < length ds)%nat -> nth d k'' c0 = (nth d k c0 + nth d k' c0)%cr) ->
    kdotx F ds x0 dx k'' cs = (kdotx F ds x0 dx k cs + kdotx F ds x0 dx k' cs)%cr.
  Proof.
    intros H. unfold kdotx. rewrite <- lsum_add. apply lsum_ext. intros d Hd. apply in_seq in Hd. rewrite (H d) by lia. ring.
  Qed.
  (** two kicks add *)
  Lemma wave_mul ds x0 dx k k' k'' t t' t'' : Forall (fun d => 0 < d) ds -> wave_table F cexp ds x0 dx k t -> wave_table F cexp ds x0 dx k' t' ->
    wave_table F cexp ds x0 dx k'' t'' -> (forall d, (d < length ds)%nat -> nth d k'' c0 = (nth d k c0 + nth d k' c0)%cr) -> kmul F t t' = t''.
  Proof.
    intros Pos [L T] [L' T'] [L'' T''] H. apply rd_ext.
    - rewrite <- L in L'. unfold zlen in *. rewrite kmul_len; lia.
    - intros i Hi. assert (Hl : length t = length t') by (unfold zlen in *; lia).
      assert (Hi' : 0 <= i < points ds) by (rewrite <- L; unfold zlen in *; rewrite kmul_len in Hi by exact Hl; exact Hi).
      destruct (flat_surj ds i Pos Hi') as (cs & Hc & <-).
      rewrite (kmul_rd _ _ _ _ _ Hl (T cs Hc) (T' cs Hc)), (T'' cs Hc). f_equal. rewrite <- (ex_add F cexp EX). f_equal.
      rewrite (kdotx_add _ _ _ k k' k'' cs H). apply cx_eq; cbn; ring.
  Qed.
End KickProofs.
Section Shift.
  Variable F : ofld.
  Variable cexp : Cx F -> Cx F.
  Hypothesis EX : exp_law F cexp.
  Add Ring KR2 : (cr_th F).
  Add Ring KC2 : (cr_th (Cx F)).
  Definition at_j (l : list (Cx F)) (j : Z) : Cx F := nth (Z.to_nat j) l c0.
  Lemma at_rd l j x : rd l j = Ok x -> at_j l j = x.
  Proof. unfold rd, at_j. destruct (0 <=? j); [|discriminate]. destruct (nth_error l (Z.to_nat j)) eqn:E; [|discriminate]. intros [= <-]. apply nth_error_nth, E. Qed.
  Lemma shift N x0 dx dk n m psi t : 0 < N -> zlen psi = N -> wave_table F cexp [N] (fun _ => x0) (fun _ => dx) [(ofZ n * dk)%cr] t ->
    fourier F cexp (dk * dx)%cr (at_j (kmul F psi t)) N m =
    (cexp (im F (ofZ n * dk * x0)) * fourier F cexp (dk * dx)%cr (at_j psi) N (m - n))%cr.
  Proof.
    intros HN L [Lt T]. unfold fourier. rewrite <- lsum_mul. apply lsum_ext. intros j Hj. apply in_upto in Hj.
    assert (Hc : in_box [N] [j]) by (constructor; [lia|constructor]). specialize (T [j] Hc). cbn [flat] in T. replace (j + N * 0) with j in T by ring.
    destruct (proj1 (rd_ok psi j)) as [a Ea]; [lia|].
    assert (Le : length psi = length t) by (unfold zlen in *; cbn [points fold_right] in Lt; lia).
    rewrite (at_rd _ _ _ (kmul_rd F psi t j _ _ Le Ea T)), (at_rd _ _ _ Ea).
    transitivity (a * (cexp (im F (ofZ n * dk * x0)) * cexp (im F (- (ofZ ((m - n) * j) * (dk * dx)))))%cr)%cr; [|ring].
    rewrite <- (ex_add F cexp EX). transitivity (a * (cexp (im F (kdotx F [N] (fun _ => x0) (fun _ => dx) [(ofZ n * dk)%cr] [j])) * cexp (im F (- (ofZ (m * j) * (dk * dx)))))%cr)%cr; [ring|].
    rewrite <- (ex_add F cexp EX). do 2 f_equal. unfold kdotx, im. cbn [length seq lsum map fold_right nth]. rewrite !(ofZ_mul F), (ofZ_sub F).
    apply cx_eq; cbn; ring.
  Qed.
End Shift.

Section Zero.
  Variable F : ofld.
  Add Ring KR3 : (cr_th F).
  Lemma zero_dot ds x0 dx dims s cs : kdotx F ds x0 dx (kvec F (mkKP dims s [])) cs = c0.
  Proof. unfold kdotx. apply lsum_zero. intros d _. destruct d; cbn; ring. Qed.
  Lemma zero_opp dims s d : nth d (kvec F (mkKP dims s [])) c0 = (- nth d (kvec F (mkKP dims s [])) c0)%cr.
  Proof. destruct d; cbn; ring. Qed.
  Lemma zero_add dims s d : nth d (kvec F (mkKP dims s [])) c0 = (nth d (kvec F (mkKP dims s [])) c0 + nth d (kvec F (mkKP dims s [])) c0)%cr.
  Proof. destruct d; cbn; ring. Qed.
End Zero.
