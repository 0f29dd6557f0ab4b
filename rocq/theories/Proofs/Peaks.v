From Coq Require Import List ZArith QArith Lqa Bool Lia Sorted.
From Coq Require Qcanon.
From Verif Require Import Base Arrays Model.Peaks Spec.Peaks.
Import ListNotations.
Open Scope Z_scope.

Lemma qlt_iff a b : qlt a b = true <-> (a < b)%Q.
Proof.
  unfold qlt. rewrite negb_true_iff. split.
  - intros H. apply Qnot_le_lt. intros L. apply Qle_bool_iff in L. congruence.
  - intros H. destruct (Qle_bool b a) eqn:E; [|reflexivity]. apply Qle_bool_iff in E. lra.
Qed.
Lemma qlt_not a b : qlt a b = false <-> (b <= a)%Q.
Proof.
  split.
  - intros H. apply Qnot_lt_le. intros L. apply qlt_iff in L. congruence.
  - intros H. destruct (qlt a b) eqn:E; [|reflexivity]. apply qlt_iff in E. lra.
Qed.

Lemma rd_at data i : 0 <= i < zlen data -> rd data i = Ok (at_ data i).
Proof. apply rd_nth. Qed.

Lemma maximas_spec data : exists ml, maximas data = Ok ml /\ StronglySorted Z.lt ml /\ forall i, In i ml <-> local_max data i.
Proof.
  unfold maximas. destruct (Z.le_gt_cases 1 (zlen data)) as [Hl|Hl].
  2: { rewrite upto_nil by lia. cbn. exists []. split; [reflexivity|]. split; [constructor|]. intros i. split; [intros []|].
       unfold local_max, zlen in *. lia. }
  destruct (foldM_upto (fun '(ml, delta) i => let* x := rd data i in let* y := rd data (i - 1) in
      Ok (if qlt x y && qlt 0 delta then ml ++ [i - 1] else ml, (x - y)%Q))
    (fun k s => StronglySorted Z.lt (fst s) /\
       (forall i, In i (fst s) <-> local_max data i /\ i + 1 < k) /\
       (snd s == if k =? 1 then 0 else at_ data (k - 1) - at_ data (k - 2))%Q) 1 (zlen data) ([], 0%Q)) as ([ml d] & E & S & H & _).
  - exact Hl.
  - cbn. split; [constructor|]. split; [|reflexivity]. intros i. split; [intros []|]. unfold local_max. lia.
  - intros k [ml d] Hk (S & H & Hd). cbn [fst snd] in *. rewrite rd_at by lia. cbn [bind]. rewrite rd_at by lia. cbn [bind].
    eexists. split; [reflexivity|]. cbn [fst snd].
    assert (Dd : qlt 0 d = true <-> 2 <= k /\ (at_ data (k - 2) < at_ data (k - 1))%Q).
    { rewrite qlt_iff. destruct (k =? 1) eqn:K; [apply Z.eqb_eq in K|apply Z.eqb_neq in K].
      - split; [intros; lra|lia].
      - split; [intros; split; [lia|lra]|intros [_ ?]; lra]. }
    assert (P : qlt (at_ data k) (at_ data (k - 1)) && qlt 0 d = true <-> local_max data (k - 1)).
    { rewrite andb_true_iff, Dd, qlt_iff. unfold local_max. replace (k - 1 - 1) with (k - 2) by lia. replace (k - 1 + 1) with k by lia.
      unfold zlen in *. split; [intros (A & B & C); repeat split; try assumption; lia|intros (A & B & C & D); repeat split; try assumption; lia]. }
    split; [|split].
    + destruct (_ && _); [|exact S]. clear -S H.
      assert (Lt : forall i, In i ml -> i < k - 1) by (intros i Hi; apply H in Hi; lia). clear H.
      induction ml as [|a t IH]; cbn; [constructor; constructor|]. inversion S; subst. constructor.
      * apply IH; [assumption|]. intros i Hi. apply Lt. right; exact Hi.
      * apply Forall_app. split; [assumption|]. constructor; [apply Lt; left; reflexivity|constructor].
    + intros i. destruct (_ && _).
      * rewrite in_app_iff, H. cbn [In]. split.
        -- intros [[A B]|[<-|[]]]; [split; [exact A|lia]|]. split; [tauto|lia].
        -- intros [A B]. destruct (Z.eq_dec i (k - 1)) as [->|]; [right; left; reflexivity|left; split; [exact A|lia]].
      * rewrite H. split; intros [A B]; (split; [exact A|]); [lia|]. destruct (Z.eq_dec i (k - 1)) as [->|]; [|lia].
        exfalso. apply P in A. discriminate.
    + replace (k + 1 - 1) with k by lia. replace (k + 1 - 2) with (k - 1) by lia. rewrite (proj2 (Z.eqb_neq (k + 1) 1)) by lia. reflexivity.
  - rewrite E. cbn [bind fst snd] in *. exists ml. split; [reflexivity|]. split; [exact S|]. intros i. rewrite H.
    unfold local_max, zlen in *. split; [tauto|]. intros A. split; [exact A|lia].
Qed.

Section Regions.
  Variable data : list Q.
  Variable thr : Q.
  Notation n := (zlen data).
  Notation d := (at_ data).

  Definition good (p : Z) : Prop := exists a c, region data thr a c /\ summit data a c p.
  Definition covered (ps : list Z) (j : Z) : Prop := exists p a c, In p ps /\ region data thr a c /\ summit data a c p /\ a <= j < c.

  Definition opened (a i : Z) : Prop := 0 <= a < i /\ (thr < d a)%Q /\ (forall j, a <= j < i -> (thr <= d j)%Q) /\ (a = 0 \/ (d (a - 1) <= thr)%Q).

  Definition inv (i : Z) (s : pstate) : Prop :=
    (forall p, In p (p_peaks s) -> good p) /\
    if p_start s then
      exists a, opened a i /\ summit data a i (p_ind s) /\ p_dmax s = d (p_ind s) /\
        forall j, 0 <= j < a -> (thr < d j)%Q -> covered (p_peaks s) j
    else (i = 0 \/ (d (i - 1) <= thr)%Q) /\ forall j, 0 <= j < i -> (thr < d j)%Q -> covered (p_peaks s) j.

  Lemma covered_app ps qs j : covered ps j -> covered (ps ++ qs) j.
  Proof. intros (p & a & c & H & R). exists p, a, c. split; [apply in_app_iff; auto|exact R]. Qed.

  Lemma pass_inv i s : (0 <= thr)%Q -> 0 <= i < n -> inv i s -> exists s', pass data thr s i = Ok s' /\ inv (i + 1) s'.
  Proof.
    intros Ht Hi [G I]. unfold pass. rewrite rd_at by exact Hi. cbn [bind]. eexists. split; [reflexivity|].
    destruct (p_start s) eqn:S.
    - destruct I as (a & O & (Sp & Sm & Sf) & Dm & C). cbn [negb andb]. rewrite S. cbn [andb].
      destruct O as (Oa & Ob & Oc & Od).
      destruct (qlt (d i) thr) eqn:X; cbn [p_start andb].
      + apply qlt_iff in X.
        assert (R : region data thr a i) by (unfold region; unfold zlen in Hi; split; [lia|]; split; [lia|]; auto).
        assert (Su : summit data a i (p_ind s)) by (repeat split; try assumption; lia).
        split; cbn [p_peaks p_start].
        * intros p Hp. apply in_app_iff in Hp. destruct Hp as [Hp|[<-|[]]]; [apply G; exact Hp|]. exists a, i. auto.
        * replace (i + 1 - 1) with i by lia. split; [right; lra|]. intros j Hj Xj. destruct (Z.lt_ge_cases j a) as [L|L].
          -- apply covered_app. apply C; [lia|exact Xj].
          -- destruct (Z.eq_dec j i) as [->|]; [lra|]. exists (p_ind s), a, i. split; [apply in_app_iff; right; left; reflexivity|].
             split; [exact R|]. split; [exact Su|lia].
      + apply qlt_not in X. rewrite S. cbn [andb].
        assert (O' : opened a (i + 1)).
        { split; [lia|]. split; [exact Ob|]. split; [|exact Od]. intros j Hj. destruct (Z.eq_dec j i) as [->|]; [exact X|apply Oc; lia]. }
        destruct (qlt (p_dmax s) (d i)) eqn:Y.
        * apply qlt_iff in Y. split; [exact G|]. cbn [p_start p_ind p_dmax p_peaks]. exists a. split; [exact O'|]. split; [|split; [reflexivity|exact C]].
          rewrite Dm in Y. split; [lia|]. split.
          -- intros j Hj. destruct (Z.eq_dec j i) as [->|]; [lra|]. specialize (Sm j ltac:(lia)). lra.
          -- intros j Hj. specialize (Sm j ltac:(lia)). lra.
        * apply qlt_not in Y. split; [exact G|]. rewrite S. exists a. split; [exact O'|]. split; [|split; [exact Dm|exact C]].
          rewrite Dm in Y. split; [lia|]. split; [|exact Sf]. intros j Hj. destruct (Z.eq_dec j i) as [->|]; [exact Y|apply Sm; lia].
    - destruct I as [Pv C]. cbn [negb andb]. destruct (qlt thr (d i)) eqn:X.
      + apply qlt_iff in X. cbn [p_start andb]. rewrite (proj2 (qlt_not (d i) thr)) by lra. cbn [p_start p_dmax andb p_peaks].
        rewrite (proj2 (qlt_iff 0 (d i))) by lra. split; [exact G|]. cbn [p_start p_ind p_dmax p_peaks]. exists i.
        split; [|split; [|split; [reflexivity|exact C]]].
        * split; [lia|]. split; [exact X|]. split; [|destruct Pv; auto]. intros j Hj. replace j with i by lia. lra.
        * split; [lia|]. split; [intros j Hj; replace j with i by lia; lra|lia].
      + apply qlt_not in X. rewrite S. cbn [andb]. rewrite S. cbn [andb]. split; [exact G|]. rewrite S. replace (i + 1 - 1) with i by lia.
        split; [right; exact X|]. intros j Hj Xj. destruct (Z.eq_dec j i) as [->|]; [lra|]. apply C; [lia|exact Xj].
  Qed.

  Lemma regions_spec : (0 <= thr)%Q -> exists ps, find_regions data thr = Ok ps /\
    (forall p, In p ps -> good p) /\
    (forall j, 0 <= j < n -> (thr < d j)%Q -> covered ps j \/
       exists a, region data thr a n /\ a <= j /\ forall k, a <= k < n -> (d k <= d (n - 1))%Q).
  Proof.
    intros Ht. unfold find_regions. destruct (foldM_upto (pass data thr) inv 0 n (mkP false 0 0 [])) as (s & E & G & I).
    - unfold zlen; lia.
    - split; [intros p []|]. cbn. split; [left; reflexivity|]. lia.
    - intros k s Hk H. apply pass_inv; assumption.
    - rewrite E. cbn [bind]. destruct (p_start s) eqn:S; cbn [andb].
      + destruct I as (a & (Oa & Ob & Oc & Od) & (Sp & Sm & Sf) & Dm & C).
        assert (R : region data thr a n) by (unfold region, zlen in *; split; [lia|]; split; [lia|]; auto).
        rewrite (proj2 (Z.eqb_neq (p_ind s) (-1))) by lia. cbn [negb]. rewrite rd_at by lia. cbn [bind].
        destruct (qlt (d (n - 1)) (p_dmax s)) eqn:X.
        * exists (p_peaks s ++ [p_ind s]). split; [reflexivity|]. split.
          -- intros p Hp. apply in_app_iff in Hp. destruct Hp as [Hp|[<-|[]]]; [apply G; exact Hp|]. exists a, n. split; [exact R|repeat split; auto; lia].
          -- intros j Hj Xj. left. destruct (Z.lt_ge_cases j a) as [L|L]; [apply covered_app, C; auto; lia|].
             exists (p_ind s), a, n. split; [apply in_app_iff; right; left; reflexivity|]. split; [exact R|]. split; [repeat split; auto; lia|lia].
        * apply qlt_not in X. exists (p_peaks s). split; [reflexivity|]. split; [exact G|]. intros j Hj Xj.
          destruct (Z.lt_ge_cases j a) as [L|L]; [left; apply C; auto; lia|]. right. exists a. split; [exact R|]. split; [lia|].
          intros k Hk. specialize (Sm k Hk). rewrite Dm in X. lra.
      + exists (p_peaks s). split; [reflexivity|]. split; [exact G|]. intros j Hj Xj. left. apply I; assumption.
  Qed.

  Lemma good_inside p : good p -> 0 <= p < Z.of_nat (length data) /\ (thr < d p)%Q.
  Proof.
    intros (a & c & (R1 & R2 & R3 & _) & S1 & S2 & _). split; [lia|]. specialize (S2 a ltac:(lia)). lra.
  Qed.
End Regions.

(** the windowed search returns a selection of the local maxima *)
Lemma window_spec sq tol data win : 0 <= win -> exists ps, find_window sq tol data win = Ok ps /\ forall p, In p ps -> local_max data p.
Proof.
  intros Hw. unfold find_window. destruct (maximas_spec data) as (ml & E & _ & H). rewrite E. cbn [bind].
  assert (Sm : forall (f : Q -> Q -> Q) a b, 0 <= a -> b <= zlen data -> exists s, foldM (fun s i => let* x := rd data i in Ok (f s x)) (upto a b) 0%Q = Ok s).
  { intros f a b Ha Hb. destruct (Z.le_gt_cases a b) as [L|L]; [|rewrite upto_nil by lia; eexists; reflexivity].
    destruct (foldM_upto (fun s i => let* x := rd data i in Ok (f s x)) (fun _ _ => True) a b 0%Q L I) as (s & Es & _); [|eauto].
    intros k s Hk _. rewrite rd_at by lia. eexists. split; [reflexivity|exact I]. }
  destruct (foldM_inv (fun peaks it =>
      let mn := if it <? win then 0 else it - win in
      let mx := if zlen data - 1 <? it + win then zlen data - 1 else it + win in
      if mx <=? mn then Ok peaks else
      let* m := mean data mn mx in
      let* v := variance data mn mx m in
      let* x := rd data it in
      Ok (if qlt (m + tol * sq v) x then peaks ++ [it] else peaks))
    (fun _ ps => forall p, In p ps -> local_max data p) ml []) as (ps & Eq & P).
  - intros p [].
  - intros dn it t ps -> P. assert (L : local_max data it) by (apply H, in_app_iff; right; left; reflexivity). cbv zeta.
    set (mn := if it <? win then 0 else it - win). set (mx := if zlen data - 1 <? it + win then zlen data - 1 else it + win).
    destruct (mx <=? mn) eqn:M; [exists ps; auto|]. apply Z.leb_gt in M. destruct L as (L1 & L2 & L3 & L4).
    assert (Hb : 0 <= mn /\ mx <= zlen data).
    { unfold mn, mx, zlen. destruct (Z.ltb_spec it win), (Z.ltb_spec (Z.of_nat (length data) - 1) (it + win)); lia. }
    unfold mean, variance. destruct (Sm Qplus mn mx) as (s & Es); try lia. rewrite Es. cbn [bind].
    set (m := (s / inject_Z (mx - mn))%Q). destruct (Sm (fun s x => (s + (x - m) * (x - m))%Q) mn mx) as (s2 & Es2); try lia.
    rewrite Es2. cbn [bind]. rewrite rd_at by (unfold zlen; lia). cbn [bind]. eexists. split; [reflexivity|].
    intros p Hp. destruct (qlt _ _); [|apply P; exact Hp]. apply in_app_iff in Hp. destruct Hp as [Hp|[<-|[]]]; [apply P; exact Hp|].
    repeat split; assumption.
  - exists ps. split; [exact Eq|exact P].
Qed.

Lemma qlt_comp a a' b b' : (a == a')%Q -> (b == b')%Q -> qlt a b = qlt a' b'.
Proof. intros H H'. apply eq_true_iff_eq. rewrite !qlt_iff, H, H'. reflexivity. Qed.
Lemma regions_comp data t t' : (t == t')%Q -> find_regions data t = find_regions data t'.
Proof.
  intros H. unfold find_regions. rewrite (foldM_ext (pass data t) (pass data t')); [reflexivity|].
  intros i s _. unfold pass. destruct (rd data i) as [x| |]; cbn [bind]; auto.
  rewrite (qlt_comp t t' x x H (Qeq_refl x)), (qlt_comp x x t t' (Qeq_refl x) H). reflexivity.
Qed.

Lemma lost_peak sq : root sq -> find_peaks sq 1 [-10#1; -10#1; -5#1; -10#1; -10#1]%Q = Ok [-1].
Proof.
  intros R. unfold find_peaks. set (D := [_; _; _; _; _]). change (zlen D =? 0) with false. cbv iota.
  replace (mean D 0 (zlen D)) with (Ok (-45 # 5)%Q) by reflexivity. cbn [bind].
  replace (variance D 0 (zlen D) (-45 # 5)) with (Ok (195312500 # 48828125)%Q) by reflexivity. cbn [bind].
  rewrite (regions_comp _ _ (-7#1)%Q); [reflexivity|]. rewrite (R _ 2%Q); [reflexivity|discriminate|reflexivity].
Qed.

Definition qsqrt (v : Q) : Q := let r := Qred v in Z.sqrt (Qnum r) # Z.to_pos (Z.sqrt (Z.pos (Qden r))).
Lemma qsqrt_root : root qsqrt.
Proof.
  intros v w Hw H. unfold qsqrt. set (u := Qred w).
  assert (Hu : (w == u)%Q) by (symmetry; apply Qred_correct).
  assert (Cu : Z.gcd (Qnum u) (Z.pos (Qden u)) = 1).
  { unfold u, Qred. destruct w as [a b]. pose proof (Z.ggcd_gcd a (Z.pos b)) as G. pose proof (Z.ggcd_correct_divisors a (Z.pos b)) as D.
    destruct (Z.ggcd a (Z.pos b)) as [g [x y]] eqn:E. cbn [fst snd Qnum Qden] in *. destruct D as [D1 D2].
    assert (0 < g) by (subst g; pose proof (Z.gcd_nonneg a (Z.pos b)); destruct (Z.eq_dec (Z.gcd a (Z.pos b)) 0) as [e|]; [apply Z.gcd_eq_0_r in e; discriminate|lia]).
    assert (0 < y) by nia. rewrite Z2Pos.id by assumption. 
    assert (g * Z.gcd x y = g * 1).
    { rewrite <- (Z.abs_eq g) at 1 by lia. rewrite <- Z.gcd_mul_mono_l. rewrite <- D1, <- D2. lia. }
    nia. }
  assert (Hr : Qred v = (Qnum u * Qnum u # Qden u * Qden u)%Q).
  { transitivity (Qred (u * u)); [apply Qred_complete; rewrite H, Hu; reflexivity|]. unfold Qmult. apply Qcanon.Qred_identity.
    cbn [Qnum Qden]. rewrite Pos2Z.inj_mul. apply Znumtheory.Zgcd_1_rel_prime. apply Znumtheory.Zgcd_1_rel_prime in Cu.
    apply Znumtheory.rel_prime_mult; apply Znumtheory.rel_prime_sym; apply Znumtheory.rel_prime_mult; apply Znumtheory.rel_prime_sym; exact Cu. }
  assert (0 <= Qnum u) by (rewrite Hu in Hw; unfold Qle in Hw; cbn in Hw; lia).
  rewrite Hr. cbn [Qnum Qden]. rewrite Pos2Z.inj_mul. rewrite !Z.sqrt_square by lia. cbn. rewrite Hu. destruct u; reflexivity.
Qed.
