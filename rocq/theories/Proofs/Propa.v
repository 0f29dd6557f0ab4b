(** Proofs about the propagation program. *)
From Coq Require Import List ZArith Lia Bool Arith.
From Verif Require Import Base Arrays Model.Propa Spec.Propa.
Import ListNotations.
Open Scope Z_scope.

Lemma Forall2_length {A B} (P : A -> B -> Prop) l1 l2 : Forall2 P l1 l2 -> length l1 = length l2.
Proof. induction 1; cbn; congruence. Qed.
Lemma nth_error_same {A} (l1 l2 : list A) : (forall k, nth_error l1 k = nth_error l2 k) -> l1 = l2.
Proof.
  revert l2. induction l1 as [|a t IH]; intros [|b u] H; [reflexivity|specialize (H O); discriminate..|]. f_equal; [specialize (H O); cbn in H; congruence|]. apply IH. intros k. exact (H (S k)).
Qed.
Lemma filter_all {A} (f : A -> bool) l : (forall a, f a = true) -> filter f l = l.
Proof. intros H. induction l as [|a t IH]; cbn; [reflexivity|]. rewrite H, IH. reflexivity. Qed.
Lemma upto_nth c d i e : nth_error (upto c d) i = Some e -> e = c + Z.of_nat i.
Proof.
  intros H. assert (Hi : (i < length (upto c d))%nat) by (apply nth_error_Some; congruence). rewrite upto_length in Hi. unfold upto in H. rewrite nth_error_map in H. rewrite nth_error_nth' with (d := O) in H by (rewrite seq_length; lia). rewrite seq_nth in H by lia. cbn in H. injection H as <-. reflexivity.
Qed.
Lemma Forall2_at {A B} (P : A -> B -> Prop) l1 : forall l2 i p q, Forall2 P l1 l2 -> nth_error l1 i = Some p -> nth_error l2 i = Some q -> P p q.
Proof.
  induction l1 as [|a l1 IH]; intros l2 i p q F A1 B1; destruct i; cbn in A1; try discriminate; inversion F as [|? b ? l3 H F']; subst; cbn in B1; [congruence|]. apply (IH l3 i); assumption.
Qed.
Section P.
  Variable W : Type.
  Variables pre report prop post : Z -> W -> outcome W.
  Notation body := (body W pre report prop post).
  Notation loop := (loop W pre report prop post).
  Notation p_run := (p_run W pre report prop post).
  Notation turn := (turn W pre report prop post).
  Notation evolve := (evolve W pre report prop post).
  Notation run := (run W).
  Definition wanted (w a b : Z) : list Z := filter (fun i => Z.rem i w =? 0) (upto a b).
  Lemma loop_app w l1 : forall l2 s, loop w (l1 ++ l2) s = let* r := loop w l1 s in if fst r then loop w l2 (snd r) else Ok r.
  Proof.
    induction l1 as [|i t IH]; intros l2 s; [reflexivity|]. cbn [app Propa.loop]. destruct (body w s i) as [[[] r]| |]; try reflexivity. cbn [bind fst snd]. apply IH.
  Qed.
  Lemma body_ok w s i y : w <> 0 -> u_clock W s < INT_MAX -> turn (u_clock W s) (u_psi W s) = Ok y ->
    body w s i = Ok (true, let s' := mkRun W y (u_clock W s + 1) (u_counter W s) (u_files W s) (u_meta W s) (u_log W s ++ [u_clock W s]) in if Z.rem i w =? 0 then meta W i (write W s') else s').
  Proof.
    intros Hw Hc T. unfold Spec.Propa.turn in T. unfold Propa.body. destruct (pre (u_clock W s) (u_psi W s)) as [x1| |]; try discriminate. cbn [bind] in *. destruct (report (u_clock W s) x1) as [x2| |]; try discriminate. cbn [bind] in *. destruct (prop (u_clock W s) x2) as [x3| |]; try discriminate. cbn [bind] in *.
    unfold tick. destruct (Z.ltb_spec (u_clock W s) INT_MAX); [|lia]. cbn [bind]. rewrite T. destruct (Z.eqb_spec w 0); [contradiction|]. reflexivity.
  Qed.
  Lemma body_throw w s i : u_clock W s < INT_MAX -> turn (u_clock W s) (u_psi W s) = Throw -> exists s', body w s i = Ok (false, s') /\ u_files W s' = u_files W s /\ u_counter W s' = u_counter W s.
  Proof.
    intros Hc T. unfold Spec.Propa.turn in T. unfold Propa.body. destruct (pre (u_clock W s) (u_psi W s)) as [x1| |]; try discriminate; cbn [bind] in *; [|eexists; split; [reflexivity|split; reflexivity]]. destruct (report (u_clock W s) x1) as [x2| |]; try discriminate; cbn [bind] in *; [|eexists; split; [reflexivity|split; reflexivity]]. destruct (prop (u_clock W s) x2) as [x3| |]; try discriminate; cbn [bind] in *; [|eexists; split; [reflexivity|split; reflexivity]].
    unfold tick. destruct (Z.ltb_spec (u_clock W s) INT_MAX); [|lia]. cbn [bind]. rewrite T. eexists; split; [reflexivity|split; reflexivity].
  Qed.
  Lemma loop_ok w a n s y : w <> 0 -> u_clock W s + Z.of_nat n <= INT_MAX -> evolve (u_clock W s) n (u_psi W s) = Ok y ->
    exists s' fl, loop w (upto a (a + Z.of_nat n)) s = Ok (true, s') /\ u_psi W s' = y /\ u_clock W s' = u_clock W s + Z.of_nat n /\
      u_log W s' = (u_log W s ++ upto (u_clock W s) (u_clock W s + Z.of_nat n))%list /\ u_files W s' = (u_files W s ++ fl)%list /\
      u_counter W s' = u_counter W s + zlen fl /\ map fst fl = upto (u_counter W s) (u_counter W s + zlen fl) /\
      Forall2 (fun i f => evolve (u_clock W s) (Z.to_nat (i - a + 1)) (u_psi W s) = Ok (snd f)) (wanted w a (a + Z.of_nat n)) fl.
  Proof.
    intros Hw. revert y. induction n as [|n IH]; intros y Hc E.
    - cbn in E. injection E as <-. change (Z.of_nat 0) with 0. rewrite !Z.add_0_r. unfold wanted. rewrite !upto_nil by lia. exists s, []. change (zlen (@nil (Z * W))) with 0. rewrite !Z.add_0_r, upto_nil, !app_nil_r by lia. repeat split; try reflexivity; constructor.
    - cbn [Spec.Propa.evolve] in E. destruct (evolve (u_clock W s) n (u_psi W s)) as [y0| |] eqn:E0; try discriminate. cbn [bind] in E. destruct (IH y0) as (s1 & fl & L & P & C & G & F & K & N & V); [lia|reflexivity|].
      replace (a + Z.of_nat (S n)) with (a + Z.of_nat n + 1) by lia. unfold wanted. rewrite !upto_snoc by lia. rewrite loop_app, L. cbn [bind fst snd Propa.loop]. rewrite <- C, <- P in E. rewrite (body_ok w s1 _ y Hw) by (try exact E; lia). cbn [bind fst snd].
      rewrite filter_app. cbn [filter]. fold (wanted w a (a + Z.of_nat n)).
      assert (E' : evolve (u_clock W s) (Z.to_nat (a + Z.of_nat n - a + 1)) (u_psi W s) = Ok y).
      { replace (Z.to_nat (a + Z.of_nat n - a + 1)) with (S n) by lia. cbn [Spec.Propa.evolve]. rewrite E0. cbn [bind]. rewrite <- C, <- P. exact E. }
      assert (Lg : (u_log W s1 ++ [u_clock W s1] = u_log W s ++ upto (u_clock W s) (u_clock W s + Z.of_nat (S n)))%list).
      { rewrite G, <- app_assoc. f_equal. rewrite C. replace (u_clock W s + Z.of_nat (S n)) with (u_clock W s + Z.of_nat n + 1) by lia. rewrite upto_snoc by lia. reflexivity. }
      destruct (Z.rem (a + Z.of_nat n) w =? 0).
      + eexists. exists (fl ++ [(u_counter W s1, y)])%list. split; [reflexivity|]. cbn [meta write u_psi u_clock u_log u_files u_counter].
        assert (Zl : zlen (fl ++ [(u_counter W s1, y)]) = zlen fl + 1) by (unfold zlen; rewrite app_length; cbn [length]; lia). rewrite Zl.
        split; [reflexivity|]. split; [lia|]. split; [exact Lg|]. split; [rewrite F, <- app_assoc; reflexivity|]. split; [lia|]. split.
        * rewrite map_app, N. cbn [map fst]. rewrite Z.add_assoc, upto_snoc by (unfold zlen; lia). rewrite K. reflexivity.
        * apply Forall2_app; [exact V|]. constructor; [exact E'|constructor].
      + eexists. exists fl. split; [reflexivity|]. cbn [u_psi u_clock u_log u_files u_counter]. split; [reflexivity|]. split; [lia|]. split; [exact Lg|]. split; [exact F|]. split; [exact K|]. split; [exact N|]. rewrite app_nil_r. exact V.
  Qed.
  Lemma wanted_mult w n : w <> 0 -> wanted w 1 (1 + Z.of_nat n) = map (fun j => j * Z.abs w) (upto 1 (1 + Z.of_nat n / Z.abs w)).
  Proof.
    intros Hw. induction n as [|n IH].
    - change (Z.of_nat 0) with 0. rewrite Z.div_0_l by lia. reflexivity.
    - replace (1 + Z.of_nat (S n)) with (1 + Z.of_nat n + 1) by lia. unfold wanted in *. rewrite upto_snoc by lia. rewrite filter_app, IH. cbn [filter].
      assert (R : Z.rem (1 + Z.of_nat n) w = 0 <-> (1 + Z.of_nat n) mod Z.abs w = 0). { rewrite <- Z.rem_abs_r by lia. rewrite Z.rem_mod_nonneg by lia. reflexivity. }
      replace (Z.of_nat (S n)) with (1 + Z.of_nat n) by lia. pose proof (Z.div_mod (1 + Z.of_nat n) (Z.abs w) ltac:(lia)) as D. pose proof (Z.mod_pos_bound (1 + Z.of_nat n) (Z.abs w) ltac:(lia)) as B. set (q := (1 + Z.of_nat n) / Z.abs w) in *.
      assert (Q0 : 0 <= q) by (apply Z.div_pos; lia).
      destruct (Z.eqb_spec (Z.rem (1 + Z.of_nat n) w) 0) as [E|E].
      + apply R in E. rewrite E in D. assert (Q : Z.of_nat n / Z.abs w = q - 1). { symmetry. apply (Z.div_unique_pos _ _ _ (Z.abs w - 1)); [lia|]. nia. }
        rewrite Q. replace (1 + (q - 1)) with q by lia. rewrite (Z.add_comm 1 q), upto_snoc by nia. rewrite map_app. cbn [map]. f_equal. f_equal. nia.
      + assert (E' : (1 + Z.of_nat n) mod Z.abs w <> 0) by (rewrite <- R; exact E). assert (Q : Z.of_nat n / Z.abs w = q). { symmetry. apply (Z.div_unique_pos _ _ _ ((1 + Z.of_nat n) mod Z.abs w - 1)); lia. }
        rewrite Q, app_nil_r. reflexivity.
  Qed.
  Lemma run_ok g x n y : g_start g = 0 -> g_wcycle g <> 0 -> g_steps g = Z.of_nat n -> Z.of_nat n <= INT_MAX -> evolve 0 n x = Ok y ->
    exists s, p_run g x = Ok (true, s) /\ u_psi W s = y /\ u_clock W s = Z.of_nat n /\ u_log W s = upto 0 (Z.of_nat n) /\ u_meta W s = Some (Z.of_nat n) /\
      zlen (u_files W s) = Z.of_nat n / Z.abs (g_wcycle g) + 1 /\
      forall j, 0 <= j <= Z.of_nat n / Z.abs (g_wcycle g) -> exists z, rd (u_files W s) j = Ok (j, z) /\ evolve 0 (Z.to_nat (j * Z.abs (g_wcycle g))) x = Ok z.
  Proof.
    intros Hs Hw Hn Hm E. unfold Propa.p_run. rewrite Hs, Hn. cbn [Z.eqb negb]. cbn [write u_psi u_clock u_counter u_files u_meta u_log app].
    set (s0 := mkRun W x 0 (0 + 1) [(0, x)] None []). replace (Z.of_nat n + 1) with (1 + Z.of_nat n) by lia.
    destruct (loop_ok (g_wcycle g) 1 n s0 y Hw) as (s' & fl & L & P & C & G & F & K & N & V); [cbn [s0 u_clock]; lia|exact E|]. rewrite L. cbn [bind fst snd]. eexists. split; [reflexivity|]. cbn [meta u_psi u_clock u_log u_meta u_files].
    split; [exact P|]. split; [exact C|]. split; [exact G|]. split; [reflexivity|].
    pose proof (Forall2_length _ _ _ V) as Lf. rewrite wanted_mult in V, Lf by exact Hw. rewrite map_length, upto_length in Lf. rewrite F. cbn [s0 u_files app]. set (q := Z.of_nat n / Z.abs (g_wcycle g)) in *. assert (Q0 : 0 <= q) by (apply Z.div_pos; lia).
    assert (Zf : zlen fl = q) by (unfold zlen; lia). split; [unfold zlen in *; cbn [length]; lia|].
    intros j Hj. destruct (Z.eq_dec j 0) as [->|J0]; [exists x; split; reflexivity|].
    destruct (nth_error fl (Z.to_nat (j - 1))) as [[m z]|] eqn:Nf; [|apply nth_error_None in Nf; unfold zlen in Zf; lia].
    exists z.
    assert (Mj : m = j). { assert (A : nth_error (map fst fl) (Z.to_nat (j - 1)) = Some m) by (rewrite nth_error_map, Nf; reflexivity). rewrite N in A. cbn [s0 u_counter] in A. apply upto_nth in A. lia. }
    subst m. split.
    - unfold rd. destruct (Z.leb_spec 0 j); [|lia]. replace (Z.to_nat j) with (S (Z.to_nat (j - 1))) by lia. cbn [nth_error]. rewrite Nf. reflexivity.
    - assert (V' : nth_error (map (fun j => j * Z.abs (g_wcycle g)) (upto 1 (1 + q))) (Z.to_nat (j - 1)) = Some (j * Z.abs (g_wcycle g))).
      { rewrite nth_error_map. unfold upto. rewrite nth_error_map. rewrite nth_error_nth' with (d := O) by (rewrite seq_length; lia). rewrite seq_nth by lia. cbn [option_map]. f_equal. f_equal. lia. }
      pose proof (Forall2_at _ _ _ _ _ _ V V' Nf) as G2.
      cbn [s0 u_clock u_psi snd] in G2. rewrite <- G2. f_equal. lia.
  Qed.
  (** a failing step *)
  Lemma run_fail g x n y : g_start g = 0 -> g_wcycle g <> 0 -> Z.of_nat n < g_steps g <= INT_MAX -> evolve 0 n x = Ok y -> turn (Z.of_nat n) y = Throw ->
    exists s, p_run g x = Ok (false, s) /\ u_meta W s = Some (g_steps g) /\ zlen (u_files W s) = Z.of_nat n / Z.abs (g_wcycle g) + 1.
  Proof.
    intros Hs Hw Hn E T. unfold Propa.p_run. rewrite Hs. cbn [Z.eqb negb]. cbn [write u_psi u_clock u_counter u_files u_meta u_log app].
    set (s0 := mkRun W x 0 (0 + 1) [(0, x)] None []). rewrite (upto_app 1 (1 + Z.of_nat n)) by lia. rewrite (upto_cons (1 + Z.of_nat n)) by lia.
    destruct (loop_ok (g_wcycle g) 1 n s0 y Hw) as (s' & fl & L & P & C & G & F & K & N & V); [cbn [s0 u_clock]; lia|exact E|]. rewrite loop_app, L. cbn [bind fst snd Propa.loop].
    assert (Cn : u_clock W s' = Z.of_nat n) by (rewrite C; reflexivity). destruct (body_throw (g_wcycle g) s' (1 + Z.of_nat n)) as (s2 & B & F2 & K2); [lia|rewrite P, Cn; exact T|]. rewrite B. cbn [bind fst snd]. eexists. split; [reflexivity|]. cbn [meta u_meta u_files]. split; [reflexivity|].
    rewrite F2, F. pose proof (Forall2_length _ _ _ V) as Lf. rewrite wanted_mult in Lf by exact Hw. rewrite map_length, upto_length in Lf. cbn [s0 u_files app]. assert (Q0 : 0 <= Z.of_nat n / Z.abs (g_wcycle g)) by (apply Z.div_pos; lia). unfold zlen. cbn [length]. lia.
  Qed.
  (** the files are those of the steps before *)
  Lemma run_fail_files g x n y : g_start g = 0 -> g_wcycle g <> 0 -> Z.of_nat n < g_steps g <= INT_MAX -> evolve 0 n x = Ok y -> turn (Z.of_nat n) y = Throw ->
    exists s s', p_run g x = Ok (false, s) /\ p_run (mkCfg (Z.of_nat n) (g_wcycle g) 0) x = Ok (true, s') /\ u_files W s = u_files W s'.
  Proof.
    intros Hs Hw Hn E T. unfold Propa.p_run. rewrite Hs. cbn [Z.eqb negb g_start g_steps g_wcycle]. cbn [write u_psi u_clock u_counter u_files u_meta u_log app].
    set (s0 := mkRun W x 0 (0 + 1) [(0, x)] None []). rewrite (upto_app 1 (1 + Z.of_nat n) (g_steps g + 1)) by lia. rewrite (upto_cons (1 + Z.of_nat n)) by lia.
    destruct (loop_ok (g_wcycle g) 1 n s0 y Hw) as (s' & fl & L & P & C & G & F & K & N & V); [cbn [s0 u_clock]; lia|exact E|]. rewrite loop_app, L. cbn [bind fst snd Propa.loop].
    assert (Cn : u_clock W s' = Z.of_nat n) by (rewrite C; reflexivity). destruct (body_throw (g_wcycle g) s' (1 + Z.of_nat n)) as (s2 & B & F2 & K2); [lia|rewrite P, Cn; exact T|]. rewrite B. cbn [bind fst snd].
    replace (Z.of_nat n + 1) with (1 + Z.of_nat n) by lia. rewrite L. cbn [bind fst snd]. eexists. eexists. split; [reflexivity|]. split; [reflexivity|]. exact F2.
  Qed.
  (** a restart *)
  Lemma run_restart g x n y : 0 < g_start g -> g_wcycle g <> 0 -> g_steps g = g_start g + Z.of_nat n - 1 -> g_steps g < INT_MAX -> evolve (g_start g) n x = Ok y ->
    exists s, p_run g x = Ok (true, s) /\ u_psi W s = y /\ u_clock W s = g_start g + Z.of_nat n /\ u_log W s = upto (g_start g) (g_start g + Z.of_nat n) /\
      map fst (u_files W s) = upto (g_start g) (g_start g + zlen (u_files W s)) /\ Forall2 (fun i f => evolve (g_start g) (Z.to_nat (i - g_start g + 1)) x = Ok (snd f)) (wanted (g_wcycle g) (g_start g) (g_start g + Z.of_nat n)) (u_files W s).
  Proof.
    intros Hs Hw Hn Hm E. unfold Propa.p_run. destruct (Z.eqb_spec (g_start g) 0) as [?|_]; [lia|]. cbn [negb]. cbn [u_psi u_clock u_counter u_files u_meta u_log].
    set (s0 := mkRun W x (g_start g) (g_start g) [] None []). replace (g_steps g + 1) with (g_start g + Z.of_nat n) by lia.
    destruct (loop_ok (g_wcycle g) (g_start g) n s0 y Hw) as (s' & fl & L & P & C & G & F & K & N & V); [cbn [s0 u_clock]; lia|exact E|]. rewrite L. cbn [bind fst snd]. eexists. split; [reflexivity|]. cbn [meta u_psi u_clock u_log u_meta u_files].
    split; [exact P|]. split; [exact C|]. split; [exact G|]. rewrite F. cbn [s0 u_files app]. split; [exact N|exact V].
  Qed.
  Lemma evolve_timeless : timeless W pre report prop post -> forall n a b x, evolve a n x = evolve b n x.
  Proof. intros T n a b x. induction n as [|n IH]; [reflexivity|]. cbn [Spec.Propa.evolve]. rewrite IH. destruct (evolve b n x); [|reflexivity..]. cbn [bind]. apply T. Qed.
  Lemma evolve_add a m n x y : evolve a m x = Ok y -> evolve a (m + n) x = evolve (a + Z.of_nat m) n y.
  Proof.
    intros E. induction n as [|n IH]; [rewrite Nat.add_0_r; exact E|]. rewrite Nat.add_succ_r. cbn [Spec.Propa.evolve]. rewrite IH. destruct (evolve (a + Z.of_nat m) n y); [|reflexivity..]. cbn [bind]. f_equal. lia.
  Qed.
  (** without dependence on the time and with every step written: the restart from the wave function before step s *)
  Lemma restart_ok g x n y z s : timeless W pre report prop post -> 0 < g_start g -> g_wcycle g = 1 -> g_steps g = Z.of_nat n -> g_start g <= Z.of_nat n -> Z.of_nat n < INT_MAX -> evolve 0 n x = Ok y ->
    evolve 0 (Z.to_nat (g_start g - 1)) x = Ok z -> p_run (mkCfg (Z.of_nat n) 1 0) x = Ok (true, s) ->
    exists s', p_run g z = Ok (true, s') /\ u_psi W s' = y /\ u_files W s' = skipn (Z.to_nat (g_start g)) (u_files W s).
  Proof.
    intros T Hs Hw Hn Hl Hm E Ez R. set (st := g_start g) in *. assert (Nn : (n = Z.to_nat (st - 1) + Z.to_nat (Z.of_nat n - st + 1))%nat) by lia. set (m := Z.to_nat (Z.of_nat n - st + 1)) in *.
    assert (Em : forall k, evolve 0 (Z.to_nat (st - 1) + k) x = evolve st k z). { intros k. rewrite (evolve_add 0 _ k x z Ez). apply evolve_timeless. exact T. }
    destruct (run_restart g z m y) as (s' & R' & P' & C' & G' & N' & V'); [exact Hs|rewrite Hw; lia|lia|lia|rewrite <- Em, <- Nn; exact E|]. exists s'. split; [exact R'|]. split; [exact P'|].
    destruct (run_ok (mkCfg (Z.of_nat n) 1 0) x n y) as (s2 & R2 & P2 & C2 & G2 & M2 & L2 & F2); [reflexivity|cbn; lia|reflexivity|lia|exact E|]. rewrite R in R2. injection R2 as <-. cbn [g_wcycle] in *. change (Z.abs 1) with 1 in *. rewrite Z.div_1_r in *.
    fold st in N', V'. rewrite Hw in V'.
    assert (Wall : wanted 1 st (st + Z.of_nat m) = upto st (st + Z.of_nat m)). { unfold wanted. apply filter_all. intros i. rewrite Z.rem_1_r. reflexivity. }
    rewrite Wall in V'. pose proof (Forall2_length _ _ _ V') as Lv. rewrite upto_length in Lv.
    apply nth_error_same. intros k. destruct (Nat.lt_ge_cases k (length (u_files W s'))) as [Hk|Hk].
    2:{ rewrite !(proj2 (nth_error_None _ _)); [reflexivity| |exact Hk]. rewrite skipn_length. unfold zlen in L2. lia. }
    assert (Sk : forall {A} (l : list A) a b, nth_error (skipn a l) b = nth_error l (a + b)). { intros A l a. revert l. induction a as [|a IHa]; intros [|c l] b; cbn [skipn Nat.add nth_error]; try reflexivity; [destruct b; reflexivity|apply IHa]. }
    rewrite Sk. destruct (F2 (st + Z.of_nat k)) as (v & Rv & Ev); [lia|]. assert (Nv : nth_error (u_files W s) (Z.to_nat st + k) = Some (st + Z.of_nat k, v)).
    { unfold rd in Rv. destruct (0 <=? st + Z.of_nat k); [|discriminate]. replace (Z.to_nat st + k)%nat with (Z.to_nat (st + Z.of_nat k)) by lia. destruct (nth_error (u_files W s) (Z.to_nat (st + Z.of_nat k))); [injection Rv as ->; reflexivity|discriminate]. }
    rewrite Nv. destruct (nth_error (u_files W s') k) as [[a b]|] eqn:Nk; [|apply nth_error_None in Nk; lia]. f_equal.
    assert (A1 : nth_error (map fst (u_files W s')) k = Some a) by (rewrite nth_error_map, Nk; reflexivity). rewrite N' in A1. apply upto_nth in A1.
    assert (A2 : exists e, nth_error (upto st (st + Z.of_nat m)) k = Some e) by (destruct (nth_error (upto st (st + Z.of_nat m)) k) eqn:Q; [eexists; reflexivity|apply nth_error_None in Q; rewrite upto_length in Q; lia]). destruct A2 as [e A2].
    pose proof (Forall2_at _ _ _ _ _ _ V' A2 Nk) as Q. apply upto_nth in A2. cbn [snd] in Q. rewrite <- Em in Q. replace (Z.to_nat (st - 1) + Z.to_nat (e - st + 1))%nat with (Z.to_nat ((st + Z.of_nat k) * 1)) in Q by lia. rewrite Ev in Q. injection Q as <-. rewrite A1. reflexivity.
  Qed.
  Lemma loop_safe w : w <> 0 -> (forall k y, pre k y <> UB /\ report k y <> UB /\ prop k y <> UB /\ post k y <> UB) -> forall l s, u_clock W s + zlen l <= INT_MAX -> loop w l s <> UB.
  Proof.
    intros Hw Safe. induction l as [|i t IH]; intros s Hc; [discriminate|]. cbn [Propa.loop]. assert (Zt : zlen (i :: t) = zlen t + 1) by (unfold zlen; cbn [length]; lia). assert (0 <= zlen t) by (unfold zlen; lia).
    unfold Propa.body. destruct (Safe (u_clock W s) (u_psi W s)) as (S1 & _). destruct (pre (u_clock W s) (u_psi W s)) as [x1| |]; cbn [bind fst snd]; try discriminate; try contradiction.
    destruct (Safe (u_clock W s) x1) as (_ & S2 & _). destruct (report (u_clock W s) x1) as [x2| |]; cbn [bind fst snd]; try discriminate; try contradiction.
    destruct (Safe (u_clock W s) x2) as (_ & _ & S3 & _). destruct (prop (u_clock W s) x2) as [x3| |]; cbn [bind fst snd]; try discriminate; try contradiction.
    unfold tick. destruct (Z.ltb_spec (u_clock W s) INT_MAX); [|lia]. cbn [bind]. destruct (Safe (u_clock W s + 1) x3) as (_ & _ & _ & S4). destruct (post (u_clock W s + 1) x3) as [x4| |]; cbn [bind fst snd]; try discriminate; try contradiction.
    destruct (Z.eqb_spec w 0); [contradiction|]. cbn [bind fst snd]. apply IH. destruct (Z.rem i w =? 0); cbn [meta write u_clock]; lia.
  Qed.
  Lemma params_safe dz N w st g x : (forall k y, pre k y <> UB /\ report k y <> UB /\ prop k y <> UB /\ post k y <> UB) -> N < INT_MAX -> w <> Some 0 -> p_params dz N w st = Ok g -> p_run g x <> UB.
  Proof.
    intros Safe HN Hw E. unfold p_params in E. destruct dz; [discriminate|]. destruct (N =? 0); [discriminate|]. destruct (match w with Some _ => N <? 1 | None => false end); [discriminate|].
    destruct (match st with Some s => s <? 0 | None => false end) eqn:Es; [discriminate|]. injection E as <-. assert (S0 : 0 <= match st with Some s => s | None => 0 end) by (destruct st; [apply Z.ltb_ge in Es; exact Es|lia]). set (s0 := match st with Some s => s | None => 0 end) in *.
    unfold Propa.p_run. cbn [g_start g_steps g_wcycle]. match goal with |- bind (Propa.loop _ _ _ _ _ ?w0 ?l0 ?r0) _ <> _ => assert (L : loop w0 l0 r0 <> UB) end; [|destruct (Propa.loop _ _ _ _ _ _ _ _); [discriminate..|contradiction]].
    destruct (Z.leb_spec (N + 1) (if s0 =? 0 then 1 else s0)) as [Hle|Hlt]; [rewrite upto_nil by exact Hle; discriminate|].
    apply loop_safe; [destruct w; [intros ->; apply Hw; reflexivity|discriminate]|exact Safe|]. cbn [u_clock]. unfold zlen. rewrite upto_length. destruct (Z.eqb_spec s0 0); unfold INT_MAX in *; lia.
  Qed.
End P.
