(** Proofs for Model/Split.v. *)
From Coq Require Import List ZArith Lia Bool Arith Ring Field.
From Verif Require Import Base Arrays Algebra Complex Ordered Model.Spo Spec.Spo Proofs.Spo Model.Split Spec.Split.
Import ListNotations.
Open Scope Z_scope.

Section Split.
  Variable F : ofld.
  Variable sq : F -> F.
  Variable cexp : Cx F -> Cx F.
  Variables Fw Bw : list (Cx F) -> list (Cx F).
  Variable ns : F.
  Variable junk : list F.
  Notation K := (cr (Cx F)).
  Notation init := (init F cexp junk). Notation apply := (apply F sq cexp Fw Bw ns). Notation run := (run F sq cexp Fw Bw ns junk).
  Notation init_v := (init_v F cexp). Notation refresh := (refresh F cexp). Notation exps := (exps F cexp).
  Notation needs := (needs F). Notation spo := (spo F).
  Notation exp_of := (exp_of F). Notation clk_of := (clk_of F). Notation moved := (moved F). Notation valid := (valid F).
  Notation shaped := (shaped F). Notation wanted := (wanted F cexp Fw Bw ns). Notation regular := (regular F sq). Notation point_ok := (point_ok F sq).
  Notation half_of c := (cmul (cx_of (half F)) c).

  Definition base (n : needs) (c : K) : tables F :=
    mkTab F (exps (if coupled F n then half_of c else c) (n_T F n)) [] junk None.
  Definition cVof (n : needs) (c : K) : K := if coupled F n then c else half_of c.
  Definition cTof (n : needs) (c : K) : K := if coupled F n then half_of c else c.

  Lemma init_ok n s : valid n -> s_buf F s = false ->
    snd (init n s) = mkSpo F true (cTof n (s_exp F s)) (cVof n (s_exp F s))
      (Some (init_v n (cVof n (s_exp F s)) (s_clk F s) (base n (s_exp F s)))) (s_last F s) (s_exp F s) (s_clk F s) /\
    fst (init n s) = Ok (snd (init n s)).
  Proof.
    intros (W & L0 & L1 & L2 & L3) B. unfold Model.Split.init. rewrite B, L0, Nat.eqb_refl. cbn [negb orb].
    destruct (n_V1 F n) as [v1|] eqn:E1; [rewrite (L1 v1) by reflexivity|rewrite W by reflexivity]; rewrite ?Nat.eqb_refl; cbn [negb orb].
    - destruct (n_C F n) as [g|] eqn:E2; [rewrite (L2 g) by reflexivity; rewrite Nat.eqb_refl|]; cbn [negb orb];
        (destruct (n_I F n) as [i|] eqn:E3; [rewrite (L3 i) by reflexivity; rewrite Nat.eqb_refl|]); cbn [negb]; split; reflexivity.
    - destruct (n_I F n) as [i|] eqn:E3; [rewrite (L3 i) by reflexivity; rewrite Nat.eqb_refl|]; cbn [negb]; split; reflexivity.
  Qed.
  Lemma init_again n s : s_buf F s = true -> init n s = (Ok s, s).
  Proof. intros B. unfold Model.Split.init. rewrite B. reflexivity. Qed.
  Lemma init_v_twice n c t t' tab : init_v n c t (init_v n c t' tab) = init_v n c t tab.
  Proof. unfold Model.Split.init_v. destruct (n_V1 F n), (n_C F n), (n_I F n); reflexivity. Qed.

  (** the table of the potential after Init at step t0 with exponent c *)
  Definition table (n : needs) (c : K) (t : Z) : tables F := init_v n (cVof n c) t (base n c).
  Definition Inv (n : needs) (c : K) (t0 : Z) (m : bool) (s : spo) : Prop :=
    s_buf F s = true /\ s_cT F s = cTof n c /\ s_cV F s = cVof n c /\
    (if n_td F n && m then s_last F s <> 0 \/ s_last F s = 0 else s_last F s = 0) /\
    s_tab F s = Some (table n c (if n_td F n && m then s_last F s else t0)).

  Lemma refresh_inv n c t0 m s : Inv n c t0 m s -> exists s', refresh n s = Ok s' /\
    s_exp F s' = s_exp F s /\ s_clk F s' = s_clk F s /\ Inv n c t0 (m || negb (s_clk F s =? 0)) s' /\
    s_tab F s' = Some (table n c (if n_td F n then (if m || negb (s_clk F s =? 0) then s_clk F s else t0) else t0)).
  Proof.
    intros (A & B & C & D & E). unfold Model.Split.refresh. destruct (n_td F n) eqn:Td; cbn [andb] in *.
    - destruct (s_last F s =? s_clk F s) eqn:L; cbn [negb andb].
      + apply Z.eqb_eq in L. exists s. split; [reflexivity|]. split; [reflexivity|]. split; [reflexivity|].
        destruct m; cbn [orb].
        * split; [unfold Inv; rewrite Td; cbn [andb]; auto|]. rewrite E, L. reflexivity.
        * rewrite <- L, D, Z.eqb_refl. cbn [negb]. split; [unfold Inv; rewrite Td; cbn [andb]; auto|exact E].
      + rewrite E. apply Z.eqb_neq in L. eexists. split; [reflexivity|]. cbn [s_exp s_clk s_tab].
        split; [reflexivity|]. split; [reflexivity|]. unfold Inv. cbn [s_buf s_cT s_cV s_last s_tab]. rewrite Td, C. unfold table. rewrite init_v_twice.
        destruct m; cbn [orb andb].
        * repeat split; try assumption. destruct (Z.eq_dec (s_clk F s) 0); [right|left]; assumption.
        * rewrite D in L. destruct (s_clk F s =? 0) eqn:Z0; [apply Z.eqb_eq in Z0; congruence|]. cbn [negb]. apply Z.eqb_neq in Z0.
          repeat split; try assumption. left. exact Z0.
    - rewrite andb_false_r. exists s. unfold Inv. rewrite Td. cbn [andb]. repeat split; assumption.
  Qed.

  Lemma run_app n a b s : run n (a ++ b) s = bind (run n a s) (run n b).
  Proof.
    revert s. induction a as [|o a IH]; intros s; cbn [app Model.Split.run]; [reflexivity|].
    destruct (do_op F sq cexp Fw Bw ns junk n o s); cbn [bind]; [apply IH|reflexivity|reflexivity].
  Qed.
  Lemma run_before n os c t s : ~ In (OInit F) os -> run n os (fresh F c t) = Ok s -> forall s0, s0 = fresh F c t ->
    s_buf F s = false /\ s_tab F s = None /\ s_last F s = 0 /\ s_exp F s = exp_of c os /\ s_clk F s = clk_of t os.
  Proof.
    intros N R _ _. revert c t N R. assert (G : forall os c t s0 s, s0 = fresh F c t -> ~ In (OInit F) os -> run n os s0 = Ok s ->
      s_buf F s = false /\ s_tab F s = None /\ s_last F s = 0 /\ s_exp F s = exp_of c os /\ s_clk F s = clk_of t os).
    { clear. induction os as [|o os IH]; intros c t s0 s -> N R; cbn [Model.Split.run] in R.
      - injection R as <-. repeat split.
      - destruct o as [|c'|t'|psi]; cbn [do_op bind] in R.
        + destruct N. left. reflexivity.
        + apply (IH c' t _ _ eq_refl) in R; [exact R|]. intros X. apply N. right. exact X.
        + apply (IH c t' _ _ eq_refl) in R; [exact R|]. intros X. apply N. right. exact X.
        + unfold Model.Split.apply, Model.Split.refresh, fresh in R. cbn [s_last s_clk s_tab] in R.
          destruct (negb (0 =? t) && n_td F n); cbn [bind s_tab] in R; discriminate R. }
    intros c t N R. exact (G os c t _ s eq_refl N R).
  Qed.
  Lemma run_after n c t0 os : forall m s s', Inv n c t0 m s -> run n os s = Ok s' ->
    Inv n c t0 (m || moved (s_clk F s) os) s' /\ s_exp F s' = exp_of (s_exp F s) os /\ s_clk F s' = clk_of (s_clk F s) os.
  Proof.
    induction os as [|o os IH]; intros m s s' I R; cbn [Model.Split.run] in R.
    - injection R as <-. cbn [Spec.Split.moved]. rewrite orb_false_r. repeat split; apply I.
    - destruct o as [|c'|t'|psi]; cbn [do_op bind] in R.
      + rewrite init_again in R by apply I. cbn [snd] in R. exact (IH m s s' I R).
      + eapply IH in R; [exact R|exact I].
      + eapply IH in R; [exact R|exact I].
      + destruct (refresh_inv n c t0 m s I) as (s1 & E1 & Ee & Ec & I1 & _). unfold Model.Split.apply in R. rewrite E1 in R. cbn [bind] in R.
        assert (X : run n os s1 = Ok s').
        { destruct (s_tab F s1); [|discriminate R].
          destruct (coupled F n); destruct psi as [|p [|p1 [|]]]; try discriminate R; destruct (t_V F t) as [|v [|v1 [|]]]; try discriminate R.
          - destruct (pairs F sq cexp (s_cV F s1) v v1 (t_C F t) (kinetic F Fw Bw ns t p) (kinetic F Fw Bw ns t p1)). exact R.
          - exact R. }
        specialize (IH _ _ _ I1 X). rewrite Ee, Ec in IH. cbn [Spec.Split.moved Spec.Split.exp_of Spec.Split.clk_of]. destruct (s_clk F s =? 0); cbn [negb] in IH.
        * rewrite orb_false_r in IH. exact IH.
        * rewrite orb_true_r in *. exact IH.
  Qed.

  (** ** One step *)
  Add Ring SFr : (cr_th F).
  Open Scope cr_scope.
  Lemma mults_length (a b : list K) : length (mults F a b) = Nat.min (length a) (length b).
  Proof. revert b. induction a as [|x a IH]; intros [|y b]; cbn; [reflexivity..|]. f_equal. apply IH. Qed.
  Lemma mults_nth (a b : list K) i x y : nth_error a i = Some x -> nth_error b i = Some y -> nth_error (mults F a b) i = Some (x * y).
  Proof.
    revert b i. induction a as [|x0 a IH]; intros b i A B; [destruct i; discriminate A|].
    destruct b as [|y0 b]; [destruct i; discriminate B|]. destruct i as [|i]; cbn [nth_error mults] in *.
    - injection A as ->. injection B as ->. reflexivity.
    - apply IH; assumption.
  Qed.
  Lemma cmul_comm_cx (a b : Cx F) : a * b = b * a.
  Proof. apply cx_eq; cbn; ring. Qed.
  Lemma exps_nth c (l : list F) i x : nth_error l i = Some x -> nth_error (exps c l) i = Some (cexp (cx_of x * c)).
  Proof. intros H. unfold Model.Split.exps. apply (map_nth_error (fun x => cexp (cx_of x * c))). exact H. Qed.
  Lemma exps_length c (l : list F) : length (exps c l) = length l.
  Proof. apply map_length. Qed.
  Lemma phase_ok c v p : length v = length p -> phase F cexp c v p (mults F p (exps c v)).
  Proof.
    intros L. split; [rewrite mults_length, exps_length; lia|]. intros i x y A B. rewrite cmul_comm_cx.
    apply mults_nth; [exact B|apply exps_nth, A].
  Qed.
  Hypothesis FwL : forall p, length (Fw p) = length p.
  Hypothesis BwL : forall p, length (Bw p) = length p.
  Lemma kinetic_length tab p : length (t_T F tab) = length p -> length (kinetic F Fw Bw ns tab p) = length p.
  Proof. intros L. unfold kinetic. rewrite BwL, map_length, mults_length, FwL. lia. Qed.
  Lemma kin_ok c T tab p : t_T F tab = exps c T -> length T = length p -> kin F cexp Fw Bw ns c T p (kinetic F Fw Bw ns tab p).
  Proof.
    intros E L. unfold kin, kinetic. eexists. split; [reflexivity|]. rewrite E. split.
    - rewrite map_length, mults_length, exps_length, FwL. lia.
    - intros i x y A B. rewrite (cmul_comm_cx (cexp _) y). apply (map_nth_error (fun z => cx_of ns * z)).
      apply mults_nth; [exact B|apply exps_nth, A].
  Qed.

  Lemma couple_expm c m1 m2 g w : point_ok m1 m2 g -> expm F cexp c m1 m2 g w (couple F sq cexp c m1 m2 g w).
  Proof.
    intros (R & N & H). destruct (diag_eigen F sq m1 m2 g (exact_12 F sq m1 m2 g R) H) as [[A B] [C D]].
    pose proof (exact_3 F sq m1 m2 g R N) as R3. pose proof (expand F sq m1 m2 g w R3) as X.
    rewrite couple_comp. set (E := diag22 F sq m1 m2 g) in *. set (a0 := comp0 F sq m1 m2 g w) in *. set (a1 := comp1 F sq m1 m2 g w) in *.
    exists (e_0 E), (e_1 E), (cx_of (v_00 E) * a0, cx_of (v_10 E) * a0), (cx_of (v_01 E) * a1, cx_of (v_11 E) * a1). cbn [fst snd].
    split; [|split; [|split]].
    - split; cbn [fst snd].
      + transitivity (cx_of (m1 * v_00 E + g * v_10 E) * a0); [apply cx_eq; cbn; ring|rewrite A; apply cx_eq; cbn; ring].
      + transitivity (cx_of (g * v_00 E + m2 * v_10 E) * a0); [apply cx_eq; cbn; ring|rewrite B; apply cx_eq; cbn; ring].
    - split; cbn [fst snd].
      + transitivity (cx_of (m1 * v_01 E + g * v_11 E) * a1); [apply cx_eq; cbn; ring|rewrite C; apply cx_eq; cbn; ring].
      + transitivity (cx_of (g * v_01 E + m2 * v_11 E) * a1); [apply cx_eq; cbn; ring|rewrite D; apply cx_eq; cbn; ring].
    - exact X.
    - f_equal; apply cx_eq; cbn; ring.
  Qed.
  Lemma pairs_ok c v0 : forall v1 g p0 p1, length v1 = length v0 -> length g = length v0 -> length p0 = length v0 -> length p1 = length v0 ->
    (forall i a b x, nth_error v0 i = Some a -> nth_error v1 i = Some b -> nth_error g i = Some x -> point_ok a b x) ->
    let q := pairs F sq cexp c (map cx_of v0) (map cx_of v1) g p0 p1 in mix F cexp c v0 v1 g p0 p1 (fst q) (snd q).
  Proof.
    induction v0 as [|a v0 IH]; intros [|b v1] [|x g] [|y0 p0] [|y1 p1] L1 L2 L3 L4 H; try discriminate.
    - cbn. split; [reflexivity|]. split; [reflexivity|]. intros i a b x y0 y1 X. destruct i; discriminate X.
    - cbn [map pairs]. cbn [length] in *. injection L1 as L1. injection L2 as L2. injection L3 as L3. injection L4 as L4.
      specialize (IH v1 g p0 p1 L1 L2 L3 L4 (fun i a b x A B C => H (S i) a b x A B C)). cbn zeta in *.
      destruct (pairs F sq cexp c (map cx_of v0) (map cx_of v1) g p0 p1) as [r0 r1]. cbn [fst snd] in IH. destruct IH as (M1 & M2 & M3).
      assert (P : point_ok a b x) by (apply (H 0%nat); reflexivity).
      pose proof (couple_expm c a b x (y0, y1) P) as X. change (fst (@cx_of F a)) with a. change (fst (@cx_of F b)) with b.
      destruct (couple F sq cexp c a b x (y0, y1)) as [q0 q1]. cbn [fst snd length].
      split; [exact (f_equal S M1)|]. split; [exact (f_equal S M2)|]. intros i a' b' x' z0 z1 A B C D1 D2. destruct i as [|i]; cbn [nth_error] in *.
      + injection A as <-. injection B as <-. injection C as <-. injection D1 as <-. injection D2 as <-.
        exists q0, q1. split; [reflexivity|]. split; [reflexivity|]. exact X.
      + apply (M3 i a' b' x'); assumption.
  Qed.

  (** ** Histories *)
  Lemma apply_table n c t0 m s psi : valid n -> regular n -> shaped n psi -> Inv n c t0 m s ->
    exists psi' s', apply n s psi = Ok (psi', s') /\
      wanted n c (if n_td F n then (if m || negb (s_clk F s =? 0)%Z then s_clk F s else t0) else t0) psi psi'.
  Proof.
    intros (W & L0 & L1 & L2 & L3) Rg (Sn & Sl) I. destruct (refresh_inv n c t0 m s I) as (s1 & E1 & _ & _ & I1 & E2).
    set (t := if n_td F n then _ else _) in *. clearbody t. destruct I1 as (_ & _ & CV & _).
    unfold Model.Split.apply. rewrite E1. cbn [bind]. rewrite E2. unfold Spec.Split.wanted, table, base, Model.Split.init_v in *. fold (@half F) in *.
    unfold cVof in *. unfold coupled in *. destruct (n_V1 F n) as [v1|] eqn:V1.
    - destruct (Rg v1 V1) as (g & G & P). rewrite G in *. cbn [t_V t_C t_T].
      destruct psi as [|p0 [|p1 [|]]]; try discriminate Sn. pose proof (Forall_inv Sl) as Y0. pose proof (Forall_inv (Forall_inv_tail Sl)) as Y1. cbn beta in Y0, Y1.
      set (tab := mkTab F _ _ _ _). assert (TT : t_T F tab = exps (cx_of (half F) * c) (n_T F n)) by (unfold tab; cbn [t_T]; reflexivity).
      assert (LT : length (t_T F tab) = length (n_T F n)) by (rewrite TT; apply exps_length).
      pose proof (kinetic_length tab p0) as K0. rewrite LT, Y0 in K0. specialize (K0 eq_refl).
      pose proof (kinetic_length tab p1) as K1. rewrite LT, Y1 in K1. specialize (K1 eq_refl).
      rewrite CV.
      pose proof (pairs_ok c (n_V0 F n t) (v1 t) (g t) (kinetic F Fw Bw ns tab p0) (kinetic F Fw Bw ns tab p1)) as M.
      rewrite L0, (L1 v1 t eq_refl), (L2 g t eq_refl), K0, K1 in M. specialize (M eq_refl eq_refl eq_refl eq_refl (P t)). cbn zeta in M.
      destruct (pairs F sq cexp c _ _ _ _ _) as [q0 q1]. cbn [fst snd] in M. destruct M as (M1 & M2 & M3).
      eexists. eexists. split; [reflexivity|]. exists (kinetic F Fw Bw ns tab p0), (kinetic F Fw Bw ns tab p1), q0, q1.
      split; [apply kin_ok; [exact TT|symmetry; exact Y0]|]. split; [apply kin_ok; [exact TT|symmetry; exact Y1]|].
      split; [split; [exact M1|split; [exact M2|exact M3]]|]. split; apply kin_ok; try exact TT; congruence.
    - rewrite (W eq_refl) in *. cbn [t_V t_C t_T t_I].
      destruct psi as [|p [|]]; try discriminate Sn. pose proof (Forall_inv Sl) as Y0. cbn beta in Y0.
      destruct (n_I F n) as [i|] eqn:NI; (set (tab := mkTab F _ _ _ _); assert (TT : t_T F tab = exps c (n_T F n)) by reflexivity;
        assert (LT : length (t_T F tab) = length (n_T F n)) by (rewrite TT; apply exps_length); eexists; eexists; split; [reflexivity|]).
      + set (h := cx_of (half F) * c) in *. set (a := mults F p (exps h (n_V0 F n t))). set (a' := mults F a (exps h (i t))).
        assert (La : length a = length p) by (unfold a; rewrite mults_length, exps_length, L0; lia).
        assert (La' : length a' = length p) by (unfold a'; rewrite mults_length, exps_length, (L3 i t eq_refl); lia).
        set (b := kinetic F Fw Bw ns tab a'). assert (Lb : length b = length p) by (unfold b; rewrite kinetic_length; congruence).
        set (b' := mults F b (exps h (n_V0 F n t))). assert (Lb' : length b' = length p) by (unfold b'; rewrite mults_length, exps_length, L0; lia).
        exists a, a', b, b'. split; [apply phase_ok; rewrite L0; congruence|]. split; [apply phase_ok; rewrite (L3 i t eq_refl); congruence|].
        split; [apply kin_ok; [exact TT|congruence]|]. split; [apply phase_ok; rewrite L0; congruence|apply phase_ok; rewrite (L3 i t eq_refl); congruence].
      + set (h := cx_of (half F) * c) in *. set (a := mults F p (exps h (n_V0 F n t))).
        assert (La : length a = length p) by (unfold a; rewrite mults_length, exps_length, L0; lia).
        set (b := kinetic F Fw Bw ns tab a). assert (Lb : length b = length p) by (unfold b; rewrite kinetic_length; congruence).
        exists a, b. split; [apply phase_ok; rewrite L0; congruence|].
        split; [apply kin_ok; [exact TT|congruence]|apply phase_ok; rewrite L0; congruence].
  Qed.

  (** the exponent is the one at the first Init; the potential is that of the present step, but at step zero that of Init *)
  Lemma history n c t pre post s psi : valid n -> regular n -> shaped n psi -> ~ In (OInit F) pre ->
    run n (pre ++ OInit F :: post) (fresh F c t) = Ok s ->
    exists psi' s', apply n s psi = Ok (psi', s') /\
      wanted n (exp_of c pre)
        (let t0 := clk_of t pre in let t1 := clk_of t0 post in
         if n_td F n then (if moved t0 post || negb (t1 =? 0)%Z then t1 else t0) else t0) psi psi'.
  Proof.
    intros V R S N H. rewrite run_app in H. destruct (run n pre (fresh F c t)) as [s0| |] eqn:H0; try discriminate H. cbn [bind] in H.
    destruct (run_before n pre c t s0 N H0 _ eq_refl) as (B & _ & L & E & C). cbn [Model.Split.run do_op bind] in H.
    destruct (init_ok n s0 V B) as [I _]. rewrite I in H. rewrite L in H.
    assert (J : Inv n (exp_of c pre) (clk_of t pre) false (mkSpo F true (cTof n (s_exp F s0)) (cVof n (s_exp F s0))
      (Some (init_v n (cVof n (s_exp F s0)) (s_clk F s0) (base n (s_exp F s0)))) 0 (s_exp F s0) (s_clk F s0))).
    { unfold Inv. cbn [s_buf s_cT s_cV s_last s_tab]. rewrite andb_false_r, E, C. repeat split. }
    destruct (run_after n _ _ post _ _ _ J H) as (J' & _ & C'). cbn [s_clk orb] in J', C'. rewrite C in J', C'.
    cbn zeta. rewrite <- C'. exact (apply_table n _ _ _ s psi V R S J').
  Qed.

  (** no exponent is set after Init, and time is not stale: the full statement *)
  Lemma history_now n c t pre post s psi : valid n -> static F n -> regular n -> shaped n psi -> ~ In (OInit F) pre ->
    exp_of (exp_of c pre) post = exp_of c pre ->
    (n_td F n = true -> moved (clk_of t pre) post = true \/ clk_of (clk_of t pre) post <> 0%Z \/ clk_of t pre = 0%Z) ->
    run n (pre ++ OInit F :: post) (fresh F c t) = Ok s ->
    exists psi' s', apply n s psi = Ok (psi', s') /\
      wanted n (exp_of (exp_of c pre) post) (clk_of (clk_of t pre) post) psi psi'.
  Proof.
    intros V St R S N E T H. destruct (history n c t pre post s psi V R S N H) as (psi' & s' & A & B).
    exists psi', s'. split; [exact A|]. rewrite E. cbn zeta in B. destruct (n_td F n) eqn:Td.
    - destruct (moved (clk_of t pre) post) eqn:M; cbn [orb] in B; [exact B|].
      destruct (clk_of (clk_of t pre) post =? 0)%Z eqn:Z0; cbn [negb] in B; [|exact B].
      apply Z.eqb_eq in Z0. destruct (T eq_refl) as [X|[X|X]]; [discriminate X|contradiction|]. rewrite Z0. rewrite X in B. exact B.
    - destruct (St Td (clk_of (clk_of t pre) post) (clk_of t pre)) as (A0 & A1 & A2 & A3). unfold Spec.Split.wanted in *.
      rewrite A0. destruct (n_V1 F n) as [v1|]; [rewrite (A1 v1 eq_refl)|].
      + destruct (n_C F n) as [g|]; [rewrite (A2 g eq_refl)|]; exact B.
      + destruct (n_I F n) as [i|]; [rewrite (A3 i eq_refl)|]; exact B.
  Qed.

  (** ** A step and its inverse *)
  Hypothesis Eadd : forall a b, cexp (a + b) = cexp a * cexp b.
  Hypothesis E0 : cexp 0 = 1.
  Hypothesis FB : forall k, map (fun z => cx_of ns * z) (Fw (Bw k)) = k.
  Hypothesis BF : forall p, Bw (map (fun z => cx_of ns * z) (Fw p)) = p.
  Lemma one_l_cx (x : Cx F) : 1 * x = x.
  Proof. apply cx_eq; cbn; ring. Qed.
  Lemma undo_point x h y : cexp (cx_of x * h) * cexp (cx_of x * - h) * y = y.
  Proof. rewrite <- Eadd. replace (cx_of x * h + cx_of x * - h) with (0 : Cx F) by (apply cx_eq; cbn; ring). rewrite E0. apply one_l_cx. Qed.
  Lemma undo_phase h v p : length v = length p -> mults F (mults F p (exps h v)) (exps (- h) v) = p.
  Proof.
    revert p. induction v as [|x v IH]; intros [|y p] L; try discriminate L; [reflexivity|]. cbn [Model.Split.exps map mults].
    injection L as L. f_equal; [|exact (IH p L)]. rewrite <- (undo_point x h y) at 2. apply cx_eq; cbn; ring.
  Qed.
  Lemma mults_swap (p a b : list K) : mults F (mults F p a) b = mults F (mults F p b) a.
  Proof.
    revert a b. induction p as [|x p IH]; intros [|y a] [|z b]; cbn [mults]; try reflexivity. f_equal; [|apply IH]. apply cx_eq; cbn; ring.
  Qed.
  Lemma mults_map (p a : list K) : map (fun z => cx_of ns * z) (mults F p a) = mults F (map (fun z => cx_of ns * z) p) a.
  Proof.
    revert a. induction p as [|x p IH]; intros [|y a]; cbn [mults map]; try reflexivity. f_equal; [|apply IH]. apply cx_eq; cbn; ring.
  Qed.
  Lemma undo_kin c T tab tab' p : t_T F tab = exps c T -> t_T F tab' = exps (- c) T -> length T = length p ->
    kinetic F Fw Bw ns tab' (kinetic F Fw Bw ns tab p) = p.
  Proof.
    intros A B L. unfold kinetic. rewrite A, B, mults_map, FB, mults_map, undo_phase; [apply BF|]. rewrite map_length, FwL. exact L.
  Qed.
  Lemma undo_pairs c v0 : forall v1 g p0 p1, length v1 = length v0 -> length g = length v0 -> length p0 = length v0 -> length p1 = length v0 ->
    (forall i a b x, nth_error v0 i = Some a -> nth_error v1 i = Some b -> nth_error g i = Some x -> exact_root F sq a b x /\ exact_norm F sq a b x) ->
    let q := pairs F sq cexp c (map cx_of v0) (map cx_of v1) g p0 p1 in
    pairs F sq cexp (- c) (map cx_of v0) (map cx_of v1) g (fst q) (snd q) = (p0, p1) /\ length (fst q) = length v0 /\ length (snd q) = length v0.
  Proof.
    induction v0 as [|a v0 IH]; intros [|b v1] [|x g] [|y0 p0] [|y1 p1] L1 L2 L3 L4 H; try discriminate; [cbn; auto|].
    cbn [map pairs]. cbn [length] in *. injection L1 as L1. injection L2 as L2. injection L3 as L3. injection L4 as L4.
    specialize (IH v1 g p0 p1 L1 L2 L3 L4 (fun i a b x A B C => H (S i) a b x A B C)). cbn zeta in *.
    destruct (pairs F sq cexp c (map cx_of v0) (map cx_of v1) g p0 p1) as [r0 r1]. cbn [fst snd] in IH. destruct IH as (IH & I1 & I2).
    destruct (H 0%nat a b x eq_refl eq_refl eq_refl) as [R N]. change (fst (@cx_of F a)) with a. change (fst (@cx_of F b)) with b.
    pose proof (couple_back F sq cexp a b x c (y0, y1) R N Eadd E0) as X.
    destruct (couple F sq cexp c a b x (y0, y1)) as [q0 q1]. cbn [fst snd map pairs].
    change (fst (@cx_of F a)) with a. change (fst (@cx_of F b)) with b. rewrite X, IH. cbn [length]. rewrite I1, I2. auto.
  Qed.
  Definition ready (n : needs) (c : K) (t : Z) : spo := snd (init n (fresh F c t)).
  Lemma ready_inv n c t : valid n -> Inv n c t false (ready n c t) /\ s_clk F (ready n c t) = t.
  Proof.
    intros V. destruct (init_ok n (fresh F c t) V eq_refl) as [I _]. unfold ready. rewrite I. cbn [fresh s_exp s_clk s_last].
    split; [|reflexivity]. unfold Inv. cbn [s_buf s_cT s_cV s_last s_tab]. rewrite andb_false_r. repeat split.
  Qed.
  Lemma ready_refresh n c t : valid n -> exists s', refresh n (ready n c t) = Ok s' /\ s_cV F s' = cVof n c /\ s_tab F s' = Some (table n c t).
  Proof.
    intros V. destruct (ready_inv n c t V) as [I C]. destruct (refresh_inv n c t false _ I) as (s1 & E1 & _ & _ & I1 & E2).
    exists s1. split; [exact E1|]. split; [apply I1|]. rewrite E2, C. destruct (n_td F n); [|reflexivity].
    cbn [orb]. destruct (negb (t =? 0)%Z); reflexivity.
  Qed.
  Lemma half_neg c : cx_of (half F) * - c = - (cx_of (half F) * c).
  Proof. apply cx_eq; cbn; ring. Qed.
  Definition rooted (n : needs) : Prop := forall v1, n_V1 F n = Some v1 -> exists g, n_C F n = Some g /\
    forall t i a b x, nth_error (n_V0 F n t) i = Some a -> nth_error (v1 t) i = Some b -> nth_error (g t) i = Some x -> exact_root F sq a b x /\ exact_norm F sq a b x.
  Lemma reverse n c t psi psi' s' : valid n -> rooted n -> shaped n psi ->
    apply n (ready n c t) psi = Ok (psi', s') -> exists s'', apply n (ready n (- c) t) psi' = Ok (psi, s'').
  Proof.
    intros V Rt (Sn & Sl). destruct (ready_refresh n c t V) as (s1 & R1 & CV1 & T1). destruct (ready_refresh n (- c) t V) as (s2 & R2 & CV2 & T2).
    destruct V as (W & L0 & L1 & L2 & L3).
    unfold Model.Split.apply. rewrite R1, R2. cbn [bind]. rewrite T1, T2, CV1, CV2.
    unfold table, base, Model.Split.init_v, cVof, coupled in *. destruct (n_V1 F n) as [v1|] eqn:V1.
    - destruct (Rt v1 V1) as (g & G & P). rewrite G. cbn [t_V t_C t_T]. rewrite !half_neg.
      destruct psi as [|p0 [|p1 [|]]]; try discriminate Sn. pose proof (Forall_inv Sl) as Y0. pose proof (Forall_inv (Forall_inv_tail Sl)) as Y1. cbn beta in Y0, Y1.
      set (tab := mkTab F (exps (half_of c) _) _ _ _). set (tab' := mkTab F (exps (- half_of c) _) _ _ _).
      assert (TT : t_T F tab = exps (half_of c) (n_T F n)) by reflexivity. assert (TT' : t_T F tab' = exps (- half_of c) (n_T F n)) by reflexivity.
      assert (LT : length (t_T F tab) = length (n_T F n)) by (rewrite TT; apply exps_length).
      pose proof (kinetic_length tab p0) as K0. rewrite LT, Y0 in K0. specialize (K0 eq_refl).
      pose proof (kinetic_length tab p1) as K1. rewrite LT, Y1 in K1. specialize (K1 eq_refl).
      pose proof (undo_pairs c (n_V0 F n t) (v1 t) (g t) (kinetic F Fw Bw ns tab p0) (kinetic F Fw Bw ns tab p1)) as M.
      rewrite L0, (L1 v1 t eq_refl), (L2 g t G), K0, K1 in M. specialize (M eq_refl eq_refl eq_refl eq_refl (P t)). cbn zeta in M.
      destruct (pairs F sq cexp c _ _ _ _ _) as [q0 q1]. cbn [fst snd] in M. destruct M as (M & M0 & M1).
      intros H. injection H as <- <-. rewrite !(undo_kin (half_of c) (n_T F n) tab tab') by (assumption || congruence).
      rewrite M. exists s2. rewrite !(undo_kin (half_of c) (n_T F n) tab tab') by (assumption || congruence). reflexivity.
    - rewrite (W eq_refl) in *. cbn [t_V t_C t_T t_I]. rewrite !half_neg.
      destruct psi as [|p [|]]; try discriminate Sn. pose proof (Forall_inv Sl) as Y0. cbn beta in Y0.
      destruct (n_I F n) as [i|] eqn:NI; set (tab := mkTab F (exps c _) _ _ _); set (tab' := mkTab F (exps (- c) _) _ _ _).
      + intros H. injection H as <- <-. exists s2. f_equal. f_equal. f_equal. set (h := half_of c).
        set (a := mults F p (exps h (n_V0 F n t))). assert (La : length a = length p) by (unfold a; rewrite mults_length, exps_length, L0; lia).
        set (a' := mults F a (exps h (i t))). assert (La' : length a' = length p) by (unfold a'; rewrite mults_length, exps_length, (L3 i t eq_refl); lia).
        set (b := kinetic F Fw Bw ns tab a').
        assert (Lb : length b = length p) by (unfold b; rewrite kinetic_length; [exact La'|unfold tab; cbn [t_T]; rewrite exps_length; congruence]).
        rewrite (mults_swap (mults F b (exps h (n_V0 F n t))) (exps h (i t))). rewrite (undo_phase h (n_V0 F n t) b) by (rewrite L0; congruence).
        rewrite (undo_phase h (i t) b) by (rewrite (L3 i t eq_refl); congruence).
        unfold b. rewrite (undo_kin c (n_T F n) tab tab' a') by (reflexivity || congruence). unfold a'.
        rewrite (mults_swap a (exps h (i t))). unfold a. rewrite (undo_phase h (n_V0 F n t) p) by (rewrite L0; congruence).
        apply undo_phase. rewrite (L3 i t eq_refl). congruence.
      + intros H. injection H as <- <-. exists s2. f_equal. f_equal. f_equal. change (cx_mul (cx_of (half F)) c) with (half_of c). set (h := half_of c).
        set (a := mults F p (exps h (n_V0 F n t))). assert (La : length a = length p) by (unfold a; rewrite mults_length, exps_length, L0; lia).
        set (b := kinetic F Fw Bw ns tab a).
        assert (Lb : length b = length p) by (unfold b; rewrite kinetic_length; [exact La|unfold tab; cbn [t_T]; rewrite exps_length; congruence]).
        rewrite (undo_phase h (n_V0 F n t) b) by (rewrite L0; congruence).
        unfold b. rewrite (undo_kin c (n_T F n) tab tab' a) by (reflexivity || congruence). unfold a.
        apply undo_phase. rewrite L0. congruence.
  Qed.
End Split.

(** ** Counterexamples *)
From Coq Require Import QArith Qcanon.
Section One.
  Variable F : ofld.
  Variable cexp : Cx F -> Cx F.
  Variable ns : F.
  Add Ring OnFr : (cr_th F).
  Open Scope cr_scope.
  Notation id := (fun p : list (Cx F) => p).
  Lemma phase_one c x p q : phase F cexp c [x] [p] q -> q = [cexp (cx_of x * c) * p].
  Proof.
    intros [L H]. specialize (H 0%nat x p eq_refl eq_refl). destruct q as [|y [|]]; try discriminate L. cbn in H. injection H as ->. reflexivity.
  Qed.
  Lemma kin_one c x p q : kin F cexp id id ns c [x] [p] q -> q = [cx_of ns * (cexp (cx_of x * c) * p)].
  Proof.
    intros (k & -> & L & H). specialize (H 0%nat x p eq_refl eq_refl). destruct k as [|y [|]]; try discriminate L. cbn in H. injection H as ->. reflexivity.
  Qed.
  Lemma step1_one c h x v p r : step1 F cexp id id ns c h [x] [v] [p] r ->
    r = [cexp (cx_of v * h) * (cx_of ns * (cexp (cx_of x * c) * (cexp (cx_of v * h) * p)))].
  Proof. intros (a & b & A & B & C). apply phase_one in A. subst a. apply kin_one in B. subst b. apply phase_one in C. exact C. Qed.
  Lemma expm_diag c m1 m2 y z : expm F cexp c m1 m2 0 y z -> fst z = cexp (cx_of m1 * c) * fst y.
  Proof.
    intros (l1 & l2 & a & b & [A _] & [B _] & -> & ->). cbn [fst snd].
    assert (G : forall l (a0 a1 : Cx F), cx_of m1 * a0 + cx_of 0 * a1 = cx_of l * a0 -> cexp (cx_of l * c) * a0 = cexp (cx_of m1 * c) * a0).
    { intros l a0 a1 E. destruct (real_zero F (l - m1) a0) as [Z|Z].
      - transitivity (cx_of l * a0 - cx_of m1 * a0); [apply cx_eq; cbn; ring|]. rewrite <- E. apply cx_eq; cbn; ring.
      - replace l with m1; [reflexivity|]. transitivity (l - (l - m1)); [ring|rewrite Z; ring].
      - rewrite Z. apply cx_eq; cbn; ring. }
    rewrite (G _ _ _ A), (G _ _ _ B). apply cx_eq; cbn; ring.
  Qed.
  Lemma step2_one c h x v0 v1 p0 p1 r0 r1 : step2 F cexp id id ns c h [x] [v0] [v1] [0] [p0] [p1] r0 r1 ->
    r0 = [cx_of ns * (cexp (cx_of x * h) * (cexp (cx_of v0 * c) * (cx_of ns * (cexp (cx_of x * h) * p0))))].
  Proof.
    intros (a0 & a1 & b0 & b1 & A0 & A1 & M & B0 & _). apply kin_one in A0, A1. subst a0 a1. destruct M as (L0 & L1 & M).
    specialize (M 0%nat v0 v1 0 _ _ eq_refl eq_refl eq_refl eq_refl eq_refl). destruct M as (z0 & z1 & Z0 & Z1 & X).
    destruct b0 as [|y [|]]; try discriminate L0. cbn in Z0. injection Z0 as ->. apply kin_one in B0. rewrite B0.
    apply expm_diag in X. cbn [fst] in X. rewrite X. reflexivity.
  Qed.
End One.

Definition qexp (z : Cx Qco) : Cx Qco := cadd z c1.
Definition qz (z : Z) : Cx Qco := @cx_of Qco (zq z).
Definition still (v : Z) : Z -> list Qc := fun _ => [zq v].
Definition n_single : needs Qco := mkNeeds Qco [zq 0] (still 1) None None None false.
Definition n_time : needs Qco := mkNeeds Qco [zq 0] (fun t => [zq t]) None None None true.
Definition n_bare : needs Qco := mkNeeds Qco [zq 0] (still 1) (Some (still 2)) None None false.
Definition n_bad : needs Qco := mkNeeds Qco [zq 0] (still 1) None (Some (still 1)) None false.
Definition qid (p : list (Cx Qco)) : list (Cx Qco) := p.
Notation qrun := (run Qco sqQ qexp qid qid (zq 1) [zq 0]).
Notation qapply := (apply Qco sqQ qexp qid qid (zq 1)).
Lemma n_single_ok : valid Qco n_single /\ static Qco n_single /\ regular Qco sqQ n_single.
Proof.
  split; [|split].
  - unfold valid. cbn. repeat split; try reflexivity; intros; discriminate.
  - intros _ t t'. cbn. repeat split; intros; discriminate.
  - intros v1 X. discriminate X.
Qed.
Lemma n_time_ok : valid Qco n_time /\ static Qco n_time /\ regular Qco sqQ n_time.
Proof.
  split; [|split].
  - unfold valid. cbn. repeat split; try reflexivity; intros; discriminate.
  - intros X. discriminate X.
  - intros v1 X. discriminate X.
Qed.
Lemma n_bare_ok : valid Qco n_bare /\ static Qco n_bare.
Proof.
  split.
  - unfold valid. cbn. repeat split; try reflexivity; intros v t X; try discriminate X. injection X as <-. reflexivity.
  - intros _ t t'. cbn. repeat split; try (intros; discriminate). intros v X. injection X as <-. reflexivity.
Qed.
Definition one_psi : list (list (Cx Qco)) := [[qz 1]].
Definition head (psi : list (list (Cx Qco))) : Q := match psi with (z :: _) :: _ => this (fst z) | _ => (-99 # 1)%Q end.
Definition out_head (o : outcome (list (list (Cx Qco)) * spo Qco)) : Q := match o with Ok (p, _) => head p | _ => (-98 # 1)%Q end.
Definition at_clock (F : ofld) (s : spo F) (t : Z) : spo F :=
  mkSpo F (s_buf F s) (s_cT F s) (s_cV F s) (s_tab F s) (s_last F s) (s_exp F s) t.
Definition n_two : needs Qco := mkNeeds Qco [zq 0] (still 0) (Some (still 7)) (Some (still 12)) None false.

Section Claim.
  Variable H : forall F : ofld, needs F -> list (op F) -> Prop.
  Definition claim : Prop :=
    forall (F : ofld) (sq : F -> F) cexp Fw Bw ns junk (n : needs F) c t pre post s psi,
    (forall p, length (Fw p) = length p) -> (forall p, length (Bw p) = length p) ->
    valid F n -> static F n -> shaped F n psi -> ~ In (OInit F) pre -> H F n post ->
    (forall v1 g, n_V1 F n = Some v1 -> n_C F n = Some g -> regular F sq n) ->
    run F sq cexp Fw Bw ns junk n (pre ++ OInit F :: post) (fresh F c t) = Ok s ->
    exists psi' s', apply F sq cexp Fw Bw ns n s psi = Ok (psi', s') /\
      wanted F cexp Fw Bw ns n (exp_of F (exp_of F c pre) post) (clk_of F (clk_of F t pre) post) psi psi'.
End Claim.
Lemma shaped_single : shaped Qco n_single one_psi.
Proof. split; [reflexivity|]. apply Forall_cons; [reflexivity|apply Forall_nil]. Qed.
Definition is_ok {A} (o : outcome A) : bool := match o with Ok _ => true | _ => false end.
Lemma is_ok_ex {A} (o : outcome A) : is_ok o = true -> exists a, o = Ok a.
Proof. destruct o as [a| |]; intros H; [exists a; reflexivity|discriminate H..]. Qed.
(** one step of a history, as a number *)
Definition first_of (n : needs Qco) (os : list (op Qco)) (c : Cx Qco) (t : Z) (psi : list (list (Cx Qco))) : Q :=
  match qrun n os (fresh Qco c t) with Ok s => out_head (qapply n s psi) | _ => (-97 # 1)%Q end.
Lemma first_ok n os c t psi s : qrun n os (fresh Qco c t) = Ok s -> out_head (qapply n s psi) = first_of n os c t psi.
Proof. intros R. unfold first_of. rewrite R. reflexivity. Qed.
Lemma direction_refuted : ~ claim (fun F n post => n_td F n = false /\ n_V1 F n = None).
Proof.
  intros C. destruct n_single_ok as (V & S & _).
  destruct (is_ok_ex (qrun n_single ([] ++ OInit Qco :: [OExponent Qco (copp (qz 1))]) (fresh Qco (qz 1) 0)) eq_refl) as (s & R).
  destruct (C Qco sqQ qexp qid qid (zq 1) [zq 0] n_single (qz 1) 0%Z [] [OExponent Qco (copp (qz 1))] s one_psi) as (p & s' & A & W);
    [reflexivity|reflexivity|exact V|exact S|exact shaped_single|intros []|split; reflexivity|intros v1 g X; discriminate X|exact R|].
  pose proof (first_ok n_single _ _ _ one_psi s R) as Hd. rewrite A in Hd. cbn [out_head] in Hd.
  replace (first_of _ _ _ _ _) with (9 # 4)%Q in Hd by (vm_compute; reflexivity).
  unfold wanted in W. cbn [n_V1 n_single one_psi n_I n_T n_V0 still exp_of clk_of] in W.
  destruct p as [|r [|]]; try contradiction W. apply step1_one in W. subst r. vm_compute in Hd. discriminate Hd.
Qed.
Lemma time_refuted : ~ claim (fun F n post => n_V1 F n = None /\ forall c, ~ In (OExponent F c) post).
Proof.
  intros C. destruct n_time_ok as (V & S & _).
  destruct (is_ok_ex (qrun n_time ([OClock Qco 5] ++ OInit Qco :: [OClock Qco 0]) (fresh Qco (qz 1) 0)) eq_refl) as (s & R).
  destruct (C Qco sqQ qexp qid qid (zq 1) [zq 0] n_time (qz 1) 0%Z [OClock Qco 5] [OClock Qco 0] s one_psi) as (p & s' & A & W);
    [reflexivity|reflexivity|exact V|exact S|split; [reflexivity|apply Forall_cons; [reflexivity|apply Forall_nil]]|intros [X|[]]; discriminate X
    |split; [reflexivity|intros c [X|[]]; discriminate X]|intros v1 g X; discriminate X|exact R|].
  pose proof (first_ok n_time _ _ _ one_psi s R) as Hd. rewrite A in Hd. cbn [out_head] in Hd.
  replace (first_of _ _ _ _ _) with (49 # 4)%Q in Hd by (vm_compute; reflexivity).
  unfold wanted in W. cbn [n_V1 n_time one_psi n_I n_T n_V0 exp_of clk_of] in W.
  destruct p as [|r [|]]; try contradiction W. apply step1_one in W. subst r. vm_compute in Hd. discriminate Hd.
Qed.
Lemma states_refuted : ~ claim (fun F n post => n_td F n = false /\ forall c, ~ In (OExponent F c) post).
Proof.
  intros C. destruct n_bare_ok as (V & S).
  destruct (is_ok_ex (qrun n_bare ([] ++ OInit Qco :: []) (fresh Qco (qz 1) 0)) eq_refl) as (s & R).
  destruct (C Qco sqQ qexp qid qid (zq 1) [zq 0] n_bare (qz 1) 0%Z [] [] s [[qz 1]; [qz 0]]) as (p & s' & A & W);
    [reflexivity|reflexivity|exact V|exact S|split; [reflexivity|apply Forall_cons; [reflexivity|apply Forall_cons; [reflexivity|apply Forall_nil]]]|intros []
    |split; [reflexivity|intros c []]|intros v1 g _ X; discriminate X|exact R|].
  pose proof (first_ok n_bare _ _ _ [[qz 1]; [qz 0]] s R) as Hd. rewrite A in Hd. cbn [out_head] in Hd.
  replace (first_of _ _ _ _ _) with (3 # 1)%Q in Hd by (vm_compute; reflexivity).
  unfold wanted in W. cbn [n_V1 n_C n_bare n_I n_T n_V0 exp_of clk_of still length repeat] in W.
  destruct p as [|r0 [|r1 [|]]]; try contradiction W. apply step2_one in W. subst r0. vm_compute in Hd. discriminate Hd.
Qed.
Lemma ready_refuted : ~ (forall (F : ofld) (sq : F -> F) cexp Fw Bw ns junk (n : needs F) c t os s s' psi,
  run F sq cexp Fw Bw ns junk n os (fresh F c t) = Ok s -> fst (init F cexp junk n s) = Ok s' -> shaped F n psi ->
  apply F sq cexp Fw Bw ns n s' psi <> UB).
Proof.
  intros C. destruct (is_ok_ex (qrun n_bad [OInit Qco] (fresh Qco (qz 1) 0)) eq_refl) as (s & R).
  apply (C Qco sqQ qexp qid qid (zq 1) [zq 0] n_bad (qz 1) 0%Z [OInit Qco] s s one_psi R).
  - unfold run, do_op in R. cbn [bind] in R. injection R as <-. reflexivity.
  - split; [reflexivity|apply Forall_cons; [reflexivity|apply Forall_nil]].
  - unfold run, do_op in R. cbn [bind] in R. injection R as <-. reflexivity.
Qed.
Lemma update_code (F : ofld) cexp junk (n : needs F) td0 tdc c t t' : valid F n ->
  update_time F cexp n td0 tdc (at_clock F (ready F cexp junk n c t) t') = UB <-> (t' <> 0%Z /\ td0 = false /\ n_C F n = None).
Proof.
  intros V. destruct (ready_inv F cexp junk n c t V) as [(B & _ & _ & L & T) _]. rewrite andb_false_r in L, T.
  unfold update_time, at_clock. cbn [s_last s_clk s_buf s_tab]. rewrite L, B, T. cbn [negb].
  destruct (0 =? t')%Z eqn:Z0; [apply Z.eqb_eq in Z0|apply Z.eqb_neq in Z0].
  - split; [intros X; discriminate X|intros [X _]; congruence].
  - destruct td0; cbn [bind]; [split; [intros X; discriminate X|intros (_ & X & _); discriminate X]|].
    destruct (n_C F n); cbn [bind].
    + destruct tdc; (split; [intros X; discriminate X|intros (_ & _ & X); discriminate X]).
    + split; [|reflexivity]. intros _. split; [congruence|split; reflexivity].
Qed.
Lemma update_refuted : ~ (forall (F : ofld) cexp junk (n : needs F) td0 tdc c t t',
  valid F n -> update_time F cexp n td0 tdc (at_clock F (ready F cexp junk n c t) t') <> UB).
Proof.
  intros C. destruct n_single_ok as (V & _). apply (C Qco qexp [] n_single false false (qz 1) 0%Z 1%Z V).
  apply update_code; [exact V|]. split; [discriminate|split; reflexivity].
Qed.
Lemma example_single : valid Qco n_single /\ static Qco n_single /\ regular Qco sqQ n_single /\ shaped Qco n_single one_psi /\
  (exists s, qrun n_single [OInit Qco; OExponent Qco (copp (qz 1))] (fresh Qco (qz 1) 0) = Ok s /\ out_head (qapply n_single s one_psi) = (9 # 4)%Q) /\
  (exists s, qrun n_single [OExponent Qco (copp (qz 1)); OInit Qco] (fresh Qco (qz 1) 0) = Ok s /\ out_head (qapply n_single s one_psi) = (1 # 4)%Q).
Proof.
  destruct n_single_ok as (V & S & R). split; [exact V|]. split; [exact S|]. split; [exact R|]. split; [exact shaped_single|]. split.
  - destruct (is_ok_ex (qrun n_single [OInit Qco; OExponent Qco (copp (qz 1))] (fresh Qco (qz 1) 0)) eq_refl) as (s & E).
    exists s. split; [exact E|]. rewrite (first_ok _ _ _ _ _ _ E). vm_compute. reflexivity.
  - destruct (is_ok_ex (qrun n_single [OExponent Qco (copp (qz 1)); OInit Qco] (fresh Qco (qz 1) 0)) eq_refl) as (s & E).
    exists s. split; [exact E|]. rewrite (first_ok _ _ _ _ _ _ E). vm_compute. reflexivity.
Qed.
Lemma n_two_points (t : Z) i a b x : nth_error (n_V0 Qco n_two t) i = Some a -> nth_error (still 7 t) i = Some b -> nth_error (still 12 t) i = Some x ->
  exact_root Qco sqQ a b x /\ exact_norm Qco sqQ a b x /\ a <> b.
Proof.
  cbn [n_V0 n_two still]. destruct i as [|[|i]]; cbn [nth_error]; intros A B C; try discriminate A.
  apply (f_equal (fun o => match o with Some y => y | None => zq 0 end)) in A, B, C. cbn beta iota in A, B, C. rewrite <- A, <- B, <- C.
  split; [exact rootQ2|]. split; [exact normQ2|]. intros X. apply (f_equal this) in X. vm_compute in X. discriminate X.
Qed.
Lemma example_two : valid Qco n_two /\ static Qco n_two /\ regular Qco sqQ n_two /\ rooted Qco sqQ n_two /\ shaped Qco n_two [[qz 3]; [qz 4]] /\
  exists s, qrun n_two [OInit Qco] (fresh Qco (qz 1) 0) = Ok s /\ out_head (qapply n_two s [[qz 3]; [qz 4]]) = (51 # 1)%Q.
Proof.
  split; [|split; [|split; [|split; [|split]]]].
  - unfold valid. cbn [n_V1 n_C n_I n_T n_V0 n_two]. repeat split; try reflexivity; try (intros; discriminate); intros v t X; injection X as <-; reflexivity.
  - intros _ t t'. cbn [n_V1 n_C n_I n_T n_V0 n_two]. repeat split; try (intros; discriminate); intros v X; injection X as <-; reflexivity.
  - intros v1 X. cbn [n_V1 n_two] in X. injection X as <-. exists (still 12). split; [reflexivity|]. intros t i a b x A B C.
    destruct (n_two_points t i a b x A B C) as (P1 & P2 & P3). split; [exact P1|split; [exact P2|left; exact P3]].
  - intros v1 X. cbn [n_V1 n_two] in X. injection X as <-. exists (still 12). split; [reflexivity|]. intros t i a b x A B C.
    destruct (n_two_points t i a b x A B C) as (P1 & P2 & P3). split; [exact P1|exact P2].
  - split; [reflexivity|]. apply Forall_cons; [reflexivity|apply Forall_cons; [reflexivity|apply Forall_nil]].
  - destruct (is_ok_ex (qrun n_two [OInit Qco] (fresh Qco (qz 1) 0)) eq_refl) as (s & E).
    exists s. split; [exact E|]. rewrite (first_ok _ _ _ _ _ _ E). vm_compute. reflexivity.
Qed.

Lemma init_refused (F : ofld) cexp junk (n : needs F) (s : spo F) : s_buf F s = false ->
  (fitting F n (s_clk F s) -> exists s', fst (init F cexp junk n s) = Ok s') /\ (~ fitting F n (s_clk F s) -> fst (init F cexp junk n s) = Throw).
Proof.
  intros B. unfold init. rewrite B. unfold fitting.
  match goal with |- context [if ?b then _ else _] => set (bad := b) end.
  assert (G : bad = true <-> ~ fitting F n (s_clk F s)).
  { unfold fitting, bad. destruct (Nat.eqb_spec (length (n_V0 F n (s_clk F s))) (length (n_T F n))) as [E0|N0]; [|split; [intros _ [_ [X _]]; contradiction|intros _; cbn [negb]; rewrite orb_true_r; reflexivity]].
    rewrite E0. destruct (n_V1 F n) as [v1|]; [destruct (Nat.eqb_spec (length (n_T F n)) (length (v1 (s_clk F s)))) as [E1|N1]|];
      (destruct (n_C F n) as [g|]; [destruct (Nat.eqb_spec (length (g (s_clk F s))) (length (n_T F n))) as [E2|N2]|]);
      (destruct (n_I F n) as [k|]; [destruct (Nat.eqb_spec (length (k (s_clk F s))) (length (n_T F n))) as [E3|N3]|]); cbn [negb orb].
    all: split; [intros X; try discriminate X|intros X; try reflexivity].
    all: try (intros (A & _ & H); first [apply A; [discriminate|reflexivity] | apply N1; symmetry; apply H; left; reflexivity
      | apply N2, H; right; left; reflexivity | apply N3, H; right; right; reflexivity]).
    all: exfalso; apply X; split; [intros; discriminate || congruence|]; split; [reflexivity|].
    all: intros v [Y|[Y|Y]]; try discriminate Y; injection Y as <-; congruence. }
  unfold fitting in G. destruct bad; split; intros H; cbn [fst].
  - exfalso. apply G in H; [destruct H|reflexivity].
  - reflexivity.
  - eexists; reflexivity.
  - apply G in H. discriminate H.
Qed.
