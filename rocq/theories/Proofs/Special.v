(** Proofs about grid sums, matrix operators and the Lanczos basis. *)
From Coq Require Import List ZArith Lia Bool.
From Verif Require Import Base Arrays Algebra Model.Operators Spec.Operators Model.Special Spec.Special.
Import ListNotations.
Open Scope Z_scope.

Section G.
  Variable R : cring.
  Add Ring RR : (cr_th R).
  Variable junk : Z -> list R.
  Hypothesis junk_len : forall n, 0 <= n -> zlen (junk n) = n.
  Definition ginv (s : gsum R) (ps : list (part R)) : Prop :=
    zlen (gs_ops R s) = MAX_OPS /\ gs_n R s = zlen ps /\ zlen ps <= MAX_OPS /\
    (forall k, 0 <= k < MAX_OPS -> rd (gs_ops R s) k = Ok (nth_error ps (Z.to_nat k))) /\
    (forall p, In p ps -> proper R p /\ gp_size R p = zlen (gs_val R s)).
  Lemma slot_ok s ps k p : ginv s ps -> 0 <= k -> nth_error ps (Z.to_nat k) = Some p -> slot R s k = Ok p.
  Proof.
    intros (L & N & B & S & _) Hk E. unfold slot. assert (Hl : (Z.to_nat k < length ps)%nat) by (apply nth_error_Some; congruence). rewrite S by (unfold zlen in B; lia). cbn [bind]. rewrite E. reflexivity.
  Qed.
  Lemma slot_ub s ps : ginv s ps -> slot R s (zlen ps) = UB.
  Proof.
    intros (L & N & B & S & _). unfold slot. destruct (Z.eq_dec (zlen ps) MAX_OPS) as [E|E].
    - rewrite rd_ub; [reflexivity|lia].
    - rewrite S by (unfold zlen in *; lia). cbn [bind]. replace (nth_error ps (Z.to_nat (zlen ps))) with (@None (part R)); [reflexivity|]. symmetry. apply nth_error_None. unfold zlen. lia.
  Qed.
  Lemma first_ok (v w : list R) : zlen w = zlen v -> exists u, foldM (fun u i => let* x := rd w i in wr u i x) (upto 0 (zlen v)) v = Ok u /\ u = w.
  Proof.
    intros L. destruct (foldM_upto (fun u i => let* x := rd w i in wr u i x) (fun k u => zlen u = zlen v /\ forall i, 0 <= i < k -> rd u i = rd w i) 0 (zlen v) v) as (u & E & Lu & P).
    - unfold zlen. lia.
    - split; [reflexivity|]. intros; lia.
    - intros k u Hk (Lu & P). destruct (proj1 (rd_ok w k)) as [x Ex]; [lia|]. rewrite Ex. cbn [bind]. exists (upd u (Z.to_nat k) x). split; [apply wr_ok; lia|]. split; [rewrite zlen_upd; exact Lu|].
      intros i Hi. rewrite rd_upd by lia. destruct (Z.eqb_spec i k) as [->|]; [symmetry; exact Ex|apply P; lia].
    - exists u. split; [exact E|]. apply rd_ext; [lia|]. intros i Hi. apply P. lia.
  Qed.
  Lemma update_one s p t : ginv s [p] -> gs_update R t s = Ok (mkGsum R (gs_ops R s) (gs_n R s) (gp_at R p t) true).
  Proof.
    intros I. unfold gs_update. rewrite (slot_ok s [p] 0 p I) by (try lia; reflexivity). cbn [bind]. pose proof I as (L & N & B & S & P). destruct (P p (or_introl eq_refl)) as [[P0 P1] P2].
    destruct (first_ok (gs_val R s) (gp_at R p t)) as (u & -> & ->); [rewrite P1; exact P2|]. cbn [bind]. rewrite N. reflexivity.
  Qed.
  Lemma update_more s p q ps t : ginv s (p :: q :: ps) -> 0 < zlen (gs_val R s) -> gs_update R t s = UB.
  Proof.
    intros I Hv. unfold gs_update. rewrite (slot_ok s (p :: q :: ps) 0 p I) by (try lia; reflexivity). cbn [bind]. pose proof I as (L & N & B & S & P). destruct (P p (or_introl eq_refl)) as [[P0 P1] P2].
    destruct (first_ok (gs_val R s) (gp_at R p t)) as (u & -> & Eu); [rewrite P1; exact P2|]. cbn [bind]. rewrite N. destruct (Z.ltb_spec 1 (zlen (p :: q :: ps))); [|unfold zlen in *; cbn in *; lia].
    match goal with |- context [foldM ?g0 (upto 1 ?m) tt] => assert (G : foldM g0 (upto 1 m) tt = Ok tt) end.
    { match goal with |- foldM ?g0 (upto 1 ?m) tt = _ => destruct (foldM_upto g0 (fun _ _ => True) 1 m tt) as ([] & E & _); [lia|constructor| |exact E] end.
      intros k [] Hk _. destruct (nth_error (p :: q :: ps) (Z.to_nat k)) as [o|] eqn:E; [rewrite (slot_ok s _ k o I) by (try lia; exact E); exists tt; split; [reflexivity|constructor]|].
      apply nth_error_None in E. unfold zlen in Hk. lia. }
    rewrite G. cbn [bind]. assert (Hu : 0 < zlen u) by (rewrite Eu, P1, P2; exact Hv). rewrite (upto_cons 0 (zlen u)) by lia. cbn [foldM]. rewrite (slot_ub s _ I). reflexivity.
  Qed.
  Lemma summed_inv s ps : summed R junk s ps -> ginv s ps.
  Proof.
    induction 1 as [|s ps p s' H IH Pp E|t s ps s' H IH E].
    - split; [reflexivity|]. split; [reflexivity|]. split; [unfold zlen, MAX_OPS; cbn; lia|]. split; [|intros p []].
      intros k Hk. rewrite (rd_nth _ k None) by exact Hk. f_equal. cbn [gs_new gs_ops]. rewrite nth_repeat. destruct (Z.to_nat k); reflexivity.
    - destruct IH as (L & N & B & S & P). unfold gs_add in E. destruct (Z.leb_spec MAX_OPS (gs_n R s)); [discriminate|].
      destruct (negb (gp_size R p =? zlen (if zlen (gs_val R s) =? 0 then junk (gp_size R p) else gs_val R s))) eqn:Q; [discriminate|]. apply negb_false_iff, Z.eqb_eq in Q.
      rewrite wr_ok in E by (unfold zlen in *; lia). cbn [bind] in E. injection E as <-. cbn [gs_ops gs_n gs_val].
      split; [cbn [gs_ops]; rewrite zlen_upd; exact L|]. split; [cbn [gs_n]; unfold zlen in *; rewrite app_length; cbn [length]; lia|].
      split; [unfold zlen in *; rewrite app_length; cbn [length]; lia|]. cbn [gs_ops gs_val]. split.
      + intros k Hk. rewrite rd_upd by (unfold zlen in *; lia). destruct (Z.eqb_spec k (gs_n R s)) as [->|Nk].
        * rewrite nth_error_app2 by (unfold zlen in *; lia). replace (Z.to_nat (gs_n R s) - length ps)%nat with O by (unfold zlen in *; lia). reflexivity.
        * rewrite S by lia. f_equal. destruct (Z.ltb_spec k (zlen ps)); [rewrite nth_error_app1 by (unfold zlen in *; lia); reflexivity|].
          rewrite (proj2 (nth_error_None ps _)) by (unfold zlen in *; lia). symmetry. apply nth_error_None. rewrite app_length. cbn [length]. unfold zlen in *. lia.
      + intros o Ho. apply in_app_iff in Ho. destruct Ho as [Ho|[<-|[]]]; [|split; [exact Pp|exact Q]]. destruct (P o Ho) as [P1 P2]. split; [exact P1|].
        destruct (Z.eqb_spec (zlen (gs_val R s)) 0) as [E0|E0]; [|exact P2]. destruct P1 as [P0 _]. lia.
    - unfold gs_time in E. destruct (Z.ltb_spec 0 (gs_n R s)); [|injection E as <-; exact IH]. pose proof IH as (L & N & B & S & P).
      destruct ps as [|p [|q ps]]; [unfold zlen in N; cbn in N; lia| |].
      + rewrite (update_one s p t IH) in E. injection E as <-. split; [exact L|]. split; [exact N|]. split; [exact B|]. split; [exact S|]. cbn [gs_val]. intros o [<-|[]]. destruct (P p (or_introl eq_refl)) as [[P0 P1] P2].
        split; [split; assumption|]. symmetry. apply P1.
      + rewrite (update_more s p q ps t IH) in E; [discriminate|]. destruct (P p (or_introl eq_refl)) as [[P0 P1] P2]. lia.
  Qed.
End G.

(** * Matrices *)
Section H.
  Variables A E : Type.
  Variable diag : A -> A * list E.
  Definition hinv (s : hm A E) : Prop :=
    (h_valid A E s = true -> h_d A E s = Some (snd (diag (h_mat A E s)))) /\ (h_x A E s = None <-> h_d A E s = None).
  Lemma made_inv s : hmade A E diag s -> hinv s.
  Proof.
    induction 1 as [m|s m H IH|s H IH|s b e s' H IH Q|this op H1 IH1 H2 IH2].
    - split; [discriminate|]. split; reflexivity.
    - split; [discriminate|]. apply IH.
    - split; [reflexivity|]. split; discriminate.
    - unfold h_bound in Q. assert (I : hinv (if h_valid A E s then s else h_init A E diag s)) by (destruct (h_valid A E s); [exact IH|split; [reflexivity|split; discriminate]]).
      destruct (h_d A E (if h_valid A E s then s else h_init A E diag s)) as [d|]; [|discriminate]. destruct (rd d (if b then zlen d - 1 else 0)); try discriminate. cbn [bind] in Q. injection Q as _ <-. exact I.
    - split; [discriminate|]. apply IH1.
  Qed.
  (** the energy bound as a function of the matrix *)
  Definition ebound (b : bool) (m : A) : outcome E := let d := snd (diag m) in rd d (if b then zlen d - 1 else 0).
  Lemma bound_ok s b : hinv s -> match h_bound A E diag b s with Ok (e, _) => ebound b (h_mat A E s) = Ok e | Throw => ebound b (h_mat A E s) = Throw | UB => ebound b (h_mat A E s) = UB end.
  Proof.
    intros [I _]. unfold h_bound, ebound. destruct (h_valid A E s) eqn:V.
    - rewrite (I eq_refl). destruct (rd (snd (diag (h_mat A E s))) _); reflexivity.
    - cbn [h_init h_d]. destruct (rd (snd (diag (h_mat A E s))) _); reflexivity.
  Qed.
  Lemma answer_ok s b : hinv s -> answer A E diag b s = ebound b (h_mat A E s).
  Proof. intros I. pose proof (bound_ok s b I) as B. unfold answer. destruct (h_bound A E diag b s) as [[e s']| |]; rewrite B; reflexivity. Qed.
  Lemma copy_iff this op : hmade A E diag this -> hmade A E diag op -> snd (diag (h_mat A E op)) <> [] ->
    (copies A E diag this op <-> if h_d A E this then h_d A E op <> None else h_valid A E op = false).
  Proof.
    intros H1 H2 Ne. apply made_inv in H1. apply made_inv in H2. pose proof H1 as [V1 X1]. pose proof H2 as [V2 X2]. unfold copies, h_copy.
    assert (G : forall x d, (h_valid A E op = true -> d = Some (snd (diag (h_mat A E op)))) -> forall b, answer A E diag b (mkHm A E (h_mat A E op) x d (h_valid A E op)) = answer A E diag b op).
    { intros x d I b. rewrite (answer_ok op b H2). unfold answer, h_bound. cbn [h_valid h_mat h_d]. destruct (h_valid A E op).
      - rewrite (I eq_refl). unfold ebound. cbn [h_d]. destruct (rd _ _); reflexivity.
      - unfold ebound. cbn [h_init h_mat h_d]. destruct (rd _ _); reflexivity. }
    destruct (h_d A E this) as [d1|] eqn:D1.
    - destruct (h_x A E this) as [x1|] eqn:Y1; [|destruct X1 as [X1 _]; specialize (X1 eq_refl); discriminate]. split.
      + intros (c & Q & _). destruct (h_d A E op); [discriminate|]. destruct (h_x A E op); discriminate Q.
      + intros N. destruct (h_d A E op) as [d|] eqn:D; [|contradiction]. destruct (h_x A E op) as [x|]; [|destruct X2 as [X2 _]; specialize (X2 eq_refl); discriminate].
        eexists. split; [reflexivity|]. split; [reflexivity|]. apply G. exact V2.
    - destruct (h_x A E this) as [x1|] eqn:Y1; [destruct X1 as [_ X1]; specialize (X1 eq_refl); discriminate|]. split.
      + intros (c & Q & _ & B). injection Q as <-. destruct (h_valid A E op) eqn:V; [|reflexivity]. specialize (B false). rewrite (answer_ok op false H2) in B.
        unfold answer, h_bound in B. cbn in B. unfold ebound in B. destruct (snd (diag (h_mat A E op))) as [|e l]; [contradiction|]. cbn in B. discriminate.
      + intros V. eexists. split; [reflexivity|]. split; [reflexivity|]. apply G. rewrite V. discriminate.
  Qed.
  Lemma copy_bad this op : hmade A E diag this -> hmade A E diag op ->
    (h_d A E this = None -> h_valid A E op = true -> exists c, h_copy A E this op = Ok c /\ forall b, h_bound A E diag b c = UB) /\
    (h_d A E this <> None -> h_d A E op = None -> h_copy A E this op = UB).
  Proof.
    intros H1 H2. apply made_inv in H1. apply made_inv in H2. destruct H1 as [V1 X1], H2 as [V2 X2]. unfold h_copy. split.
    - intros D V. rewrite (proj2 X1 D), D. eexists. split; [reflexivity|]. intros b. unfold h_bound. cbn [h_valid]. rewrite V. reflexivity.
    - intros D D2. destruct (h_x A E this) eqn:Y; [|destruct D; apply X1; reflexivity]. rewrite (proj2 X2 D2). reflexivity.
  Qed.
End H.

(** * Lanczos *)
Section L.
  Variable F : fld.
  Variable M : cmodule F.
  Variable junk : nat -> M.
  Variable dot : M -> M -> F.
  Variable norm : M -> F.
  Variable conv : Z -> list F -> bool.
  Variable H : acts F M.
  Variable h : M -> M.
  Hypothesis Hh : implements F M H h.
  Notation lanczos := (lanczos F M dot norm h).
  Lemma lanczos_frame q a b k qi qx ai ax bi bx : lanczos q a b k -> 0 <= qi < zlen q -> 0 <= ai < zlen a -> 0 <= bi < zlen b -> k < qi -> k <= ai -> k <= bi ->
    lanczos (upd q (Z.to_nat qi) qx) (upd a (Z.to_nat ai) ax) (upd b (Z.to_nat bi) bx) k.
  Proof.
    intros Lz Q Aa B Kq Ka Kb j Hj. destruct (Lz j Hj) as (qj & aj & bj & y & E1 & E2 & E3 & E4 & E5 & E6 & E7). exists qj, aj, bj, y.
    rewrite !rd_upd by assumption. rewrite !(proj2 (Z.eqb_neq _ _)) by lia. do 4 (split; [assumption|]). split; [|split; assumption].
    destruct E5 as [[-> E5]|(P & b' & q' & R1 & R2 & R3)]; [left; split; [reflexivity|exact E5]|right]. split; [exact P|]. exists b', q'. rewrite !rd_upd by assumption. rewrite !(proj2 (Z.eqb_neq _ _)) by lia. repeat split; assumption.
  Qed.
  Definition lens (order : Z) (s : lz F M) : Prop := zlen (l_q F M s) = order /\ zlen (l_a F M s) = order /\ zlen (l_b F M s) = order.
  (** before pass [k]: still running, or left at pass K *)
  Definition linv (order k : Z) (s : lz F M * Z * bool) : Prop :=
    let '(st, it, stop) := s in lens order st /\ exists K, K + 1 = l_conv F M st /\ lanczos (l_q F M st) (l_a F M st) (l_b F M st) K /\ (forall j, K <= j < order -> rd (l_a F M st) j = Ok c0) /\
      if (stop : bool) then 2 <= it < k /\ K = it /\ (exists b, conv it b = true) else it = k /\ K = k - 1 /\ 1 <= K.
  Lemma pass_ok order k s : 2 <= k < order -> linv order k s -> exists s', lz_pass F M dot norm conv H s k = Ok s' /\ linv order (k + 1) s'.
  Proof.
    intros Hk I. destruct s as [[st it] stop]. destruct I as ((Lq & La & Lb) & K & Cv & Lz & Z0 & I). unfold lz_pass. destruct stop.
    - eexists. split; [reflexivity|]. split; [repeat split; assumption|]. exists K. destruct I as (I1 & I2 & I3). repeat (split; [first [assumption|lia]|]). exact I3.
    - destruct I as (-> & EK & K1). destruct (proj1 (rd_ok (l_q F M st) (k - 1))) as [q1 E1]; [lia|]. rewrite E1. cbn [bind]. destruct (proj1 (rd_ok (l_q F M st) (k - 2))) as [q2 E2]; [lia|]. rewrite E2. cbn [bind].
      destruct (proj1 (rd_ok (l_q F M st) k)) as [old E3]; [lia|]. rewrite E3. cbn [bind]. destruct (proj1 Hh (l_n F M st) old q1) as [n' ->]. cbn [bind fst snd]. rewrite wr_ok by lia. cbn [bind].
      destruct (proj1 (rd_ok (l_b F M st) (k - 2))) as [b2 E4]; [lia|]. rewrite E4. cbn [bind]. rewrite wr_ok by lia. cbn [bind]. rewrite wr_ok by lia. cbn [bind].
      set (y := minus F M (minus F M (h q1) (mscale (dot q1 (h q1)) q1)) (mscale b2 q2)).
      assert (G : lanczos (upd (l_q F M st) (Z.to_nat k) (mscale (fdiv c1 (norm y)) y)) (upd (l_a F M st) (Z.to_nat (k - 1)) (dot q1 (h q1))) (upd (l_b F M st) (Z.to_nat (k - 1)) (norm y)) k).
      { intros j Hj. destruct (Z.eq_dec j (k - 1)) as [->|Nj]; [|apply (lanczos_frame _ _ _ K); try assumption; lia].
        exists q1, (dot q1 (h q1)), (norm y), y. rewrite !rd_upd by lia. rewrite !Z.eqb_refl. replace (k - 1 + 1) with k by lia. rewrite !Z.eqb_refl, (proj2 (Z.eqb_neq (k - 1) k)) by lia.
        do 4 (split; [first [assumption|reflexivity]|]). split; [|split; reflexivity]. right. split; [lia|]. exists b2, q2. rewrite !rd_upd by lia. rewrite !(proj2 (Z.eqb_neq _ _)) by lia. replace (k - 1 - 1) with (k - 2) by lia. split; [assumption|]. split; [assumption|reflexivity]. }
      assert (G0 : forall j, k <= j < order -> rd (upd (l_a F M st) (Z.to_nat (k - 1)) (dot q1 (h q1))) j = Ok c0).
      { intros j Hj. rewrite rd_upd by lia. rewrite (proj2 (Z.eqb_neq _ _)) by lia. apply Z0. lia. }
      destruct (conv k (l_b F M st)) eqn:C; (eexists; split; [reflexivity|]); (split; [repeat split; cbn [l_q l_a l_b]; rewrite zlen_upd; assumption|]); exists k; cbn [l_q l_a l_b l_conv]; (split; [lia|]); (split; [exact G|]); (split; [exact G0|]).
      + split; [lia|]. split; [reflexivity|]. exists (l_b F M st). exact C.
      + lia.
  Qed.
  Lemma pass_q0 s k s' : 2 <= k -> lz_pass F M dot norm conv H s k = Ok s' -> rd (l_q F M (fst (fst s'))) 0 = rd (l_q F M (fst (fst s))) 0.
  Proof.
    intros Hk E. destruct s as [[st it] stop]. unfold lz_pass in E. destruct stop; [injection E as <-; reflexivity|].
    repeat match type of E with (let* _ := ?e in _) = _ => let X := fresh "X" in destruct e eqn:X; [|discriminate|discriminate]; cbn [bind] in E end.
    match goal with W : wr (l_q F M st) k _ = Ok _ |- _ => apply wr_inv in W; destruct W as [W ->] end.
    destruct (conv k (l_b F M st)); injection E as <-; cbn [fst l_q]; rewrite rd_upd by assumption; rewrite (proj2 (Z.eqb_neq _ _)) by lia; reflexivity.
  Qed.
  Lemma rep0 n k : 0 <= k < n -> rd (repeat (c0 : F) (Z.to_nat n)) k = Ok c0.
  Proof. intros Hk. rewrite (rd_nth _ k c0) by (unfold zlen; rewrite repeat_length; lia). rewrite nth_repeat. reflexivity. Qed.
  Lemma build_ok order q n psi : 2 <= order -> zlen q = order -> exists st K, lz_build F M junk dot norm conv H order q n psi = Ok st /\ K + 1 = l_conv F M st /\ 1 <= K < order /\ lens order st /\
    rd (l_q F M st) 0 = Ok psi /\
    lanczos (l_q F M st) (l_a F M st) (l_b F M st) K /\
    ((K = order - 1 /\ exists ql, rd (l_q F M st) K = Ok ql /\ rd (l_a F M st) K = Ok (dot ql (h ql))) \/ (2 <= K /\ (exists b, conv K b = true) /\ rd (l_a F M st) K = Ok c0)).
  Proof.
    intros Ho Lq. unfold lz_build. set (z := repeat (c0 : F) (Z.to_nat order)). assert (Lz : zlen z = order) by (unfold z, zlen; rewrite repeat_length; lia).
    rewrite wr_ok by lia. cbn [bind]. destruct (proj1 Hh (2 + n)%nat (junk n) psi) as [n1 ->]. cbn [bind fst snd]. rewrite wr_ok by lia. cbn [bind]. rewrite wr_ok by lia. cbn [bind]. rewrite wr_ok by (rewrite zlen_upd; lia). cbn [bind].
    set (y := minus F M (h psi) (mscale (dot psi (h psi)) psi)).
    set (q1 := upd (upd q (Z.to_nat 0) psi) (Z.to_nat 1) (mscale (fdiv c1 (norm y)) y)).
    set (s0 := mkLz F M q1 (upd z (Z.to_nat 0) (dot psi (h psi))) (upd z (Z.to_nat 0) (norm y)) 2 n1).
    assert (Q0 : rd q1 0 = Ok psi) by (unfold q1; rewrite rd_upd by (rewrite zlen_upd; lia); cbn [Z.eqb]; rewrite rd_upd by lia; reflexivity).
    assert (I0 : linv order 2 (s0, 2, false) /\ rd (l_q F M (fst (fst (s0, 2, false)))) 0 = Ok psi).
    { split; [|exact Q0]. split; [unfold lens, s0, q1; cbn [l_q l_a l_b]; rewrite !zlen_upd; repeat split; assumption|]. exists 1. cbn [s0 l_q l_a l_b l_conv]. split; [reflexivity|]. split; [|split; [|lia]].
      - intros j Hj. assert (j = 0) as -> by lia. exists psi, (dot psi (h psi)), (norm y), y. split; [exact Q0|]. rewrite !(rd_upd z) by lia. cbn [Z.eqb]. do 3 (split; [reflexivity|]). split; [left; split; reflexivity|]. split; [reflexivity|].
        unfold q1. rewrite rd_upd by (rewrite zlen_upd; lia). reflexivity.
      - intros j Hj. rewrite rd_upd by lia. rewrite (proj2 (Z.eqb_neq _ _)) by lia. apply rep0. lia. }
    destruct (foldM_upto (lz_pass F M dot norm conv H) (fun k s => linv order k s /\ rd (l_q F M (fst (fst s))) 0 = Ok psi) 2 order (s0, 2, false) Ho I0) as ([[st it] stop] & -> & I & Qp).
    { intros k s Hk [I Qp]. destruct (pass_ok order k s Hk I) as (s' & E & I'). exists s'. split; [exact E|]. split; [exact I'|]. apply pass_q0 in E; [|lia]. rewrite E. exact Qp. }
    cbn [fst] in Qp. cbn [bind]. destruct I as ((L1 & L2 & L3) & K & Cv & Lc & Z0 & I).
    assert (Hit : 1 <= it - 1 < order) by (destruct stop; lia). destruct (proj1 (rd_ok (l_q F M st) (it - 1))) as [ql El]; [lia|]. rewrite El. cbn [bind]. destruct (proj1 Hh (l_n F M st) (junk (l_n F M st)) ql) as [n2 ->]. cbn [bind fst snd].
    rewrite wr_ok by lia. cbn [bind]. eexists. exists K. split; [reflexivity|]. cbn [l_q l_a l_b l_conv]. split; [exact Cv|]. split; [destruct stop; lia|]. split; [repeat split; cbn [l_q l_a l_b]; rewrite ?zlen_upd; assumption|]. split; [exact Qp|].
    destruct stop.
    - destruct I as (I1 & -> & I3). split.
      + intros j Hj. destruct (Lc j Hj) as (qj & aj & bj & y' & E1 & E2 & E3 & E4 & E5). exists qj, aj, bj, y'. split; [exact E1|]. split; [|split; [exact E3|split; [exact E4|exact E5]]].
        rewrite rd_upd by lia. destruct (Z.eqb_spec j (it - 1)) as [->|]; [|exact E2]. rewrite E4. congruence.
      + right. split; [lia|]. split; [exact I3|]. rewrite rd_upd by lia. rewrite (proj2 (Z.eqb_neq _ _)) by lia. apply Z0. lia.
    - destruct I as (-> & -> & I1). split.
      + intros j Hj. destruct (Lc j Hj) as (qj & aj & bj & y' & E1 & E2 & E3 & E4 & E5). exists qj, aj, bj, y'. split; [exact E1|]. split; [|split; [exact E3|split; [exact E4|exact E5]]].
        rewrite rd_upd by lia. rewrite (proj2 (Z.eqb_neq _ _)) by lia. exact E2.
      + left. split; [reflexivity|]. exists ql. split; [exact El|]. rewrite rd_upd by lia. rewrite Z.eqb_refl. reflexivity.
  Qed.
End L.
