From Coq Require Import List NArith ZArith Lia Bool Ring.
From Verif Require Import Base Arrays Algebra Complex Model.Multistate Spec.Multistate Proofs.Stencil.
Import ListNotations.
Open Scope Z_scope.

Section Table.
  Variable R : cring.
  Notation wf := (wf R).
  Notation tabT := (list (option wf)).

  Definition inv (m : ms R) : Prop :=
    0 <= m_n R m < max_states /\ zlen (m_tab R m) = max_states /\ forall i, m_n R m <= i < max_states -> rd (m_tab R m) i = Ok None.

  Lemma rd_repeat {A} (x : A) n i : 0 <= i < Z.of_nat n -> rd (repeat x n) i = Ok x.
  Proof.
    intros H. rewrite (rd_nth _ _ x) by (unfold zlen; rewrite repeat_length; lia). f_equal.
    apply (repeat_spec n x (nth (Z.to_nat i) (repeat x n) x)). apply nth_In. rewrite repeat_length. lia.
  Qed.

  Lemma add_cases m psi index : inv m -> 0 <= index ->
    (max_states <= index + 1 /\ ms_add R m psi index = Ok (false, m)) \/
    (index + 1 < max_states /\ exists m', ms_add R m psi index = Ok (negb (1 <? w_strides R psi), m') /\ inv m' /\
      m_n R m' = Z.max (m_n R m) (index + 1) /\
      forall i, rd (m_tab R m') i = if i =? index then Ok (Some psi) else rd (m_tab R m) i).
  Proof.
    intros (Hn & Hl & Hz) Hi. unfold ms_add. destruct (Z.leb_spec max_states (index + 1)) as [L|L]; [left; split; [exact L|reflexivity]|right].
    split; [exact L|]. rewrite wr_ok by lia. cbn [bind]. eexists. split; [reflexivity|].
    assert (Hr : forall i, rd (upd (m_tab R m) (Z.to_nat index) (Some psi)) i = if i =? index then Ok (Some psi) else rd (m_tab R m) i).
    { intros i. apply rd_upd. lia. }
    cbn [m_n m_tab]. split; [|split; [destruct (Z.ltb_spec (m_n R m) (index + 1)); lia|exact Hr]].
    split; [cbn; destruct (Z.ltb_spec (m_n R m) (index + 1)); lia|]. split; [cbn; rewrite zlen_upd; exact Hl|]. cbn. intros i Hi2. rewrite Hr.
    destruct (Z.ltb_spec (m_n R m) (index + 1)) as [L2|L2]; (destruct (Z.eqb_spec i index); [lia|apply Hz; lia]).
  Qed.
  Lemma built_inv m : built R m -> inv m.
  Proof.
    induction 1 as [|m psi index ok m' B IH Hi E].
    - unfold inv, ms_new. cbn [m_n m_tab]. split; [unfold max_states; lia|]. split; [reflexivity|]. intros i Hi. apply rd_repeat. unfold max_states in *. lia.
    - destruct (add_cases m psi index IH Hi) as [[_ E2]|(_ & m2 & E2 & I & _)]; rewrite E2 in E; injection E as _ <-; assumption.
  Qed.
  Lemma add_negative m psi index : index < 0 -> ms_add R m psi index = UB.
  Proof.
    intros H. unfold ms_add. destruct (Z.leb_spec max_states (index + 1)); [unfold max_states in *; lia|].
    unfold wr. rewrite (proj2 (Z.leb_gt 0 index)) by lia. reflexivity.
  Qed.

  (** derived from a state given in the table *)
  Definition derived (tab0 : tabT) (n : Z) (w : wf) : Prop :=
    exists j v, 0 <= j < n /\ rd tab0 j = Ok (Some v) /\ zlen (w_data R w) = zlen (w_data R v).
  Definition ext (tab0 : tabT) (n : Z) (tab : tabT) : Prop :=
    zlen tab = zlen tab0 /\
    (forall i, ~ (0 <= i < n) -> rd tab i = rd tab0 i) /\
    (forall i v, rd tab0 i = Ok (Some v) -> rd tab i = Ok (Some v)) /\
    (forall i w, rd tab0 i = Ok None -> rd tab i = Ok (Some w) -> derived tab0 n w /\ Forall (eq c0) (w_data R w)).

  Lemma zero_data w : Forall (eq (c0 : R)) (w_data R (zero_like R w)).
  Proof. cbn. apply Forall_forall. intros x Hx. apply repeat_spec in Hx. congruence. Qed.
  Lemma zero_len w : zlen (w_data R (zero_like R w)) = zlen (w_data R w).
  Proof. cbn. unfold zlen. rewrite repeat_length. reflexivity. Qed.

  Lemma fill_ok tab0 n tab wl : n <= zlen tab0 -> 0 <= n -> ext tab0 n tab -> (forall w, wl = Some w -> derived tab0 n w) ->
    exists tab' wl', fill R n (tab, wl) = Ok (tab', wl') /\ ext tab0 n tab' /\ (forall w, wl' = Some w -> derived tab0 n w) /\
      (wl <> None -> wl' <> None /\ forall i, 0 <= i < n -> exists w, rd tab' i = Ok (Some w)) /\
      (wl' = None -> forall i, 0 <= i < n -> rd tab0 i = Ok None).
  Proof.
    intros Hn H0 HE HW. unfold fill.
    destruct (foldM_upto (fun (s : tabT * option wf) i =>
      let '(tab, wflast) := s in
      let* x := rd tab i in
      match x, wflast with
      | Some w, _ => Ok (tab, Some w)
      | None, Some w => let* tab := wr tab i (Some (zero_like R w)) in Ok (tab, wflast)
      | None, None => Ok (tab, wflast)
      end)
      (fun k s => ext tab0 n (fst s) /\ (forall w, snd s = Some w -> derived tab0 n w) /\
        (wl <> None -> snd s <> None /\ forall i, 0 <= i < k -> exists w, rd (fst s) i = Ok (Some w)) /\
        (snd s = None -> forall i, 0 <= i < k -> rd tab0 i = Ok None)) 0 n (tab, wl) H0) as ([tab' wl'] & E & P).
    - cbn. split; [exact HE|]. split; [exact HW|]. split; [|lia]. intros N. split; [exact N|lia].
    - intros k [t w] Hk (P1 & P2 & P3 & P4). cbn [fst snd] in *. destruct P1 as (PL & PO & PS & PZ).
      destruct (proj1 (rd_ok t k)) as [x Ex]; [lia|]. rewrite Ex. cbn [bind]. destruct x as [v|].
      + eexists. split; [reflexivity|]. cbn [fst snd]. split; [split; [exact PL|split; [exact PO|split; [exact PS|exact PZ]]]|]. split; [|split].
        * intros u [= <-]. destruct (proj1 (rd_ok tab0 k)) as [y Ey]; [lia|]. destruct y as [y|].
          -- exists k, y. split; [exact Hk|]. split; [exact Ey|]. rewrite (PS _ _ Ey) in Ex. injection Ex as ->. reflexivity.
          -- destruct (PZ _ _ Ey Ex) as [D _]. exact D.
        * intros N. split; [discriminate|]. intros i Hi. destruct (Z.eq_dec i k) as [->|Nk]; [eauto|]. apply P3; [exact N|lia].
        * discriminate.
      + destruct w as [w|].
        * rewrite wr_ok by lia. cbn [bind]. eexists. split; [reflexivity|]. cbn [fst snd].
          assert (E0 : rd tab0 k = Ok None).
          { destruct (proj1 (rd_ok tab0 k)) as [y Ey]; [lia|]. destruct y as [y|]; [|exact Ey]. rewrite (PS _ _ Ey) in Ex. discriminate. }
          assert (Hr : forall i, rd (upd t (Z.to_nat k) (Some (zero_like R w))) i = if i =? k then Ok (Some (zero_like R w)) else rd t i).
          { intros i. apply rd_upd. lia. }
          split; [|split; [exact P2|split; [|discriminate]]].
          -- split; [rewrite zlen_upd; exact PL|]. split; [|split].
             ++ intros i Hi. rewrite Hr. destruct (Z.eqb_spec i k); [lia|]. apply PO. exact Hi.
             ++ intros i v Ev. rewrite Hr. destruct (Z.eqb_spec i k) as [->|]; [congruence|]. apply PS. exact Ev.
             ++ intros i u E1 E2. rewrite Hr in E2. destruct (Z.eqb_spec i k) as [->|].
                ** injection E2 as <-. split; [|apply zero_data]. destruct (P2 w eq_refl) as (j & v & Hj & Ej & L). exists j, v.
                   split; [exact Hj|]. split; [exact Ej|]. rewrite zero_len. exact L.
                ** apply PZ with i; assumption.
          -- intros N. split; [discriminate|]. intros i Hi. rewrite Hr. destruct (Z.eqb_spec i k); [eauto|]. apply P3; [exact N|lia].
        * eexists. split; [reflexivity|]. cbn [fst snd]. split; [split; [exact PL|split; [exact PO|split; [exact PS|exact PZ]]]|].
          split; [discriminate|]. split; [intros N; destruct (P3 N) as [F _]; congruence|].
          intros _ i Hi. destruct (Z.eq_dec i k) as [->|Nk]; [|apply P4; [reflexivity|lia]].
          destruct (proj1 (rd_ok tab0 k)) as [y Ey]; [lia|]. destruct y as [y|]; [|exact Ey]. rewrite (PS _ _ Ey) in Ex. discriminate.
    - exists tab', wl'. split; [exact E|]. exact P.
  Qed.

  Lemma extend_ok n req w tab : 0 <= n -> req <= zlen tab -> exists tab', extend R n req w tab = Ok tab' /\ zlen tab' = zlen tab /\
    (forall i, ~ (n <= i < req) -> rd tab' i = rd tab i) /\ (forall i, n <= i < req -> rd tab' i = Ok (Some (zero_like R w))).
  Proof.
    intros H0 Hr. unfold extend. destruct (Z_le_gt_dec n req) as [L|L].
    - destruct (foldM_upto (fun (tab : tabT) i => wr tab i (Some (zero_like R w)))
        (fun k t => zlen t = zlen tab /\ (forall i, ~ (n <= i < k) -> rd t i = rd tab i) /\ (forall i, n <= i < k -> rd t i = Ok (Some (zero_like R w)))) n req tab L) as (t & E & P).
      + split; [reflexivity|]. split; [reflexivity|lia].
      + intros k t Hk (P1 & P2 & P3). rewrite wr_ok by lia. eexists. split; [reflexivity|]. split; [rewrite zlen_upd; exact P1|].
        split; intros i Hi; rewrite rd_upd by lia; destruct (Z.eqb_spec i k); try reflexivity; try lia; [apply P2; lia|apply P3; lia].
      + eauto.
    - rewrite upto_nil by lia. exists tab. split; [reflexivity|]. split; [reflexivity|]. split; [reflexivity|lia].
  Qed.
  Lemma extend_ub n req w tab : 0 <= n <= zlen tab -> zlen tab < req -> extend R n req w tab = UB.
  Proof.
    intros Hn Hr. unfold extend. rewrite (upto_app n (zlen tab) req) by lia. rewrite foldM_app.
    destruct (extend_ok n (zlen tab) w tab) as (t & E & L & _); [lia|lia|]. unfold extend in E. rewrite E. cbn [bind].
    rewrite upto_cons by lia. cbn [foldM]. unfold wr. fold (zlen t). rewrite L, (proj2 (Z.ltb_ge (zlen tab) (zlen tab))) by lia. rewrite andb_false_r. reflexivity.
  Qed.

  Lemma link_ok n (tab : tabT) : 0 <= n -> (forall i, 0 <= i < n -> exists w, rd tab i = Ok (Some w)) ->
    (link R n tab = Throw /\ exists i j v w, 0 <= i < n /\ 0 <= j < n /\ rd tab i = Ok (Some v) /\ rd tab j = Ok (Some w) /\ zlen (w_data R v) <> zlen (w_data R w)) \/
    (exists o, link R n tab = Ok o /\ exists s, forall i w, 0 <= i < n -> rd tab i = Ok (Some w) -> zlen (w_data R w) = s).
  Proof.
    intros H0 HS. unfold link. set (f := fun (size : option Z) i => _).
    assert (K : forall k, 0 <= k <= n ->
      (foldM f (upto 0 k) None = Throw /\ exists i j v w, 0 <= i < k /\ 0 <= j < k /\ rd tab i = Ok (Some v) /\ rd tab j = Ok (Some w) /\ zlen (w_data R v) <> zlen (w_data R w)) \/
      (exists o, foldM f (upto 0 k) None = Ok o /\ (0 < k -> exists j v, 0 <= j < k /\ rd tab j = Ok (Some v) /\ o = Some (zlen (w_data R v)) /\
        forall i w, 0 <= i < k -> rd tab i = Ok (Some w) -> zlen (w_data R w) = zlen (w_data R v)) /\ (k = 0 -> o = None))).
    { intros k Hk. replace k with (Z.of_nat (Z.to_nat k)) in * by lia. generalize dependent (Z.to_nat k). clear k. induction n0 as [|k IH]; intros Hk.
      - right. exists None. split; [reflexivity|]. split; [lia|reflexivity].
      - rewrite Nat2Z.inj_succ, <- Z.add_1_r, upto_snoc by lia. rewrite foldM_app. destruct IH as [(E & i & j & v & w & Hi & Hj & A)|(o & E & P & PN)]; [lia| |].
        + left. rewrite E. split; [reflexivity|]. exists i, j, v, w. split; [lia|]. split; [lia|exact A].
        + rewrite E. cbn [bind foldM]. destruct (HS (Z.of_nat k)) as [w Ew]; [lia|]. unfold f. rewrite Ew. cbn [bind]. destruct o as [s|].
          * assert (0 < Z.of_nat k) by (destruct k; [specialize (PN eq_refl); discriminate|lia]). destruct (P ltac:(lia)) as (j & v & Hj & Ev & Es & U). injection Es as ->.
            destruct (Z.eqb_spec (zlen (w_data R w)) (zlen (w_data R v))) as [Q|Q].
            -- right. eexists. split; [reflexivity|]. split; [|lia]. intros _. exists j, v. split; [lia|]. split; [exact Ev|]. split; [reflexivity|].
               intros i u Hi Eu. destruct (Z.eq_dec i (Z.of_nat k)) as [->|N]; [congruence|]. apply U with i; [lia|exact Eu].
            -- left. split; [reflexivity|]. exists (Z.of_nat k), j, w, v. split; [lia|]. split; [lia|]. split; [exact Ew|]. split; [exact Ev|exact Q].
          * right. eexists. split; [reflexivity|]. split; [|lia]. intros _. destruct k as [|k].
            -- exists 0, w. split; [lia|]. split; [exact Ew|]. split; [reflexivity|]. intros i u Hi Eu. replace i with 0 in Eu by lia. change (Z.of_nat 0) with 0 in Ew. congruence.
            -- destruct (P ltac:(lia)) as (j & v & _ & _ & Es & _). discriminate. }
    destruct (K n) as [A|(o & E & P & _)]; [lia|left; exact A|]. right. exists o. split; [exact E|]. destruct (Z.eq_dec n 0) as [->|N].
    - exists 0. lia.
    - destruct (P ltac:(lia)) as (j & v & _ & _ & _ & U). eauto.
  Qed.

  Lemma table_list (tab : tabT) n : 0 <= n <= zlen tab -> (forall i, 0 <= i < n -> exists w, rd tab i = Ok (Some w)) ->
    exists l, zlen l = n /\ forall i w, rd l i = Ok w -> rd tab i = Ok (Some w).
  Proof.
    intros Hn HS. replace n with (Z.of_nat (Z.to_nat n)) in * by lia. generalize dependent (Z.to_nat n). clear n. induction n as [|n IH]; intros Hn HS.
    - exists []. split; [reflexivity|]. intros i w E. apply rd_bounds in E. unfold zlen in E. cbn in E. lia.
    - destruct IH as (l & L & P); [lia|intros i Hi; apply HS; lia|]. destruct (HS (Z.of_nat n)) as [w Ew]; [lia|]. exists (l ++ [w]).
      split; [unfold zlen in *; rewrite app_length; cbn; lia|]. intros i u E. pose proof (rd_bounds _ _ _ E) as B.
      assert (LL : zlen (l ++ [w]) = Z.of_nat n + 1) by (unfold zlen in *; rewrite app_length; cbn; lia).
      destruct (Z.eq_dec i (Z.of_nat n)) as [->|N].
      + unfold rd in E. rewrite (proj2 (Z.leb_le 0 _)), Nat2Z.id in E by lia. rewrite nth_error_app2 in E by (unfold zlen in L; lia).
        replace (n - length l)%nat with 0%nat in E by (unfold zlen in L; lia). cbn in E. congruence.
      + apply P. rewrite rd_app_l in E by lia. exact E.
  Qed.

  (** everything about Init within the table *)
  Lemma init_ok m req : inv m -> req <= max_states ->
    (ms_init R m req = Throw /\
      ((forall i, 0 <= i < m_n R m -> rd (m_tab R m) i = Ok None) \/
       exists i j v w, rd (m_tab R m) i = Ok (Some v) /\ rd (m_tab R m) j = Ok (Some w) /\ zlen (w_data R v) <> zlen (w_data R w))) \/
    (exists m' l s, ms_init R m req = Ok m' /\ consists R m' l /\ zlen l = Z.max (m_n R m) req /\
      (forall i w, rd l i = Ok w -> zlen (w_data R w) = s) /\
      (forall i w, rd (m_tab R m) i = Ok (Some w) -> rd l i = Ok w) /\
      (forall i w, rd (m_tab R m) i = Ok None -> rd l i = Ok w -> Forall (eq c0) (w_data R w))).
  Proof.
    intros (Hn & Hl & Hz) Hr. set (n := m_n R m) in *. set (tab0 := m_tab R m) in *. unfold ms_init. fold n tab0.
    assert (E0 : ext tab0 n tab0).
    { split; [reflexivity|]. split; [reflexivity|]. split; [auto|]. intros i w A B. congruence. }
    destruct (fill_ok tab0 n tab0 None) as (t1 & w1 & F1 & X1 & D1 & _ & N1); [lia|lia|exact E0|discriminate|]. rewrite F1. cbn [bind].
    destruct (fill_ok tab0 n t1 w1) as (t2 & w2 & F2 & X2 & D2 & A2 & N2); [lia|lia|exact X1|exact D1|]. rewrite F2. cbn [bind fst snd].
    destruct w2 as [w|].
    2:{ left. split; [reflexivity|]. left. intros i Hi. apply N2; [reflexivity|exact Hi]. }
    destruct w1 as [w'|].
    2:{ exfalso. destruct (D2 w eq_refl) as (j & v & Hj & Ej & _). rewrite N1 in Ej; [discriminate|reflexivity|exact Hj]. }
    destruct A2 as [_ A2]; [discriminate|]. destruct X2 as (XL & XO & XS & XZ).
    assert (EX : exists N tab, (if n <? req then let* tab := extend R n req w t2 in Ok (req, tab) else Ok (n, t2)) = Ok (N, tab) /\ N = Z.max n req /\
      zlen tab = max_states /\ (forall i, 0 <= i < N -> exists u, rd tab i = Ok (Some u)) /\
      (forall i u, rd tab0 i = Ok (Some u) -> rd tab i = Ok (Some u)) /\
      (forall i u, rd tab0 i = Ok None -> rd tab i = Ok (Some u) -> derived tab0 n u /\ Forall (eq c0) (w_data R u))).
    { destruct (Z.ltb_spec n req) as [L|L].
      - destruct (extend_ok n req w t2) as (t3 & E3 & L3 & O3 & S3); [lia|lia|]. rewrite E3. cbn [bind]. exists req, t3. split; [reflexivity|].
        split; [lia|]. split; [lia|]. split; [|split].
        + intros i Hi. destruct (Z_lt_ge_dec i n); [rewrite O3 by lia; apply A2; lia|eexists; apply S3; lia].
        + intros i u Eu. destruct (Z_lt_ge_dec i n); [rewrite O3 by lia; apply XS; exact Eu|].
          pose proof (rd_bounds _ _ _ Eu). rewrite Hz in Eu by lia. discriminate.
        + intros i u En Eu. destruct (Z_lt_ge_dec i n); [rewrite O3 in Eu by lia; apply XZ with i; assumption|].
          destruct (Z_lt_ge_dec i req); [|rewrite O3 in Eu by lia; rewrite XO in Eu by lia; congruence].
          rewrite S3 in Eu by lia. injection Eu as <-. split; [|apply zero_data]. destruct (D2 w eq_refl) as (j & v & Hj & Ej & LL).
          exists j, v. split; [exact Hj|]. split; [exact Ej|]. rewrite zero_len. exact LL.
      - exists n, t2. split; [reflexivity|]. split; [lia|]. split; [lia|]. split; [exact A2|]. split; [exact XS|exact XZ]. }
    destruct EX as (N & tab & E3 & EN & L3 & A3 & S3 & Z3). rewrite E3. cbn [bind fst snd].
    destruct (link_ok N tab) as [(EL & i & j & v & u & Hi & Hj & Ei & Ej & NE)|(o & EL & s & U)]; [lia|exact A3| |].
    - left. rewrite EL. split; [reflexivity|]. right.
      assert (OR : forall i v, 0 <= i < N -> rd tab i = Ok (Some v) -> exists j v0, rd tab0 j = Ok (Some v0) /\ zlen (w_data R v) = zlen (w_data R v0)).
      { intros i' v' Hi' Ev'. destruct (proj1 (rd_ok tab0 i')) as [x Ex]; [lia|]. destruct x as [x|].
        - exists i', x. split; [exact Ex|]. rewrite (S3 _ _ Ex) in Ev'. congruence.
        - destruct (Z3 _ _ Ex Ev') as ((j' & v0 & _ & Ej' & LL) & _). eauto. }
      destruct (OR _ _ Hi Ei) as (i1 & v1 & Ei1 & L1), (OR _ _ Hj Ej) as (j1 & u1 & Ej1 & L2).
      exists i1, j1, v1, u1. split; [exact Ei1|]. split; [exact Ej1|]. congruence.
    - right. rewrite EL. cbn [bind]. destruct (table_list tab N) as (l & LL & P); [lia|exact A3|].
      exists (mkMs R N tab), l, s. split; [reflexivity|]. split; [split; [cbn; lia|split; [exact L3|exact P]]|]. split; [lia|]. split; [|split].
      + intros i u Eu. apply U with i; [|apply P; exact Eu]. apply rd_bounds in Eu. lia.
      + intros i u Eu. assert (B : 0 <= i < zlen l).
        { pose proof (rd_bounds _ _ _ Eu). destruct (Z_lt_ge_dec i n); [lia|]. rewrite Hz in Eu by lia. discriminate. }
        destruct (proj1 (rd_ok l i) B) as [x Ex]. rewrite Ex. pose proof (P _ _ Ex) as Q. rewrite (S3 _ _ Eu) in Q. congruence.
      + intros i u En Eu. apply P in Eu. destruct (Z3 _ _ En Eu) as [_ F]. exact F.
  Qed.

  Lemma init_oob m req j v : inv m -> max_states < req -> rd (m_tab R m) j = Ok (Some v) -> ms_init R m req = UB.
  Proof.
    intros (Hn & Hl & Hz) Hr Ej. set (n := m_n R m) in *. set (tab0 := m_tab R m) in *. unfold ms_init. fold n tab0.
    assert (E0 : ext tab0 n tab0).
    { split; [reflexivity|]. split; [reflexivity|]. split; [auto|]. intros i w A B. congruence. }
    assert (Bj : 0 <= j < n). { pose proof (rd_bounds _ _ _ Ej). destruct (Z_lt_ge_dec j n); [lia|]. rewrite Hz in Ej by lia. discriminate. }
    destruct (fill_ok tab0 n tab0 None) as (t1 & w1 & F1 & X1 & D1 & _ & N1); [lia|lia|exact E0|discriminate|]. rewrite F1. cbn [bind].
    destruct (fill_ok tab0 n t1 w1) as (t2 & w2 & F2 & X2 & D2 & A2 & N2); [lia|lia|exact X1|exact D1|]. rewrite F2. cbn [bind fst snd].
    destruct w2 as [w|]; [|rewrite N2 in Ej; [discriminate|reflexivity|exact Bj]].
    rewrite (proj2 (Z.ltb_lt n req)) by lia. destruct X2 as (XL & _). rewrite extend_ub by lia. reflexivity.
  Qed.
End Table.

Lemma combine_upto {A B} (la : list A) (lb : list B) da db : length la = length lb ->
  combine la lb = map (fun i => (nth (Z.to_nat i) la da, nth (Z.to_nat i) lb db)) (upto 0 (zlen la)).
Proof.
  revert lb. induction la as [|a la IH]; intros [|b lb] L; try discriminate; [reflexivity|].
  rewrite upto_cons by (unfold zlen; cbn; lia). cbn [combine map]. f_equal. rewrite IH by (cbn in L; lia).
  replace (zlen (a :: la)) with (1 + zlen la) by (unfold zlen; cbn [length]; lia). rewrite (upto_shift 1 0 (zlen la) : upto (0+1) _ = _).
  rewrite map_map. apply map_ext_in. intros i Hi. apply in_upto in Hi. replace (Z.to_nat (1 + i)) with (S (Z.to_nat i)) by lia. reflexivity.
Qed.

Section Product.
  Variable R C : cring.
  Variable sp : wf R -> wf R -> C.
  Add Ring CC : (cr_th C).

  Definition term (a b : ms R) (i : Z) : C :=
    match rd (m_tab R a) i, rd (m_tab R b) i with Ok (Some v), Ok (Some w) => sp v w | _, _ => c0 end.
  Definition both (a b : ms R) : Prop := forall i, 0 <= i < m_n R a ->
    exists v w, rd (m_tab R a) i = Ok (Some v) /\ rd (m_tab R b) i = Ok (Some w).

  Lemma prod_from rank size a b : both a b ->
    ms_prod_from R C sp rank size a b = Ok (lsum (fun i => if i mod size =? rank then term a b i else c0) (upto 0 (m_n R a))).
  Proof.
    intros H. unfold ms_prod_from. set (f := fun (c : C) i => _).
    assert (K : forall l c, (forall i, In i l -> 0 <= i < m_n R a) ->
      foldM f l c = Ok (cadd c (lsum (fun i => if i mod size =? rank then term a b i else c0) l))).
    { induction l as [|i l IH]; intros c Hl; cbn [foldM lsum]; [f_equal; ring|]. destruct (H i) as (v & w & Ev & Ew); [apply Hl; left; reflexivity|].
      assert (EF : f c i = Ok (cadd c (if i mod size =? rank then term a b i else c0))).
      { unfold f, term. destruct (i mod size =? rank); [rewrite Ev, Ew; reflexivity|f_equal; ring]. }
      rewrite EF. cbn [bind]. rewrite IH by (intros j Hj; apply Hl; right; exact Hj). f_equal. ring. }
    rewrite K by (intros i Hi; apply in_upto in Hi; exact Hi). f_equal. ring.
  Qed.
  Lemma lsum_pick (x : C) j n : 0 <= j < n -> lsum (fun r => if j =? r then x else c0) (upto 0 n) = x.
  Proof.
    intros H. rewrite (upto_app 0 j n), lsum_app, (upto_cons j n) by lia. cbn [lsum]. rewrite Z.eqb_refl.
    rewrite !lsum_zero; [ring| |]; intros r Hr; apply in_upto in Hr; (destruct (Z.eqb_spec j r); [lia|reflexivity]).
  Qed.
  Lemma prod_mpi size a b : 0 < size -> both a b -> ms_prod_mpi R C sp size a b = ms_prod R C sp a b.
  Proof.
    intros Hs H. unfold ms_prod. rewrite prod_from by exact H. unfold ms_prod_mpi.
    assert (K : forall l c, foldM (fun c r => let* x := ms_prod_from R C sp r size a b in Ok (cadd c x)) l c =
      Ok (cadd c (lsum (fun r => lsum (fun i => if i mod size =? r then term a b i else c0) (upto 0 (m_n R a))) l))).
    { induction l as [|r l IH]; intros c; cbn [foldM lsum]; [f_equal; ring|]. rewrite prod_from by exact H. cbn [bind]. rewrite IH. f_equal. ring. }
    rewrite K. f_equal. rewrite lsum_swap. transitivity (lsum (term a b) (upto 0 (m_n R a))).
    - replace (cadd c0 _) with (lsum (fun i => lsum (fun r => if i mod size =? r then term a b i else c0) (upto 0 size)) (upto 0 (m_n R a))) by ring.
      apply lsum_ext. intros i _. apply lsum_pick. apply Z.mod_pos_bound. exact Hs.
    - apply lsum_ext. intros i _. rewrite Z.mod_1_r. reflexivity.
  Qed.

  Lemma consists_both a b la lb : consists R a la -> consists R b lb -> length la = length lb -> both a b.
  Proof.
    intros (Na & _ & Pa) (Nb & _ & Pb) L i Hi. destruct (proj1 (rd_ok la i)) as [v Ev]; [lia|].
    destruct (proj1 (rd_ok lb i)) as [w Ew]; [unfold zlen in *; lia|]. exists v, w. split; [apply Pa; exact Ev|apply Pb; exact Ew].
  Qed.
  Lemma prod_inner a b la lb : consists R a la -> consists R b lb -> length la = length lb ->
    ms_prod R C sp a b = Ok (inner R C sp la lb).
  Proof.
    intros CA CB L. unfold ms_prod. rewrite prod_from by (eapply consists_both; eassumption). f_equal.
    destruct CA as (Na & _ & Pa), CB as (Nb & _ & Pb). rewrite Na. unfold inner.
    transitivity (lsum (fun i => sp (nth (Z.to_nat i) la (mkWf R 0 [])) (nth (Z.to_nat i) lb (mkWf R 0 []))) (upto 0 (zlen la))).
    - apply lsum_ext. intros i Hi. apply in_upto in Hi. rewrite Z.mod_1_r. cbn [Z.eqb]. unfold term.
      rewrite (Pa i _ (rd_nth la i (mkWf R 0 []) Hi)). rewrite (Pb i (nth (Z.to_nat i) lb (mkWf R 0 []))); [reflexivity|]. apply rd_nth. unfold zlen in *. lia.
    - rewrite (combine_upto la lb (mkWf R 0 []) (mkWf R 0 []) L), lsum_map. reflexivity.
  Qed.
  Lemma prod_mpi_inner size a b la lb : 0 < size -> consists R a la -> consists R b lb -> length la = length lb ->
    ms_prod_mpi R C sp size a b = Ok (inner R C sp la lb).
  Proof. intros Hs CA CB L. rewrite prod_mpi; [apply prod_inner; assumption|exact Hs|eapply consists_both; eassumption]. Qed.
  Lemma norm_inner a la : consists R a la -> ms_norm2 R C sp a = Ok (lsum (fun w => sp w w) la).
  Proof.
    intros CA. unfold ms_norm2. rewrite (prod_inner a a la la CA CA eq_refl). f_equal. unfold inner. clear CA.
    induction la as [|w la IH]; cbn; [reflexivity|]. rewrite IH. reflexivity.
  Qed.

  Lemma inner_right (axpy : wf R -> wf R -> wf R) k : (forall x a b, sp x (axpy a b) = cadd (sp x a) (cmul k (sp x b))) ->
    forall lx la lb, length lx = length la -> length la = length lb ->
    inner R C sp lx (map (fun p => axpy (fst p) (snd p)) (combine la lb)) = cadd (inner R C sp lx la) (cmul k (inner R C sp lx lb)).
  Proof.
    intros H. unfold inner. induction lx as [|x lx IH]; intros [|a la] [|b lb] E1 E2; try discriminate; cbn; [ring|].
    rewrite IH by (cbn in *; lia). rewrite H. ring.
  Qed.
  Lemma inner_left (axpy : wf R -> wf R -> wf R) k : (forall x a b, sp (axpy a b) x = cadd (sp a x) (cmul k (sp b x))) ->
    forall lx la lb, length lx = length la -> length la = length lb ->
    inner R C sp (map (fun p => axpy (fst p) (snd p)) (combine la lb)) lx = cadd (inner R C sp la lx) (cmul k (inner R C sp lb lx)).
  Proof.
    intros H. unfold inner. induction lx as [|x lx IH]; intros [|a la] [|b lb] E1 E2; try discriminate; cbn; [ring|].
    rewrite IH by (cbn in *; lia). rewrite H. ring.
  Qed.

  (** fewer states on the right: the missing state is dereferenced *)
  Lemma prod_missing a b la lb : consists R a la -> rd (m_tab R b) (zlen lb) = Ok None -> consists R b lb -> (length lb < length la)%nat -> ms_prod R C sp a b = UB.
  Proof.
    intros (Na & La & Pa) Hz (Nb & Lb & Pb) L. unfold ms_prod, ms_prod_from. rewrite Na.
    rewrite (upto_app 0 (zlen lb) (zlen la)) by (unfold zlen; lia). rewrite foldM_app. rewrite (upto_cons (zlen lb) (zlen la)) by (unfold zlen; lia).
    set (f := fun (c : C) i => _).
    assert (K : forall l c, (forall i, In i l -> 0 <= i < zlen lb) -> exists c', foldM f l c = Ok c').
    { induction l as [|i l IH]; intros c Hi; cbn [foldM]; [eauto|]. assert (B : 0 <= i < zlen lb) by (apply Hi; left; reflexivity).
      destruct (proj1 (rd_ok lb i) B) as [w Ew]. destruct (proj1 (rd_ok la i)) as [v Ev]; [unfold zlen in *; lia|].
      unfold f at 1. rewrite Z.mod_1_r. cbn [Z.eqb]. rewrite (Pa _ _ Ev), (Pb _ _ Ew). cbn [bind]. apply IH. intros j Hj. apply Hi. right. exact Hj. }
    destruct (K (upto 0 (zlen lb)) c0) as [c' ->]; [intros i Hi; apply in_upto in Hi; exact Hi|]. cbn [bind foldM]. unfold f at 1. rewrite Z.mod_1_r. cbn [Z.eqb].
    destruct (proj1 (rd_ok la (zlen lb))) as [v Ev]; [unfold zlen in *; lia|]. rewrite (Pa _ _ Ev). cbn [bind]. rewrite Hz. reflexivity.
  Qed.
End Product.

Section Assign.
  Variable R : cring.
  Lemma assign_ok a b la lb : consists R a la -> consists R b lb ->
    (length la = length lb -> exists m, ms_assign R a b = Ok m /\ consists R m lb) /\
    (length la <> length lb -> ms_assign R a b = Throw).
  Proof.
    intros (Na & La & Pa) (Nb & Lb & Pb). unfold ms_assign. rewrite Na, Nb. split; intros L.
    2:{ destruct (Z.eqb_spec (zlen la) (zlen lb)) as [E|E]; [unfold zlen in E; lia|reflexivity]. }
    rewrite (proj2 (Z.eqb_eq (zlen la) (zlen lb))) by (unfold zlen; lia). cbn [negb].
    destruct (foldM_upto (fun (tab : list (option (wf R))) i =>
        let* x := rd tab i in
        let* y := rd (m_tab R b) i in
        match x, y with
        | Some _, Some w => wr tab i (Some w)
        | _, _ => UB
        end) (fun k t => zlen t = max_states /\ (forall i, 0 <= i < k -> rd t i = rd (m_tab R b) i) /\ (forall i, k <= i -> rd t i = rd (m_tab R a) i)) 0 (zlen lb) (m_tab R a)) as (t & E & P).
    - unfold zlen. lia.
    - split; [exact La|]. split; [lia|reflexivity].
    - intros k t Hk (P1 & P2 & P3). destruct (proj1 (rd_ok lb k) Hk) as [w Ew]. destruct (proj1 (rd_ok la k)) as [v Ev]; [unfold zlen in *; lia|].
      rewrite P3, (Pa _ _ Ev), (Pb _ _ Ew) by lia. cbn [bind]. pose proof (rd_bounds _ _ _ (Pb _ _ Ew)). rewrite wr_ok by lia. eexists. split; [reflexivity|].
      split; [rewrite zlen_upd; exact P1|]. split; intros i Hi; rewrite rd_upd by lia; destruct (Z.eqb_spec i k) as [->|]; try lia; [rewrite (Pb _ _ Ew); reflexivity|apply P2; lia|apply P3; lia].
    - rewrite E. cbn [bind]. eexists. split; [reflexivity|]. destruct P as (P1 & P2 & P3). split; [cbn; unfold zlen; lia|]. split; [exact P1|].
      intros i w Ew. cbn. rewrite P2 by (apply rd_bounds in Ew; exact Ew). apply Pb. exact Ew.
  Qed.
End Assign.
