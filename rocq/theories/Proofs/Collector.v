From Coq Require Import List ZArith Bool Arith Lia.
From Verif Require Import Base Model.Collector Spec.Collector.
Import ListNotations.

Definition look (c : coll) (p : nat) : Z :=
  match find (fun e => fst e =? p) c with Some e => snd e | None => 0 end.

Record cinv (c : coll) : Prop := {
  c_nd : NoDup (map fst c);
  c_pos : forall e, In e c -> (0 < snd e)%Z /\ fst e <> 0 }.

Lemma look_cons p n t q : look ((p, n) :: t) q = if p =? q then n else look t q.
Proof. unfold look. cbn. destruct (p =? q); reflexivity. Qed.

Lemma look_notin c p : ~ In p (map fst c) -> look c p = 0%Z.
Proof.
  induction c as [|[q n] t IH]; intros H; [reflexivity|]. rewrite look_cons.
  destruct (q =? p) eqn:E; [apply Nat.eqb_eq in E; subst; exfalso; apply H; left; reflexivity|].
  apply IH. intros H2; apply H; right; exact H2.
Qed.
Lemma look_app c p n q : ~ In p (map fst c) -> look (c ++ [(p, n)]) q = if p =? q then n else look c q.
Proof.
  induction c as [|[r m] t IH]; intros H; cbn [app].
  - rewrite look_cons. reflexivity.
  - rewrite !look_cons. rewrite IH by (intros H2; apply H; right; exact H2).
    destruct (r =? q) eqn:E; [|reflexivity]. apply Nat.eqb_eq in E; subst.
    destruct (p =? q) eqn:E2; [|reflexivity]. apply Nat.eqb_eq in E2; subst. exfalso; apply H; left; reflexivity.
Qed.

Lemma inc_some c p c' : inc c p = Some c' -> NoDup (map fst c) ->
  map fst c' = map fst c /\ In p (map fst c) /\ (forall q, look c' q = if p =? q then (look c q + 1)%Z else look c q) /\
  (forall e, In e c' -> (exists e', In e' c /\ fst e = fst e' /\ (snd e' <= snd e)%Z)).
Proof.
  revert c'; induction c as [|[r n] t IH]; intros c' H ND; cbn in H; [discriminate|].
  cbn in ND. inversion ND as [|? ? Hn ND']; subst. destruct (r =? p) eqn:E.
  - apply Nat.eqb_eq in E; subst. injection H as <-. cbn. repeat split; auto.
    + intros q. rewrite !look_cons. destruct (p =? q); reflexivity.
    + intros e [<-|He]; [exists (p, n)|exists e]; cbn; repeat split; auto; lia.
  - destruct (inc t p) as [t'|]; [|discriminate]. injection H as <-. destruct (IH t' eq_refl ND') as (A & B & C & D).
    cbn. rewrite A. repeat split; auto.
    + intros q. rewrite !look_cons, C. destruct (r =? q) eqn:E2; [|reflexivity]. apply Nat.eqb_eq in E2; subst.
      rewrite Nat.eqb_sym, E. reflexivity.
    + intros e [<-|He]; [exists (r, n); cbn; repeat split; auto; lia|]. destruct (D e He) as (e' & E1 & E2 & E3).
      exists e'; auto.
Qed.
Lemma inc_none c p : inc c p = None -> ~ In p (map fst c).
Proof.
  induction c as [|[r n] t IH]; cbn; intros H; [tauto|]. destruct (r =? p) eqn:E; [discriminate|].
  destruct (inc t p); [discriminate|]. apply Nat.eqb_neq in E. intros [H2|H2]; [tauto|apply IH; auto].
Qed.

Lemma dec_spec c p : cinv c -> let '(c', d) := dec c p in
  cinv c' /\ (forall q, look c' q = if (p =? q) && (0 <? look c q)%Z then (look c q - 1)%Z else look c q) /\
  (forall q, In q d <-> q = p /\ look c q = 1%Z) /\ NoDup d /\ incl (map fst c') (map fst c).
Proof.
  induction c as [|[r n] t IH]; intros [ND P]; cbn [dec].
  - split; [constructor; [constructor|intros ? []]|]. split; [|split; [|split; [constructor|intros ? []]]].
    + intros q. cbn. destruct (p =? q); reflexivity.
    + intros q. cbn. split; [intros []|intros [-> H]; discriminate].
  - cbn in ND. inversion ND as [|? ? Hn ND']; subst.
    assert (It : cinv t) by (constructor; [assumption|intros e He; apply P; right; assumption]).
    destruct (P (r, n) (or_introl eq_refl)) as [Pn Pr]. cbn in Pn, Pr.
    destruct (r =? p) eqn:E.
    + apply Nat.eqb_eq in E; subst r. destruct (n - 1 =? 0)%Z eqn:E1.
      * apply Z.eqb_eq in E1. assert (n = 1%Z) by lia. subst n. split; [assumption|]. split; [|split; [|split]].
        -- intros q. rewrite look_cons. destruct (p =? q) eqn:E2; cbn; [|reflexivity].
           apply Nat.eqb_eq in E2; subst. apply look_notin; assumption.
        -- intros q. rewrite look_cons. cbn. split.
           ++ intros [<-|[]]. rewrite Nat.eqb_refl. auto.
           ++ intros [-> _]. auto.
        -- repeat constructor; cbn; tauto.
        -- intros q Hq; right; exact Hq.
      * apply Z.eqb_neq in E1. split; [|split; [|split; [|split]]].
        -- constructor; [cbn; constructor; assumption|]. intros e [<-|He]; [cbn; split; [lia|assumption]|apply P; right; assumption].
        -- intros q. rewrite !look_cons. destruct (p =? q) eqn:E2; cbn; [|reflexivity].
           apply Z.ltb_lt in Pn. rewrite Pn. reflexivity.
        -- intros q. rewrite look_cons. split; [intros []|]. intros [-> H]. rewrite Nat.eqb_refl in H. lia.
        -- constructor.
        -- intros q Hq; exact Hq.
    + specialize (IH It). destruct (dec t p) as [t' d]. destruct IH as ([ND2 P2] & L & D & DD & I2).
      split; [|split; [|split; [|split]]].
      * constructor.
        -- cbn. constructor; [|assumption]. intros Hi. apply Hn, I2, Hi.
        -- intros e [<-|He]; [cbn; auto|apply P2; assumption].
      * intros q. rewrite !look_cons, L. destruct (r =? q) eqn:E2; [|reflexivity]. apply Nat.eqb_eq in E2; subst.
        rewrite Nat.eqb_sym, E. reflexivity.
      * intros q. rewrite D, look_cons. split; intros [-> H]; (split; [reflexivity|]); rewrite E in *; assumption.
      * assumption.
      * intros q [<-|Hq]; [left; reflexivity|right; apply I2, Hq].
Qed.

Lemma look_in c p : cinv c -> ((0 < look c p)%Z <-> In p (map fst c)).
Proof.
  intros [ND P]. split.
  - intros H. destruct (in_dec Nat.eq_dec p (map fst c)) as [Hi|Hi]; [assumption|]. rewrite look_notin in H by assumption. lia.
  - intros H. unfold look. destruct (find (fun e => fst e =? p) c) as [e|] eqn:E.
    + apply find_some in E. apply P. tauto.
    + exfalso. apply in_map_iff in H. destruct H as (e & <- & He). apply (find_none _ _ E) in He.
      rewrite Nat.eqb_refl in He. discriminate.
Qed.
Lemma look_nonneg c p : cinv c -> (0 <= look c p)%Z.
Proof.
  intros I. destruct (in_dec Nat.eq_dec p (map fst c)) as [H|H].
  - apply (look_in c p I) in H. lia.
  - rewrite look_notin by assumption. lia.
Qed.

Lemma step_spec c o (n : nat -> nat) : cinv c -> (forall p, look c p = Z.of_nat (n p)) ->
  cinv (fst (cstep c o)) /\ (forall p, look (fst (cstep c o)) p = Z.of_nat (refs_step p (n p) o)) /\
  NoDup (snd (cstep c o)) /\
  (forall p, In p (snd (cstep c o)) <-> match o with Reg _ => False | Del q => q = p /\ n p = 1 | DelAll => 0 < n p end).
Proof.
  intros I L. destruct o as [q|q|]; cbn [cstep].
  - cbn [fst snd]. unfold register. destruct (q =? 0) eqn:E0.
    + split; [assumption|]. split; [|split; [constructor|cbn; tauto]].
      intros p. cbn. rewrite E0, andb_false_r. apply L.
    + destruct (inc c q) as [c'|] eqn:Ei.
      * destruct (inc_some c q c' Ei (c_nd _ I)) as (A & B & C & D). split; [|split; [|split; [constructor|cbn; tauto]]].
        -- constructor; [rewrite A; apply I|]. intros e He. destruct (D e He) as (e' & E1 & E2 & E3).
           destruct (c_pos _ I e' E1). rewrite E2. split; [lia|assumption].
        -- intros p. rewrite C. cbn. rewrite E0. cbn. rewrite andb_true_r. destruct (q =? p); rewrite L; lia.
      * apply inc_none in Ei. split; [|split; [|split; [constructor|cbn; tauto]]].
        -- constructor.
           ++ rewrite map_app. cbn. apply NoDup_Add with (a := q) (l := map fst c).
              { rewrite <- (app_nil_r (map fst c)) at 1. apply Add_app. }
              split; [apply I|assumption].
           ++ intros e He. apply in_app_iff in He. destruct He as [He|[<-|[]]]; [apply I; assumption|].
              apply Nat.eqb_neq in E0. cbn. split; [lia|assumption].
        -- intros p. rewrite look_app by assumption. cbn. rewrite E0. cbn. rewrite andb_true_r.
           destruct (q =? p) eqn:E; [|apply L]. apply Nat.eqb_eq in E; subst.
           pose proof (L p) as Lp. rewrite look_notin in Lp by assumption. lia.
  - unfold delete. destruct (q =? 0) eqn:E0.
    + apply Nat.eqb_eq in E0. subst q. assert (Z0 : n 0 = 0).
      { pose proof (L 0) as L0. destruct (in_dec Nat.eq_dec 0 (map fst c)) as [Hi|Hi].
        - apply in_map_iff in Hi. destruct Hi as (e & E & He). apply (c_pos _ I) in He. tauto.
        - rewrite look_notin in L0 by assumption. lia. }
      cbn [fst snd]. split; [assumption|]. split; [|split; [constructor|]].
      * intros p. cbn [refs_step]. destruct (0 =? p) eqn:E; [|apply L]. apply Nat.eqb_eq in E; subst. rewrite L, Z0. reflexivity.
      * intros p. cbn. split; [tauto|]. intros [<- H]. lia.
    + pose proof (dec_spec c q I) as D. destruct (dec c q) as [c' d]. destruct D as (I' & L' & D1 & D2 & _).
      cbn [fst snd]. split; [assumption|]. split; [|split; [assumption|]].
      * intros p. rewrite L'. cbn [refs_step]. rewrite L. destruct (q =? p); cbn; [|reflexivity].
        destruct (0 <? Z.of_nat (n p))%Z eqn:E; [apply Z.ltb_lt in E|apply Z.ltb_ge in E]; lia.
      * intros p. rewrite D1. rewrite L. split; intros [-> H]; (split; [reflexivity|lia]).
  - cbn [delete_all fst snd]. split; [constructor; [constructor|intros e []]|]. split; [reflexivity|].
    replace (filter (fun e => (0 <? snd e)%Z) c) with c.
    2:{ symmetry. assert (A : forall l, (forall e, In e l -> (0 < snd e)%Z) -> filter (fun e : nat * Z => (0 <? snd e)%Z) l = l).
        { induction l as [|e l IH]; intros H; [reflexivity|]. cbn. rewrite (proj2 (Z.ltb_lt _ _) (H e (or_introl eq_refl))).
          rewrite IH; [reflexivity|]. intros e' He'; apply H; right; assumption. }
        apply A. intros e He. apply (c_pos _ I e He). }
    split; [apply I|]. intros p. rewrite <- (look_in c p I). rewrite L. lia.
Qed.

Lemma run_inv h : cinv (crun h) /\ forall p, look (crun h) p = Z.of_nat (refs h p).
Proof.
  unfold crun, refs. induction h as [|o h IH] using rev_ind.
  - split; [constructor; [constructor|intros e []]|reflexivity].
  - rewrite fold_left_app. cbn [fold_left]. destruct IH as [I L].
    destruct (step_spec _ o _ I L) as (A & B & _ & _). split; [exact A|].
    intros p. rewrite B, fold_left_app. reflexivity.
Qed.

Lemma collector_spec h :
  (forall o, NoDup (snd (cstep (crun h) o)) /\ forall p, In p (snd (cstep (crun h) o)) <-> must_destroy h o p) /\
  (forall p, is_allocated (crun h) p = true <-> 0 < refs h p) /\
  (exists live, NoDup live /\ (forall p, In p live <-> 0 < refs h p) /\ elements (crun h) = length live).
Proof.
  destruct (run_inv h) as [I L]. split; [|split].
  - intros o. destruct (step_spec _ o _ I L) as (_ & _ & A & B). split; [exact A|]. intros p. rewrite B.
    destruct o; cbn; reflexivity.
  - intros p. unfold is_allocated. rewrite existsb_exists. split.
    + intros (e & He & E). apply Nat.eqb_eq in E. subst p. pose proof (proj2 (look_in _ (fst e) I) (in_map fst _ _ He)).
      rewrite L in H. lia.
    + intros H. assert (H' : (0 < look (crun h) p)%Z) by (rewrite L; lia). apply (look_in _ p I) in H'.
      apply in_map_iff in H'. destruct H' as (e & <- & He). exists e. rewrite Nat.eqb_refl. auto.
  - exists (map fst (crun h)). split; [apply I|]. split; [|unfold elements; rewrite map_length; reflexivity].
    intros p. rewrite <- (look_in _ p I), L. lia.
Qed.
