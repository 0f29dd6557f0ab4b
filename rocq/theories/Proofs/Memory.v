From Coq Require Import Ascii String List NArith ZArith Lia Bool Arith.
From Coq Require Import ZifyBool ZifyNat ZifyN.
From Verif Require Import Base Model.Memory Spec.Memory.
Import ListNotations.
Local Ltac Zify.zify_post_hook ::= Z.div_mod_to_equations.

Definition bytes (nd : bool) (s : slot) : N := wrap (ssize s * block_size nd).

Record inv (nd : bool) (limit : N) (m : mem) (owned : list (N * N)) (held : list N) : Prop := {
  i_nd : NoDup (map sp (slots m));
  i_ond : NoDup (map fst owned);
  i_own : forall p b, In (p, b) owned <-> exists s, In s (slots m) /\ sp s = p /\ bytes nd s = b;
  i_fnd : NoDup (map snd (freem m));
  i_free : forall k p, In (k, p) (freem m) <-> exists s, In s (slots m) /\ sp s = p /\ ssize s = k /\ sfree s = true;
  i_held : forall p, In p held <-> exists s, In s (slots m) /\ sp s = p /\ sfree s = false;
  i_hnd : NoDup held;
  i_used : used m = wrap (total owned);
  i_lim : maxmem m = limit }.

Lemma find_slot_some l p s : find_slot l p = Some s -> In s l /\ sp s = p.
Proof. intros H. apply find_some in H. destruct H as [H1 H2]. apply N.eqb_eq in H2. auto. Qed.
Lemma find_slot_none l p : find_slot l p = None -> forall s, In s l -> sp s <> p.
Proof. intros H s Hs E. apply (find_none _ _ H) in Hs. apply N.eqb_neq in Hs. tauto. Qed.

Lemma nodup_sp l a b : NoDup (map sp l) -> In a l -> In b l -> sp a = sp b -> a = b.
Proof.
  induction l as [|x l IH]; intros ND Ha Hb E; [destruct Ha|].
  cbn in ND. inversion ND as [|? ? Hn ND']; subst. destruct Ha as [->|Ha], Hb as [->|Hb]; auto.
  - exfalso; apply Hn. rewrite E. apply in_map; assumption.
  - exfalso; apply Hn. rewrite <- E. apply in_map; assumption.
Qed.

Lemma set_free_sp l p b : map sp (set_free l p b) = map sp l.
Proof. unfold set_free. rewrite map_map. apply map_ext. intros s. destruct (sp s =? p)%N; reflexivity. Qed.
Lemma set_free_in l p b s : In s (set_free l p b) <->
  (In s l /\ sp s <> p) \/ (exists t, In t l /\ sp t = p /\ s = mkSlot (sp t) (ssize t) b).
Proof.
  unfold set_free. rewrite in_map_iff. split.
  - intros (t & E & Ht). destruct (sp t =? p)%N eqn:Q.
    + apply N.eqb_eq in Q. right. exists t; auto.
    + apply N.eqb_neq in Q. left. subst; auto.
  - intros [[H1 H2]|(t & H1 & H2 & ->)].
    + exists s. apply N.eqb_neq in H2. rewrite H2. auto.
    + exists t. apply N.eqb_eq in H2. rewrite H2. auto.
Qed.

Lemma take_free_some l nb p t : take_free l nb = Some (p, t) ->
  exists a b, l = a ++ (nb, p) :: b /\ t = a ++ b.
Proof.
  revert p t; induction l as [|[k q] l IH]; intros p t H; cbn in H; [discriminate|].
  destruct (k =? nb)%N eqn:E.
  - apply N.eqb_eq in E. injection H as <- <-. subst k. exists [], l. auto.
  - destruct (take_free l nb) as [[r t']|]; [|discriminate]. injection H as <- <-.
    destruct (IH r t' eq_refl) as (a & b & -> & ->). exists ((k, q) :: a), b. auto.
Qed.

Lemma nodup_fst_filter (l : list (N * N)) f : NoDup (map fst l) -> NoDup (map fst (filter f l)).
Proof.
  induction l as [|x l IH]; cbn; intros H; [constructor|]. inversion H as [|? ? Hn H']; subst.
  destruct (f x); cbn; auto. constructor; auto.
  intros Hi. apply Hn. apply in_map_iff in Hi. destruct Hi as (y & <- & Hy). apply filter_In in Hy.
  apply in_map; tauto.
Qed.
Lemma nodup_sp_filter (l : list slot) f : NoDup (map sp l) -> NoDup (map sp (filter f l)).
Proof.
  induction l as [|x l IH]; cbn; intros H; [constructor|]. inversion H as [|? ? Hn H']; subst.
  destruct (f x); cbn; auto. constructor; auto.
  intros Hi. apply Hn. apply in_map_iff in Hi. destruct Hi as (y & <- & Hy). apply filter_In in Hy.
  apply in_map; tauto.
Qed.

Lemma filter_notin (l : list (N * N)) p : ~ In p (map fst l) -> filter (fun e => negb (fst e =? p)%N) l = l.
Proof.
  induction l as [|x l IH]; cbn; intros H; [reflexivity|].
  destruct (fst x =? p)%N eqn:E; [apply N.eqb_eq in E; tauto|]. cbn. rewrite IH; tauto.
Qed.

Lemma total_remove l p b : NoDup (map fst l) -> In (p, b) l ->
  total l = (b + total (filter (fun e => negb (fst e =? p)%N) l))%N.
Proof.
  induction l as [|[q c] l IH]; intros ND Hin; [destruct Hin|].
  cbn in ND. inversion ND as [|? ? Hn ND']; subst. cbn [filter fst]. destruct Hin as [E|Hin].
  - injection E as -> ->. rewrite N.eqb_refl. cbn [negb]. rewrite filter_notin by assumption. reflexivity.
  - destruct (q =? p)%N eqn:E.
    + apply N.eqb_eq in E; subst. exfalso; apply Hn. apply in_map_iff. exists (p, b); auto.
    + cbn [negb]. cbn [total fold_right snd]. fold (total l).
      fold (total (filter (fun e => negb (fst e =? p)%N) l)). rewrite (IH ND' Hin). lia.
Qed.

Lemma wrap_lt n : (wrap n < two64)%N.
Proof. unfold wrap. apply N.mod_lt. discriminate. Qed.
Lemma wrap_add a b : wrap (wrap a + b) = wrap (a + b).
Proof. unfold wrap. apply N.add_mod_idemp_l. discriminate. Qed.
Lemma sub64_wrap a b : (b < two64)%N -> sub64 (wrap (b + a)) b = wrap a.
Proof.
  intros Hb. unfold sub64, wrap, two64 in *. lia.
Qed.

Lemma in_os_free owned p q b : In (q, b) (os_step owned (OsFree p)) <-> In (q, b) owned /\ q <> p.
Proof. cbn. rewrite filter_In. cbn. rewrite negb_true_iff, N.eqb_neq. tauto. Qed.

Lemma fold_frees nd g owned u :
  NoDup (map sp g) -> NoDup (map fst owned) ->
  (forall s, In s g -> In (sp s, bytes nd s) owned) ->
  u = wrap (total owned) ->
  NoDup (map fst (os_run owned (map (fun s => OsFree (sp s)) g))) /\
  fold_left (fun u s => sub64 u (bytes nd s)) g u = wrap (total (os_run owned (map (fun s => OsFree (sp s)) g))) /\
  (forall q b, In (q, b) (os_run owned (map (fun s => OsFree (sp s)) g)) <-> In (q, b) owned /\ ~ In q (map sp g)).
Proof.
  revert owned u; induction g as [|s g IH]; intros owned u ND OND Hin Hu.
  - cbn. split; [assumption|]. split; [assumption|]. intros; tauto.
  - cbn in ND. inversion ND as [|? ? Hn ND']; subst. cbn [map os_run fold_left].
    assert (Hs : In (sp s, bytes nd s) owned) by (apply Hin; left; reflexivity).
    specialize (IH (os_step owned (OsFree (sp s))) (sub64 (wrap (total owned)) (bytes nd s))).
    destruct IH as (A & B & C); auto.
    + apply nodup_fst_filter; assumption.
    + intros s' Hs'. apply in_os_free. split; [apply Hin; right; assumption|].
      intros E. apply Hn. rewrite <- E. apply in_map; assumption.
    + rewrite (total_remove owned (sp s) (bytes nd s)) by assumption.
      rewrite sub64_wrap by apply wrap_lt. reflexivity.
    + unfold os_run in *. split; [exact A|]. split; [exact B|].
      intros q b. rewrite C, in_os_free. cbn. intuition.
Qed.

Lemma inv_init nd limit : inv nd limit (init_mem limit) [] [].
Proof.
  constructor; cbn; first [apply NoDup_nil | reflexivity | intros; split; [tauto|intros (s & [] & _)]].
Qed.

Lemma inv_alloc nd limit m owned held size os m' p cs :
  inv nd limit m owned held -> os_fresh owned os -> align nd m size os = Ok (m', p, cs) ->
  inv nd limit m' (os_run owned cs) (p :: held) /\ ~ In p held /\
  (exists s, In s (slots m') /\ sp s = p /\
     ssize s = (size / block_size nd + (if (0 <? size mod block_size nd)%N then 1 else 0))%N).
Proof.
  intros [Ind Iond Iown Ifnd Ifree Iheld Ihnd Iused Ilim] Hf H. unfold align in H.
  destruct (avail m <? size)%N; [discriminate|].
  set (nb := (size / block_size nd + (if (0 <? size mod block_size nd)%N then 1 else 0))%N) in *.
  destruct (take_free (freem m) nb) as [[q fm]|] eqn:T.
  - injection H as <- <- <-. apply take_free_some in T. destruct T as (a & b & Ef & ->).
    destruct (proj1 (Ifree nb q)) as (s0 & S1 & S2 & S3 & S4); [rewrite Ef; apply in_app_iff; right; left; reflexivity|].
    assert (Hq : forall k r, In (k, r) (a ++ b) -> r <> q).
    { intros k r Hi E. subst r. rewrite Ef in Ifnd. rewrite map_app in Ifnd. cbn in Ifnd.
      apply NoDup_remove_2 in Ifnd. apply Ifnd. rewrite <- map_app. apply in_map_iff. exists (k, q). auto. }
    assert (Hnh : ~ In q held).
    { rewrite Iheld. intros (s & A1 & A2 & A3). assert (s = s0) by (apply (nodup_sp (slots m)); congruence). congruence. }
    split; [|split; [exact Hnh|]].
    + constructor; cbn [slots freem used maxmem os_run fold_left].
      * rewrite set_free_sp. assumption.
      * assumption.
      * intros r c. rewrite Iown. split.
        -- intros (s & A1 & A2 & A3). destruct (N.eq_dec (sp s) q) as [E|E].
           ++ exists (mkSlot (sp s) (ssize s) false). rewrite set_free_in. split; [right; exists s; auto|]. auto.
           ++ exists s. rewrite set_free_in. auto.
        -- intros (s & A1 & A2 & A3). rewrite set_free_in in A1. destruct A1 as [[A1 _]|(t & T1 & T2 & ->)].
           ++ exists s; auto.
           ++ exists t. auto.
      * rewrite Ef, map_app in Ifnd. cbn in Ifnd. apply NoDup_remove_1 in Ifnd. rewrite map_app. assumption.
      * intros k r. split.
        -- intros Hi. pose proof (Hq k r Hi) as Hne.
           destruct (proj1 (Ifree k r)) as (s & A1 & A2 & A3 & A4).
           { rewrite Ef. apply in_app_iff in Hi. apply in_app_iff. cbn. tauto. }
           exists s. rewrite set_free_in. split; [left; split; congruence|auto].
        -- intros (s & A1 & A2 & A3 & A4). rewrite set_free_in in A1. destruct A1 as [[A1 A5]|(t & T1 & T2 & ->)]; [|discriminate].
           assert (Hi : In (k, r) (freem m)) by (apply Ifree; exists s; auto).
           rewrite Ef in Hi. apply in_app_iff in Hi. apply in_app_iff. cbn in Hi.
           destruct Hi as [Hi|[Hi|Hi]]; auto. injection Hi as <- <-. congruence.
      * intros r. cbn. rewrite Iheld. split.
        -- intros [<-|(s & A1 & A2 & A3)].
           ++ exists (mkSlot (sp s0) (ssize s0) false). rewrite set_free_in. split; [right; exists s0; auto|]. auto.
           ++ exists s. rewrite set_free_in. destruct (N.eq_dec (sp s) q) as [E|E]; [|auto].
              exfalso. assert (s = s0) by (apply (nodup_sp (slots m)); congruence). congruence.
        -- intros (s & A1 & A2 & A3). rewrite set_free_in in A1. destruct A1 as [[A1 A5]|(t & T1 & T2 & ->)].
           ++ right. exists s; auto.
           ++ left. cbn in A2. congruence.
      * constructor; assumption.
      * assumption.
      * assumption.
    + exists (mkSlot (sp s0) (ssize s0) false). cbn [slots]. rewrite set_free_in. split; [right; exists s0; auto|]. auto.
  - destruct os as [q|]; [|discriminate]. injection H as <- <- <-.
    assert (Hfr : ~ In q (map fst owned)) by (apply Hf; reflexivity).
    assert (Hns : forall s, In s (slots m) -> sp s <> q).
    { intros s Hs E. apply Hfr. apply in_map_iff. exists (q, bytes nd s). split; [reflexivity|]. apply Iown. exists s; auto. }
    destruct (find_slot (slots m) q) as [s|] eqn:Fs.
    { apply find_slot_some in Fs. destruct Fs as [F1 F2]. exfalso; apply (Hns s F1 F2). }
    assert (Hnh : ~ In q held) by (rewrite Iheld; intros (s & A1 & A2 & A3); apply (Hns s A1 A2)).
    split; [|split; [exact Hnh|]].
    + constructor; cbn [slots freem used maxmem os_run fold_left os_step].
      * rewrite map_app. cbn. apply NoDup_Add with (a := q) (l := map sp (slots m)).
        { rewrite <- (app_nil_r (map sp (slots m))) at 1. apply Add_app. }
        split; [assumption|]. intros Hi. apply in_map_iff in Hi. destruct Hi as (s & E & Hs). apply (Hns s Hs E).
      * cbn. constructor; assumption.
      * intros r c. cbn. rewrite Iown. split.
        -- intros [E|(s & A1 & A2 & A3)].
           ++ injection E as <- <-. exists (mkSlot q nb false). rewrite in_app_iff. cbn. auto.
           ++ exists s. rewrite in_app_iff. auto.
        -- intros (s & A1 & A2 & A3). rewrite in_app_iff in A1. destruct A1 as [A1|[<-|[]]].
           ++ right; exists s; auto.
           ++ left. cbn in A2, A3. subst. reflexivity.
      * assumption.
      * intros k r. rewrite Ifree. split.
        -- intros (s & A1 & A2). exists s. rewrite in_app_iff. auto.
        -- intros (s & A1 & A2 & A3 & A4). rewrite in_app_iff in A1. destruct A1 as [A1|[<-|[]]]; [exists s; auto|discriminate].
      * intros r. cbn. rewrite Iheld. split.
        -- intros [<-|(s & A1 & A2)]; [exists (mkSlot q nb false)|exists s]; rewrite in_app_iff; cbn; auto.
        -- intros (s & A1 & A2 & A3). rewrite in_app_iff in A1. destruct A1 as [A1|[<-|[]]]; [right; exists s; auto|left; exact A2].
      * constructor; assumption.
      * cbn [total fold_right snd]. fold (total owned). rewrite Iused, wrap_add. f_equal. lia.
      * assumption.
    + exists (mkSlot q nb false). cbn [slots]. rewrite in_app_iff. cbn. auto.
Qed.

Lemma inv_free nd limit m owned held p m' cs :
  inv nd limit m owned held -> In p held -> free_mem nd m p = (m', cs) ->
  inv nd limit m' (os_run owned cs) (remove N.eq_dec p held) /\
  (forall q, In (OsFree q) cs -> In q (map fst owned) /\ ~ In q (remove N.eq_dec p held)).
Proof.
  intros [Ind Iond Iown Ifnd Ifree Iheld Ihnd Iused Ilim] Hp H. unfold free_mem in H.
  destruct (proj1 (Iheld p) Hp) as (s0 & S1 & S2 & S3).
  destruct (find_slot (slots m) p) as [s|] eqn:Fs.
  2:{ exfalso. apply (find_slot_none _ _ Fs s0 S1 S2). }
  apply find_slot_some in Fs. destruct Fs as [F1 F2].
  assert (s = s0) by (apply (nodup_sp (slots m)); congruence). subst s. clear F1 F2.
  assert (Hrem : forall q, In q (remove N.eq_dec p held) <-> In q held /\ q <> p).
  { intros q. split; [apply in_remove|]. intros [A B]; apply in_in_remove; assumption. }
  assert (Hrnd : NoDup (remove N.eq_dec p held)).
  { clear -Ihnd. induction Ihnd as [|x l Hn ND IH]; cbn; [constructor|]. destruct (N.eq_dec p x); [assumption|].
    constructor; [|assumption]. intros Hi. apply in_remove in Hi. tauto. }
  destruct nd.
  - injection H as <- <-. split; [|intros q []].
    constructor; cbn [slots freem used maxmem os_run fold_left].
    + rewrite set_free_sp. assumption.
    + assumption.
    + intros r c. rewrite Iown. split.
      * intros (s & A1 & A2 & A3). destruct (N.eq_dec (sp s) p) as [E|E].
        -- exists (mkSlot (sp s) (ssize s) true). rewrite set_free_in. split; [right; exists s; auto|]. auto.
        -- exists s. rewrite set_free_in. auto.
      * intros (s & A1 & A2 & A3). rewrite set_free_in in A1. destruct A1 as [[A1 _]|(t & T1 & T2 & ->)].
        -- exists s; auto.
        -- exists t. auto.
    + rewrite map_app. cbn. apply NoDup_Add with (a := p) (l := map snd (freem m)).
      { rewrite <- (app_nil_r (map snd (freem m))) at 1. apply Add_app. }
      split; [assumption|]. intros Hi. apply in_map_iff in Hi. destruct Hi as ([k r] & E & Hi). cbn in E. subst r.
      apply Ifree in Hi. destruct Hi as (s & A1 & A2 & A3 & A4).
      assert (s = s0) by (apply (nodup_sp (slots m)); congruence). congruence.
    + intros k r. rewrite in_app_iff. cbn. split.
      * intros [Hi|[E|[]]].
        -- apply Ifree in Hi. destruct Hi as (s & A1 & A2 & A3 & A4). exists s. rewrite set_free_in.
           split; [left; split; [assumption|]|auto]. intros E. assert (s = s0) by (apply (nodup_sp (slots m)); congruence). congruence.
        -- injection E as <- <-. exists (mkSlot (sp s0) (ssize s0) true). rewrite set_free_in. split; [right; exists s0; auto|auto].
      * intros (s & A1 & A2 & A3 & A4). rewrite set_free_in in A1. destruct A1 as [[A1 A5]|(t & T1 & T2 & ->)].
        -- left. apply Ifree. exists s; auto.
        -- right; left. cbn in A2, A3. assert (t = s0) by (apply (nodup_sp (slots m)); congruence). subst t. congruence.
    + intros r. rewrite Hrem, Iheld. split.
      * intros ((s & A1 & A2 & A3) & Hne). exists s. rewrite set_free_in. split; [left; split; [assumption|congruence]|auto].
      * intros (s & A1 & A2 & A3). rewrite set_free_in in A1. destruct A1 as [[A1 A5]|(t & T1 & T2 & ->)]; [|discriminate].
        split; [exists s; auto|congruence].
    + assumption.
    + assumption.
    + assumption.
  - injection H as <- <-.
    assert (Hin0 : In (p, bytes false s0) owned) by (apply Iown; exists s0; auto).
    split.
    2:{ intros q [E|[]]. injection E as <-. rewrite S2. split; [apply in_map_iff; exists (p, bytes false s0); auto|].
        rewrite Hrem. tauto. }
    rewrite S2. constructor; cbn [slots freem used maxmem].
    + apply nodup_sp_filter; assumption.
    + cbn. apply nodup_fst_filter; assumption.
    + intros r c. cbn [os_run fold_left]. rewrite in_os_free, Iown. unfold erase_slot. split.
      * intros ((s & A1 & A2 & A3) & Hne). exists s. rewrite filter_In, negb_true_iff, N.eqb_neq. split; [split; congruence|auto].
      * intros (s & A1 & A2 & A3). rewrite filter_In, negb_true_iff, N.eqb_neq in A1. split; [exists s; tauto|]. subst; tauto.
    + assumption.
    + intros k r. rewrite Ifree. unfold erase_slot. split.
      * intros (s & A1 & A2 & A3 & A4). exists s. rewrite filter_In, negb_true_iff, N.eqb_neq. split; [split; [assumption|]|auto].
        intros E. assert (s = s0) by (apply (nodup_sp (slots m)); congruence). congruence.
      * intros (s & A1 & A2). rewrite filter_In in A1. exists s; tauto.
    + intros r. rewrite Hrem, Iheld. unfold erase_slot. split.
      * intros ((s & A1 & A2 & A3) & Hne). exists s. rewrite filter_In, negb_true_iff, N.eqb_neq. split; [split; [assumption|congruence]|auto].
      * intros (s & A1 & A2 & A3). rewrite filter_In, negb_true_iff, N.eqb_neq in A1. split; [exists s; tauto|]. subst; tauto.
    + assumption.
    + cbn [os_run fold_left os_step]. rewrite Iused, (total_remove owned p (bytes false s0)) by assumption.
      change (wrap (ssize s0 * block_size false)) with (bytes false s0). apply sub64_wrap, wrap_lt.
    + assumption.
Qed.

Lemma inv_cleanup nd limit m owned held m' cs :
  inv nd limit m owned held -> cleanup nd m = (m', cs) ->
  inv nd limit m' (os_run owned cs) held /\
  (forall q, In (OsFree q) cs -> In q (map fst owned) /\ ~ In q held).
Proof.
  intros [Ind Iond Iown Ifnd Ifree Iheld Ihnd Iused Ilim] H. unfold cleanup in H. injection H as <- <-.
  destruct (fold_frees nd (filter sfree (slots m)) owned (used m)) as (A & B & C); auto.
  { apply nodup_sp_filter; assumption. }
  { intros s Hs. apply filter_In in Hs. apply Iown. exists s; tauto. }
  split.
  - constructor; cbn [slots freem used maxmem].
    + apply nodup_sp_filter; assumption.
    + exact A.
    + intros r c. rewrite C, Iown. split.
      * intros ((s & A1 & A2 & A3) & Hn). exists s. rewrite filter_In. split; [split; [assumption|]|auto].
        destruct (sfree s) eqn:E; [|reflexivity]. exfalso; apply Hn. apply in_map_iff. exists s. rewrite filter_In. auto.
      * intros (s & A1 & A2 & A3). apply filter_In in A1. destruct A1 as [A1 A4]. split; [exists s; auto|].
        intros Hi. apply in_map_iff in Hi. destruct Hi as (t & T1 & T2). apply filter_In in T2.
        assert (s = t) by (apply (nodup_sp (slots m)); [assumption|assumption|tauto|congruence]). subst t.
        destruct (sfree s); [discriminate|]. destruct T2; discriminate.
    + constructor.
    + intros k r. split; [intros []|]. intros (s & A1 & A2 & A3 & A4). apply filter_In in A1.
      rewrite A4 in A1. destruct A1; discriminate.
    + intros r. rewrite Iheld. split.
      * intros (s & A1 & A2 & A3). exists s. rewrite filter_In, A3. auto.
      * intros (s & A1 & A2 & A3). apply filter_In in A1. exists s; tauto.
    + assumption.
    + exact B.
    + assumption.
  - intros q Hi. apply in_map_iff in Hi. destruct Hi as (s & E & Hs). injection E as <-. apply filter_In in Hs.
    destruct Hs as [H1 H2]. split.
    + apply in_map_iff. exists (sp s, bytes nd s). split; [reflexivity|]. apply Iown. exists s; auto.
    + rewrite Iheld. intros (t & T1 & T2 & T3). assert (t = s) by (apply (nodup_sp (slots m)); congruence). congruence.
Qed.

Lemma reach_inv nd limit m owned held : reach nd limit m owned held -> inv nd limit m owned held.
Proof.
  induction 1.
  - apply inv_init.
  - eapply inv_alloc; eassumption.
  - eapply inv_free; eassumption.
  - eapply inv_cleanup; eassumption.
Qed.

Lemma ceil_bytes nd size : (size + block_size nd <= two64)%N ->
  (size <= wrap ((size / block_size nd + (if (0 <? size mod block_size nd)%N then 1 else 0)) * block_size nd))%N.
Proof.
  intros H. unfold wrap. destruct nd; unfold block_size in *.
  - destruct (0 <? size mod 4096)%N eqn:E.
    + apply N.ltb_lt in E. rewrite N.mod_small; unfold two64 in *; lia.
    + apply N.ltb_ge in E. rewrite N.mod_small; unfold two64 in *; lia.
  - rewrite N.mod_1_r, N.div_1_r. cbn [N.ltb N.compare]. rewrite N.mod_small; unfold two64 in *; lia.
Qed.

(** the statement of C09 *)
Lemma alloc_safe nd limit m owned held : reach nd limit m owned held ->
  (forall size os m' p cs, os_fresh owned os -> align nd m size os = Ok (m', p, cs) ->
     ~ In p held /\
     ((size + block_size nd <= two64)%N -> exists b, In (p, b) (os_run owned cs) /\ (size <= b)%N)) /\
  (forall p, In p held -> In p (map fst owned)) /\ NoDup held /\
  used m = wrap (total owned).
Proof.
  intros H. pose proof (reach_inv _ _ _ _ _ H) as I. split; [|split; [|split]].
  - intros size os m' p cs Hf Ha. destruct (inv_alloc _ _ _ _ _ _ _ _ _ _ I Hf Ha) as (I' & Hn & s & S1 & S2 & S3).
    split; [exact Hn|]. intros Hs. exists (bytes nd s). split.
    + apply (i_own _ _ _ _ _ I'). exists s; auto.
    + unfold bytes. rewrite S3. apply ceil_bytes; assumption.
  - intros p Hp. apply (i_held _ _ _ _ _ I) in Hp. destruct Hp as (s & S1 & S2 & S3).
    apply in_map_iff. exists (p, bytes nd s). split; [reflexivity|]. apply (i_own _ _ _ _ _ I). exists s; auto.
  - apply (i_hnd _ _ _ _ _ I).
  - apply (i_used _ _ _ _ _ I).
Qed.

Lemma os_free_safe nd limit m owned held : reach nd limit m owned held ->
  (forall p m' cs, In p held -> free_mem nd m p = (m', cs) ->
     forall q, In (OsFree q) cs -> In q (map fst owned) /\ ~ In q (remove N.eq_dec p held)) /\
  (forall m' cs, cleanup nd m = (m', cs) ->
     forall q, In (OsFree q) cs -> In q (map fst owned) /\ ~ In q held).
Proof.
  intros H. pose proof (reach_inv _ _ _ _ _ H) as I. split.
  - intros p m' cs Hp E. eapply inv_free; eassumption.
  - intros m' cs E. eapply inv_cleanup; eassumption.
Qed.

(** * the limit (C10) *)
Lemma reach_limit nd limit m owned held : reach nd limit m owned held ->
  (limit < two64)%N -> (limit mod block_size nd = 0)%N ->
  (total owned <= limit)%N /\ (total owned mod block_size nd = 0)%N.
Proof.
  intros H Hl Hm. induction H as [|m owned held size os m' p cs H IH Hf Ha|m owned held p m' cs H IH Hp Ef|m owned held m' cs H IH Ec].
  - cbn. unfold block_size. destruct nd; split; try lia; reflexivity.
  - destruct IH as [IH1 IH2]. pose proof (reach_inv _ _ _ _ _ H) as I. pose proof (i_used _ _ _ _ _ I) as Hu.
    pose proof (i_lim _ _ _ _ _ I) as Hlim.
    unfold align in Ha. destruct (avail m <? size)%N eqn:Ea; [discriminate|]. apply N.ltb_ge in Ea.
    unfold avail in Ea. rewrite Hu, Hlim in Ea.
    assert (Hw : wrap (total owned) = total owned) by (unfold wrap; apply N.mod_small; lia).
    rewrite Hw in Ea.
    assert (Hs : sub64 limit (total owned) = (limit - total owned)%N).
    { unfold sub64. replace (limit + two64 - total owned)%N with ((limit - total owned) + 1 * two64)%N by lia.
      rewrite N.mod_add by discriminate. apply N.mod_small. lia. }
    rewrite Hs in Ea.
    set (nb := (size / block_size nd + (if (0 <? size mod block_size nd)%N then 1 else 0))%N) in *.
    destruct (take_free (freem m) nb) as [[q fm]|]; [injection Ha as <- <- <-; cbn; auto|].
    destruct os as [q|]; [|discriminate]. injection Ha as <- <- <-. cbn [os_run fold_left os_step total fold_right snd].
    fold (total owned).
    assert (Hb : (nb * block_size nd + total owned <= limit)%N /\ ((nb * block_size nd + total owned) mod block_size nd = 0)%N).
    { unfold nb. clear - Ea IH1 IH2 Hm. destruct nd; unfold block_size in *.
      - destruct (0 <? size mod 4096)%N eqn:E; [apply N.ltb_lt in E|apply N.ltb_ge in E]; lia.
      - rewrite N.mod_1_r, N.div_1_r. cbn [N.ltb N.compare]. rewrite N.mod_1_r. lia. }
    assert (Hw2 : wrap (nb * block_size nd) = (nb * block_size nd)%N) by (unfold wrap; apply N.mod_small; lia).
    rewrite Hw2. exact Hb.
  - destruct IH as [IH1 IH2]. pose proof (reach_inv _ _ _ _ _ H) as I.
    unfold free_mem in Ef. destruct (find_slot (slots m) p) as [s|] eqn:Fs; [|injection Ef as <- <-; cbn; auto].
    destruct nd; [injection Ef as <- <-; cbn; auto|]. injection Ef as <- <-.
    apply find_slot_some in Fs. destruct Fs as [F1 F2].
    assert (Hin : In (sp s, bytes false s) owned) by (apply (i_own _ _ _ _ _ I); exists s; auto).
    pose proof (total_remove owned (sp s) _ (i_ond _ _ _ _ _ I) Hin) as Ht.
    cbn [os_run fold_left os_step]. unfold block_size. rewrite N.mod_1_r. lia.
  - destruct IH as [IH1 IH2]. pose proof (reach_inv _ _ _ _ _ H) as I.
    unfold cleanup in Ec. injection Ec as <- <-.
    assert (G : forall g ow, NoDup (map fst ow) -> (forall s, In s g -> In (sp s, bytes nd s) ow) -> NoDup (map sp g) ->
        (total ow <= limit)%N /\ (total ow mod block_size nd = 0)%N ->
        (total (os_run ow (map (fun s => OsFree (sp s)) g)) <= limit)%N /\
        (total (os_run ow (map (fun s => OsFree (sp s)) g)) mod block_size nd = 0)%N).
    { induction g as [|s g IHg]; intros ow OND Hin ND [T1 T2]; [cbn; auto|].
      cbn [map os_run fold_left]. cbn in ND. inversion ND as [|? ? Hn ND']; subst.
      assert (Hs : In (sp s, bytes nd s) ow) by (apply Hin; left; reflexivity).
      pose proof (total_remove ow (sp s) _ OND Hs) as Ht.
      apply IHg; auto.
      - apply nodup_fst_filter; assumption.
      - intros s' Hs'. apply in_os_free. split; [apply Hin; right; assumption|].
        intros E. apply Hn. rewrite <- E. apply in_map; assumption.
      - cbn [os_step]. split; [lia|].
        assert (Hb : (bytes nd s mod block_size nd = 0)%N).
        { unfold bytes, wrap. destruct nd; unfold block_size; [|apply N.mod_1_r]. unfold two64. lia. }
        destruct nd; unfold block_size in *; [lia|]. apply N.mod_1_r. }
    apply G.
    + apply (i_ond _ _ _ _ _ I).
    + intros s Hs. apply filter_In in Hs. apply (i_own _ _ _ _ _ I). exists s; tauto.
    + apply nodup_sp_filter. apply (i_nd _ _ _ _ _ I).
    + auto.
Qed.

(** * size strings (C12) *)
Lemma last_char_snoc s c : last_char (s ++ [c]) = Some c.
Proof. unfold last_char. rewrite rev_app_distr. reflexivity. Qed.
Lemma drop_last_snoc s (c : ascii) : drop_last (s ++ [c]) = s.
Proof. unfold drop_last. rewrite app_length. cbn. rewrite Nat.add_sub. rewrite firstn_app, firstn_all, Nat.sub_diag. cbn. apply app_nil_r. Qed.

Definition read_core (s : str) : outcome N :=
    match last_char s with
    | None => UB
    | Some c =>
      match suffix_factor c with
      | None => Throw
      | Some factor =>
        let s := if (1 <? factor)%N then drop_last s else s in
        if forallb is_digit s then
          match s with
          | [] => UB
          | _ => if (dec_val s <? two64)%N then Ok (wrap (dec_val s * factor)) else UB
          end
        else Throw
      end
    end.
Lemma read_eq s : read_from_string s =
  match last_char s with None => UB | Some c => read_core (if Ascii.eqb c "B" then drop_last s else s) end.
Proof. reflexivity. Qed.

Lemma forallb_Forall ds : Forall (fun c => is_digit c = true) ds <-> forallb is_digit ds = true.
Proof. rewrite forallb_forall, Forall_forall. reflexivity. Qed.

Lemma read_core_digits ds u f : ds <> [] -> Forall (fun c => is_digit c = true) ds -> unit_of u f ->
  read_core (ds ++ u) = (if (dec_val ds <? two64)%N then Ok (wrap (dec_val ds * f)) else UB).
Proof.
  intros Hn Hd Hu.
  assert (U : forall c f, suffix_factor c = Some f -> (1 <? f)%N = true ->
     read_core (ds ++ [c]) = (if (dec_val ds <? two64)%N then Ok (wrap (dec_val ds * f)) else UB)).
  { intros c g Hc Hg. unfold read_core. rewrite last_char_snoc, Hc. cbv zeta. rewrite Hg, drop_last_snoc.
    rewrite (proj1 (forallb_Forall ds) Hd). destruct ds; [tauto|reflexivity]. }
  destruct Hu.
  - rewrite app_nil_r. unfold read_core. destruct (@exists_last _ ds Hn) as (ds' & c & ->). rewrite last_char_snoc.
    assert (Hc : is_digit c = true).
    { apply Forall_app in Hd. destruct Hd as [_ Hd]. apply Forall_inv in Hd. exact Hd. }
    unfold suffix_factor. rewrite Hc.
    destruct (Ascii.eqb c "K") eqn:E1; [apply Ascii.eqb_eq in E1; subst; discriminate|].
    destruct (Ascii.eqb c "M") eqn:E2; [apply Ascii.eqb_eq in E2; subst; discriminate|].
    destruct (Ascii.eqb c "G") eqn:E3; [apply Ascii.eqb_eq in E3; subst; discriminate|].
    destruct (Ascii.eqb c "T") eqn:E4; [apply Ascii.eqb_eq in E4; subst; discriminate|].
    cbn [N.ltb N.compare Pos.compare Pos.compare_cont].
    rewrite (proj1 (forallb_Forall (ds' ++ [c])) Hd). destruct (ds' ++ [c]) eqn:E; [tauto|reflexivity].
  - exact (U "K"%char 1024%N eq_refl eq_refl).
  - exact (U "M"%char 1048576%N eq_refl eq_refl).
  - exact (U "G"%char 1073741824%N eq_refl eq_refl).
  - exact (U "T"%char 1099511627776%N eq_refl eq_refl).
Qed.

Lemma unit_last ds u f c : ds <> [] -> Forall (fun c => is_digit c = true) ds -> unit_of u f ->
  last_char (ds ++ u) = Some c -> c <> "B"%char.
Proof.
  intros Hn Hd Hu H ->. destruct Hu.
  - rewrite app_nil_r in H. destruct (@exists_last _ ds Hn) as (ds' & c & ->). rewrite last_char_snoc in H. injection H as ->.
    apply Forall_app in Hd. destruct Hd as [_ Hd]. apply Forall_inv in Hd. discriminate.
  - change (lit "K") with ["K"%char] in H. rewrite last_char_snoc in H. discriminate.
  - change (lit "M") with ["M"%char] in H. rewrite last_char_snoc in H. discriminate.
  - change (lit "G") with ["G"%char] in H. rewrite last_char_snoc in H. discriminate.
  - change (lit "T") with ["T"%char] in H. rewrite last_char_snoc in H. discriminate.
Qed.

Lemma unit_bound u f : unit_of u f -> (1 <= f)%N.
Proof. destruct 1; vm_compute; congruence. Qed.

Lemma read_size s n : size_string s n -> (n < two64)%N -> read_from_string s = Ok n.
Proof.
  intros (ds & u & f & b & -> & Hn & Hd & Hu & Hb & ->) Hlt. rewrite read_eq.
  assert (Hv : (dec_val ds < two64)%N).
  { pose proof (unit_bound _ _ Hu). nia. }
  assert (C : read_core (ds ++ u) = Ok (dec_val ds * f)%N).
  { rewrite (read_core_digits ds u f Hn Hd Hu). apply N.ltb_lt in Hv. rewrite Hv. unfold wrap. rewrite N.mod_small; auto. }
  destruct Hb as [->| ->].
  - rewrite app_nil_r. destruct (last_char (ds ++ u)) as [c|] eqn:E.
    + pose proof (unit_last ds u f c Hn Hd Hu E) as HB. apply Ascii.eqb_neq in HB. rewrite HB. exact C.
    + exfalso. unfold last_char in E. destruct (rev (ds ++ u)) eqn:E2; [|discriminate].
      apply (f_equal (@length _)) in E2. rewrite rev_length, app_length in E2. destruct ds; [tauto|discriminate].
  - rewrite app_assoc. change (lit "B") with ["B"%char]. rewrite last_char_snoc. rewrite Ascii.eqb_refl, drop_last_snoc. exact C.
Qed.

Lemma snoc_cases (s : str) : s = [] \/ exists t c, s = t ++ [c].
Proof. destruct s as [|x s]; [left; reflexivity|right]. destruct (@exists_last _ (x :: s)) as (t & c & E); [discriminate|]. exists t, c; exact E. Qed.

Lemma read_core_ok s n : read_core s = Ok n -> exists ds u f, s = ds ++ u /\ ds <> [] /\
  Forall (fun c => is_digit c = true) ds /\ unit_of u f /\ n = wrap (dec_val ds * f) /\ (dec_val ds < two64)%N.
Proof.
  unfold read_core. destruct (snoc_cases s) as [->|(t & c & ->)]; [discriminate|].
  rewrite last_char_snoc.
  assert (U : forall f u, u = [c] -> unit_of u f -> 
    (if forallb is_digit t then match t with [] => UB | _ => if (dec_val t <? two64)%N then Ok (wrap (dec_val t * f)) else UB end else Throw) = Ok n ->
    exists ds u f, t ++ [c] = ds ++ u /\ ds <> [] /\
  Forall (fun c => is_digit c = true) ds /\ unit_of u f /\ n = wrap (dec_val ds * f) /\ (dec_val ds < two64)%N).
  { intros f u Eu Hu H. destruct (forallb is_digit t) eqn:Ed; [|discriminate]. destruct t as [|x t]; [discriminate|].
    destruct (dec_val (x :: t) <? two64)%N eqn:El; [|discriminate]. injection H as <-. exists (x :: t), u, f.
    apply forallb_Forall in Ed. apply N.ltb_lt in El. subst u. repeat split; auto; discriminate. }
  unfold suffix_factor.
  destruct (Ascii.eqb c "K") eqn:E1; [apply Ascii.eqb_eq in E1; subst c|
  destruct (Ascii.eqb c "M") eqn:E2; [apply Ascii.eqb_eq in E2; subst c|
  destruct (Ascii.eqb c "G") eqn:E3; [apply Ascii.eqb_eq in E3; subst c|
  destruct (Ascii.eqb c "T") eqn:E4; [apply Ascii.eqb_eq in E4; subst c|
  destruct (is_digit c) eqn:E5; [|discriminate]]]]];
  cbn [N.ltb N.compare Pos.compare Pos.compare_cont]; rewrite ?drop_last_snoc.
  - apply (U (2^10)%N (lit "K") eq_refl U_K).
  - apply (U (2^20)%N (lit "M") eq_refl U_M).
  - apply (U (2^30)%N (lit "G") eq_refl U_G).
  - apply (U (2^40)%N (lit "T") eq_refl U_T).
  - destruct (forallb is_digit (t ++ [c])) eqn:Ed; [|discriminate].
    intros H. assert (H' : (if (dec_val (t ++ [c]) <? two64)%N then Ok (wrap (dec_val (t ++ [c]) * 1)) else UB) = Ok n)
      by (destruct (t ++ [c]) eqn:Q; [destruct t; discriminate|exact H]).
    clear H. destruct (dec_val (t ++ [c]) <? two64)%N eqn:El; [|discriminate]. injection H' as <-.
    exists (t ++ [c]), [], 1%N. apply forallb_Forall in Ed. apply N.ltb_lt in El.
    rewrite app_nil_r. repeat split; auto; [destruct t; discriminate|constructor].
Qed.

Lemma read_ok s n : read_from_string s = Ok n -> exists m, size_string s m /\ n = wrap m.
Proof.
  rewrite read_eq. destruct (snoc_cases s) as [->|(t & c & ->)]; [discriminate|]. rewrite last_char_snoc.
  destruct (Ascii.eqb c "B") eqn:E; intros H; apply read_core_ok in H; destruct H as (ds & u & f & E2 & H1 & H2 & H3 & -> & _).
  - rewrite drop_last_snoc in E2. apply Ascii.eqb_eq in E. subst. exists (dec_val ds * f)%N. split; [|reflexivity].
    exists ds, u, f, (lit "B"). rewrite <- app_assoc. repeat split; auto.
  - exists (dec_val ds * f)%N. split; [|reflexivity]. exists ds, u, f, []. rewrite app_nil_r. repeat split; auto.
Qed.
