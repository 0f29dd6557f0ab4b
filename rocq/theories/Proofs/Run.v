(** Proofs about running documents. *)
From Coq Require Import Ascii String List NArith ZArith Lia Bool Arith.
From Verif Require Import Base Model.Params Spec.Params Proofs.Params Model.Run Spec.Run.
Import ListNotations.

Lemma eqb_lit n s : str_eqb n (lit s) = true <-> n = lit s.
Proof. apply str_eqb_true. Qed.
Lemma named_iff s n a c : named s (Element n a c) <-> n = lit s.
Proof. split; [intros (a' & c' & E); congruence|intros ->; exists a, c; reflexivity]. Qed.
Lemma elements_skip l : elements (skip l) = elements l.
Proof. induction l as [|[n a c|] l IH]; [reflexivity|reflexivity|exact IH]. Qed.
Lemma skip_head l e r : elements l = e :: r -> exists t, skip l = e :: t /\ elements t = r.
Proof. induction l as [|[n a c|] l IH]; cbn; [discriminate| |exact IH]. intros [= <- <-]. exists l. split; reflexivity. Qed.
Lemma skip_nil l : elements l = [] -> skip l = [].
Proof. induction l as [|[n a c|] l IH]; cbn; [reflexivity|discriminate|exact IH]. Qed.
Lemma elements_are l : Forall (fun e => is_element e = true) (elements l).
Proof. apply Forall_forall. intros e H. apply filter_In in H. apply H. Qed.

(** * attributes *)
Lemma attrs_fold l : forall c, consistent c -> NoDup (map fst l) -> (forall k, In k (map fst l) -> ~ In k (map fst (params c)) /\ ~ In k (map fst (types c))) ->
  consistent (fold_left (fun c a => set_value c (fst a) (snd a) t_string) l c) /\
  (forall k v, In (k, v) l -> get_value (fold_left (fun c a => set_value c (fst a) (snd a) t_string) l c) k = Some v) /\
  (forall k, ~ In k (map fst l) -> get_value (fold_left (fun c a => set_value c (fst a) (snd a) t_string) l c) k = get_value c k).
Proof.
  induction l as [|[a b] l IH]; cbn [fold_left map fst snd]; intros c [C1 C2] ND F.
  - split; [split; assumption|]. split; [intros k v []|reflexivity].
  - inversion ND as [|? ? Hn ND']; subst. destruct (F a (or_introl eq_refl)) as [F1 F2].
    destruct (IH (set_value c a b t_string)) as (I1 & I2 & I3).
    + split; cbn [set_value params types]; apply (mset_nodup scmp scmp_eq); assumption.
    + exact ND'.
    + intros k Hk. cbn [set_value params types]. destruct (F k (or_intror Hk)) as [G1 G2].
      assert (k <> a) by (intros ->; exact (Hn Hk)).
      split; intros H1; apply (keys_mset_in scmp scmp_eq) in H1; destruct H1 as [H1|H1]; [contradiction|exact (G1 H1)|contradiction|exact (G2 H1)].
    + split; [exact I1|]. split.
      * intros k v [[= -> ->]|H]; [|exact (I2 k v H)]. rewrite I3 by exact Hn. rewrite get_value_set. destruct (str_eq_dec k k); congruence.
      * intros k H. rewrite I3 by (intros X; apply H; right; exact X). rewrite get_value_set. destruct (str_eq_dec k a) as [->|]; [exfalso; apply H; left; reflexivity|reflexivity].
Qed.
Lemma attributes_spec l : NoDup (map fst l) -> consistent (attributes l) /\
  (forall k v, In (k, v) l -> get_value (attributes l) k = Some v) /\ (forall k, ~ In k (map fst l) -> get_value (attributes l) k = None).
Proof. intros ND. exact (attrs_fold l empty_c (conj (NoDup_nil _) (NoDup_nil _)) ND (fun k _ => conj (fun H => H) (fun H => H))). Qed.
Lemma find_attr (l : list (str * str)) k : match find (fun a => if str_eq_dec (fst a) k then true else false) l with Some a => In (k, snd a) l | None => ~ In k (map fst l) end.
Proof.
  induction l as [|[a b] l IH]; cbn [find map fst snd]; [intros []|]. destruct (str_eq_dec a k) as [->|N]; [left; reflexivity|].
  destruct (find _ l); [right; exact IH|]. intros [H|H]; [exact (N H)|exact (IH H)].
Qed.

(** * the loops *)
Section Run.
  Variable W : Type.
  Variable act : action -> state W -> res W.
  Lemma perform_app a b s : perform W act (a ++ b) s = seq W (perform W act a s) (perform W act b).
  Proof. revert s; induction a as [|x a IH]; intros s; [reflexivity|]. cbn [app perform]. destruct (act x s); [apply IH|reflexivity|reflexivity]. Qed.
  Lemma carry_app a b ok s : carry_out W act (a ++ b) ok s = seq W (perform W act a s) (carry_out W act b ok).
  Proof. unfold carry_out. rewrite perform_app. destruct (perform W act a s); reflexivity. Qed.
  Lemma carry_true a s : carry_out W act a true s = perform W act a s.
  Proof. unfold carry_out. destruct (perform W act a s); reflexivity. Qed.
  Lemma carry_cons x a ok s : carry_out W act (x :: a) ok s = seq W (act x s) (carry_out W act a ok).
  Proof. unfold carry_out. cbn [perform]. destruct (act x s); reflexivity. Qed.

  Section Loop.
    Variable loop : cursor -> state W -> res W.
    Variable def : xml -> action -> Prop.
    Hypothesis loop_nil : forall s, loop [] s = Done s.
    Hypothesis loop_other : forall t s, loop (Other :: t) s = loop t s.
    Hypothesis loop_def : forall e t s a, def e a -> loop (e :: t) s = seq W (act a s) (loop t).
    Hypothesis loop_bad : forall e t s, is_element e = true -> (forall a, ~ def e a) -> loop (e :: t) s = Failed s.
    Hypothesis def_elem : forall e a, def e a -> is_element e = true.
    Lemma loop_good l : forall acts s, Forall2 def (elements l) acts -> loop l s = carry_out W act acts true s.
    Proof.
      induction l as [|[n a c|] l IH]; cbn [elements filter is_element]; intros acts s F.
      - inversion F; subst. apply loop_nil.
      - inversion F as [|? x ? xs D F']; subst. rewrite (loop_def _ _ _ x D), carry_cons. destruct (act x s); [apply IH; exact F'|reflexivity|reflexivity].
      - rewrite loop_other. apply IH, F.
    Qed.
    Lemma loop_stop l : forall k b r acts s, elements l = k ++ b :: r -> Forall2 def k acts -> (forall a, ~ def b a) -> loop l s = carry_out W act acts false s.
    Proof.
      induction l as [|[n a c|] l IH]; cbn [elements filter is_element]; intros k b r acts s E F B.
      - destruct k; discriminate.
      - destruct k as [|e k]; cbn [app] in E; injection E as E1 E2.
        + inversion F; subst. apply loop_bad; [reflexivity|exact B].
        + subst e. inversion F as [|? x ? xs D F']; subst. rewrite (loop_def _ _ _ x D), carry_cons. destruct (act x s); [exact (IH _ _ _ _ _ E2 F' B)|reflexivity|reflexivity].
      - rewrite loop_other. exact (IH _ _ _ _ _ E F B).
    Qed.
    Lemma children_good e acts t s : is_element e = true -> Forall2 def (kids e) acts -> children_loop W loop (e :: t) s = carry_out W act acts true s.
    Proof.
      destruct e as [n a [|c l]|]; intros H F; [| |discriminate]; unfold children_loop, next_child.
      - inversion F; subst. reflexivity.
      - apply loop_good. rewrite elements_skip. exact F.
    Qed.
    Lemma children_stop e k b r acts t s : is_element e = true -> kids e = k ++ b :: r -> Forall2 def k acts -> (forall a, ~ def b a) ->
      children_loop W loop (e :: t) s = carry_out W act acts false s.
    Proof.
      destruct e as [n a [|c l]|]; intros H E F B; [destruct k; discriminate| |discriminate]; unfold children_loop, next_child.
      apply (loop_stop _ k b r acts s); [rewrite elements_skip; exact E|exact F|exact B].
    Qed.
  End Loop.

  Lemma named_elem s e : named s e -> is_element e = true.
  Proof. intros (a & c & ->). reflexivity. Qed.
  Lemma op_elem e a : op_def e a -> is_element e = true. Proof. intros []; eapply named_elem; eassumption. Qed.
  Lemma wf_elem e a : wf_def e a -> is_element e = true. Proof. intros []; eapply named_elem; eassumption. Qed.
  Lemma op_step e t s a : op_def e a -> op_loop W act (e :: t) s = seq W (act a s) (op_loop W act t).
  Proof. intros []; destruct H as (x & y & ->); reflexivity. Qed.
  Lemma op_fail e t s : is_element e = true -> (forall a, ~ op_def e a) -> op_loop W act (e :: t) s = Failed s.
  Proof.
    destruct e as [n a c|]; [|discriminate]. intros _ B. cbn [op_loop]. destruct (str_eqb n (lit "udef")) eqn:E; [apply eqb_lit in E; subst; exfalso; refine (B _ (op_udef _ _)); exists a, c; reflexivity|].
    destruct (str_eqb n (lit "opdef")) eqn:E2; [apply eqb_lit in E2; subst; exfalso; refine (B _ (op_opdef _ _)); exists a, c; reflexivity|reflexivity].
  Qed.
  Lemma wf_step e t s a : wf_def e a -> wf_loop W act (e :: t) s = seq W (act a s) (wf_loop W act t).
  Proof. intros []; destruct H as (x & y & ->); reflexivity. Qed.
  Lemma wf_fail e t s : is_element e = true -> (forall a, ~ wf_def e a) -> wf_loop W act (e :: t) s = Failed s.
  Proof.
    destruct e as [n a c|]; [|discriminate]. intros _ B. cbn [wf_loop]. destruct (str_eqb n (lit "wfdef")) eqn:E; [apply eqb_lit in E; subst; exfalso; refine (B _ (wf_wfdef _ _)); exists a, c; reflexivity|reflexivity].
  Qed.
  Lemma prog_step dir e t s a : program dir e a -> prog_loop W act dir (e :: t) s = seq W (act a s) (prog_loop W act dir t).
  Proof. intros []; destruct H as (x & y & ->); reflexivity. Qed.
  Lemma prog_fail dir e t s : is_element e = true -> (forall a, ~ program dir e a) -> prog_loop W act dir (e :: t) s = Failed s.
  Proof.
    destruct e as [n a c|]; [|discriminate]. intros _ B. cbn [prog_loop]. unfold prog_of.
    destruct (str_eqb n (lit "propa")) eqn:E1; [apply eqb_lit in E1; subst; exfalso; refine (B _ (p_propa _ _ _)); exists a, c; reflexivity|].
    destruct (str_eqb n (lit "filter")) eqn:E2; [apply eqb_lit in E2; subst; exfalso; refine (B _ (p_filter _ _ _)); exists a, c; reflexivity|].
    destruct (str_eqb n (lit "eigen")) eqn:E3; [apply eqb_lit in E3; subst; exfalso; refine (B _ (p_eigen _ _ _)); exists a, c; reflexivity|].
    destruct (str_eqb n (lit "oct")) eqn:E4; [apply eqb_lit in E4; subst; exfalso; refine (B _ (p_oct _ _ _)); exists a, c; reflexivity|].
    destruct (str_eqb n (lit "cfunc")) eqn:E5; [apply eqb_lit in E5; subst; exfalso; refine (B _ (p_cfunc _ _ _)); exists a, c; reflexivity|reflexivity].
  Qed.

  (** * the parts *)
  Definition wfs (dir : str) (l : cursor) (s : state W) : res W :=
    match name_of l with
    | Some n => if str_eqb n (lit "wfdefs") then seq W (children_loop W (wf_loop W act) l s) (prog_loop W act dir (skip (tl l))) else prog_loop W act dir l s
    | None => prog_loop W act dir l s
    end.
  Lemma defs_eq dir l s : defs_and_progs W act dir l s =
    match name_of l with None => Broken | Some n => if str_eqb n (lit "opdefs") then seq W (children_loop W (op_loop W act) l s) (wfs dir (skip (tl l))) else wfs dir l s end.
  Proof. reflexivity. Qed.
  Lemma prog_good dir l p lp s : elements l = p -> Forall2 (program dir) p lp -> prog_loop W act dir l s = carry_out W act lp true s.
  Proof. intros <- F. apply (loop_good (prog_loop W act dir) (program dir)); [reflexivity|reflexivity|apply prog_step|exact F]. Qed.
  Lemma prog_stop dir l p lp e r s : elements l = p ++ e :: r -> Forall2 (program dir) p lp -> (forall a, ~ program dir e a) -> prog_loop W act dir l s = carry_out W act lp false s.
  Proof. intros E F B. exact (loop_stop (prog_loop W act dir) (program dir) (fun t s => eq_refl) (prog_step dir) (prog_fail dir) l p e r lp s E F B). Qed.

  (** what is left to run from a position at an element *)
  Definition at_element (l : cursor) : Prop := skip l = l.
  Lemma skip_at l : at_element (skip l).
  Proof. unfold at_element. induction l as [|[n a c|] l IH]; [reflexivity|reflexivity|exact IH]. Qed.
  Lemma at_head l e r : at_element l -> elements l = e :: r -> exists t, l = e :: t /\ elements t = r.
  Proof. intros A E. destruct (skip_head l e r E) as (t & H & H'). exists t. rewrite A in H. split; assumption. Qed.
  Lemma at_nil l : at_element l -> elements l = [] -> l = [].
  Proof. intros A E. rewrite <- A. apply skip_nil, E. Qed.
  Lemma not_named n a c s : ~ named s (Element n a c) -> str_eqb n (lit s) = false.
  Proof. intros H. apply str_eqb_false. intros ->. apply H. exists a, c. reflexivity. Qed.
  (** the wave function definitions are at the position or not *)
  Lemma wfs_named dir e t s : named "wfdefs" e -> wfs dir (e :: t) s = seq W (children_loop W (wf_loop W act) (e :: t) s) (prog_loop W act dir (skip t)).
  Proof. intros (a & c & ->). reflexivity. Qed.
  Lemma wfs_none dir l s : (forall e t, l = e :: t -> ~ named "wfdefs" e) -> at_element l -> wfs dir l s = prog_loop W act dir l s.
  Proof.
    intros N A. destruct l as [|[n a c|] t]; [reflexivity| |].
    - unfold wfs, name_of. rewrite (not_named n a c); [reflexivity|exact (N _ _ eq_refl)].
    - assert (H : forall u, length (skip u) <= length u) by (induction u as [|[|] u IHu]; cbn; lia). specialize (H t). unfold at_element in A. cbn in A. rewrite A in H. cbn in H. lia.
  Qed.
  Lemma at_other t : ~ at_element (Other :: t).
  Proof. intros A. assert (H : forall u, length (skip u) <= length u) by (induction u as [|[|] u IHu]; cbn; lia). specialize (H t). unfold at_element in A. cbn in A. rewrite A in H. cbn in H. lia. Qed.
  Lemma defs_named dir e t s : named "opdefs" e -> defs_and_progs W act dir (e :: t) s = seq W (children_loop W (op_loop W act) (e :: t) s) (wfs dir (skip t)).
  Proof. intros (a & c & ->). reflexivity. Qed.
  Lemma defs_none dir e t s : at_element (e :: t) -> ~ named "opdefs" e -> defs_and_progs W act dir (e :: t) s = wfs dir (e :: t) s.
  Proof. intros A N. destruct e as [n a c|]; [|destruct (at_other _ A)]. rewrite defs_eq. unfold name_of. rewrite (not_named n a c) by exact N. reflexivity. Qed.
  Lemma named_inj s s' e : named s e -> named s' e -> lit s = lit s'.
  Proof. intros (a & c & ->) (a' & c' & E). congruence. Qed.
  Lemma program_not dir e a s : program dir e a -> ~ In s ["propa"; "filter"; "eigen"; "oct"; "cfunc"]%string -> ~ named s e.
  Proof.
    intros P N H. assert (G : forall t, named t e -> s = t) by (intros t Ht; pose proof (named_inj _ _ _ H Ht) as E; unfold lit in E; rewrite <- (string_of_list_ascii_of_string s), <- (string_of_list_ascii_of_string t), E; reflexivity).
    destruct P as [e P|e P|e P|e P|e P]; rewrite (G _ P) in N; apply N; cbn; tauto.
  Qed.

  Lemma wfs_good dir l w lw p lp s (ok : bool) (r : list xml) : at_element l -> part "wfdefs" wf_def w lw -> Forall2 (program dir) p lp ->
    (if ok then r = [] else exists e r', r = e :: r' /\ (forall a, ~ program dir e a) /\ (named "wfdefs" e -> w ++ p <> [])) ->
    elements l = w ++ p ++ r -> wfs dir l s = carry_out W act (lw ++ lp) ok s.
  Proof.
    intros A PW FP R E.
    assert (PL : forall l' s', elements l' = p ++ r -> prog_loop W act dir l' s' = carry_out W act lp ok s').
    { intros l' s' E'. destruct ok.
      - subst r. rewrite app_nil_r in E'. apply (prog_good dir l' p lp s' E' FP).
      - destruct R as (e & r' & -> & B & _). exact (prog_stop dir l' p lp e r' s' E' FP B). }
    destruct PW as [|e lw Ne FW].
    - rewrite wfs_none; [apply PL, E| |exact A]. intros e t -> N.
      assert (He : elements (e :: t) = e :: elements t) by (cbn; rewrite (named_elem _ _ N); reflexivity). rewrite He in E. destruct p as [|p1 p'].
      + destruct ok; [subst r; discriminate|]. destruct R as (e' & r' & -> & _ & Q). cbn in E. injection E as <- _. exact (Q N eq_refl).
      + cbn in E. injection E as <- _. inversion FP as [|? ? ? ? P1 _]; subst. revert N. apply (program_not dir _ _ _ P1). cbn. intuition discriminate.
    - destruct (at_head l e (p ++ r) A E) as (t & -> & Et). rewrite wfs_named by exact Ne. rewrite carry_app.
      rewrite (children_good (wf_loop W act) wf_def (fun s => eq_refl) (fun t s => eq_refl) wf_step e lw t s (named_elem _ _ Ne) FW), carry_true.
      destruct (perform W act lw s) as [s'|s'|]; [|reflexivity|reflexivity]. cbn [seq]. apply PL. rewrite elements_skip. exact Et.
  Qed.

  Lemma plan_runs dir l x acts ok s : at_element l -> l <> [] -> elements l = x -> plan dir x acts ok -> defs_and_progs W act dir l s = carry_out W act acts ok s.
  Proof.
    intros A L E P.
    (* the operator definitions, and what follows *)
    assert (OPS : forall o lo rest acts' ok', part "opdefs" op_def o lo -> elements l = o ++ rest -> (o = [] -> forall e t, l = e :: t -> ~ named "opdefs" e) ->
      (forall l' s', at_element l' -> elements l' = rest -> wfs dir l' s' = carry_out W act acts' ok' s') -> defs_and_progs W act dir l s = carry_out W act (lo ++ acts') ok' s).
    { intros o lo rest acts' ok' PO Eo No Q. destruct PO as [|e lo Ne FO].
      - destruct l as [|e t]; [congruence|]. rewrite defs_none; [|exact A|exact (No eq_refl _ _ eq_refl)]. apply Q; [exact A|exact Eo].
      - destruct (at_head l e rest A Eo) as (t & -> & Et). rewrite defs_named by exact Ne. rewrite carry_app.
        rewrite (children_good (op_loop W act) op_def (fun s => eq_refl) (fun t s => eq_refl) op_step e lo t s (named_elem _ _ Ne) FO), carry_true.
        destruct (perform W act lo s) as [s'|s'|]; [|reflexivity|reflexivity]. cbn [seq]. apply Q; [apply skip_at|rewrite elements_skip; exact Et]. }
    assert (HD : forall e t, l = e :: t -> is_element e = true -> elements l = e :: elements t) by (intros e t -> He; cbn; rewrite He; reflexivity).
    destruct P as [o lo w lw p lp PO PW FP|e lo r B|o lo e lw r PO B|o lo w lw p lp e r PO PW FP B Q1 Q2].
    - apply (OPS o lo (w ++ p) (lw ++ lp) true PO); [exact E| |].
      + intros -> e t El N. specialize (HD e t El (named_elem _ _ N)). rewrite E in HD. cbn [app] in HD. destruct PW as [|e' lw Ne FW].
        * destruct p as [|p1 p']; [discriminate|]. cbn in HD. injection HD as -> _. inversion FP as [|? ? ? ? P1 _]; subst. revert N. apply (program_not dir _ _ _ P1). cbn. intuition discriminate.
        * cbn in HD. injection HD as -> _. pose proof (named_inj _ _ _ N Ne) as X. discriminate X.
      + intros l' s' A' E'. apply (wfs_good dir l' w lw p lp s' true []); [exact A'|exact PW|exact FP|reflexivity|rewrite app_nil_r; exact E'].
    - destruct B as [e k b rr lo Ne K F B]. destruct (at_head l e r A E) as (t & -> & Et). rewrite defs_named by exact Ne.
      rewrite (children_stop (op_loop W act) op_def (fun t s => eq_refl) op_step op_fail e k b rr lo t s (named_elem _ _ Ne) K F B).
      unfold carry_out. destruct (perform W act lo s); reflexivity.
    - destruct B as [e k b rr lw Ne K F B]. apply (OPS o lo (e :: r) lw false PO); [exact E| |].
      + intros -> e' t El N. specialize (HD e' t El (named_elem _ _ N)). rewrite E in HD. cbn [app] in HD. injection HD as -> _. pose proof (named_inj _ _ _ N Ne) as X. discriminate X.
      + intros l' s' A' E'. destruct (at_head l' e r A' E') as (t & -> & Et). rewrite wfs_named by exact Ne.
        rewrite (children_stop (wf_loop W act) wf_def (fun t s => eq_refl) wf_step wf_fail e k b rr lw t s' (named_elem _ _ Ne) K F B).
        unfold carry_out. destruct (perform W act lw s'); reflexivity.
    - apply (OPS o lo (w ++ p ++ e :: r) (lw ++ lp) false PO); [exact E| |].
      + intros -> e' t El N. specialize (HD e' t El (named_elem _ _ N)). rewrite E in HD. cbn [app] in HD. destruct PW as [|e2 lw Ne FW].
        * destruct p as [|p1 p']; cbn in HD.
          -- injection HD as -> _. exact (Q1 N eq_refl).
          -- injection HD as -> _. inversion FP as [|? ? ? ? P1 _]; subst. revert N. apply (program_not dir _ _ _ P1). cbn. intuition discriminate.
        * cbn in HD. injection HD as -> _. pose proof (named_inj _ _ _ N Ne) as X. discriminate X.
      + intros l' s' A' E'. apply (wfs_good dir l' w lw p lp s' false (e :: r)); [exact A'|exact PW|exact FP| |exact E'].
        exists e, r. repeat split; assumption.
  Qed.
End Run.

(** * every list of elements has exactly one plan *)
Lemma op_dec e : (exists a, op_def e a) \/ (forall a, ~ op_def e a).
Proof.
  destruct e as [n a c|]; [|right; intros a H; inversion H as [e (x & y & E)|e (x & y & E)]; discriminate].
  destruct (str_eq_dec n (lit "udef")) as [->|N1]; [left; eexists; apply op_udef; exists a, c; reflexivity|].
  destruct (str_eq_dec n (lit "opdef")) as [->|N2]; [left; eexists; apply op_opdef; exists a, c; reflexivity|].
  right. intros x H. inversion H as [e (x' & y & E)|e (x' & y & E)]; congruence.
Qed.
Lemma named_dec s e : named s e \/ ~ named s e.
Proof.
  destruct e as [n a c|]; [|right; intros (x & y & E); discriminate]. destruct (str_eq_dec n (lit s)) as [->|N]; [left; exists a, c; reflexivity|right; intros (x & y & E); congruence].
Qed.
Lemma wf_dec e : (exists a, wf_def e a) \/ (forall a, ~ wf_def e a).
Proof. destruct (named_dec "wfdef" e) as [H|H]; [left; eexists; apply wf_wfdef, H|right; intros a Q; inversion Q; contradiction]. Qed.
Lemma program_dec dir e : (exists a, program dir e a) \/ (forall a, ~ program dir e a).
Proof.
  destruct (named_dec "propa" e) as [H1|H1]; [left; eexists; apply p_propa, H1|]. destruct (named_dec "filter" e) as [H2|H2]; [left; eexists; apply p_filter, H2|].
  destruct (named_dec "eigen" e) as [H3|H3]; [left; eexists; apply p_eigen, H3|]. destruct (named_dec "oct" e) as [H4|H4]; [left; eexists; apply p_oct, H4|].
  destruct (named_dec "cfunc" e) as [H5|H5]; [left; eexists; apply p_cfunc, H5|]. right. intros a Q. inversion Q; contradiction.
Qed.
Lemma split_defs (def : xml -> action -> Prop) (dec : forall e, (exists a, def e a) \/ (forall a, ~ def e a)) l :
  (exists acts, Forall2 def l acts) \/ (exists k b r acts, l = k ++ b :: r /\ Forall2 def k acts /\ forall a, ~ def b a).
Proof.
  induction l as [|e l IH]; [left; exists []; constructor|]. destruct (dec e) as [[a Ha]|N].
  - destruct IH as [[acts F]|(k & b & r & acts & -> & F & B)]; [left; exists (a :: acts); constructor; assumption|right; exists (e :: k), b, r, (a :: acts)].
    split; [reflexivity|]. split; [constructor; assumption|exact B].
  - right. exists [], e, l, []. split; [reflexivity|]. split; [constructor|exact N].
Qed.
Lemma plan_total dir l : exists acts ok, plan dir l acts ok.
Proof.
  assert (PR : forall o lo w lw l', part "opdefs" op_def o lo -> part "wfdefs" wf_def w lw -> (o ++ w = [] -> forall e t, l' = e :: t -> ~ named "opdefs" e) ->
      (w = [] -> forall e t, l' = e :: t -> ~ named "wfdefs" e) -> exists acts ok, plan dir (o ++ w ++ l') acts ok).
  { intros o lo w lw l' PO PW N1 N2. destruct (split_defs (program dir) (program_dec dir) l') as [[acts F]|(k & b & r & acts & -> & F & B)].
    - eexists _, true. apply plan_doc; eassumption.
    - exists (lo ++ lw ++ acts), false. apply plan_bad_prog; try assumption.
      + intros N E. apply app_eq_nil in E. destruct E as [-> E]. apply app_eq_nil in E. destruct E as [-> ->]. exact (N1 eq_refl _ _ eq_refl N).
      + intros N E. apply app_eq_nil in E. destruct E as [-> ->]. exact (N2 eq_refl _ _ eq_refl N). }
  assert (WF : forall o lo l', part "opdefs" op_def o lo -> (o = [] -> forall e t, l' = e :: t -> ~ named "opdefs" e) -> exists acts ok, plan dir (o ++ l') acts ok).
  { intros o lo l' PO N1. destruct l' as [|e l'].
    - apply (PR o lo [] [] [] PO); [constructor|discriminate|discriminate].
    - destruct (named_dec "wfdefs" e) as [Ne|Ne].
      + destruct (split_defs wf_def wf_dec (kids e)) as [[acts F]|(k & b & r & acts & K & F & B)].
        * apply (PR o lo [e] acts l' PO); [constructor; assumption|intros E; destruct o; discriminate|discriminate].
        * exists (lo ++ acts), false. apply plan_bad_wf; [exact PO|]. exact (bad_elem _ _ e k b r acts Ne K F B).
      + apply (PR o lo [] [] (e :: l') PO); [constructor| |intros _ e' t [= <- <-]; exact Ne]. rewrite app_nil_r. exact N1. }
  destruct l as [|e l].
  - apply (WF [] [] []); [constructor|discriminate].
  - destruct (named_dec "opdefs" e) as [Ne|Ne].
    + destruct (split_defs op_def op_dec (kids e)) as [[acts F]|(k & b & r & acts & K & F & B)].
      * apply (WF [e] acts l); [constructor; assumption|discriminate].
      * exists acts, false. apply plan_bad_op. exact (bad_elem _ _ e k b r acts Ne K F B).
    + apply (WF [] [] (e :: l)); [constructor|intros _ e' t [= <- <-]; exact Ne].
Qed.
Definition note (a : action) (s : state (list action)) : res (list action) := Done (mkS (s_gp s) (s_world s ++ [a])).
Lemma perform_note l s : perform _ note l s = Done (mkS (s_gp s) (s_world s ++ l)).
Proof. revert s; induction l as [|a l IH]; intros [g w]; cbn [perform note s_gp s_world]; [rewrite app_nil_r; reflexivity|]. rewrite IH. cbn [s_gp s_world]. rewrite <- app_assoc. reflexivity. Qed.
Lemma plan_unique dir l acts acts' ok ok' : Forall (fun e => is_element e = true) l -> l <> [] -> plan dir l acts ok -> plan dir l acts' ok' -> acts = acts' /\ ok = ok'.
Proof.
  intros A L P P'. assert (E : elements l = l) by (clear - A; induction A as [|e l H _ IH]; [reflexivity|]; cbn; rewrite H; f_equal; exact IH).
  assert (AT : at_element l) by (destruct l as [|[n a c|] l]; [reflexivity|reflexivity|inversion A; discriminate]).
  pose proof (plan_runs _ note dir l l acts ok (mkS empty_c []) AT L E P) as H. rewrite (plan_runs _ note dir l l acts' ok' (mkS empty_c []) AT L E P') in H.
  unfold carry_out in H. rewrite !perform_note in H. cbn [s_gp s_world app] in H. destruct ok, ok'; inversion H; split; reflexivity.
Qed.

(** * the document *)
Lemma ends_slash_spec d : ends_slash d = true <-> exists p, d = (p ++ lit "/")%list.
Proof.
  unfold ends_slash. split.
  - intros H. destruct (rev d) as [|c r] eqn:E; [discriminate|]. apply Ascii.eqb_eq in H. subst c. exists (rev r). rewrite <- (rev_involutive d), E. reflexivity.
  - intros (p & ->). rewrite rev_app_distr. reflexivity.
Qed.
Lemma directory_some d dir : directory (Some d) dir -> d <> [] /\ dir = (if ends_slash d then d else (d ++ lit "/")%list).
Proof.
  intros H. inversion H as [|p E1 E2|d' N M E1 E2]; subst.
  - split; [destruct p; discriminate|]. match goal with |- _ = if ?x then _ else _ => replace x with true; [reflexivity|] end. symmetry. apply ends_slash_spec. exists p. reflexivity.
  - split; [exact N|]. destruct (ends_slash d) eqn:E; [|reflexivity]. apply ends_slash_spec in E. destruct E as (p & E). destruct (M p E).
Qed.
Section Doc.
  Variable W : Type.
  Variable act : action -> state W -> res W.
  (** the global parameters with the attributes added *)
  Definition with_attrs (attrs : list (str * str)) (gp gp1 : container) : Prop :=
    (forall k v, In (k, v) attrs -> get_value gp1 k = Some v) /\ (forall k, ~ In k (map fst attrs) -> get_value gp1 k = get_value gp k).
  Lemma run_at_spec dir0 attrs gp gp1 w c l dir acts ok : with_attrs attrs gp gp1 -> at_element c -> c <> [] -> elements c = l ->
    directory (asked dir0 attrs gp) dir -> plan dir l acts ok ->
    exists gp', params_with attrs gp (asked dir0 attrs gp) dir gp' /\ run_at W act dir0 (Some c) (mkS gp1 w) = carry_out W act acts ok (mkS gp' w).
  Proof.
    intros [A1 A2] AT NE El D P.
    set (gp2 := match dir0 with [] => gp1 | _ => set_value gp1 (lit "dir") dir0 t_string end).
    assert (O2 : forall k, k <> lit "dir" -> get_value gp2 k = get_value gp1 k).
    { intros k Hk. unfold gp2. destruct dir0; [reflexivity|]. rewrite get_value_set. destruct (str_eq_dec k (lit "dir")); [contradiction|reflexivity]. }
    assert (D2 : get_value gp2 (lit "dir") = asked dir0 attrs gp).
    { unfold gp2, asked. destruct dir0 as [|c0 d0]; [|rewrite get_value_set; destruct (str_eq_dec (lit "dir") (lit "dir")); [reflexivity|congruence]].
      pose proof (find_attr attrs (lit "dir")) as F. destruct (find _ attrs) as [[a b]|]; [apply A1, F|apply A2, F]. }
    assert (R : run_at W act dir0 (Some c) (mkS gp1 w) = match asked dir0 attrs gp with
      | None => defs_and_progs W act dir0 c (mkS gp2 w)
      | Some [] => Broken
      | Some d => let d := if ends_slash d then d else (d ++ lit "/")%list in defs_and_progs W act d c (mkS (set_value gp2 (lit "dir") d t_string) w) end)
      by (rewrite <- D2; reflexivity).
    rewrite R. clear R. destruct (asked dir0 attrs gp) as [d|] eqn:Ea.
    - destruct (directory_some d dir D) as [Hd Hdir]. exists (set_value gp2 (lit "dir") dir t_string). split.
      + split; [|split].
        * intros k v Hk Hi. rewrite get_value_set. destruct (str_eq_dec k (lit "dir")); [contradiction|]. rewrite O2 by exact Hk. apply A1, Hi.
        * intros k Hk Hi. rewrite get_value_set. destruct (str_eq_dec k (lit "dir")); [contradiction|]. rewrite O2 by exact Hk. apply A2, Hi.
        * rewrite get_value_set. destruct (str_eq_dec (lit "dir") (lit "dir")); [reflexivity|congruence].
      + destruct d as [|c0 d]; [congruence|]. cbv zeta. rewrite <- Hdir. exact (plan_runs W act dir c l acts ok _ AT NE El P).
    - inversion D; subst dir. exists gp2. split.
      + split; [|split].
        * intros k v Hk Hi. rewrite O2 by exact Hk. apply A1, Hi.
        * intros k Hk Hi. rewrite O2 by exact Hk. apply A2, Hi.
        * exact D2.
      + assert (dir0 = []) by (destruct dir0; [reflexivity|discriminate]). subst dir0. exact (plan_runs W act [] c l acts ok _ AT NE El P).
  Qed.
  Lemma add_attrs a gp : NoDup (map fst a) -> with_attrs a gp (add_c gp (attributes a)).
  Proof.
    intros ND. destruct (attributes_spec a ND) as (C & V & N). split.
    - intros k v H. rewrite add_c_value by exact C. rewrite (V k v H). reflexivity.
    - intros k H. rewrite add_c_value by exact C. rewrite (N k H). reflexivity.
  Qed.
  Lemma multi_iff n : multi n = true <-> n = lit "multi" \/ n = lit "qdng".
  Proof. unfold multi. rewrite orb_true_iff, !str_eqb_true. reflexivity. Qed.
  Lemma run_doc dir0 root attrs l after s dir acts ok : document root attrs l -> NoDup (map fst attrs) -> elements after = [] -> l <> [] ->
    directory (asked dir0 attrs (s_gp s)) dir -> plan dir l acts ok ->
    exists gp', params_with attrs (s_gp s) (asked dir0 attrs (s_gp s)) dir gp' /\ run_xml W act dir0 root after s = carry_out W act acts ok (mkS gp' (s_world s)).
  Proof.
    intros Doc ND Af L D P.
    assert (M : forall n a c, root = Element n a c -> attrs = a -> l = elements c -> multi n = true ->
      exists gp', params_with attrs (s_gp s) (asked dir0 attrs (s_gp s)) dir gp' /\ run_xml W act dir0 root after s = carry_out W act acts ok (mkS gp' (s_world s))).
    { intros n a c -> -> -> Mn. unfold run_xml. rewrite Mn. destruct c as [|x c]; [destruct (L eq_refl)|]. cbn [next_child].
      apply (run_at_spec dir0 a (s_gp s) _ (s_world s) (skip (x :: c)) (elements (x :: c)) dir acts ok); try assumption.
      - apply add_attrs, ND.
      - apply skip_at.
      - intros E. apply L. rewrite <- elements_skip, E. reflexivity.
      - apply elements_skip. }
    destruct Doc as [a c|a c|n a c N1 N2]; [eapply M; reflexivity|eapply M; reflexivity|].
    unfold run_xml. destruct (multi n) eqn:E; [apply multi_iff in E; tauto|]. destruct s as [gp w]. cbn [s_gp s_world] in *.
    apply (run_at_spec dir0 [] gp gp w (Element n a c :: after) [Element n a c] dir acts ok); try assumption.
    - split; [intros k v []|reflexivity].
    - reflexivity.
    - discriminate.
    - cbn. f_equal. exact Af.
  Qed.
  Lemma run_empty dir0 n a after s : n = lit "multi" \/ n = lit "qdng" -> exists gp', run_xml W act dir0 (Element n a []) after s = Failed (mkS gp' (s_world s)).
  Proof. intros H. apply multi_iff in H. unfold run_xml. rewrite H. eexists. reflexivity. Qed.
  Lemma run_comments dir0 n a c after s : n = lit "multi" \/ n = lit "qdng" -> c <> [] -> elements c = [] -> run_xml W act dir0 (Element n a c) after s = Broken.
  Proof.
    intros H NE E. apply multi_iff in H. unfold run_xml. rewrite H. destruct c as [|x c]; [congruence|]. cbn [next_child]. rewrite (skip_nil _ E).
    unfold run_at. destruct (get_value _ _) as [[|]|]; reflexivity.
  Qed.
  Lemma run_no_dir dir0 root attrs l after s : document root attrs l -> NoDup (map fst attrs) -> elements after = [] -> l <> [] ->
    asked dir0 attrs (s_gp s) = Some [] -> run_xml W act dir0 root after s = Broken.
  Proof.
    intros Doc ND Af L A.
    assert (Z : forall gp1 w c, with_attrs attrs (s_gp s) gp1 -> run_at W act dir0 (Some c) (mkS gp1 w) = Broken).
    { intros gp1 w c [A1 A2]. unfold asked in A. destruct dir0; [|discriminate]. unfold run_at. cbn [s_gp].
      assert (G : get_value gp1 (lit "dir") = Some []) by (pose proof (find_attr attrs (lit "dir")) as F; destruct (find _ attrs) as [[x b]|]; [injection A as ->; apply A1, F|rewrite A2 by exact F; exact A]).
      rewrite G. reflexivity. }
    assert (M : forall n a c, root = Element n a c -> attrs = a -> l = elements c -> multi n = true -> run_xml W act dir0 root after s = Broken).
    { intros n a c -> -> -> Mn. unfold run_xml. rewrite Mn. destruct c as [|x c]; [destruct (L eq_refl)|]. cbn [next_child]. apply Z, add_attrs, ND. }
    destruct Doc as [a c|a c|n a c N1 N2]; [eapply M; reflexivity|eapply M; reflexivity|].
    unfold run_xml. destruct (multi n) eqn:E; [apply multi_iff in E; tauto|]. destruct s as [gp w]. apply Z. split; [intros k v []|reflexivity].
  Qed.

  (** * main *)
  Lemma setting_find d k v : setting d k v -> find_char "="%char d = Some (length k) /\ firstn (length k) d = k /\ skipn (S (length k)) d = v.
  Proof.
    intros [k' v' N]. cbn [lit list_ascii_of_string app]. split; [apply find_char_app_notin, N|]. split; [apply firstn_app_len|].
    replace (k' ++ "="%char :: v')%list with ((k' ++ ["="%char]) ++ v')%list by (rewrite <- app_assoc; reflexivity).
    replace (S (length k')) with (length (k' ++ ["="%char])) by (rewrite app_length; cbn; lia). apply skipn_app_len.
  Qed.
  Lemma var_defs_spec l : forall kv v, Forall2 (fun d p => setting d (fst p) (snd p)) l kv -> exists m, var_defs l v = Some m /\
    forall k, mget scmp m k = match find (fun p => if str_eq_dec (fst p) k then true else false) (rev kv) with Some p => Some (snd p) | None => mget scmp v k end.
  Proof.
    induction l as [|d l IH]; intros kv v F; inversion F as [|? p ? kv' S1 F']; subst; [exists v; split; reflexivity|].
    destruct p as [a b]. cbn [fst snd] in S1. destruct (setting_find d a b S1) as (E1 & E2 & E3). cbn [var_defs]. rewrite E1, E2, E3.
    destruct (IH kv' (mset scmp v a b) F') as (m & Hm & G). exists m. split; [exact Hm|]. intros k. rewrite G. cbn [rev].
    assert (FA : forall (f : str * str -> bool) x y, find f (x ++ [y]) = match find f x with Some z => Some z | None => if f y then Some y else None end)
      by (intros f x y; induction x as [|z x IHx]; cbn; [reflexivity|]; destruct (f z); [reflexivity|exact IHx]).
    rewrite FA. destruct (find _ (rev kv')); [reflexivity|]. cbn [fst snd]. rewrite mget_mset_s. destruct (str_eq_dec a k) as [Ek|Nk]; destruct (str_eq_dec k a) as [Ek'|Nk']; cbn [snd]; try reflexivity; exfalso; [apply Nk'; symmetry; exact Ek|apply Nk; symmetry; exact Ek'].
  Qed.
  Lemma find_char_none c s : find_char c s = None -> ~ In c s.
  Proof. intros H I. destruct (find_char_in c s I) as (n & E). congruence. Qed.
  Lemma var_defs_bad l : forall v, (exists d, In d l /\ ~ In "="%char d) -> var_defs l v = None.
  Proof.
    induction l as [|d l IH]; intros v (x & Hx & N); [destruct Hx|]. cbn [var_defs]. destruct Hx as [->|Hx].
    - rewrite find_char_notin by exact N. reflexivity.
    - destruct (find_char "="%char d); [|reflexivity]. apply IH. exists x. split; assumption.
  Qed.
  Lemma main_spec load env opt f defs kv s : Forall2 (fun d p => setting d (fst p) (snd p)) defs kv ->
    exists vars dir0,
      (forall k, mget scmp vars k = match find (fun p => if str_eq_dec (fst p) k then true else false) (rev kv) with Some p => Some (snd p) | None => None end) /\
      (forall d, opt = Some d -> dir0 = d) /\ (opt = None -> forall d, env = Some d -> dir0 = d) /\ (opt = None -> env = None -> dir0 = []) /\
      main W act load env opt (f :: defs) s =
        (let* doc := match load f vars with Throw => Ok None | Ok d => Ok (Some d) | UB => UB end in
         match doc with
         | None => Ok (1%Z, s)
         | Some (root, after) => match run_xml W act dir0 root after s with Done s => Ok (0%Z, s) | Failed s => Ok (1%Z, s) | Broken => UB end
         end).
  Proof.
    intros F. destruct (var_defs_spec defs kv [] F) as (m & Hm & G). exists m, (main_dir env opt). split; [exact G|].
    split; [intros d ->; reflexivity|]. split; [intros -> d ->; reflexivity|]. split; [intros -> ->; reflexivity|].
    unfold main. rewrite Hm. destruct (load f m) as [[r a]| |]; reflexivity.
  Qed.
End Doc.
Lemma directory_total o : o <> Some [] -> exists dir, directory o dir.
Proof.
  destruct o as [d|]; intros N; [|exists []; constructor]. destruct (ends_slash d) eqn:E.
  - apply ends_slash_spec in E. destruct E as (p & ->). exists (p ++ lit "/")%list. constructor.
  - exists (d ++ lit "/")%list. constructor; [congruence|]. intros p Ep. rewrite (proj2 (ends_slash_spec d) (ex_intro _ p Ep)) in E. discriminate.
Qed.
Lemma document_total n a c : exists l at', document (Element n a c) at' l /\ (NoDup (map fst a) -> NoDup (map fst at')).
Proof.
  destruct (str_eq_dec n (lit "multi")) as [->|N1]; [eexists _, _; split; [apply doc_multi|intros H; exact H]|].
  destruct (str_eq_dec n (lit "qdng")) as [->|N2]; [eexists _, _; split; [apply doc_qdng|intros H; exact H]|].
  eexists _, _. split; [apply doc_single; assumption|]. intros _. constructor.
Qed.
Lemma perform_defined W act l s : (forall a s, act a s <> Broken) -> perform W act l s <> Broken.
Proof. intros H. revert s; induction l as [|a l IH]; intros s; [discriminate|]. cbn [perform]. specialize (H a s). destruct (act a s); [apply IH|discriminate|exact H]. Qed.
Lemma run_defined W act dir0 root attrs l after s : (forall a s, act a s <> Broken) -> document root attrs l -> NoDup (map fst attrs) -> elements after = [] -> l <> [] ->
  asked dir0 attrs (s_gp s) <> Some [] -> run_xml W act dir0 root after s <> Broken.
Proof.
  intros A D ND Af L As. destruct (directory_total _ As) as (dir & Hd). destruct (plan_total dir l) as (acts & ok & P).
  destruct (run_doc W act dir0 root attrs l after s dir acts ok D ND Af L Hd P) as (gp & _ & E). rewrite E. unfold carry_out.
  pose proof (perform_defined W act acts (mkS gp (s_world s)) A) as H. destruct (perform W act acts _); [destruct ok; discriminate|discriminate|exact H].
Qed.
