(** Proofs about the module loader *)
From Coq Require Import Ascii String List ZArith Lia Bool.
From Verif Require Import Base Model.Modules Spec.Modules.
Import ListNotations.

Lemma first_in l s p : first l s = Some p -> exists o, In o l /\ s = key o /\ p = makes o.
Proof.
  induction l as [|o t IH]; [discriminate|]. cbn [first]. destruct (str_eqb s (key o)) eqn:E.
  - intros [= <-]. exists o. split; [left; reflexivity|]. split; [apply str_eqb_true; exact E|reflexivity].
  - intros H. destruct (IH H) as (o' & I & X). exists o'. split; [right; exact I|exact X].
Qed.
Lemma first_none l s : first l s = None <-> forall o, In o l -> s <> key o.
Proof.
  induction l as [|o t IH]; [cbn; split; [intros _ o []|reflexivity]|]. cbn [first]. destruct (str_eqb s (key o)) eqn:E.
  - apply str_eqb_true in E. split; [discriminate|]. intros H. exfalso. exact (H o (or_introl eq_refl) E).
  - apply str_eqb_false in E. rewrite IH. split; [intros H x [<-|I]; [exact E|exact (H x I)]|intros H x I; apply H; right; exact I].
Qed.
(** the keys of a list of classes are different *)
Lemma first_of l o : NoDup (map key l) -> In o l -> first l (key o) = Some (makes o).
Proof.
  induction l as [|a t IH]; [intros _ []|]. cbn [map first]. intros N I. inversion N as [|x y Nx Ny]; subst.
  destruct (str_eqb (key o) (key a)) eqn:E.
  - apply str_eqb_true in E. destruct I as [->|I]; [reflexivity|]. exfalso. apply Nx. rewrite <- E. apply in_map. exact I.
  - destruct I as [->|I]; [rewrite str_eqb_refl in E; discriminate|]. exact (IH Ny I).
Qed.

(** ** compiled in operators *)
Definition op_name (o : option str) : str := match o with Some c => skipn 1 c | None => lit "GridMomentum" end.
Definition ops (dyn : bool) : list (option str) := core_ops ++ if dyn then [] else more_ops.
Fixpoint nodupb (l : list str) : bool := match l with [] => true | x :: t => negb (existsb (str_eqb x) t) && nodupb t end.
Lemma nodupb_ok l : nodupb l = true -> NoDup l.
Proof.
  induction l as [|x t IH]; [constructor|]. cbn [nodupb]. intros H. apply andb_true_iff in H. destruct H as [A B]. constructor; [|exact (IH B)].
  intros I. apply negb_true_iff in A. assert (X : existsb (str_eqb x) t = true) by (apply existsb_exists; exists x; split; [exact I|apply str_eqb_refl]). congruence.
Qed.
Lemma ops_nodup dyn : NoDup (map key (ops dyn)).
Proof. apply nodupb_ok. destruct dyn; vm_compute; reflexivity. Qed.
Lemma ops_key dyn o : In o (ops dyn) -> key o = int_name Oper (op_name o) /\ designates (op_name o) (makes o).
Proof.
  assert (A : forallb (fun o => str_eqb (key o) (int_name Oper (op_name o)) &&
    match o with None => true | Some c => str_eqb c (lit "O" ++ op_name o) && negb (str_eqb (op_name o) (lit "GridMomentum")) end) (ops dyn) = true) by (destruct dyn; vm_compute; reflexivity).
  rewrite forallb_forall in A. intros I. specialize (A o I). apply andb_true_iff in A. destruct A as [A B]. apply str_eqb_true in A. split; [exact A|].
  destruct o as [c|]; [|left; split; reflexivity]. right. apply andb_true_iff in B. destruct B as [B C].
  apply str_eqb_true in B. apply negb_true_iff, str_eqb_false in C. split; [exact C|]. cbn [makes]. rewrite B at 1. reflexivity.
Qed.
Lemma int_inj n m : int_name Oper n = int_name Oper m -> n = m.
Proof. unfold int_name. apply app_inv_head. Qed.
Lemma internal_oper dyn n p : internal dyn Oper n = Some p <-> In n (map op_name (ops dyn)) /\ designates n p.
Proof.
  unfold internal, internal_op. fold (ops dyn). split.
  - intros H. destruct (first_in _ _ _ H) as (o & I & K & ->). destruct (ops_key dyn o I) as [E D]. rewrite E in K. apply int_inj in K. subst n.
    split; [apply in_map; exact I|exact D].
  - intros [I D]. apply in_map_iff in I. destruct I as (o & <- & I). destruct (ops_key dyn o I) as [E D']. rewrite <- E, (first_of _ o (ops_nodup dyn) I). f_equal.
    destruct D as [[A ->]|[A ->]], D' as [[B ->]|[B ->]]; try contradiction; reflexivity.
Qed.
Lemma internal_oper_none dyn n : internal dyn Oper n = None <-> ~ In n (map op_name (ops dyn)).
Proof.
  split.
  - intros H I. assert (X : exists p, designates n p).
    { destruct (str_eq_dec n (lit "GridMomentum")) as [->|N]; [exists Momentum; left; split; reflexivity|exists (Built (lit "O" ++ n)); right; split; [exact N|reflexivity]]. }
    destruct X as [p D]. rewrite (proj2 (internal_oper dyn n p) (conj I D)) in H. discriminate.
  - intros N. destruct (internal dyn Oper n) as [p|] eqn:E; [|reflexivity]. apply internal_oper in E. exfalso. exact (N (proj1 E)).
Qed.

(** ** compiled in wave functions *)
Lemma internal_wave dyn n p : internal dyn Wave n = Some p <->
  exists c, (c = lit "GridCartesian" \/ c = lit "Level") /\ (n = c \/ n = lit "WF" ++ c) /\ p = Built (lit "WF" ++ c).
Proof.
  unfold internal, internal_wf. split.
  - intros H. destruct (first_in _ _ _ H) as (o & I & K & ->). 
    assert (X : exists c, (c = lit "GridCartesian" \/ c = lit "Level") /\ o = Some (lit "WF" ++ c)).
    { destruct I as [<-|[<-|[]]]; [exists (lit "GridCartesian")|exists (lit "Level")]; split; auto. }
    destruct X as (c & C & ->). exists c. split; [exact C|]. split; [|reflexivity].
    unfold int_name in K. destruct (str_eqb (substr n 0 2) (lit "WF")) eqn:E.
    + right. apply str_eqb_true in E. change (lit "INT_WF" ++ skipn 2 n = lit "INT_WF" ++ c) in K. apply app_inv_head in K.
      rewrite <- (firstn_skipn 2 n), K. unfold substr in E. cbn [skipn] in E. rewrite E. reflexivity.
    + left. change (lit "INT_WF" ++ n = lit "INT_WF" ++ c) in K. apply app_inv_head in K. exact K.
  - intros (c & [-> | ->] & [-> | ->] & ->); vm_compute; reflexivity.
Qed.

(** ** the use counters *)
Definition sees (l : loader) (s : list (str * product)) : Prop :=
  forall n, mget scmp (l_mods l) n = match of_name n s with [] => None | (_, p) :: t => Some (p, (Z.of_nat (length t) + 1)%Z) end.
Definition agree (s : list (str * product)) : Prop := forall n p q, In (n, p) s -> In (n, q) s -> p = q.
Lemma mget_enter l n p x : mget scmp (l_mods (enter l n p)) x =
  if str_eqb x n then Some (p, (match mget scmp (l_mods l) n with Some (_, c) => c | None => 0 end + 1)%Z) else mget scmp (l_mods l) x.
Proof.
  unfold enter. cbn [l_mods]. rewrite (mget_mset scmp scmp_eq). destruct (str_eqb x n) eqn:E.
  - apply str_eqb_true in E. subst x. rewrite (cmp_refl scmp scmp_eq). reflexivity.
  - apply str_eqb_false in E. destruct (scmp x n) eqn:C; [apply scmp_eq in C; contradiction|reflexivity|reflexivity].
Qed.
Lemma of_name_app n a b : of_name n (a ++ b) = of_name n a ++ of_name n b.
Proof. apply filter_app. Qed.
Lemma sees_enter l s n p : sees l s -> (forall q, In (n, q) s -> q = p) -> sees (enter l n p) (s ++ [(n, p)]).
Proof.
  intros S A x. rewrite mget_enter, of_name_app. unfold of_name at 2. cbn [filter fst]. destruct (str_eqb x n) eqn:E.
  - apply str_eqb_true in E. subst x. rewrite str_eqb_refl. rewrite (S n). destruct (of_name n s) as [|[m q] t] eqn:O; [reflexivity|].
    assert (I : In (m, q) (of_name n s)) by (rewrite O; left; reflexivity). apply filter_In in I. destruct I as [I J]. cbn in J. apply str_eqb_true in J. subst m.
    rewrite (A q I). cbn [app]. rewrite app_length. cbn [length]. do 2 f_equal. lia.
  - destruct (str_eqb n x) eqn:E2; [apply str_eqb_true in E2; subst; rewrite str_eqb_refl in E; discriminate|]. rewrite app_nil_r. exact (S x).
Qed.
Lemma sees_mods l l' s : l_mods l' = l_mods l -> sees l s -> sees l' s.
Proof. intros E S n. rewrite E. exact (S n). Qed.

Section Load.
  Variable sysdir : str.
  Lemma try_all_mods v l fs n : match try_all v l fs n with
    | (l', Ok p) => exists r, l' = enter (mkLoader (l_path l) (l_mods l) r) n p
    | (l', Throw) => l_mods l' = l_mods l /\ l_path l' = l_path l
    | (_, UB) => True end.
  Proof.
    revert l. induction fs as [|f t IH]; intros l; cbn [try_all]; [split; reflexivity|]. unfold try_lib.
    destruct (e_words v f) as [[|w ws]|]; [split; reflexivity| |exact I]. destruct (e_open v w) as [[i| |]|]; [eexists; reflexivity|split; reflexivity|exact I|].
    specialize (IH (mkLoader (l_path l) (l_mods l) (l_ran l ++ e_ran v f))). destruct (try_all v _ t n) as [l' [p| |]]; exact IH.
  Qed.
  Lemma load_mods v dyn k l n : match load sysdir v dyn k l n with
    | (l', Ok p) => exists r, l' = enter (mkLoader (l_path l) (l_mods l) r) n p
    | (l', Throw) => l_mods l' = l_mods l /\ l_path l' = l_path l
    | (_, UB) => True end.
  Proof.
    unfold load. destruct (if dyn then mget scmp (l_mods l) n else None) as [[p c]|]; [exists (l_ran l); destruct l; reflexivity|].
    destruct (internal dyn k n) as [p|]; [exists (l_ran l); destruct l; reflexivity|]. destruct dyn; [apply try_all_mods|split; reflexivity].
  Qed.
  (** every entry of the static build is what is compiled in *)
  Definition good (dyn : bool) (k : kind) (s : list (str * product)) : Prop := dyn = false -> forall n p, In (n, p) s -> internal false k n = Some p.
  Lemma load_same v dyn k l n l' p s : sees l s -> agree s -> good dyn k s -> load sysdir v dyn k l n = (l', Ok p) ->
    (forall q, In (n, q) s -> q = p) /\ (dyn = false -> internal false k n = Some p).
  Proof.
    intros S A G. unfold load. destruct dyn.
    - destruct (mget scmp (l_mods l) n) as [[q c]|] eqn:M.
      + intros [= _ <-]. split; [|discriminate]. intros q' I. rewrite (S n) in M. destruct (of_name n s) as [|[m r] t] eqn:O; [discriminate|]. injection M as <- _.
        assert (J : In (m, r) (of_name n s)) by (rewrite O; left; reflexivity). apply filter_In in J. destruct J as [J K]. cbn in K. apply str_eqb_true in K. subst m.
        exact (A n q' r I J).
      + intros _. split; [|discriminate]. intros q I. exfalso. rewrite (S n) in M. destruct (of_name n s) as [|[m r] t] eqn:O; [|discriminate].
        assert (J : In (n, q) (of_name n s)) by (apply filter_In; split; [exact I|cbn; apply str_eqb_refl]). rewrite O in J. exact J.
    - destruct (internal false k n) as [q|] eqn:E; [|discriminate]. intros [= _ <-]. split; [|reflexivity]. intros q' I. pose proof (G eq_refl n q' I). congruence.
  Qed.
  Lemma history_ok dyn k acts : forall l s m t, sees l s -> agree s -> good dyn k s -> history sysdir dyn k l acts = Some (m, t) ->
    sees m (s ++ t) /\ agree (s ++ t) /\ good dyn k (s ++ t).
  Proof.
    induction acts as [|a acts IH]; intros l s m t S A G; cbn [history].
    - intros [= <- <-]. rewrite app_nil_r. auto.
    - destruct a as [v n|p].
      + pose proof (load_mods v dyn k l n) as M. pose proof (fun l' p => load_same v dyn k l n l' p s S A G) as Q.
        destruct (load sysdir v dyn k l n) as [l' [p| |]]; [| |discriminate].
        * destruct M as [r E]. destruct (Q l' p eq_refl) as [Q1 Q2]. destruct (history sysdir dyn k l' acts) as [[m' t']|] eqn:H; [|discriminate]. intros [= <- <-].
          replace (s ++ (n, p) :: t') with ((s ++ [(n, p)]) ++ t') by (rewrite <- app_assoc; reflexivity).
          apply (IH l' (s ++ [(n, p)])); [| | |exact H].
          -- rewrite E. apply sees_enter; [|exact Q1]. apply (sees_mods l); [reflexivity|exact S].
          -- intros x q1 q2 I J. apply in_app_or in I, J. destruct I as [I|[I|[]]], J as [J|[J|[]]].
             ++ exact (A x q1 q2 I J).
             ++ injection J as <- <-. exact (Q1 q1 I).
             ++ injection I as <- <-. symmetry. exact (Q1 q2 J).
             ++ congruence.
          -- intros D x q I. apply in_app_or in I. destruct I as [I|[[= <- <-]|[]]]; [exact (G D x q I)|exact (Q2 D)].
        * destruct M as [E _]. apply (IH l' s); [|exact A|exact G]. exact (sees_mods l l' s E S).
      + destruct (user_path l p) as [l'| |] eqn:U; [|discriminate|discriminate]. apply (IH l' s); [|exact A|exact G].
        apply (sees_mods l); [|exact S]. unfold user_path in U. destruct (rev p); [discriminate|]. injection U as <-. reflexivity.
  Qed.
  Lemma history_new dyn k acts m t : history sysdir dyn k l_new acts = Some (m, t) -> sees m t /\ agree t /\ good dyn k t.
  Proof. apply (history_ok dyn k acts l_new []); [intros n; reflexivity|intros n p q []|intros _ n p []]. Qed.

  (** ** the search *)
  Lemma try_all_found v l fs n : Forall (simple v) fs -> (forall f, In f fs -> e_open v f <> Some NullSym) ->
    snd (try_all v l fs n) = found v fs /\ l_ran (fst (try_all v l fs n)) = l_ran l.
  Proof.
    revert l. induction fs as [|f t IH]; intros l F N; cbn [try_all found]; [split; reflexivity|]. inversion F as [|a b [W R] Ft]; subst. unfold try_lib. rewrite W, R, app_nil_r.
    pose proof (N f (or_introl eq_refl)) as Nf. destruct (e_open v f) as [[i| |]|]; [split; reflexivity|split; reflexivity|congruence|].
    destruct (IH (mkLoader (l_path l) (l_mods l) (l_ran l)) Ft) as [A B]; [intros x I; apply N; right; exact I|].
    destruct (try_all v _ t n) as [l' [p| |]]; exact (conj A B).
  Qed.
End Load.
