(** Proofs about the loading of wave functions. *)
From Coq Require Import List ZArith Lia Bool Ring.
From Verif Require Import Base Arrays Algebra Spec.Operators Model.Chain Spec.Chain Proofs.OMultistate Proofs.Projection.
Import ListNotations.
Open Scope Z_scope.

Section P.
  Variable R : cring.
  Variable M : cmodule R.
  Add Ring RR : (cr_th R).
  Variable norm : M -> M.
  Variable phase root : R -> R.
  Variable is0 : R -> bool.
  Hypothesis is0_ok : forall c, is0 c = true <-> c = c0.
  Notation load := (load R M norm phase root is0).
  Notation finish := (finish R M norm phase root is0).
  Definition loop := fix loop (l : list (wfdef R M)) (acc : option M) : outcome (option M) :=
    match l with [] => Ok acc | d :: t => let* w := load d in let* acc := lc_pass R M acc w in loop t acc end.
  Lemma load_lc a l : load (LC R M a l) = (let* w := loop l None in finish a w).
  Proof. reflexivity. Qed.
  Lemma finish_ok a x : nonzero R root a -> finish a (Some x) = Ok (Some (dressed R M norm phase root a x)).
  Proof.
    intros N. unfold Chain.finish, dressed, factor, coeff_of. f_equal. f_equal. destruct N as [[N1 N2]|N].
    - rewrite N1, N2. rewrite (proj2 (is0_ok c0) eq_refl). rewrite mscale_1. destruct (a_phase R a); [reflexivity|]. rewrite mscale_1. reflexivity.
    - unfold factor in N. destruct (a_coeff R a) as [c|].
      + destruct (is0 c) eqn:Z; [apply is0_ok in Z; contradiction|]. destruct (a_phase R a); [reflexivity|]. rewrite mscale_1. reflexivity.
      + destruct (a_coeff2 R a) as [c|].
        * destruct (is0 (root c)) eqn:Z; [apply is0_ok in Z; contradiction|]. destruct (a_phase R a); [reflexivity|]. rewrite mscale_1. reflexivity.
        * rewrite (proj2 (is0_ok c0) eq_refl). rewrite mscale_1. destruct (a_phase R a); [reflexivity|]. rewrite mscale_1. reflexivity.
  Qed.
  Definition two : R := cadd c1 c1.
  Lemma double (x : M) : mscale two x = madd x x.
  Proof. unfold two. rewrite mscale_add_l, mscale_1. reflexivity. Qed.
  (** what the loop adds up *)
  Lemma loop_sum l : forall acc ws, Forall2 (fun d w => load d = Ok (Some w)) l ws -> acc <> None \/ l <> [] ->
    loop l acc = Ok (Some (madd (match acc with Some y => y | None => m0 end) (mscale two (msum R M ws)))).
  Proof.
    induction l as [|d t IH]; intros acc ws F N; inversion F as [|? w ? ws' E F']; subst; cbn [loop].
    - destruct acc as [y|]; [|destruct N as [N|N]; contradiction]. cbn [msum]. rewrite (mscale_m0 R M). rewrite (madd_0r R M). reflexivity.
    - rewrite E. cbn [bind lc_pass]. rewrite (IH _ ws' F'); [|left; discriminate]. do 2 f_equal. cbn [msum]. rewrite mscale_add_r, (double w). destruct acc as [y|].
      + rewrite <- !madd_assoc. reflexivity.
      + rewrite madd_0. reflexivity.
  Qed.
  Lemma lc_code a l ws : l <> [] -> Forall2 (fun d w => load d = Ok (Some w)) l ws -> load (LC R M a l) = finish a (Some (mscale two (msum R M ws))).
  Proof. intros N F. rewrite load_lc, (loop_sum l None ws F) by (right; exact N). cbn [bind]. rewrite madd_0. reflexivity. Qed.
  Lemma load_ind (P : wfdef R M -> Prop) : (forall a x, P (Single R M a x)) -> (forall a l, (forall d, In d l -> P d) -> P (LC R M a l)) -> forall d, P d.
  Proof.
    intros H1 H2. fix IH 1. intros [a x|a l]; [apply H1|]. apply H2. induction l as [|d t IHl]; intros e []; [rewrite <- H; apply IH|apply IHl; assumption].
  Qed.
  Lemma all_in P PL l : (fix all l := match l with [] => True | d :: t => all_attrs R M P PL d /\ all t end) l -> forall d, In d l -> all_attrs R M P PL d.
  Proof. induction l as [|d t IH]; intros H e []; destruct H; [subst; assumption|apply IH; assumption]. Qed.
  Lemma loads (d : wfdef R M) : (forall x, norm (mscale two x) = norm x) -> inhabited R M d = true -> all_attrs R M (nonzero R root) (fun a => a_norm R a = true) d ->
    load d = Ok (Some (meant R M norm phase root d)).
  Proof.
    intros Hn. induction d as [a x|a l IH] using load_ind; intros I A.
    - cbn [Chain.load meant]. apply finish_ok. exact A.
    - cbn [all_attrs] in A. destruct A as (A1 & A2 & A3). cbn [inhabited] in I. apply andb_true_iff in I. destruct I as [I1 I2].
      rewrite (lc_code a l (map (meant R M norm phase root) l)).
      + rewrite finish_ok by exact A1. cbn [meant]. unfold dressed. rewrite A2, Hn. reflexivity.
      + destruct l; [discriminate|discriminate].
      + assert (G : forall l', incl l' l -> Forall2 (fun d w => load d = Ok (Some w)) l' (map (meant R M norm phase root) l')).
        { induction l' as [|d t IHt]; intros Hi; constructor; [|apply IHt; intros e He; apply Hi; right; exact He].
          apply IH; [apply Hi; left; reflexivity| |apply (all_in _ _ l A3); apply Hi; left; reflexivity]. rewrite forallb_forall in I2. apply I2. apply Hi. left. reflexivity. }
        apply G. apply incl_refl.
  Qed.
End P.

(** * Mapping *)
Section Q.
  Variable R : cring.
  Variable M : cmodule R.
  Lemma put_at (slots : list (option M)) k x j : slot_at (put R M slots k x) j = if Nat.eqb j k then Some x else slot_at slots j.
  Proof.
    unfold put, slot_at. assert (L : length (firstn k (slots ++ repeat None k)) = k) by (rewrite firstn_length, app_length, repeat_length; lia).
    destruct (Nat.eqb_spec j k) as [->|N].
    - rewrite nth_error_app2 by lia. rewrite L, Nat.sub_diag. reflexivity.
    - destruct (Nat.lt_ge_cases j k) as [Hj|Hj].
      + rewrite nth_error_app1 by lia. assert (E : nth_error (firstn k (slots ++ repeat None k)) j = nth_error (slots ++ repeat None k) j).
        { rewrite <- (firstn_skipn k (slots ++ repeat None k)) at 2. rewrite nth_error_app1 by lia. reflexivity. }
        rewrite E. destruct (Nat.lt_ge_cases j (length slots)) as [H|H]; [rewrite nth_error_app1 by lia; reflexivity|]. rewrite nth_error_app2 by lia. rewrite (proj2 (nth_error_None slots j)) by lia.
        destruct (nth_error (repeat None k) (j - length slots)) as [o|] eqn:Q; [|reflexivity]. apply nth_error_In, repeat_spec in Q. exact Q.
      + rewrite nth_error_app2 by lia. rewrite L. replace (j - k)%nat with (S (j - S k)) by lia. cbn [nth_error].
        destruct (Nat.lt_ge_cases j (length slots)) as [H|H].
        * rewrite <- (firstn_skipn (S k) slots) at 2. rewrite nth_error_app2 by (rewrite firstn_length; lia). rewrite firstn_length, Nat.min_l by lia. reflexivity.
        * rewrite (proj2 (nth_error_None slots j)) by lia. rewrite (proj2 (nth_error_None _ _)); [reflexivity|]. rewrite skipn_length. lia.
  Qed.
  Variable psi : list M.
  Variable s : list Z.
  Variable cs : list R.
  Hypothesis Hs : 1 < zlen s <= zlen psi.
  Hypothesis Hr : forall t, In t s -> 0 <= t < zlen psi.
  Lemma multi_ok : NoDup s -> exists slots, map_multi R M psi (Some s) (Some cs) = Ok (Multi R M slots) /\
    (forall i t x, rd s i = Ok t -> rd psi i = Ok x -> slot_at slots (Z.to_nat t) = Some (mscale (nth (Z.to_nat i) cs c0) x)) /\
    (forall k, ~ In (Z.of_nat k) s -> slot_at slots k = None).
  Proof.
    intros Nd. unfold map_multi. destruct (Z.ltb_spec (zlen psi) (zlen s)); [lia|]. destruct (Z.ltb_spec 1 (zlen s)); [|lia].
    match goal with |- context [foldM ?f0 _ _] => destruct (foldM_upto f0 (fun k slots =>
      (forall i t x, i < k -> rd s i = Ok t -> rd psi i = Ok x -> slot_at slots (Z.to_nat t) = Some (mscale (nth (Z.to_nat i) cs c0) x)) /\
      (forall m, (forall i, i < k -> rd s i <> Ok (Z.of_nat m)) -> slot_at slots m = None)) 0 (zlen s) []) as (slots & E & P1 & P2) end.
    - lia.
    - split; [intros i t x Hi Q; apply rd_bounds in Q; lia|]. intros m _. unfold slot_at. destruct m; reflexivity.
    - intros k slots Hk (P1 & P2). destruct (proj1 (rd_ok s k)) as [t Et]; [lia|]. rewrite Et. cbn [bind]. assert (Ht : 0 <= t < zlen psi).
      { apply Hr. rewrite (rd_nth s k 0) in Et by lia. injection Et as <-. apply nth_In. unfold zlen in Hk. lia. }
      destruct (Z.leb_spec (zlen psi) t); [lia|]. destruct (Z.ltb_spec t 0); [lia|]. cbn [orb]. destruct (proj1 (rd_ok psi k)) as [x Ex]; [lia|]. rewrite Ex. cbn [bind].
      eexists. split; [reflexivity|]. assert (Ec : (if zlen cs <=? k then mscale c0 x else mscale (nth (Z.to_nat k) cs c0) x) = mscale (nth (Z.to_nat k) cs c0) x).
      { destruct (Z.leb_spec (zlen cs) k); [|reflexivity]. rewrite nth_overflow by (unfold zlen in *; lia). reflexivity. }
      rewrite Ec. split.
      + intros i u y Hi Eu Ey. rewrite put_at. pose proof (rd_bounds _ _ _ Eu) as Bi. assert (Hu : 0 <= u < zlen psi) by (apply Hr; rewrite (rd_nth s i 0) in Eu by lia; injection Eu as <-; apply nth_In; unfold zlen in *; lia).
        destruct (Nat.eqb_spec (Z.to_nat u) (Z.to_nat t)) as [Q|Q].
        * assert (u = t) by lia. subst u. assert (i = k).
          { rewrite (rd_nth s i 0) in Eu by lia. rewrite (rd_nth s k 0) in Et by lia. assert (Z.to_nat i = Z.to_nat k); [|lia]. apply (proj1 (NoDup_nth s 0) Nd); [unfold zlen in *; lia|unfold zlen in *; lia|congruence]. }
          subst i. congruence.
        * apply P1; [|exact Eu|exact Ey]. destruct (Z.eq_dec i k) as [->|]; [|lia]. congruence.
      + intros m Hm. rewrite put_at. destruct (Nat.eqb_spec m (Z.to_nat t)) as [->|Q].
        * exfalso. apply (Hm k); [lia|]. rewrite Et. f_equal. lia.
        * apply P2. intros i Hi. apply Hm. lia.
    - rewrite E. cbn [bind]. exists slots. split; [reflexivity|]. split.
      + intros i t x Et Ex. apply (P1 i); [|exact Et|exact Ex]. apply rd_bounds in Et. lia.
      + intros k Hk. apply P2. intros i Hi Q. apply Hk. pose proof (rd_bounds _ _ _ Q) as Bi. rewrite (rd_nth s i 0) in Q by lia. injection Q as <-. apply nth_In. unfold zlen in *. lia.
  Qed.
End Q.
