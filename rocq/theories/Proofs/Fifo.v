From Coq Require Import Ascii String List ZArith Lia Bool Arith.
From Verif Require Import Base Arrays Model.Fifo Spec.Fifo.
Import ListNotations.
Open Scope Z_scope.

Lemma set_eq s n v : set s n v n = v. Proof. unfold set. destruct (str_eq_dec n n); congruence. Qed.
Lemma set_ne s n v m : m <> n -> set s n v m = s m. Proof. intros H. unfold set. destruct (str_eq_dec m n); congruence. Qed.
Lemma rx_tx a b : rx a <> tx b.
Proof. intros H. apply (f_equal (@rev ascii)) in H. unfold rx, tx in H. rewrite !rev_app_distr in H. cbn in H. discriminate H. Qed.
Lemma rx_inj a b : rx a = rx b -> a = b. Proof. apply app_inv_tail. Qed.
Lemma tx_inj a b : tx a = tx b -> a = b. Proof. apply app_inv_tail. Qed.
Definition pair_of (s : fs) (n : str) : fs := set (set s (rx n) (Some Pipe)) (tx n) (Some Pipe).
Lemma pair_ok s n : s (rx n) = None -> s (tx n) = None -> with_pair s n (pair_of s n).
Proof.
  intros R T. unfold with_pair, pair_of. fold (rx n) (tx n). repeat split; auto.
  - rewrite set_ne by apply rx_tx. apply set_eq.
  - apply set_eq.
  - intros m A B. rewrite !set_ne by assumption. reflexivity.
Qed.
Section F.
  Variables (may opens : str -> bool).
  (** all ways a constructor ends *)
  Lemma make_cases s n :
    match s (rx n) with
    | Some _ => make may opens s n = (s, false)
    | None => if may (rx n) then
        match s (tx n) with
        | Some _ => make may opens s n = (set s (rx n) (Some Pipe), false)
        | None => if may (tx n) then make may opens s n = (pair_of s n, opens (rx n) && opens (tx n)) else make may opens s n = (set s (rx n) (Some Pipe), false)
        end
      else make may opens s n = (s, false)
    end.
  Proof.
    unfold make, mkfifo. destruct (s (rx n)); [reflexivity|]. destruct (may (rx n)); [|reflexivity]. cbn [negb]. rewrite set_ne by (intros X; symmetry in X; exact (rx_tx _ _ X)).
    destruct (s (tx n)); [reflexivity|]. destruct (may (tx n)); [|reflexivity]. cbn [negb]. fold (pair_of s n). destruct (opens (rx n)), (opens (tx n)); reflexivity.
  Qed.
  Lemma make_true s n s' : make may opens s n = (s', true) -> s' = pair_of s n /\ s (rx n) = None /\ s (tx n) = None.
  Proof.
    intros E. pose proof (make_cases s n) as C. destruct (s (rx n)) eqn:R; [congruence|]. destruct (may (rx n)); [|congruence]. destruct (s (tx n)) eqn:T; [congruence|]. destruct (may (tx n)); [|congruence].
    rewrite C in E. injection E as <- _. auto.
  Qed.
  Lemma make_can s n : s (rx n) = None -> s (tx n) = None -> may (rx n) = true -> may (tx n) = true -> opens (rx n) = true -> opens (tx n) = true -> make may opens s n = (pair_of s n, true).
  Proof. intros R T A B C D. pose proof (make_cases s n) as X. rewrite R, T, A, B, C, D in X. exact X. Qed.
  Lemma delete_ok s n k k' : s (rx n) = Some k -> s (tx n) = Some k' -> delete s n = (set (set s (rx n) None) (tx n) None, true).
  Proof. intros R T. unfold delete, remove. rewrite R. cbn [negb]. rewrite set_ne by (intros X; symmetry in X; exact (rx_tx _ _ X)). rewrite T. reflexivity. Qed.

  (** ** programs *)
  Lemma in_drop n m l : In m (drop n l) -> In m l.
  Proof. induction l as [|x l IH]; cbn; [auto|]. destruct (str_eq_dec x n); [auto|]. intros [<-|H]; auto. Qed.
  Lemma drop_in n m l : In m l -> m <> n -> In m (drop n l).
  Proof. induction l as [|x l IH]; cbn; [auto|]. intros [<-|H] N; destruct (str_eq_dec x n); cbn; auto; congruence. Qed.
  Lemma drop_nodup n l : NoDup l -> NoDup (drop n l) /\ ~ In n (drop n l).
  Proof.
    induction 1 as [|x l N D [IH1 IH2]]; cbn; [split; [constructor|auto]|]. destruct (str_eq_dec x n) as [<-|X]; [auto|]. split; [constructor; [intros H; apply N, (in_drop n), H|exact IH1]|]. intros [H|H]; auto.
  Qed.
  Definition inv (s0 s : fs) (live : list str) : Prop := NoDup live /\ exactly s0 live s.
  Lemma owned_rx live n : In n live -> owned live (rx n). Proof. intros H. exists n. auto. Qed.
  Lemma owned_tx live n : In n live -> owned live (tx n). Proof. intros H. exists n. auto. Qed.
  Lemma born_inv s0 s live n : inv s0 s live -> make may opens s n = (pair_of s n, true) -> s (rx n) = None -> s (tx n) = None -> inv s0 (pair_of s n) (n :: live).
  Proof.
    intros (D & O & N) _ R T. assert (Nin : ~ In n live) by (intros H; destruct (O _ (owned_rx _ _ H)) as [X _]; congruence).
    destruct (pair_ok s n R T) as (_ & _ & PR & PT & PO). split; [constructor; assumption|]. split.
    - intros m (k & [<-|K] & M).
      + assert (NO : ~ owned live m). { intros (j & J & E). destruct M as [-> | ->], E as [E|E]; [apply rx_inj in E; subst; auto|exact (rx_tx _ _ E)|symmetry in E; exact (rx_tx _ _ E)|apply tx_inj in E; subst; auto]. }
        specialize (N m NO). destruct M as [-> | ->]; (split; [assumption|]); rewrite <- N; assumption.
      + assert (W : owned live m) by (exists k; auto). destruct (O m W) as [Sm S0m]. split; [|exact S0m]. rewrite PO; [exact Sm| |]; intros ->; fold (rx n) (tx n) in Sm; congruence.
    - intros m M. rewrite PO.
      + apply N. intros (k & K & E). apply M. exists k. split; [right; exact K|exact E].
      + intros ->. apply M. apply owned_rx. left. reflexivity.
      + intros ->. apply M. apply owned_tx. left. reflexivity.
  Qed.
  Lemma del_inv s0 s live n : inv s0 s live -> In n live -> exists s', delete s n = (s', true) /\ inv s0 s' (drop n live).
  Proof.
    intros (D & O & N) H. destruct (O _ (owned_rx _ _ H)) as [R R0]. destruct (O _ (owned_tx _ _ H)) as [T T0]. rewrite (delete_ok s n _ _ R T). eexists. split; [reflexivity|]. destruct (drop_nodup n live D) as [D' N']. split; [exact D'|]. split.
    - intros m (k & K & E). assert (KN : k <> n) by (intros ->; auto). assert (W : owned live m) by (exists k; split; [exact (in_drop n _ _ K)|exact E]). destruct (O m W) as [Sm S0m]. split; [|exact S0m].
      rewrite !set_ne; [exact Sm| |]; intros ->; destruct E as [E|E]; [apply rx_inj in E; congruence|exact (rx_tx _ _ E)|symmetry in E; exact (rx_tx _ _ E)|apply tx_inj in E; congruence].
    - intros m M. destruct (str_eq_dec m (tx n)) as [-> |MT]; [rewrite set_eq; symmetry; exact T0|]. rewrite set_ne by exact MT. destruct (str_eq_dec m (rx n)) as [-> |MR]; [rewrite set_eq; symmetry; exact R0|]. rewrite set_ne by exact MR.
      apply N. intros (k & K & E). apply M. exists k. split; [|exact E]. apply drop_in; [exact K|]. intros ->. destruct E; auto.
  Qed.
  (** constructors may fail where nothing has been made yet *)
  Definition clean (s : fs) (n : str) : Prop := s (rx n) <> None \/ may (rx n) = false \/ (s (tx n) = None /\ may (tx n) = true /\ opens (rx n) = true /\ opens (tx n) = true).
  Lemma make_clean s n : clean s n -> make may opens s n = (s, false) \/ (make may opens s n = (pair_of s n, true) /\ s (rx n) = None /\ s (tx n) = None).
  Proof.
    intros C. pose proof (make_cases s n) as X. destruct (s (rx n)) eqn:R; [auto|]. destruct (may (rx n)) eqn:M; [|auto]. destruct C as [C|[C|(T & M' & A & B)]]; try congruence. rewrite T, M', A, B in X. auto.
  Qed.
  Fixpoint safe (acts : list act) (s : fs) (live : list str) : Prop :=
    match acts with
    | [] => True
    | New n :: acts => clean s n /\ let '(s, live) := born may opens s live n in safe acts s live
    | NewDefault tmp :: acts => clean s (default_name tmp) /\ let '(s, live) := born may opens s live (default_name tmp) in safe acts s live
    | Del n :: acts => if in_dec str_eq_dec n live then safe acts (fst (delete s n)) (drop n live) else safe acts s live
    | Put _ :: _ | Take _ :: _ => False
    end.
  Lemma run_inv s0 acts : forall s live, safe acts s live -> inv s0 s live -> exists s' live', run may opens acts s live = Alive s' live' /\ inv s0 s' live'.
  Proof.
    induction acts as [|a acts IH]; intros s live S I; [eexists _, _; split; [reflexivity|exact I]|].
    destruct a as [n|tmp|n|n|n]; cbn [safe run] in *.
    - destruct S as [C S]. unfold born in *. destruct (make_clean s n C) as [E|(E & R & T)]; rewrite E in *; [exact (IH _ _ S I)|]. exact (IH _ _ S (born_inv s0 s live n I E R T)).
    - destruct S as [C S]. set (n := default_name tmp) in *. unfold born in *. destruct (make_clean s n C) as [E|(E & R & T)]; rewrite E in *; [exact (IH _ _ S I)|]. exact (IH _ _ S (born_inv s0 s live n I E R T)).
    - destruct (in_dec str_eq_dec n live) as [H|H]; [|exact (IH _ _ S I)]. destruct (del_inv s0 s live n I H) as (s' & E & I'). rewrite E in *. cbn [fst] in S. exact (IH _ _ S I').
    - destruct S.
    - destruct S.
  Qed.
End F.
