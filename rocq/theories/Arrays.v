(** Arrays with checked access, and counted loops.  An access outside the array is [UB]. *)
From Coq Require Import List ZArith Lia Bool Arith Permutation.
From Verif Require Import Base.
Import ListNotations.
Open Scope Z_scope.

(** integers a, a+1, ..., b-1 *)
Definition upto (a b : Z) : list Z := map (fun k => a + Z.of_nat k) (seq 0 (Z.to_nat (b - a))).

Lemma in_upto a b x : In x (upto a b) <-> a <= x < b.
Proof.
  unfold upto. rewrite in_map_iff. split.
  - intros (k & <- & H). apply in_seq in H. lia.
  - intros H. exists (Z.to_nat (x - a)). split; [lia|]. apply in_seq. lia.
Qed.
Lemma upto_nodup a b : NoDup (upto a b).
Proof. unfold upto. apply FinFun.Injective_map_NoDup; [intros x y; lia|apply seq_NoDup]. Qed.
Lemma upto_length a b : length (upto a b) = Z.to_nat (b - a).
Proof. unfold upto. rewrite map_length, seq_length. reflexivity. Qed.
Lemma upto_nil a b : b <= a -> upto a b = [].
Proof. intros H. unfold upto. replace (Z.to_nat (b - a)) with 0%nat by lia. reflexivity. Qed.
Lemma upto_snoc a b : a <= b -> upto a (b + 1) = upto a b ++ [b].
Proof.
  intros H. unfold upto. replace (Z.to_nat (b + 1 - a)) with (Z.to_nat (b - a) + 1)%nat by lia.
  rewrite seq_app, map_app. cbn. do 2 f_equal. lia.
Qed.
Lemma upto_cons a b : a < b -> upto a b = a :: upto (a + 1) b.
Proof.
  intros H. unfold upto. replace (Z.to_nat (b - a)) with (S (Z.to_nat (b - (a + 1)))) by lia.
  cbn [seq map]. f_equal; [lia|]. rewrite <- seq_shift, map_map. apply map_ext. intros k. lia.
Qed.
Lemma upto_app a b c : a <= b -> b <= c -> upto a c = upto a b ++ upto b c.
Proof.
  intros H1 H2. remember (Z.to_nat (b - a)) as n eqn:En. revert a H1 En. induction n as [|n IH]; intros a H1 En.
  - replace b with a by lia. rewrite (upto_nil a a) by lia. reflexivity.
  - rewrite (upto_cons a c), (upto_cons a b) by lia. cbn. f_equal. apply IH; lia.
Qed.

Section Arr.
  Context {A : Type}.
  Implicit Types (v : list A) (i : Z).

  Definition rd v i : outcome A :=
    if (0 <=? i) then match nth_error v (Z.to_nat i) with Some x => Ok x | None => UB end else UB.

  Fixpoint upd (v : list A) (n : nat) (x : A) : list A :=
    match v, n with
    | [], _ => []
    | _ :: t, O => x :: t
    | y :: t, S m => y :: upd t m x
    end.
  Definition wr v i (x : A) : outcome (list A) :=
    if (0 <=? i) && (i <? Z.of_nat (length v)) then Ok (upd v (Z.to_nat i) x) else UB.

  Definition zlen v : Z := Z.of_nat (length v).

  Lemma upd_length v n x : length (upd v n x) = length v.
  Proof. revert n; induction v as [|y t IH]; intros [|n]; cbn; auto. Qed.
  Lemma upd_nth v n x m : nth_error (upd v n x) m =
    if (m =? n)%nat then match nth_error v n with Some _ => Some x | None => None end else nth_error v m.
  Proof.
    revert n m; induction v as [|y t IH]; intros [|n] [|m]; cbn; try reflexivity.
    - destruct (m =? n)%nat; reflexivity.
    - apply IH.
  Qed.

  Lemma rd_ok v i : 0 <= i < zlen v <-> exists x, rd v i = Ok x.
  Proof.
    unfold rd, zlen. split.
    - intros H. rewrite (proj2 (Z.leb_le 0 i)) by lia. destruct (nth_error v (Z.to_nat i)) eqn:E; [eauto|].
      apply nth_error_None in E. lia.
    - intros [x H]. destruct (0 <=? i) eqn:E; [|discriminate]. apply Z.leb_le in E.
      destruct (nth_error v (Z.to_nat i)) eqn:E2; [|discriminate].
      assert (Z.to_nat i < length v)%nat by (apply nth_error_Some; congruence). lia.
  Qed.
  Lemma rd_bounds v i x : rd v i = Ok x -> 0 <= i < zlen v.
  Proof. intros H. apply rd_ok. eauto. Qed.
  Lemma rd_ub v i : ~ (0 <= i < zlen v) -> rd v i = UB.
  Proof.
    unfold rd, zlen. intros H. destruct (0 <=? i) eqn:E; [|reflexivity]. apply Z.leb_le in E.
    destruct (nth_error v (Z.to_nat i)) eqn:E2; [|reflexivity].
    assert (Z.to_nat i < length v)%nat by (apply nth_error_Some; congruence). lia.
  Qed.
  Lemma wr_ok v i x : 0 <= i < zlen v -> wr v i x = Ok (upd v (Z.to_nat i) x).
  Proof.
    unfold wr, zlen. intros H. rewrite (proj2 (Z.leb_le 0 i)), (proj2 (Z.ltb_lt i _)) by lia. reflexivity.
  Qed.
  Lemma wr_inv v i x v' : wr v i x = Ok v' -> 0 <= i < zlen v /\ v' = upd v (Z.to_nat i) x.
  Proof.
    unfold wr, zlen. destruct (0 <=? i) eqn:E1; cbn; [|discriminate]. destruct (i <? _) eqn:E2; [|discriminate].
    apply Z.leb_le in E1. apply Z.ltb_lt in E2. intros [= <-]. split; [lia|reflexivity].
  Qed.
  Lemma zlen_upd v n x : zlen (upd v n x) = zlen v.
  Proof. unfold zlen. rewrite upd_length. reflexivity. Qed.
  Lemma rd_upd v i x j : 0 <= i < zlen v -> rd (upd v (Z.to_nat i) x) j = if j =? i then Ok x else rd v j.
  Proof.
    intros H. unfold rd. destruct (0 <=? j) eqn:E.
    - apply Z.leb_le in E. rewrite upd_nth. destruct (j =? i) eqn:E2.
      + apply Z.eqb_eq in E2; subst. rewrite Nat.eqb_refl.
        destruct (nth_error v (Z.to_nat i)) eqn:E3; [reflexivity|]. apply nth_error_None in E3. unfold zlen in H. lia.
      + apply Z.eqb_neq in E2. destruct (Nat.eqb_spec (Z.to_nat j) (Z.to_nat i)); [lia|reflexivity].
    - apply Z.leb_gt in E. destruct (j =? i) eqn:E2; [apply Z.eqb_eq in E2; lia|reflexivity].
  Qed.
  (** arrays of the same length with equal reads are equal *)
  Lemma rd_ext v w : zlen v = zlen w -> (forall i, 0 <= i < zlen v -> rd v i = rd w i) -> v = w.
  Proof.
    unfold zlen. intros L H. apply (f_equal Z.to_nat) in L. rewrite !Nat2Z.id in L. clear -L H.
    revert w L H; induction v as [|x t IH]; intros [|y w] L H; try discriminate; [reflexivity|].
    f_equal.
    - specialize (H 0). cbn in H. assert (Ok x = Ok y) by (apply H; lia). congruence.
    - apply IH; [cbn in L; lia|]. intros i Hi. specialize (H (i + 1)). unfold rd in *.
      rewrite (proj2 (Z.leb_le 0 (i + 1))) in H by lia. rewrite (proj2 (Z.leb_le 0 i)) by lia.
      replace (Z.to_nat (i + 1)) with (S (Z.to_nat i)) in H by lia. cbn in H. apply H. cbn [length]. lia.
  Qed.
  Lemma rd_app_l v w i : 0 <= i < zlen v -> rd (v ++ w) i = rd v i.
  Proof.
    unfold rd, zlen. intros H. destruct (0 <=? i); [|reflexivity]. rewrite nth_error_app1 by lia. reflexivity.
  Qed.
  Lemma rd_nth v i d : 0 <= i < zlen v -> rd v i = Ok (nth (Z.to_nat i) v d).
  Proof.
    intros H. unfold rd. rewrite (proj2 (Z.leb_le 0 i)) by lia. rewrite (nth_error_nth' v d); [reflexivity|].
    unfold zlen in H. lia.
  Qed.
End Arr.

Lemma zlen_map {A B} (f : A -> B) v : zlen (map f v) = zlen v.
Proof. unfold zlen. rewrite map_length. reflexivity. Qed.
Lemma rd_map {A B} (f : A -> B) v i : rd (map f v) i = let* x := rd v i in Ok (f x).
Proof.
  unfold rd. destruct (0 <=? i); [|reflexivity]. rewrite nth_error_map. destruct (nth_error v (Z.to_nat i)); reflexivity.
Qed.
Lemma rd_upto a b i : 0 <= i < b - a -> rd (upto a b) i = Ok (a + i).
Proof.
  intros H. rewrite (rd_nth _ _ 0) by (unfold zlen; rewrite upto_length; lia). f_equal. unfold upto.
  rewrite nth_indep with (d' := a + Z.of_nat 0) by (rewrite map_length, seq_length; lia).
  rewrite (map_nth (fun k => a + Z.of_nat k)), seq_nth by lia. lia.
Qed.

(** loops *)
Fixpoint foldM {A S} (f : S -> A -> outcome S) (l : list A) (s : S) : outcome S :=
  match l with [] => Ok s | a :: t => let* s' := f s a in foldM f t s' end.

Lemma foldM_app {A S} (f : S -> A -> outcome S) l1 l2 s :
  foldM f (l1 ++ l2) s = let* s' := foldM f l1 s in foldM f l2 s'.
Proof. revert s; induction l1 as [|a t IH]; intros s; cbn; [reflexivity|]. destruct (f s a); cbn; auto. Qed.

(** loop rule: an invariant indexed by the counter *)
Lemma foldM_upto {S} (f : S -> Z -> outcome S) (P : Z -> S -> Prop) a b s :
  a <= b -> P a s ->
  (forall k s, a <= k < b -> P k s -> exists s', f s k = Ok s' /\ P (k + 1) s') ->
  exists s', foldM f (upto a b) s = Ok s' /\ P b s'.
Proof.
  intros Hab HP Hstep. remember (Z.to_nat (b - a)) as n eqn:En. revert a s Hab HP Hstep En.
  induction n as [|n IH]; intros a s Hab HP Hstep En.
  - replace b with a in * by lia. rewrite upto_nil by lia. exists s. auto.
  - rewrite upto_cons by lia. cbn. destruct (Hstep a s) as (s1 & E1 & P1); [lia|assumption|]. rewrite E1. cbn.
    apply (IH (a + 1) s1); try lia; auto. intros k s2 Hk. apply Hstep. lia.
Qed.

(** general loop rule over the elements of a list *)
Lemma foldM_inv {A S} (f : S -> A -> outcome S) (P : list A -> S -> Prop) l s :
  P [] s -> (forall d x t s, l = d ++ x :: t -> P d s -> exists s', f s x = Ok s' /\ P (d ++ [x]) s') ->
  exists s', foldM f l s = Ok s' /\ P l s'.
Proof.
  intros H0 Hs. assert (G : forall r d s, l = d ++ r -> P d s -> exists s', foldM f r s = Ok s' /\ P l s').
  { induction r as [|x r IH]; intros d s0 E Pd.
    - rewrite app_nil_r in E. subst. exists s0. auto.
    - destruct (Hs d x r s0 E Pd) as (s1 & E1 & P1). cbn. rewrite E1. cbn. apply (IH (d ++ [x]) s1); [|assumption].
      rewrite <- app_assoc. exact E. }
  apply (G l [] s); auto.
Qed.

Lemma foldM_ext {A S} (f g : S -> A -> outcome S) l s :
  (forall x s, In x l -> f s x = g s x) -> foldM f l s = foldM g l s.
Proof.
  revert s; induction l as [|x t IH]; intros s H; [reflexivity|]. cbn. rewrite (H x s) by (left; reflexivity).
  destruct (g s x); cbn; auto. apply IH. intros y s' Hy. apply H. right; exact Hy.
Qed.

(** nested loops as one loop over pairs *)
Lemma foldM_nested {A B S} (f : S -> A -> B -> outcome S) (l1 : list A) (l2 : A -> list B) s :
  foldM (fun s i => foldM (fun s j => f s i j) (l2 i) s) l1 s =
  foldM (fun s p => f s (fst p) (snd p)) (flat_map (fun i => map (pair i) (l2 i)) l1) s.
Proof.
  revert s; induction l1 as [|i t IH]; intros s; [reflexivity|]. cbn. rewrite foldM_app.
  assert (E : forall s, foldM (fun s j => f s i j) (l2 i) s = foldM (fun s p => f s (fst p) (snd p)) (map (pair i) (l2 i)) s).
  { generalize (l2 i) as l. induction l as [|j l IHl]; intros s0; [reflexivity|]. cbn. destruct (f s0 i j); cbn; auto. }
  rewrite E. destruct (foldM (fun s p => f s (fst p) (snd p)) (map (pair i) (l2 i)) s); cbn; auto.
Qed.

(** a loop that rewrites distinct addresses once each *)
Lemma foldM_update {A X} (addr : X -> Z) (g : X -> A -> A) (l : list X) (v : list A) :
  NoDup (map addr l) -> (forall x, In x l -> 0 <= addr x < zlen v) ->
  exists v', foldM (fun v x => let* a := rd v (addr x) in wr v (addr x) (g x a)) l v = Ok v' /\ zlen v' = zlen v /\
    (forall x a, In x l -> rd v (addr x) = Ok a -> rd v' (addr x) = Ok (g x a)) /\
    (forall i, ~ In i (map addr l) -> rd v' i = rd v i).
Proof.
  revert v; induction l as [|x t IH]; intros v ND B.
  - exists v. cbn. repeat split; auto. intros x a [].
  - cbn in ND. inversion ND as [|? ? Hn ND']; subst. cbn.
    assert (Bx : 0 <= addr x < zlen v) by (apply B; left; reflexivity).
    destruct (proj1 (rd_ok v (addr x)) Bx) as [a Ea]. rewrite Ea. cbn. rewrite wr_ok by assumption. cbn.
    destruct (IH (upd v (Z.to_nat (addr x)) (g x a)) ND') as (v' & E & L & H1 & H2).
    { intros y Hy. rewrite zlen_upd. apply B. right; exact Hy. }
    exists v'. split; [exact E|]. split; [rewrite L; apply zlen_upd|]. split.
    + intros y b [<-|Hy] Eb.
      * rewrite H2 by exact Hn. rewrite rd_upd, Z.eqb_refl by assumption. congruence.
      * apply H1; [exact Hy|]. rewrite rd_upd by assumption. destruct (addr y =? addr x) eqn:E2; [|exact Eb].
        apply Z.eqb_eq in E2. exfalso. apply Hn. rewrite <- E2. apply in_map. exact Hy.
    + intros i Hi. rewrite H2 by (intros H; apply Hi; right; exact H). rewrite rd_upd by assumption.
      destruct (i =? addr x) eqn:E2; [|reflexivity]. apply Z.eqb_eq in E2. exfalso. apply Hi. left. congruence.
Qed.

Lemma nodup_map_in {A B} (f : A -> B) l :
  (forall x y, In x l -> In y l -> f x = f y -> x = y) -> NoDup l -> NoDup (map f l).
Proof.
  induction l as [|a l IH]; intros H ND; cbn; [constructor|]. inversion ND; subst. constructor.
  - intros Hin. apply in_map_iff in Hin. destruct Hin as (x & E & Hx).
    apply H in E; [subst; contradiction|right; assumption|left; reflexivity].
  - apply IH; [|assumption]. intros x y Hx Hy. apply H; right; assumption.
Qed.
Definition pairs {A B} (l1 : list A) (l2 : list B) : list (A * B) := flat_map (fun i => map (pair i) l2) l1.
Lemma in_pairs {A B} (l1 : list A) (l2 : list B) i j : In (i, j) (pairs l1 l2) <-> In i l1 /\ In j l2.
Proof.
  unfold pairs. rewrite in_flat_map. split.
  - intros (x & Hx & Hin). apply in_map_iff in Hin. destruct Hin as (y & E & Hy). injection E as -> ->. auto.
  - intros [H1 H2]. exists i. split; [assumption|]. apply in_map. assumption.
Qed.
Lemma nodup_flat_map {A B} (f : A -> list B) l : NoDup l -> (forall x, In x l -> NoDup (f x)) ->
  (forall x y z, In x l -> In y l -> In z (f x) -> In z (f y) -> x = y) -> NoDup (flat_map f l).
Proof.
  induction l as [|a l IH]; intros ND H1 H2; cbn; [constructor|]. inversion ND; subst.
  assert (NA : forall (l1 l2 : list B), NoDup l1 -> NoDup l2 -> (forall x, In x l1 -> ~ In x l2) -> NoDup (l1 ++ l2)).
  { induction l1 as [|x l1 IHl]; intros l2 N1 N2 D; [assumption|]. inversion N1; subst. cbn. constructor.
    - rewrite in_app_iff. intros [?|Hx]; [contradiction|]. apply (D x); [left; reflexivity|assumption].
    - apply IHl; auto. intros y Hy. apply D. right; assumption. }
  apply NA.
  - apply H1. left; reflexivity.
  - apply IH; auto.
    + intros x Hx. apply H1. right; assumption.
    + intros x y z Hx Hy. apply H2; right; assumption.
  - intros z Hz Hin. apply in_flat_map in Hin. destruct Hin as (y & Hy & Hzy).
    assert (a = y) by (apply (H2 a y z); auto; [left; reflexivity|right; assumption]). subst. contradiction.
Qed.
Lemma nodup_pairs {A B} (l1 : list A) (l2 : list B) : NoDup l1 -> NoDup l2 -> NoDup (pairs l1 l2).
Proof.
  intros N1 N2. apply nodup_flat_map; [assumption| |].
  - intros x _. apply nodup_map_in; [|assumption]. intros a b _ _ [= ->]. reflexivity.
  - intros x y z _ _ Hx Hy. apply in_map_iff in Hx, Hy. destruct Hx as (a & <- & _), Hy as (b & E & _). congruence.
Qed.

(** integers a, a-1, ..., b *)
Definition downto (a b : Z) : list Z := rev (upto b (a + 1)).
Lemma downto_map c a b : b <= a + 1 -> downto a b = map (fun m => c - m) (upto (c - a) (c - b + 1)).
Proof.
  intros H. unfold downto. remember (Z.to_nat (a + 1 - b)) as n eqn:En. revert a H En.
  induction n as [|n IH]; intros a H En.
  - rewrite !upto_nil by lia. reflexivity.
  - rewrite upto_snoc, rev_app_distr by lia. cbn [rev app]. rewrite (upto_cons (c - a)) by lia. cbn [map].
    f_equal; [lia|]. specialize (IH (a - 1)). replace (a - 1 + 1) with a in IH by lia. rewrite IH by lia.
    f_equal. f_equal; lia.
Qed.
Lemma foldM_map {A B S} (g : A -> B) (f : S -> B -> outcome S) l s :
  foldM f (map g l) s = foldM (fun s a => f s (g a)) l s.
Proof. revert s; induction l as [|a t IH]; intros s; cbn; [reflexivity|]. destruct (f s (g a)); cbn; auto. Qed.
(** a loop that ends normally ran every iteration normally *)
Lemma foldM_ok_in {A S} (f : S -> A -> outcome S) l s s' x :
  foldM f l s = Ok s' -> In x l -> exists s1 s2, f s1 x = Ok s2.
Proof.
  revert s; induction l as [|a t IH]; intros s E Hx; [destruct Hx|]. cbn in E. destruct (f s a) eqn:E1; try discriminate.
  destruct Hx as [<-|Hx]; eauto.
Qed.
Lemma foldM_flat_map {A B S} (g : A -> list B) (f : S -> B -> outcome S) l s :
  foldM f (flat_map g l) s = foldM (fun s a => foldM f (g a) s) l s.
Proof. revert s; induction l as [|a t IH]; intros s; cbn; [reflexivity|]. rewrite foldM_app. destruct (foldM f (g a) s); cbn; auto. Qed.
Lemma nodup_app {A} (l1 l2 : list A) : NoDup l1 -> NoDup l2 -> (forall x, In x l1 -> ~ In x l2) -> NoDup (l1 ++ l2).
Proof.
  induction l1 as [|x l1 IHl]; intros N1 N2 D; [assumption|]. inversion N1; subst. cbn. constructor.
  - rewrite in_app_iff. intros [?|Hx]; [contradiction|]. apply (D x); [left; reflexivity|assumption].
  - apply IHl; auto. intros y Hy. apply D. right; assumption.
Qed.
