(** Shared vocabulary of all models: outcomes of C++ code, characters and strings, ordered maps. *)
From Coq Require Import Ascii String List NArith ZArith Lia Bool Arith.
From Coq Require Import ZifyBool ZifyNat ZifyN.
Import ListNotations.
Set Implicit Arguments.

(** Outcome of running a piece of C++ code.
    [Throw]: an exception leaves the code.  [UB]: undefined behaviour (out of bounds access, null dereference, ...).
    Endless loops are modelled by fuelled loops that return [None] for every fuel. *)
Inductive outcome (A : Type) : Type :=
| Ok (a : A)
| Throw
| UB.
Arguments Ok {A} a.
Arguments Throw {A}.
Arguments UB {A}.

Definition bind {A B} (x : outcome A) (f : A -> outcome B) : outcome B :=
  match x with Ok a => f a | Throw => Throw | UB => UB end.

Declare Scope out_scope.
Delimit Scope out_scope with out.
Notation "'let*' x ':=' a 'in' b" := (bind a (fun x => b))
  (at level 200, x pattern, right associativity) : out_scope.
Open Scope out_scope.

(** C++ std::string as a list of characters. *)
Definition str := list ascii.
Definition lit (s : string) : str := list_ascii_of_string s.
Definition str_eq_dec : forall a b : str, {a = b} + {a <> b} := list_eq_dec ascii_dec.
Definition str_eqb (a b : str) : bool := if str_eq_dec a b then true else false.

Lemma str_eqb_true a b : str_eqb a b = true <-> a = b.
Proof. unfold str_eqb. destruct (str_eq_dec a b); split; congruence. Qed.
Lemma str_eqb_refl a : str_eqb a a = true.
Proof. apply str_eqb_true; reflexivity. Qed.
Lemma str_eqb_false a b : str_eqb a b = false <-> a <> b.
Proof. unfold str_eqb. destruct (str_eq_dec a b); split; congruence. Qed.

Definition nl : ascii := "010"%char.
Definition tab : ascii := "009"%char.
Definition nul : ascii := "000"%char.

(** std::string::find of a single character: position of the first occurrence. *)
Fixpoint find_char (c : ascii) (s : str) : option nat :=
  match s with
  | [] => None
  | x :: t => if Ascii.eqb x c then Some 0 else option_map S (find_char c t)
  end.

(** std::string::substr(pos, len) for pos <= size(). *)
Definition substr (s : str) (pos len : nat) : str := firstn len (skipn pos s).

(** std::map as an association list kept in increasing key order. *)
Section AMap.
  Variables (K V : Type) (cmp : K -> K -> comparison).

  Fixpoint mget (m : list (K * V)) (k : K) : option V :=
    match m with
    | [] => None
    | (k', v) :: t => match cmp k k' with Eq => Some v | _ => mget t k end
    end.

  (** operator[] assignment: replaces an existing entry or inserts at the sorted position. *)
  Fixpoint mset (m : list (K * V)) (k : K) (v : V) : list (K * V) :=
    match m with
    | [] => [(k, v)]
    | (k', v') :: t =>
      match cmp k k' with
      | Eq => (k', v) :: t
      | Lt => (k, v) :: (k', v') :: t
      | Gt => (k', v') :: mset t k v
      end
    end.

  Fixpoint mdel (m : list (K * V)) (k : K) : list (K * V) :=
    match m with
    | [] => []
    | (k', v') :: t => match cmp k k' with Eq => t | _ => (k', v') :: mdel t k end
    end.

  Definition keys (m : list (K * V)) : list K := map fst m.

  Hypothesis cmp_eq : forall a b, cmp a b = Eq <-> a = b.

  Lemma cmp_refl a : cmp a a = Eq.
  Proof. apply cmp_eq; reflexivity. Qed.

  Lemma mget_mset m k v k' : mget (mset m k v) k' = match cmp k' k with Eq => Some v | _ => mget m k' end.
  Proof.
    induction m as [|[a b] t IH]; simpl.
    - destruct (cmp k' k); reflexivity.
    - destruct (cmp k a) eqn:E; simpl.
      + apply cmp_eq in E; subst a. destruct (cmp k' k); reflexivity.
      + destruct (cmp k' k); reflexivity.
      + rewrite IH. destruct (cmp k' a) eqn:E2; [|reflexivity|reflexivity].
        apply cmp_eq in E2; subst a. destruct (cmp k' k) eqn:E3; [|reflexivity|reflexivity].
        apply cmp_eq in E3; subst. rewrite cmp_refl in E; discriminate.
  Qed.

  Lemma mget_in m k v : mget m k = Some v -> In (k, v) m.
  Proof.
    induction m as [|[a b] t IH]; simpl; [discriminate|].
    destruct (cmp k a) eqn:E; [|intros H; right; auto|intros H; right; auto].
    apply cmp_eq in E. intros [= ->]; subst; left; reflexivity.
  Qed.

  Lemma in_mget m k v : NoDup (keys m) -> In (k, v) m -> mget m k = Some v.
  Proof.
    induction m as [|[a b] t IH]; simpl; [tauto|].
    intros ND [E|Hin]; inversion ND as [|x l Hn ND']; subst.
    - injection E as -> ->. rewrite cmp_refl. reflexivity.
    - destruct (cmp k a) eqn:E; try (apply IH; assumption).
      apply cmp_eq in E; subst a. exfalso; apply Hn.
      apply in_map_iff. exists (k, v); split; auto.
  Qed.

  Lemma mget_none m k : mget m k = None <-> ~ In k (keys m).
  Proof.
    induction m as [|[a b] t IH]; simpl; [tauto|].
    destruct (cmp k a) eqn:E.
    - apply cmp_eq in E; subst. split; [discriminate|tauto].
    - rewrite IH. split; [intros H [H1|H1]; [subst; rewrite cmp_refl in E; discriminate|tauto]|tauto].
    - rewrite IH. split; [intros H [H1|H1]; [subst; rewrite cmp_refl in E; discriminate|tauto]|tauto].
  Qed.

  Lemma keys_mset_in m k v x : In x (keys (mset m k v)) <-> x = k \/ In x (keys m).
  Proof.
    induction m as [|[a b] t IH]; simpl.
    - intuition.
    - destruct (cmp k a) eqn:E; simpl.
      + apply cmp_eq in E; subst. intuition.
      + intuition.
      + rewrite IH. intuition.
  Qed.

  Lemma mset_nodup m k v : NoDup (keys m) -> ~ In k (keys m) -> NoDup (keys (mset m k v)).
  Proof.
    induction m as [|[a b] t IH]; simpl; intros ND Hn.
    - constructor; [simpl; tauto|constructor].
    - inversion ND as [|x l Hn' ND']; subst. destruct (cmp k a) eqn:E; simpl.
      + apply cmp_eq in E; subst. tauto.
      + constructor; [simpl; tauto|]. constructor; assumption.
      + constructor; [|apply IH; tauto].
        change (~ In a (keys (mset t k v))). rewrite keys_mset_in. tauto.
  Qed.
End AMap.

(** Lexicographic order on strings (std::less<std::string>). *)
Definition acmp (a b : ascii) : comparison := N.compare (N_of_ascii a) (N_of_ascii b).
Fixpoint scmp (a b : str) : comparison :=
  match a, b with
  | [], [] => Eq
  | [], _ => Lt
  | _, [] => Gt
  | x :: s, y :: t => match acmp x y with Eq => scmp s t | c => c end
  end.

Lemma acmp_eq a b : acmp a b = Eq <-> a = b.
Proof.
  unfold acmp. rewrite N.compare_eq_iff. split; [|congruence].
  intros H. rewrite <- (ascii_N_embedding a), <- (ascii_N_embedding b), H. reflexivity.
Qed.

Lemma scmp_eq a b : scmp a b = Eq <-> a = b.
Proof.
  revert b; induction a as [|x s IH]; intros [|y t]; simpl; try (split; congruence).
  destruct (acmp x y) eqn:E.
  - apply acmp_eq in E; subst. rewrite IH. split; congruence.
  - split; [discriminate|]. intros [= -> ->]. rewrite (proj2 (acmp_eq y y) eq_refl) in E; discriminate.
  - split; [discriminate|]. intros [= -> ->]. rewrite (proj2 (acmp_eq y y) eq_refl) in E; discriminate.
Qed.

(** Decimal digits *)
Definition is_digit (c : ascii) : bool := let n := N_of_ascii c in ((48 <=? n) && (n <=? 57))%N.
Definition digit_val (c : ascii) : N := (N_of_ascii c - 48)%N.
Definition digit_chr (d : N) : ascii := ascii_of_N (48 + d).

(** value of a digit string, most significant first *)
Definition dec_val_acc (acc : N) (s : str) : N := fold_left (fun a c => 10 * a + digit_val c)%N s acc.
Definition dec_val (s : str) : N := dec_val_acc 0 s.

(** printing a natural number in decimal (what ostream << does) *)
Fixpoint dec_print_f (fuel : nat) (n : N) (acc : str) : str :=
  match fuel with
  | O => acc
  | S f => let acc' := digit_chr (n mod 10) :: acc in
           if (n / 10 =? 0)%N then acc' else dec_print_f f (n / 10) acc'
  end.
Definition dec_print (n : N) : str := dec_print_f (S (N.to_nat (N.log2 n))) n [].
Definition dec_print_Z (z : Z) : str :=
  if (z <? 0)%Z then "-"%char :: dec_print (Z.abs_N z) else dec_print (Z.abs_N z).

Lemma digit_chr_val d : (d < 10)%N -> digit_val (digit_chr d) = d /\ is_digit (digit_chr d) = true.
Proof.
  intros H. unfold digit_val, digit_chr, is_digit.
  rewrite N_ascii_embedding by lia. split; [lia|]. apply andb_true_iff; split; apply N.leb_le; lia.
Qed.

Lemma dec_val_acc_app acc a b : dec_val_acc acc (a ++ b) = dec_val_acc (dec_val_acc acc a) b.
Proof. unfold dec_val_acc. apply fold_left_app. Qed.

Local Ltac Zify.zify_post_hook ::= Z.div_mod_to_equations.

Lemma dec_print_f_spec fuel n acc :
  (0 < fuel)%nat -> (N.log2 n < N.of_nat fuel)%N ->
  exists ds, dec_print_f fuel n acc = ds ++ acc /\ dec_val ds = n /\ ds <> [] /\ Forall (fun c => is_digit c = true) ds.
Proof.
  revert n acc; induction fuel as [|f IH]; intros n acc Hf Hl; [lia|].
  cbn [dec_print_f].
  assert (Hm : (n mod 10 < 10)%N) by (apply N.mod_lt; lia).
  destruct (digit_chr_val Hm) as [Hv Hd].
  destruct (n / 10 =? 0)%N eqn:E.
  - apply N.eqb_eq in E. exists [digit_chr (n mod 10)]. split; [reflexivity|]. split.
    + unfold dec_val, dec_val_acc. cbn [fold_left]. rewrite Hv. lia.
    + split; [discriminate|]. constructor; auto.
  - apply N.eqb_neq in E.
    assert (Hlog : (N.log2 (n / 10) < N.log2 n)%N).
    { assert (n / 10 <= n / 2)%N by (apply N.div_le_compat_l; lia).
      assert (0 < n)%N by lia.
      apply N.le_lt_trans with (N.log2 (n / 2)).
      - apply N.log2_le_mono; assumption.
      - assert (Hs : N.log2 (2 * (n / 2)) = N.succ (N.log2 (n / 2))) by (apply N.log2_double; lia).
        assert (Hle : (N.log2 (2 * (n/2)) <= N.log2 n)%N) by (apply N.log2_le_mono; lia).
        lia. }
    destruct (IH (n / 10)%N (digit_chr (n mod 10) :: acc)) as (ds & H1 & H2 & H3 & H4).
    { destruct f; [|lia]. simpl in Hl. lia. }
    { lia. }
    exists (ds ++ [digit_chr (n mod 10)]). rewrite H1, <- app_assoc. split; [reflexivity|].
    split.
    + unfold dec_val in *. rewrite dec_val_acc_app, H2. unfold dec_val_acc; cbn [fold_left]. rewrite Hv. lia.
    + split; [destruct ds; discriminate|]. apply Forall_app; split; auto.
Qed.

Lemma dec_print_spec n :
  dec_val (dec_print n) = n /\ dec_print n <> [] /\ Forall (fun c => is_digit c = true) (dec_print n).
Proof.
  unfold dec_print. destruct (@dec_print_f_spec (S (N.to_nat (N.log2 n))) n []) as (ds & -> & H); [lia|lia|].
  rewrite app_nil_r. exact H.
Qed.
