(** Proofs about the program that applies filters to the files of a propagation. *)
From Coq Require Import Ascii String List NArith ZArith Lia Bool.
From Verif Require Import Base Arrays Model.Params Spec.Params Proofs.Params Model.Propa Spec.Propa Proofs.Propa Model.FilterProg Spec.FilterProg.
Import ListNotations.
Open Scope Z_scope.

Lemma meta_read base dt n w : int32 n -> int32 w -> f_steps (propa_meta base dt n w) = if w =? 0 then UB else if 2147483647 <? Z.quot n w then UB else Ok (Z.quot n w).
Proof.
  intros Hn Hw. unfold f_steps.
  assert (C : get_value (propa_meta base dt n w) (lit "CLASS") = Some (lit "Propagation")) by (unfold propa_meta, set_int; rewrite !get_value_set; reflexivity). rewrite C, str_eqb_refl.
  assert (N : get_int (propa_meta base dt n w) (lit "Nt") 0 = Ok (true, n)).
  { rewrite <- (int_roundtrip empty_c (lit "Nt") n 0 Hn). unfold get_int, propa_meta, set_int. rewrite !get_value_set. reflexivity. }
  assert (E : get_int (propa_meta base dt n w) (lit "Wcycle") 0 = Ok (true, w)) by (unfold propa_meta; apply int_roundtrip, Hw).
  rewrite N, E. reflexivity.
Qed.

Section P.
  Variables (W T : Type) (look : Z -> W -> T -> outcome T).
  Notation file := (file W). Notation series := (series W T look). Notation look_all := (look_all W T look).
  Lemma series_all l xs : forall i t t', (forall j x, nth_error xs j = Some x -> file l (i + Z.of_nat j) = Some x) -> look_all i xs t = Ok t' -> series l (length xs) i t = Ok (true, t').
  Proof.
    induction xs as [|x xs IH]; intros i t t' H E; cbn [look_all] in E; [injection E as ->; reflexivity|]. cbn [length series].
    pose proof (H O x eq_refl) as F. replace (i + Z.of_nat 0) with i in F by lia. rewrite F. destruct (look i x t) as [t1| |] eqn:L; try discriminate. cbn [bind] in E.
    apply IH; [|exact E]. intros j y Hj. replace (i + 1 + Z.of_nat j) with (i + Z.of_nat (S j)) by lia. apply H, Hj.
  Qed.
  (** more files are asked for than there are *)
  Lemma series_short l xs k : forall i t t', (forall j x, nth_error xs j = Some x -> file l (i + Z.of_nat j) = Some x) -> file l (i + Z.of_nat (length xs)) = None -> look_all i xs t = Ok t' ->
    series l (length xs + S k) i t = Ok (false, t').
  Proof.
    induction xs as [|x xs IH]; intros i t t' H N E; cbn [look_all] in E.
    - injection E as ->. cbn [length plus series]. cbn [length] in N. replace (i + Z.of_nat 0) with i in N by lia. rewrite N. reflexivity.
    - cbn [length plus series]. pose proof (H O x eq_refl) as F. replace (i + Z.of_nat 0) with i in F by lia. rewrite F. destruct (look i x t) as [t1| |] eqn:L; try discriminate. cbn [bind] in E.
      apply IH; [| |exact E]; [intros j y Hj|]; [replace (i + 1 + Z.of_nat j) with (i + Z.of_nat (S j)) by lia; apply H, Hj|].
      replace (i + 1 + Z.of_nat (length xs)) with (i + Z.of_nat (length (x :: xs))) by (cbn [length]; lia). exact N.
  Qed.
  (** one of them is not accepted *)
  Lemma series_throw l xs x ys : forall i t t1, (forall j y, nth_error (xs ++ x :: ys) j = Some y -> file l (i + Z.of_nat j) = Some y) -> look_all i xs t = Ok t1 -> look (i + Z.of_nat (length xs)) x t1 = Throw ->
    series l (length (xs ++ x :: ys)) i t = Ok (false, t1).
  Proof.
    induction xs as [|y xs IH]; intros i t t1 H E N; cbn [look_all] in E; cbn [app length series].
    - injection E as ->. pose proof (H O x eq_refl) as F. replace (i + Z.of_nat 0) with i in F by lia. rewrite F. cbn [length] in N. replace (i + Z.of_nat 0) with i in N by lia. rewrite N. reflexivity.
    - pose proof (H O y eq_refl) as F. replace (i + Z.of_nat 0) with i in F by lia. rewrite F. destruct (look i y t) as [t2| |] eqn:L; try discriminate. cbn [bind] in E.
      apply IH; [|exact E|]; [intros j z Hj; replace (i + 1 + Z.of_nat j) with (i + Z.of_nat (S j)) by lia; apply H, Hj|].
      replace (i + 1 + Z.of_nat (length xs)) with (i + Z.of_nat (length (y :: xs))) by (cbn [length]; lia). exact N.
  Qed.
End P.
Lemma find_none_out {A} (f : A -> bool) l : (forall a, In a l -> f a = false) -> find f l = None.
Proof. induction l as [|a l IH]; intros H; [reflexivity|]. cbn [find]. rewrite (H a) by (left; reflexivity). apply IH. intros b Hb. apply H. right; exact Hb. Qed.
(** files numbered from [a] on *)
Lemma file_numbered {W} (l : list (Z * W)) : forall a, map fst l = upto a (a + zlen l) -> forall n, file W l n = if (a <=? n) && (n <? a + zlen l) then nth_error (map snd l) (Z.to_nat (n - a)) else None.
Proof.
  induction l as [|p l IH] using rev_ind; intros a H n.
  - unfold file. cbn [rev find]. destruct ((a <=? n) && (n <? a + zlen [])) eqn:E; [|reflexivity]. apply andb_prop in E. unfold zlen in E. cbn [length] in E. lia.
  - assert (L : zlen (l ++ [p]) = zlen l + 1) by (unfold zlen; rewrite app_length; cbn [length]; lia). rewrite L in *. rewrite map_app in H. cbn [map] in H.
    assert (Zl : 0 <= zlen l) by (unfold zlen; lia). rewrite Z.add_assoc, upto_snoc in H by lia. apply app_inj_tail in H. destruct H as [H Hp].
    unfold file. rewrite rev_unit. cbn [find]. specialize (IH a H n). unfold file in IH. destruct (Z.eqb_spec (fst p) n) as [E|E].
    + replace ((a <=? n) && (n <? a + (zlen l + 1))) with true by (symmetry; apply andb_true_intro; split; [apply Z.leb_le|apply Z.ltb_lt]; lia).
      rewrite map_app, nth_error_app2 by (rewrite map_length; unfold zlen in *; lia). rewrite map_length. replace (Z.to_nat (n - a) - length l)%nat with O by (unfold zlen in *; lia). reflexivity.
    + rewrite IH. rewrite map_app. destruct ((a <=? n) && (n <? a + zlen l)) eqn:B.
      * apply andb_prop in B. replace ((a <=? n) && (n <? a + (zlen l + 1))) with true by (symmetry; apply andb_true_intro; split; [apply Z.leb_le|apply Z.ltb_lt]; lia).
        rewrite nth_error_app1 by (rewrite map_length; unfold zlen in *; lia). reflexivity.
      * replace ((a <=? n) && (n <? a + (zlen l + 1))) with false; [reflexivity|]. symmetry. apply andb_false_iff in B. apply andb_false_iff. rewrite Z.leb_gt, Z.ltb_ge in *. lia.
Qed.

Section Q.
  Variable W : Type.
  Variables pre report prop post : Z -> W -> outcome W.
  Notation evolve := (evolve W pre report prop post). Notation p_run := (p_run W pre report prop post). Notation turn := (turn W pre report prop post).
  (** the wave functions in the files of a complete run *)
  Lemma files_of (fs : list (Z * W)) m (P : Z -> W -> Prop) : zlen fs = m + 1 -> (forall j, 0 <= j <= m -> exists z, rd fs j = Ok (j, z) /\ P j z) ->
    map fst fs = upto 0 (0 + zlen fs) /\ forall j z, nth_error (map snd fs) j = Some z -> P (Z.of_nat j) z.
  Proof.
    intros L H. assert (A : forall k, (k < length fs)%nat -> exists z, nth_error fs k = Some (Z.of_nat k, z) /\ P (Z.of_nat k) z).
    { intros k Hk. destruct (H (Z.of_nat k)) as (z & R & Q); [unfold zlen in L; lia|]. exists z. split; [|exact Q]. unfold rd in R. destruct (Z.leb_spec 0 (Z.of_nat k)); [|lia]. rewrite Nat2Z.id in R. destruct (nth_error fs k); [injection R as ->; reflexivity|discriminate]. }
    split.
    - apply nth_error_same. intros k. destruct (Nat.lt_ge_cases k (length fs)) as [Hk|Hk].
      + destruct (A k Hk) as (z & E & _). rewrite nth_error_map, E. cbn [option_map fst]. symmetry.
        destruct (nth_error (upto 0 (0 + zlen fs)) k) as [v|] eqn:Ev; [apply upto_nth in Ev; f_equal; lia|].
        apply nth_error_None in Ev. unfold upto in Ev. rewrite map_length, seq_length in Ev. unfold zlen in Ev. lia.
      + rewrite (proj2 (nth_error_None _ _)) by (rewrite map_length; exact Hk). symmetry. apply nth_error_None. unfold upto. rewrite map_length, seq_length. unfold zlen. lia.
    - intros j z E. destruct (Nat.lt_ge_cases j (length fs)) as [Hj|Hj].
      + destruct (A j Hj) as (y & F & Q). rewrite nth_error_map, F in E. injection E as <-. exact Q.
      + rewrite (proj2 (nth_error_None _ _)) in E by (rewrite map_length; exact Hj). discriminate.
  Qed.

  Lemma filter_reads base dt g x n y : g_start g = 0 -> 1 <= g_wcycle g <= 2147483647 -> g_steps g = Z.of_nat n -> Z.of_nat n <= INT_MAX -> evolve 0 n x = Ok y ->
    exists s xs, p_run g x = Ok (true, s) /\ u_meta W s = Some (Z.of_nat n) /\ zlen xs = Z.of_nat n / g_wcycle g + 1 /\
      (forall j z, nth_error xs j = Some z -> evolve 0 (Z.to_nat (Z.of_nat j * g_wcycle g)) x = Ok z) /\
      forall T (look : Z -> W -> T -> outcome T) t,
        (forall t', look_all W T look 0 xs t = Ok t' -> f_run W T look (propa_meta base dt (Z.of_nat n) (g_wcycle g)) (u_files W s) t = Ok (true, t')) /\
        (forall l z r t1, xs = l ++ z :: r -> look_all W T look 0 l t = Ok t1 -> look (zlen l) z t1 = Throw ->
           f_run W T look (propa_meta base dt (Z.of_nat n) (g_wcycle g)) (u_files W s) t = Ok (false, t1)).
  Proof.
    intros Hs Hw Hn Hm E. destruct (run_ok W pre report prop post g x n y Hs ltac:(lia) Hn Hm E) as (s & R & _ & _ & _ & M & L & F). rewrite Z.abs_eq in L, F by lia.
    destruct (files_of (u_files W s) (Z.of_nat n / g_wcycle g) (fun j z => evolve 0 (Z.to_nat (j * g_wcycle g)) x = Ok z) L F) as [N X].
    assert (D : 0 <= Z.of_nat n / g_wcycle g) by (apply Z.div_pos; lia).
    assert (Lx : length (map snd (u_files W s)) = S (Z.to_nat (Z.of_nat n ÷ g_wcycle g))) by (rewrite map_length, Z.quot_div_nonneg by lia; unfold zlen in L; lia).
    assert (Fl : forall j z, nth_error (map snd (u_files W s)) j = Some z -> file W (u_files W s) (0 + Z.of_nat j) = Some z).
    { intros j z Hj. rewrite (file_numbered _ 0 N). assert (J : (j < length (map snd (u_files W s)))%nat) by (apply nth_error_Some; rewrite Hj; discriminate). rewrite map_length in J.
      replace ((0 <=? 0 + Z.of_nat j) && (0 + Z.of_nat j <? 0 + zlen (u_files W s))) with true by (symmetry; apply andb_true_intro; split; [apply Z.leb_le|apply Z.ltb_lt]; unfold zlen; lia).
      replace (Z.to_nat (0 + Z.of_nat j - 0)) with j by lia. exact Hj. }
    assert (Mt : f_steps (propa_meta base dt (Z.of_nat n) (g_wcycle g)) = Ok (Z.of_nat n ÷ g_wcycle g)).
    { rewrite meta_read by (unfold int32, INT_MAX in *; lia). rewrite (proj2 (Z.eqb_neq _ _)) by lia. rewrite Z.quot_div_nonneg by lia.
      assert (Q : Z.of_nat n / g_wcycle g <= Z.of_nat n) by (apply Z.div_le_upper_bound; nia). unfold INT_MAX in Hm. rewrite (proj2 (Z.ltb_ge _ _)) by lia. reflexivity. }
    exists s, (map snd (u_files W s)). split; [exact R|]. split; [exact M|]. split; [unfold zlen in *; rewrite map_length; exact L|]. split; [exact X|].
    intros T look t. split.
    - intros t' A. unfold f_run. rewrite Mt, <- Lx. exact (series_all W T look _ _ 0 t t' Fl A).
    - intros l z r t1 Ex A Th. unfold f_run. rewrite Mt, <- Lx. rewrite Ex in *. exact (series_throw W T look _ l z r 0 t t1 Fl A Th).
  Qed.

  (** a run that ended early *)
  Lemma filter_fails base dt g x n y : g_start g = 0 -> 1 <= g_wcycle g <= 2147483647 -> Z.of_nat n < g_steps g <= INT_MAX -> evolve 0 n x = Ok y -> turn (Z.of_nat n) y = Throw ->
    Z.of_nat n / g_wcycle g < g_steps g / g_wcycle g ->
    exists s xs, p_run g x = Ok (false, s) /\ u_meta W s = Some (g_steps g) /\ zlen xs = Z.of_nat n / g_wcycle g + 1 /\
      (forall j z, nth_error xs j = Some z -> evolve 0 (Z.to_nat (Z.of_nat j * g_wcycle g)) x = Ok z) /\
      forall T (look : Z -> W -> T -> outcome T) t t', look_all W T look 0 xs t = Ok t' -> f_run W T look (propa_meta base dt (g_steps g) (g_wcycle g)) (u_files W s) t = Ok (false, t').
  Proof.
    intros Hs Hw Hn E Th Lt. destruct (run_fail W pre report prop post g x n y Hs ltac:(lia) Hn E Th) as (s & R & M & L). rewrite Z.abs_eq in L by lia.
    destruct (run_fail_files W pre report prop post g x n y Hs ltac:(lia) Hn E Th) as (s1 & s2 & R1 & R2 & Ef). rewrite R in R1. injection R1 as <-.
    destruct (run_ok W pre report prop post (mkCfg (Z.of_nat n) (g_wcycle g) 0) x n y eq_refl ltac:(cbn [g_wcycle]; lia) eq_refl ltac:(lia) E) as (s3 & R3 & _ & _ & _ & _ & L3 & F).
    rewrite R2 in R3. injection R3 as <-. cbn [g_wcycle] in L3, F. rewrite <- Ef in L3, F. rewrite Z.abs_eq in L3, F by lia.
    destruct (files_of (u_files W s) (Z.of_nat n / g_wcycle g) (fun j z => evolve 0 (Z.to_nat (j * g_wcycle g)) x = Ok z) L3 F) as [N X].
    exists s, (map snd (u_files W s)). split; [exact R|]. split; [exact M|]. split; [unfold zlen in *; rewrite map_length; exact L|]. split; [exact X|]. intros T look t t' A. unfold f_run.
    assert (D : 0 <= Z.of_nat n / g_wcycle g) by (apply Z.div_pos; lia).
    rewrite meta_read by (unfold int32, INT_MAX in *; lia). rewrite (proj2 (Z.eqb_neq _ _)) by lia. rewrite Z.quot_div_nonneg by lia.
    assert (Q : g_steps g / g_wcycle g <= g_steps g) by (apply Z.div_le_upper_bound; nia). unfold INT_MAX in Hn. rewrite (proj2 (Z.ltb_ge _ _)) by lia.
    assert (Ls : S (Z.to_nat (g_steps g / g_wcycle g)) = (length (map snd (u_files W s)) + S (Z.to_nat (g_steps g / g_wcycle g - Z.of_nat n / g_wcycle g - 1)))%nat)
      by (rewrite map_length; unfold zlen in L; lia).
    rewrite Ls. apply series_short; [| |exact A].
    - intros j z Hj. rewrite (file_numbered _ 0 N). assert (J : (j < length (map snd (u_files W s)))%nat) by (apply nth_error_Some; rewrite Hj; discriminate). rewrite map_length in J.
      replace ((0 <=? 0 + Z.of_nat j) && (0 + Z.of_nat j <? 0 + zlen (u_files W s))) with true by (symmetry; apply andb_true_intro; split; [apply Z.leb_le|apply Z.ltb_lt]; unfold zlen; lia).
      replace (Z.to_nat (0 + Z.of_nat j - 0)) with j by lia. exact Hj.
    - rewrite (file_numbered _ 0 N). rewrite map_length. replace ((0 <=? 0 + Z.of_nat (length (u_files W s))) && (0 + Z.of_nat (length (u_files W s)) <? 0 + zlen (u_files W s))) with false; [reflexivity|].
      symmetry. apply andb_false_iff. right. apply Z.ltb_ge. unfold zlen. lia.
  Qed.
  (** a restarted run: the files begin with the number of the restart *)
  Lemma filter_restart base dt g x n y : 0 < g_start g -> 1 <= g_wcycle g <= 2147483647 -> g_steps g = g_start g + Z.of_nat n - 1 -> g_steps g < INT_MAX -> evolve (g_start g) n x = Ok y ->
    exists s, p_run g x = Ok (true, s) /\ forall T (look : Z -> W -> T -> outcome T) t, f_run W T look (propa_meta base dt (g_steps g) (g_wcycle g)) (u_files W s) t = Ok (false, t).
  Proof.
    intros Hs Hw Hn Hm E. destruct (run_restart W pre report prop post g x n y Hs ltac:(lia) Hn Hm E) as (s & R & _ & _ & _ & F & _). exists s. split; [exact R|]. intros T look t. unfold f_run.
    unfold INT_MAX in Hm. rewrite meta_read by (unfold int32; lia). rewrite (proj2 (Z.eqb_neq _ _)) by lia.
    assert (Q : g_steps g ÷ g_wcycle g <= 2147483647).
    { rewrite Z.quot_div_nonneg by lia. assert (g_steps g / g_wcycle g <= g_steps g) by (apply Z.div_le_upper_bound; nia). lia. }
    rewrite (proj2 (Z.ltb_ge _ _)) by lia. cbn [series]. rewrite (file_numbered _ (g_start g) F). replace (g_start g <=? 0) with false by (symmetry; apply Z.leb_gt; lia). reflexivity.
  Qed.
End Q.
