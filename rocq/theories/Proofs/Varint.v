From Coq Require Import List NArith ZArith Lia Bool.
From Verif Require Import Base Model.Varint.
Import ListNotations.
Open Scope N_scope.

(** plain description of the code: groups of seven bits, low first *)
Fixpoint groups (fuel : nat) (v : N) : list N :=
  match fuel with
  | O => []
  | S fuel => if v <? 128 then [v] else (128 + v mod 128) :: groups fuel (v / 128)
  end.

Lemma setbit7 v : N.setbit (N.land v 127) 7 = 128 + v mod 128.
Proof.
  change 127 with (N.ones 7). rewrite N.land_ones. change (2 ^ 7) with 128. assert (H : v mod 128 < 128) by (apply N.mod_lt; lia).
  generalize dependent (v mod 128). intros r Hr. rewrite N.setbit_spec'. change (2 ^ 7) with 128.
  rewrite N.lor_comm. rewrite <- N.lxor_lor.
  - rewrite <- N.add_nocarry_lxor; [lia|]. apply N.bits_inj_0. intros n. rewrite N.land_spec.
    destruct (N.lt_ge_cases n 7) as [L|L].
    + change 128 with (2 ^ 7). rewrite N.pow2_bits_false by lia. reflexivity.
    + destruct (N.eq_dec r 0) as [->|Nr]; [rewrite N.bits_0, andb_false_r; reflexivity|].
      rewrite (N.bits_above_log2 r n), andb_false_r; [reflexivity|]. apply N.lt_le_trans with 7; [|exact L].
      apply N.log2_lt_pow2; [lia|exact Hr].
  - apply N.bits_inj_0. intros n. rewrite N.land_spec. destruct (N.lt_ge_cases n 7) as [L|L].
    + change 128 with (2 ^ 7). rewrite N.pow2_bits_false by lia. reflexivity.
    + destruct (N.eq_dec r 0) as [->|Nr]; [rewrite N.bits_0, andb_false_r; reflexivity|].
      rewrite (N.bits_above_log2 r n), andb_false_r; [reflexivity|]. apply N.lt_le_trans with 7; [|exact L].
      apply N.log2_lt_pow2; [lia|exact Hr].
Qed.

Lemma low_or A F k : F < 2 ^ k -> N.lor (N.shiftl A k) F = A * 2 ^ k + F.
Proof.
  intros H. assert (E : N.land (N.shiftl A k) F = 0).
  { apply N.bits_inj_0. intros n. rewrite N.land_spec. destruct (N.lt_ge_cases n k) as [L|L].
    - rewrite N.shiftl_spec_low by exact L. reflexivity.
    - destruct (N.eq_dec F 0) as [->|NF]; [rewrite N.bits_0, andb_false_r; reflexivity|].
      rewrite (N.bits_above_log2 F n), andb_false_r; [reflexivity|]. apply N.lt_le_trans with k; [|exact L].
      apply N.log2_lt_pow2; [lia|exact H]. }
  rewrite <- N.lxor_lor by exact E. rewrite <- N.add_nocarry_lxor by exact E. rewrite N.shiftl_mul_pow2. reflexivity.
Qed.

Lemma masked_or w A F k : F < 2 ^ k -> N.lor (bitshift w A k) (F mod 2 ^ w) = (A * 2 ^ k + F) mod 2 ^ w.
Proof.
  intros H. unfold bitshift. rewrite N.land_ones. rewrite <- low_or by exact H. apply N.bits_inj. intros n. rewrite N.lor_spec.
  destruct (N.lt_ge_cases n w) as [L|L].
  - rewrite !N.mod_pow2_bits_low by exact L. rewrite N.lor_spec. reflexivity.
  - rewrite !N.mod_pow2_bits_high by exact L. reflexivity.
Qed.

Lemma clear8_high r : r < 128 -> clear8 (128 + r) = r.
Proof.
  intros H. unfold clear8. rewrite N.clearbit_spec'. apply N.bits_inj. intros n. rewrite N.ldiff_spec.
  replace (128 + r) with (1 * 2 ^ 7 + r) by (change (2 ^ 7) with 128; lia). rewrite <- (low_or 1 r 7 H). rewrite N.lor_spec.
  change (N.shiftl 1 7) with (2 ^ 7). destruct (N.eq_dec n 7) as [->|Nn].
  - rewrite N.pow2_bits_true. cbn [negb]. rewrite andb_false_r. destruct (N.eq_dec r 0) as [->|Nr]; [rewrite N.bits_0; reflexivity|].
    rewrite N.bits_above_log2; [reflexivity|]. apply N.log2_lt_pow2; [lia|exact H].
  - rewrite N.pow2_bits_false by congruence. cbn. apply andb_true_r.
Qed.
Lemma clear8_low r : r < 128 -> clear8 r = r.
Proof.
  intros H. unfold clear8. rewrite N.clearbit_spec'. apply N.bits_inj. intros n. rewrite N.ldiff_spec. destruct (N.eq_dec n 7) as [->|Nn].
  - rewrite N.pow2_bits_true. cbn [negb]. rewrite andb_false_r. destruct (N.eq_dec r 0) as [->|Nr]; [rewrite N.bits_0; reflexivity|].
    rewrite N.bits_above_log2; [reflexivity|]. apply N.log2_lt_pow2; [lia|exact H].
  - rewrite N.pow2_bits_false by congruence. cbn. apply andb_true_r.
Qed.

Lemma write_groups fuel v bs : write_bytes fuel v = Some bs -> bs = groups fuel v.
Proof.
  revert v bs; induction fuel as [|fuel IH]; intros v bs H; [discriminate|]. cbn [write_bytes] in H. cbn [groups].
  destruct (127 <? v) eqn:E.
  - apply N.ltb_lt in E. rewrite (proj2 (N.ltb_ge v 128)) by lia. destruct (write_bytes fuel (N.shiftr v 7)) as [t|] eqn:E2; [|discriminate].
    injection H as <-. rewrite setbit7. f_equal. rewrite N.shiftr_div_pow2 in E2. apply IH. exact E2.
  - apply N.ltb_ge in E. rewrite (proj2 (N.ltb_lt v 128)) by lia. congruence.
Qed.

Lemma write_total fuel v : v < 2 ^ N.of_nat fuel -> exists bs, write_bytes (S fuel) v = Some bs.
Proof.
  revert v; induction fuel as [|fuel IH]; intros v H.
  - replace v with 0 by (cbn in H; lia). eexists; reflexivity.
  - cbn [write_bytes]. destruct (127 <? v) eqn:E; [|eauto].
    assert (Hs : N.shiftr v 7 < 2 ^ N.of_nat fuel).
    { rewrite N.shiftr_div_pow2. apply N.div_lt_upper_bound; [discriminate|]. rewrite Nat2N.inj_succ, N.pow_succ_r' in H.
      change (2 ^ 7) with 128. lia. }
    destruct (IH _ Hs) as [bs Eb]. cbn [write_bytes] in Eb. rewrite Eb. eauto.
Qed.

Lemma size_bound v : v < 2 ^ N.of_nat (N.size_nat v).
Proof.
  destruct v as [|p]; [reflexivity|]. cbn [N.size_nat]. induction p as [p IH|p IH|]; cbn [Pos.size_nat]; rewrite ?Nat2N.inj_succ, ?N.pow_succ_r'; lia.
Qed.

Lemma write_ok v : exists bs, write_varint v = Some bs /\ bs = groups (S (N.size_nat v)) v.
Proof.
  unfold write_varint. destruct (write_total (N.size_nat v) v) as [bs E].
  - apply size_bound.
  - exists bs. split; [exact E|]. apply write_groups. exact E.
Qed.

Lemma groups_bytes fuel v b : In b (groups fuel v) -> b < 256.
Proof.
  revert v; induction fuel as [|fuel IH]; intros v H; [destruct H|]. cbn [groups] in H. destruct (v <? 128) eqn:E.
  - apply N.ltb_lt in E. destruct H as [<-|[]]. lia.
  - destruct H as [<-|H]; [|eapply IH; exact H]. pose proof (N.mod_lt v 128). lia.
Qed.

(** reading the groups of v after index groups with value F *)
Lemma read_groups w rest : forall fuel v F index, v < 2 ^ N.of_nat fuel -> F < 2 ^ (7 * index) ->
  match groups (S fuel) v with
  | [] => True
  | b :: t => read_loop w (t ++ rest) b (N.lor (bitshift w (clear8 b) (7 * index)) (F mod 2 ^ w)) (index + 1) =
              Ok ((v * 2 ^ (7 * index) + F) mod 2 ^ w, index + N.of_nat (length (groups (S fuel) v)))
  end.
Proof.
  induction fuel as [|fuel IH]; intros v F index Hv HF.
  - replace v with 0 by (cbn in Hv; lia). cbn [groups]. change (0 <? 128) with true. cbn [length app]. cbv iota.
    change (clear8 0) with 0. rewrite masked_or by exact HF. destruct rest; reflexivity.
  - cbn [groups] in *. destruct (v <? 128) eqn:E.
    + apply N.ltb_lt in E. cbn [app length]. rewrite clear8_low by exact E. rewrite masked_or by exact HF.
      destruct rest; cbn [read_loop]; rewrite (proj2 (N.ltb_ge 127 v)) by lia; reflexivity.
    + apply N.ltb_ge in E. assert (Hm : v mod 128 < 128) by (apply N.mod_lt; lia).
      rewrite clear8_high by exact Hm. rewrite masked_or by exact HF.
      assert (Hd : v / 128 < 2 ^ N.of_nat fuel).
      { apply N.div_lt_upper_bound; [discriminate|]. rewrite Nat2N.inj_succ, N.pow_succ_r' in Hv. lia. }
      assert (HF' : v mod 128 * 2 ^ (7 * index) + F < 2 ^ (7 * (index + 1))).
      { replace (7 * (index + 1)) with (7 * index + 7) by lia. rewrite N.pow_add_r. change (2 ^ 7) with 128. nia. }
      specialize (IH (v / 128) _ (index + 1) Hd HF'). set (g := if v / 128 <? 128 then _ else _) in *.
      destruct g as [|b t] eqn:G.
      { exfalso. unfold g in G. destruct (v / 128 <? 128); discriminate. }
      cbn [app]. cbn [read_loop]. rewrite (proj2 (N.ltb_lt 127 (128 + v mod 128))) by lia.
      rewrite IH. f_equal. f_equal.
      * f_equal. replace (7 * (index + 1)) with (7 * index + 7) by lia. rewrite N.pow_add_r. change (2 ^ 7) with 128.
        rewrite (N.div_mod v 128) at 3 by discriminate. lia.
      * cbn [length]. lia.
Qed.

Lemma read_written w v pre post : exists bs, write_varint v = Some bs /\ (forall b, In b bs -> b < 256) /\
  (7 <= w -> read_varint w (pre ++ bs ++ post) (S (length pre)) = Ok (v mod 2 ^ w, N.of_nat (length bs))).
Proof.
  destruct (write_ok v) as (bs & E & G). exists bs. split; [exact E|]. split; [intros b; rewrite G; apply groups_bytes|]. intros Hw.
  unfold read_varint. rewrite skipn_app, skipn_all2, Nat.sub_diag by lia. cbn [app skipn].
  assert (Hv : v < 2 ^ N.of_nat (N.size_nat v)).
  { apply size_bound. }
  pose proof (read_groups w post (N.size_nat v) v 0 0 Hv ltac:(reflexivity)) as R. rewrite <- G in R.
  destruct bs as [|b t].
  { exfalso. cbn [groups] in G. destruct (v <? 128); discriminate. }
  cbn [app]. rewrite N.mul_0_r, N.pow_0_r, N.mul_1_r, N.add_0_r, N.mod_0_l, N.lor_0_r, !N.add_0_l in R by (apply N.pow_nonzero; discriminate).
  replace (bitshift w (clear8 b) 0) with (clear8 b) in R; [exact R|]. unfold bitshift. rewrite N.shiftl_0_r, N.land_ones.
  symmetry. apply N.mod_small. apply N.lt_le_trans with (2 ^ 7); [|apply N.pow_le_mono_r; [discriminate|exact Hw]]. change (2 ^ 7) with 128.
  assert (Hb : v < 128 /\ b = v \/ b = 128 + v mod 128) by (cbn [groups] in G; destruct (v <? 128) eqn:E2; [apply N.ltb_lt in E2; left; split; congruence|right; congruence]).
  pose proof (N.mod_lt v 128). destruct Hb as [[H1 ->]| ->]; [rewrite clear8_low; lia|rewrite clear8_high; lia].
Qed.

(** number of groups *)
Lemma groups_length fuel : forall v k, v < 2 ^ N.of_nat fuel -> (1 <= k)%nat ->
  (k = 1%nat \/ 2 ^ (7 * (N.of_nat k - 1)) <= v) -> v < 2 ^ (7 * N.of_nat k) -> length (groups (S fuel) v) = k.
Proof.
  induction fuel as [|fuel IH]; intros v k Hf Hk Hlo Hhi.
  - replace v with 0 in * by (cbn in Hf; lia). cbn. destruct Hlo as [->|H]; [reflexivity|]. exfalso.
    pose proof (N.pow_nonzero 2 (7 * (N.of_nat k - 1))). lia.
  - cbn [groups]. destruct (v <? 128) eqn:E.
    + apply N.ltb_lt in E. destruct Hlo as [->|H]; [reflexivity|]. destruct (Nat.eq_dec k 1) as [->|Nk]; [reflexivity|]. exfalso.
      assert (2 ^ 7 <= 2 ^ (7 * (N.of_nat k - 1))) by (apply N.pow_le_mono_r; lia). change (2 ^ 7) with 128 in *. lia.
    + apply N.ltb_ge in E. assert (k <> 1%nat) by (intros ->; change (2 ^ (7 * N.of_nat 1)) with 128 in Hhi; lia).
      destruct k as [|k]; [lia|]. change (S (length (groups (S fuel) (v / 128))) = S k). f_equal. apply IH.
      * apply N.div_lt_upper_bound; [discriminate|]. rewrite Nat2N.inj_succ, N.pow_succ_r' in Hf. lia.
      * lia.
      * right. destruct Hlo as [?|H']; [lia|]. apply N.div_le_lower_bound; [discriminate|].
        replace (7 * (N.of_nat (S k) - 1)) with (7 + 7 * (N.of_nat k - 1)) in H' by lia. rewrite N.pow_add_r in H'. exact H'.
      * apply N.div_lt_upper_bound; [discriminate|]. replace (7 * N.of_nat (S k)) with (7 + 7 * N.of_nat k) in Hhi by lia.
        rewrite N.pow_add_r in Hhi. exact Hhi.
Qed.

Lemma size_exact v bs : v < 2 ^ 64 -> write_varint v = Some bs -> length bs = varint_size v /\ (length bs <= prealloc v)%nat.
Proof.
  intros Hv E. destruct (write_ok v) as (bs' & E' & G). rewrite E in E'. injection E' as E'. rewrite <- E' in G.
  assert (Hs : v < 2 ^ N.of_nat (N.size_nat v)).
  { apply size_bound. }
  assert (L : length bs = varint_size v).
  { rewrite G. apply groups_length; [exact Hs| | |]; unfold varint_size;
      repeat match goal with |- context [v <? ?c] => destruct (N.ltb_spec v c) end; try lia.
    all: first [left; reflexivity | right; cbn; lia | cbn in *; lia]. }
  split; [exact L|]. rewrite L. unfold varint_size, prealloc.
  repeat match goal with |- context [v <? ?c] => destruct (N.ltb_spec v c) end; lia.
Qed.

Lemma round_trip_64 v pre post : v < 2 ^ 64 -> exists bs, write_varint v = Some bs /\
  read_varint 64 (pre ++ bs ++ post) (S (length pre)) = Ok (v, N.of_nat (length bs)).
Proof.
  intros H. destruct (read_written 64 v pre post) as (bs & E & _ & R). exists bs. split; [exact E|]. rewrite R by discriminate.
  rewrite N.mod_small by exact H. reflexivity.
Qed.
