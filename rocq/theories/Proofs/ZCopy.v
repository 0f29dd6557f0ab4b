From Coq Require Import List ZArith Lia Bool Arith.
From Verif Require Import Base Model.ZCopy.
Import ListNotations.

Lemma skip2 {A} w l (b : list A) : skipn l (skipn w b) = skipn (w + l) b.
Proof. revert b. induction w as [|w IH]; intros [|x t]; cbn; rewrite ?skipn_nil; auto. Qed.

Section Z.
  Context {B : Type}.
  Variable junk : nat -> B.

  Lemma write_loop_spec data next buffer : forall written bs len,
    written <= length buffer -> length buffer <= written + list_sum next ->
    (written < length buffer \/ exists n, bs = Some n /\ len <= n) ->
    exists rest n len' extra used, write_loop junk data next buffer written bs len = Ok (mkOut (data ++ skipn written buffer ++ extra) rest, Some n, len') /\
      next = used ++ rest /\ (used <> [] -> length extra = n - len') /\ (used = [] -> extra = [] /\ Some n = bs /\ len' = len) /\
      len' <= n /\ (written < length buffer -> used <> []).
  Proof.
    revert data. induction next as [|n next IH]; intros data written bs len Hw Hs Hb; cbn [write_loop].
    - cbn in Hs. rewrite (proj2 (Nat.ltb_ge _ _)) by lia. destruct Hb as [Hb|(n & -> & Hn)]; [lia|].
      exists [], n, len, [], []. rewrite skipn_all2, !app_nil_r by lia. repeat split; auto; try congruence; lia.
    - destruct (written <? length buffer) eqn:E.
      + apply Nat.ltb_lt in E. change (length buffer <= written + (n + list_sum next)) in Hs. set (len' := if length buffer - written <? n then _ else _).
        assert (Hl : len' <= n /\ written + len' <= length buffer /\ (len' = n \/ written + len' = length buffer)).
        { unfold len'. destruct (_ <? n) eqn:E2; [apply Nat.ltb_lt in E2|apply Nat.ltb_ge in E2]; lia. }
        destruct (IH (data ++ firstn len' (skipn written buffer) ++ map junk (seq len' (n - len'))) (written + len') (Some n) len')
          as (rest & n2 & len2 & extra & used & Eq & En & Eu & E0 & Hl2 & Hu2); [lia| |right; exists n; split; [reflexivity|lia]|].
        { destruct Hl as (_ & _ & [H|H]); lia. }
        rewrite Eq. destruct used as [|u used].
        * destruct (E0 eq_refl) as (-> & Hn & ->). injection Hn as ->.
          assert (Hend : written + len' = length buffer) by (destruct (Nat.lt_ge_cases (written + len') (length buffer)) as [H|H]; [exfalso; apply (Hu2 H); reflexivity|lia]).
          exists rest, n, len', (map junk (seq len' (n - len'))), [n]. cbn in En. subst rest.
          rewrite (skipn_all2 buffer (n := written + len')) by lia. rewrite !app_nil_r.
          rewrite (firstn_all2 (skipn written buffer)) by (rewrite skipn_length; lia). 
          repeat split; auto; try discriminate; try lia. intros _. rewrite map_length, seq_length. reflexivity.
        * assert (Hlt : written + len' < length buffer).
          { destruct (Nat.lt_ge_cases (written + len') (length buffer)) as [H|H]; [exact H|]. exfalso.
            clear -Eq H En. destruct next as [|a next]; [destruct used; discriminate|]. cbn [write_loop] in Eq.
            rewrite (proj2 (Nat.ltb_ge _ _)) in Eq by lia. injection Eq; intros. subst rest.
            apply (f_equal (@length nat)) in En. rewrite app_length in En. cbn in En. lia. }
          assert (Hn : n - len' = 0) by lia. rewrite Hn. cbn [map seq]. rewrite app_nil_r.
          exists rest, n2, len2, extra, (n :: u :: used). rewrite En. rewrite <- !app_assoc.
          replace (firstn len' (skipn written buffer) ++ skipn (written + len') buffer ++ extra) with (skipn written buffer ++ extra).
          2: { rewrite app_assoc. f_equal. rewrite <- (firstn_skipn len' (skipn written buffer)) at 1. f_equal. apply skip2. }
          repeat split; auto; try discriminate; try (intros _; apply Eu; discriminate).
      + apply Nat.ltb_ge in E. destruct Hb as [Hb|(n0 & -> & Hn)]; [lia|].
        exists (n :: next), n0, len, [], []. rewrite skipn_all2, !app_nil_r by lia. repeat split; auto; try congruence; lia.
  Qed.

  (** the used buffers are given back except for what was needed *)
  Lemma write_exact o buffer : buffer <> [] -> length buffer <= list_sum (o_next o) ->
    exists o' used, write_z junk o buffer = Ok o' /\ o_data o' = o_data o ++ buffer /\ o_next o = used ++ o_next o'.
  Proof.
    intros Hb Hs. destruct buffer as [|b t]; [congruence|]. clear Hb. set (buffer := b :: t) in *.
    destruct (write_loop_spec (o_data o) (o_next o) buffer 0 None 0) as (rest & n & len & extra & used & E & En & Eu & _ & Hl & Hne);
      [lia|exact Hs|left; cbn; lia|].
    unfold write_z. rewrite E. cbn [bind]. cbn [skipn].
    assert (Hu : used <> []) by (apply Hne; cbn; lia). specialize (Eu Hu).
    eexists. exists used. split; [reflexivity|]. destruct (n - len =? 0) eqn:E2; cbn [back_up o_data o_next].
    - apply Nat.eqb_eq in E2. rewrite E2 in Eu. destruct extra; [|discriminate]. rewrite app_nil_r. auto.
    - rewrite !app_length. replace (length (o_data o) + (length buffer + length extra) - (n - len)) with (length (o_data o ++ buffer) + 0)
        by (rewrite app_length; lia).
      rewrite app_assoc, firstn_app_2, firstn_O, app_nil_r. auto.
  Qed.

  Lemma write_loop_short data next buffer : forall written bs len, written + list_sum next < length buffer ->
    write_loop junk data next buffer written bs len = Throw.
  Proof.
    revert data. induction next as [|n next IH]; intros data written bs len H; cbn [write_loop];
      [change (written + 0 < length buffer) in H|change (written + (n + list_sum next) < length buffer) in H];
      rewrite (proj2 (Nat.ltb_lt _ _)) by lia; [reflexivity|].
    apply IH. destruct (_ <? n) eqn:E; [apply Nat.ltb_lt in E|]; lia.
  Qed.
  Lemma write_short o buffer : list_sum (o_next o) < length buffer -> write_z junk o buffer = Throw.
  Proof. intros H. unfold write_z. rewrite write_loop_short by lia. reflexivity. Qed.

End Z.

Section R.
  Context {B : Type}.
  Lemma read_loop_spec (is : list (list B)) : forall acc size buf len, length acc <= size -> size <= length acc + length (concat is) ->
    (length acc < size \/ len <= length buf) ->
    exists is' acc' buf' len' used, read_loop is acc size buf len = Ok (is', acc', buf', len') /\
      length acc' = size /\ is = used ++ is' /\ len' <= length buf' /\
      acc ++ concat is = acc' ++ (if (length used =? 0) then [] else skipn len' buf') ++ concat is' /\
      (used = [] -> buf' = buf /\ len' = len) /\ (length acc < size -> used <> []).
  Proof.
    induction is as [|b is IH]; intros acc size buf len H1 H2 H3; cbn [read_loop].
    - cbn in H2. rewrite (proj2 (Nat.ltb_ge _ _)) by lia. exists [], acc, buf, len, []. cbn. rewrite app_nil_r.
      repeat split; auto; try lia; try congruence.
    - destruct (length acc <? size) eqn:E.
      + apply Nat.ltb_lt in E. cbn [concat] in H2. rewrite app_length in H2. set (l := if size - length acc <? length b then _ else _).
        assert (Hl : l <= length b /\ length acc + l <= size /\ (l = length b \/ length acc + l = size)).
        { unfold l. destruct (_ <? length b) eqn:E2; [apply Nat.ltb_lt in E2|apply Nat.ltb_ge in E2]; lia. }
        assert (La : length (acc ++ firstn l b) = length acc + l) by (rewrite app_length, firstn_length; lia).
        destruct (IH (acc ++ firstn l b) size b l) as (is' & acc' & buf' & len' & used & Eq & A1 & A2 & A3 & A4 & A5 & A6); try lia.
        rewrite Eq. exists is', acc', buf', len', (b :: used). split; [reflexivity|]. split; [exact A1|]. split; [cbn; congruence|].
        split; [exact A3|]. split; [|split; [discriminate|discriminate]]. cbn [length Nat.eqb concat].
        destruct used as [|u used].
        * destruct (A5 eq_refl) as [-> ->]. cbn [length Nat.eqb app] in A4. cbn in A2. subst is'.
          rewrite <- app_assoc in A4. rewrite <- (firstn_skipn l b) at 1.
          assert (A4' : acc ++ firstn l b = acc').
          { rewrite app_assoc in A4. apply app_inv_tail in A4. exact A4. }
          rewrite <- A4'. rewrite <- !app_assoc. reflexivity.
        * cbn [length Nat.eqb] in A4. rewrite <- A4, <- app_assoc. f_equal.
          assert (Hlt : length acc + l < size).
          { destruct (Nat.lt_ge_cases (length acc + l) size) as [H|H]; [exact H|]. exfalso. destruct is as [|a is]; [destruct used; discriminate|].
            cbn [read_loop] in Eq. rewrite (proj2 (Nat.ltb_ge _ _)) in Eq by lia. injection Eq; intros. subst is'.
            apply (f_equal (@length (list B))) in A2. rewrite app_length in A2. cbn in A2. lia. }
          rewrite firstn_all2 by lia. reflexivity.
      + apply Nat.ltb_ge in E. exists (b :: is), acc, buf, len, []. cbn [length Nat.eqb app].
        repeat split; auto; try lia; try congruence.
  Qed.

  Lemma read_exact (is : list (list B)) size : size <= length (concat is) ->
    exists is', read_z is size = Ok (firstn size (concat is), is') /\ concat is' = skipn size (concat is).
  Proof.
    intros H. unfold read_z. destruct (read_loop_spec is [] size [] 0) as (is' & acc & buf & len & used & E & A1 & A2 & A3 & A4 & A5 & A6);
      [cbn; lia|cbn; lia|right; cbn; lia|]. rewrite E. cbn [bind]. cbn [app] in A4.
    assert (F : acc = firstn size (concat is)).
    { rewrite A4. rewrite <- A1. rewrite firstn_app, Nat.sub_diag, firstn_O, app_nil_r, firstn_all. reflexivity. }
    eexists. rewrite F. split; [reflexivity|].
    rewrite A4. rewrite skipn_app. rewrite (skipn_all2 acc) by lia. rewrite A1, Nat.sub_diag. cbn [app skipn].
    destruct (length buf - len =? 0) eqn:E2.
    - apply Nat.eqb_eq in E2. rewrite (skipn_all2 buf) by lia. destruct (length used =? 0); reflexivity.
    - apply Nat.eqb_neq in E2. destruct used; [|reflexivity]. destruct (A5 eq_refl) as [-> ->]. cbn in E2. lia.
  Qed.

  Lemma read_loop_short (is : list (list B)) : forall acc size buf len, length acc + length (concat is) < size -> read_loop is acc size buf len = Throw.
  Proof.
    induction is as [|b is IH]; intros acc size buf len H; cbn [read_loop]; cbn [concat] in H; rewrite ?app_length in H; cbn in H;
      rewrite (proj2 (Nat.ltb_lt _ _)) by lia; [reflexivity|].
    apply IH. rewrite app_length, firstn_length. destruct (_ <? length b) eqn:E; [apply Nat.ltb_lt in E|]; lia.
  Qed.
  Lemma read_short (is : list (list B)) size : length (concat is) < size -> read_z is size = Throw.
  Proof. intros H. unfold read_z. rewrite read_loop_short by (cbn; lia). reflexivity. Qed.
End R.
