(** Proofs about projection and jump operators. *)
From Coq Require Import List ZArith Lia Bool QArith Qcanon.
From Verif Require Import Base Arrays Algebra Model.Operators Spec.Operators Proofs.Operators Proofs.OMultistate Model.Projection Spec.Projection.
Import ListNotations.
Open Scope Z_scope.

Lemma rd_nth_error {A} (v : list A) i o : rd v i = Ok o -> nth_error v (Z.to_nat i) = Some o.
Proof. unfold rd. destruct (0 <=? i); [|discriminate]. destruct (nth_error v (Z.to_nat i)); [intros [= <-]; reflexivity|discriminate]. Qed.
Lemma firstn_snoc {A} (l : list A) i x : nth_error l i = Some x -> firstn (S i) l = firstn i l ++ [x].
Proof. revert i. induction l as [|y l IH]; intros [|i] H; cbn in *; try discriminate; [injection H as ->; reflexivity|]. rewrite (IH i H). reflexivity. Qed.
Lemma foldM_rd {A B} (f : B -> A -> B) (l : list A) b : foldM (fun b i => let* w := rd l i in Ok (f b w)) (upto 0 (zlen l)) b = Ok (fold_left f l b).
Proof.
  destruct (foldM_upto (fun b i => let* w := rd l i in Ok (f b w)) (fun k b' => b' = fold_left f (firstn (Z.to_nat k) l) b) 0 (zlen l) b) as (b' & E & P).
  - unfold zlen. lia.
  - reflexivity.
  - intros k b' Hk ->. destruct (proj1 (rd_ok l k) Hk) as [w Ew]. rewrite Ew. cbn [bind]. eexists. split; [reflexivity|].
    replace (Z.to_nat (k + 1)) with (S (Z.to_nat k)) by lia. rewrite (firstn_snoc _ _ _ (rd_nth_error _ _ _ Ew)), fold_left_app. reflexivity.
  - rewrite E, P. unfold zlen. rewrite Nat2Z.id, firstn_all. reflexivity.
Qed.

Section S.
  Variable R : cring.
  Add Ring RR : (cr_th R).
  Variable M : cmodule R.
  Notation "a *: x" := (mscale a x) (at level 40, left associativity).
  Infix "+:" := madd (at level 50, left associativity).
  Notation madd_0r := (madd_0r R M).
  Lemma madd_cancel (x y z : M) : x +: y = x +: z -> y = z.
  Proof. intros H. rewrite <- (madd_0 R M y), <- (madd_0 R M z), <- (madd_opp R M x). rewrite (madd_comm R M x (mopp x)). rewrite <- !madd_assoc. rewrite H. reflexivity. Qed.
  Lemma mscale_0 (x : M) : c0 *: x = m0.
  Proof. apply (madd_cancel (c0 *: x)). rewrite <- mscale_add_l. rewrite (madd_0r (c0 *: x)). f_equal. ring. Qed.
  Lemma mscale_m0 a : a *: (m0 : M) = m0.
  Proof. apply (madd_cancel (a *: m0)). rewrite <- mscale_add_r, !madd_0r. reflexivity. Qed.
  Lemma mopp_scale (x : M) : mopp x = copp c1 *: x.
  Proof. apply (madd_cancel x). rewrite madd_opp. rewrite <- (mscale_1 R M x) at 1. rewrite <- mscale_add_l. symmetry. rewrite <- (mscale_0 x). f_equal. ring. Qed.
  Lemma mopp_opp (x : M) : mopp (mopp x) = x.
  Proof. apply (madd_cancel (mopp x)). rewrite madd_opp, (madd_comm R M (mopp x) x), madd_opp. reflexivity. Qed.
  Lemma msum_fold {A} (f : A -> M) l x : fold_left (fun d w => d +: f w) l x = x +: msum R M (map f l).
  Proof. revert x. induction l as [|w l IH]; intros x; cbn [fold_left map msum]; [symmetry; apply madd_0r|]. rewrite IH, madd_assoc. reflexivity. Qed.
  Lemma msum_scale a (l : list M) : msum R M (map (mscale a) l) = a *: msum R M l.
  Proof. induction l as [|x l IH]; cbn [map msum]; [symmetry; apply mscale_m0|]. rewrite IH, mscale_add_r. reflexivity. Qed.

  Variable dot : M -> M -> R.
  Notation onto := (onto R M dot).
  (** the copying form *)
  Lemma cp_ok s dest src : (j_inv R M s = true -> j_buf R M s = true) ->
    j_cp R M dot s dest src = Ok (if j_inv R M s then src +: mopp (j_sign R M s *: onto (j_states R M s) src) else j_sign R M s *: onto (j_states R M s) src).
  Proof.
    intros B. unfold j_cp. rewrite (foldM_rd (fun d w => d +: cmul (dot w src) (j_sign R M s) *: w)). cbn [bind]. rewrite (msum_fold (fun w => cmul (dot w src) (j_sign R M s) *: w)), madd_0.
    assert (E : msum R M (map (fun w => cmul (dot w src) (j_sign R M s) *: w) (j_states R M s)) = j_sign R M s *: onto (j_states R M s) src).
    { unfold Projection.onto. rewrite <- msum_scale, map_map. f_equal. apply map_ext. intros w. rewrite <- mscale_mul. f_equal. ring. }
    rewrite E. destruct (j_inv R M s); [rewrite (B eq_refl), mopp_scale; reflexivity|reflexivity].
  Qed.
  Lemma copy_empty this o : j_copy R M this o = Ok (mkProj R M [] (j_sign R M o) (j_inv R M o) (if 0 <? zlen (j_states R M this) then false else j_buf R M this)).
  Proof.
    unfold j_copy. destruct (Z.ltb_spec 0 (zlen (j_states R M this))) as [L|L]; cbn [j_states]; [reflexivity|].
    destruct (j_states R M this) as [|x l] eqn:E; [reflexivity|]. exfalso. unfold zlen in L. cbn in L. lia.
  Qed.

  Section Ortho.
    Hypothesis lin : linear_dot R M dot.
    Lemma dot_0 x : dot x m0 = c0.
    Proof. rewrite <- (mscale_0 m0), (proj2 lin). ring. Qed.
    Lemma dot_opp x y : dot x (mopp y) = copp (dot x y).
    Proof. rewrite mopp_scale, (proj2 lin). ring. Qed.
    Lemma dot_msum {A} x (f : A -> M) l : dot x (msum R M (map f l)) = lsum (fun a => dot x (f a)) l.
    Proof. induction l as [|a l IH]; cbn [map msum lsum]; [apply dot_0|]. rewrite (proj1 lin), IH. reflexivity. Qed.
    Lemma pick (w : list M) (g : M -> R) x k : nth_error w k = Some x -> orthonormal R M dot w -> lsum (fun y => cmul (g y) (dot x y)) w = g x.
    Proof.
      revert k. induction w as [|y w IH]; intros [|k] E O; try discriminate; cbn [lsum].
      - cbn in E. injection E as ->. rewrite (O 0%nat 0%nat x x eq_refl eq_refl). cbn [Nat.eqb]. rewrite lsum_zero; [ring|].
        intros z Hz. apply In_nth_error in Hz. destruct Hz as [j Ej]. rewrite (O 0%nat (S j) x z eq_refl Ej). cbn [Nat.eqb]. ring.
      - cbn in E. rewrite (O (S k) 0%nat x y E eq_refl). cbn [Nat.eqb]. rewrite (IH k E); [ring|]. intros i j a b Ha Hb. apply (O (S i) (S j) a b Ha Hb).
    Qed.
    Lemma dot_onto l x w : orthonormal R M dot l -> In w l -> dot w (onto l x) = dot w x.
    Proof.
      intros O Hw. apply In_nth_error in Hw. destruct Hw as [k Ek]. unfold Projection.onto. rewrite dot_msum. rewrite (lsum_ext R _ (fun y => cmul (dot y x) (dot w y))); [|intros y _; apply (proj2 lin)].
      apply (pick l (fun y => dot y x) w k Ek O).
    Qed.
    Lemma onto_ext l x y : (forall w, In w l -> dot w x = dot w y) -> onto l x = onto l y.
    Proof. intros H. unfold Projection.onto. f_equal. apply map_ext_in. intros w Hw. rewrite (H w Hw). reflexivity. Qed.
    Lemma onto_idem l x : orthonormal R M dot l -> onto l (onto l x) = onto l x.
    Proof. intros O. apply onto_ext. intros w Hw. apply dot_onto; assumption. Qed.
    Lemma onto_zero l x : (forall w, In w l -> dot w x = c0) -> onto l x = m0.
    Proof. intros H. unfold Projection.onto. induction l as [|w l IH]; cbn [map msum]; [reflexivity|]. rewrite (H w (or_introl eq_refl)), mscale_0, madd_0. apply IH. intros v Hv. apply H. right. exact Hv. Qed.
    Lemma rest_zero l x w : orthonormal R M dot l -> In w l -> dot w (x +: mopp (onto l x)) = c0.
    Proof. intros O Hw. rewrite (proj1 lin), dot_opp, (dot_onto l x w O Hw). ring. Qed.
    Lemma onto_member l w : orthonormal R M dot l -> In w l -> onto l w = w.
    Proof.
      intros O Hw. apply In_nth_error in Hw. destruct Hw as [k Ek]. unfold Projection.onto.
      revert k Ek O. induction l as [|y l IH]; intros [|k] Ek O; try discriminate; cbn [map msum].
      - cbn in Ek. injection Ek as ->. rewrite (O 0%nat 0%nat w w eq_refl eq_refl). cbn [Nat.eqb]. rewrite mscale_1.
        change (msum R M (map (fun w0 => dot w0 w *: w0) l)) with (onto l w). rewrite onto_zero, madd_0r; [reflexivity|].
        intros v Hv. apply In_nth_error in Hv. destruct Hv as [j Ej]. rewrite (O (S j) 0%nat v w Ej eq_refl). reflexivity.
      - cbn in Ek. rewrite (O 0%nat (S k) y w eq_refl Ek). cbn [Nat.eqb]. rewrite mscale_0, madd_0. apply (IH k Ek). intros i j a b Ha Hb. apply (O (S i) (S j) a b Ha Hb).
    Qed.
  End Ortho.
End S.

(** jumps *)
Lemma cum_S p k x : nth_error p k = Some x -> cum p (S k) = (cum p k + x)%Qc.
Proof.
  unfold cum. revert k. induction p as [|y p IH]; intros [|k] E; try discriminate; cbn [firstn fold_right] in *.
  - injection E as ->. ring.
  - cbn in E. specialize (IH k E). change (firstn (S k) p) with (match p with [] => [] | a :: l => a :: firstn k l end) in IH. rewrite IH. ring.
Qed.
Lemma cum_mono p i j : Forall (fun x => Q2Qc 0 <= x)%Qc p -> (i <= j)%nat -> (cum p i <= cum p j)%Qc.
Proof.
  intros F. induction 1 as [|j H IH]; [apply Qcle_refl|]. eapply Qcle_trans; [exact IH|]. destruct (nth_error p j) as [x|] eqn:E.
  - rewrite (cum_S p j x E). rewrite <- (Qcplus_0_r (cum p j)) at 1. apply Qcplus_le_compat; [apply Qcle_refl|]. rewrite Forall_forall in F. apply F. eapply nth_error_In. exact E.
  - apply nth_error_None in E. unfold cum. rewrite !firstn_all2 by lia. apply Qcle_refl.
Qed.
Section J.
  Variable R : cring.
  Variable M : cmodule R.
  Variable junk : nat -> M.
  Variable normalize : M -> M.
  Variable prob : M -> Qc.
  Notation implements := (implements R M).
  Definition probs (fs : list (M -> M)) (x : M) : list Qc := map (fun f => prob (f x)) fs.
  Lemma f2_nth (l : list (acts R M)) fs k o : Forall2 implements l fs -> nth_error l k = Some o -> exists f, nth_error fs k = Some f /\ implements o f.
  Proof.
    intros F. revert k. induction F as [|a f l fs H F IH]; intros [|k] E; try discriminate.
    - cbn in E. injection E as ->. exists f. split; [reflexivity|exact H].
    - apply (IH k E).
  Qed.
  Lemma f2_get (l : list (acts R M)) fs i : Forall2 implements l fs -> 0 <= i < zlen l -> exists o f, get l i = Ok o /\ nth_error fs (Z.to_nat i) = Some f /\ implements o f.
  Proof.
    intros F Hi. unfold get. destruct (Z.leb_spec (zlen l) i); [lia|]. destruct (proj1 (rd_ok l i) Hi) as [o Eo]. exists o.
    destruct (f2_nth l fs (Z.to_nat i) o F (rd_nth_error _ _ _ Eo)) as (f & A & B). exists f. split; [exact Eo|]. split; [exact A|exact B].
  Qed.
  Lemma csums_ok l fs n x : Forall2 implements l fs -> exists cs n', csums R M junk prob l n x = Ok (cs, n') /\ zlen cs = zlen l /\
    forall i, 0 <= i < zlen l -> rd cs i = Ok (cum (probs fs x) (Z.to_nat (i + 1))).
  Proof.
    intros F. unfold csums.
    match goal with |- context [foldM ?g0 _ _] => destruct (foldM_upto g0 (fun k s => zlen (fst s) = k /\ forall i, 0 <= i < k -> rd (fst s) i = Ok (cum (probs fs x) (Z.to_nat (i + 1)))) 0 (zlen l) ([], S n)) as ([cs n'] & E & L & P) end.
    - unfold zlen. lia.
    - split; [reflexivity|]. intros; lia.
    - intros k [cs m] Hk [L P]. cbn [fst snd] in *. destruct (f2_get l fs k F Hk) as (o & f & -> & Ef & (Ho & _)). cbn [bind]. destruct (Ho m (junk m) x) as [m' ->]. cbn [bind fst snd].
      assert (Ep : nth_error (probs fs x) (Z.to_nat k) = Some (prob (f x))). { unfold probs. rewrite nth_error_map, Ef. reflexivity. }
      assert (E : (if 0 <? k then rd cs (k - 1) else Ok (Q2Qc 0)) = Ok (cum (probs fs x) (Z.to_nat k))).
      { destruct (Z.ltb_spec 0 k); [rewrite P by lia; do 3 f_equal; lia|]. replace k with 0 by lia. reflexivity. }
      rewrite E. cbn [bind]. eexists. split; [reflexivity|]. cbn [fst]. split; [unfold zlen in *; rewrite app_length; cbn [length]; lia|].
      intros i Hi. destruct (Z.eq_dec i k) as [->|Ni].
      + unfold rd. rewrite (proj2 (Z.leb_le 0 k)) by lia. rewrite nth_error_app2 by (unfold zlen in *; lia). replace (Z.to_nat k - length cs)%nat with O by (unfold zlen in *; lia). cbn [nth_error].
        f_equal. replace (Z.to_nat (k + 1)) with (S (Z.to_nat k)) by lia. rewrite (cum_S _ _ _ Ep). apply Qcplus_comm.
      + rewrite rd_app_l by lia. apply P. lia.
    - exists cs, n'. split; [exact E|]. split; [exact L|exact P].
  Qed.
  Lemma f2_len (l : list (acts R M)) fs : Forall2 implements l fs -> length l = length fs.
  Proof. induction 1; [reflexivity|cbn; lia]. Qed.
  Lemma jump_ok l fs mx rnd n psi : Forall2 implements l fs -> l <> [] -> Forall (fun x => Q2Qc 0 <= x)%Qc (probs fs (normalize psi)) ->
    let c := cum (probs fs (normalize psi)) in
    ((mx <= c (length fs))%Qc -> jump R M junk normalize prob l mx rnd n psi = Throw) /\
    ((c (length fs) < mx)%Qc -> (c (length fs) <= rnd)%Qc -> exists n', jump R M junk normalize prob l mx rnd n psi = Ok (normalize psi, n')) /\
    ((c (length fs) < mx)%Qc -> forall i f, nth_error fs i = Some f -> (i = O \/ (c i <= rnd)%Qc) -> (rnd < c (S i))%Qc -> exists n', jump R M junk normalize prob l mx rnd n psi = Ok (normalize (f (normalize psi)), n')).
  Proof.
    intros F NE Pos c. pose proof (f2_len l fs F) as Len. set (x := normalize psi) in *. assert (LP : 1 <= zlen l) by (destruct l; [congruence|unfold zlen; cbn; lia]).
    destruct (csums_ok l fs n x F) as (cs & n' & E & L & P). unfold jump. fold x. rewrite E. cbn [bind fst snd]. rewrite P by lia. cbn [bind].
    replace (Z.to_nat (zlen cs - 1 + 1)) with (length fs) by (unfold zlen in *; lia). fold c.
    split; [|split].
    - intros Hm. destruct (Qclt_le_dec (c (length fs)) mx) as [Q|Q]; [|reflexivity]. exfalso. exact (Qclt_not_le _ _ Q Hm).
    - intros Hm Hr. destruct (Qclt_le_dec (c (length fs)) mx) as [Q|Q]; [|exfalso; exact (Qclt_not_le _ _ Hm Q)].
      match goal with |- context [foldM ?g0 ?ll ?s0] => assert (G : foldM g0 ll s0 = Ok s0) end.
      { match goal with |- foldM ?g0 _ ?s0 = _ => destruct (foldM_upto g0 (fun k s => s = s0) 0 (zlen l) s0) as (s' & Es & ->); [lia|reflexivity| |exact Es] end.
        intros k s Hk ->. eexists. split; [|reflexivity]. rewrite P by lia. cbn [bind]. destruct (Qclt_le_dec rnd (cum (probs fs x) (Z.to_nat (k + 1)))) as [Q2|Q2]; [|reflexivity].
        exfalso. apply (Qclt_not_le _ _ Q2). eapply Qcle_trans; [|exact Hr]. apply cum_mono; [exact Pos|unfold zlen in *; lia]. }
      rewrite G. cbn [bind fst]. exists n'. reflexivity.
    - intros Hm i f Ef Lo Hi. destruct (Qclt_le_dec (c (length fs)) mx) as [Q|Q]; [|exfalso; exact (Qclt_not_le _ _ Hm Q)].
      assert (Bi : (i < length fs)%nat) by (apply nth_error_Some; congruence).
      match goal with |- context [foldM ?g0 ?ll ?s0] => destruct (foldM_upto g0 (fun k s => (k <= Z.of_nat i /\ s = s0) \/ (Z.of_nat i < k /\ exists m, s = (normalize (f x), m, true))) 0 (zlen l) s0) as (s' & Es & Ps) end.
      + lia.
      + left. split; [lia|reflexivity].
      + intros k s Hk [[K ->]|[K [m ->]]].
        * rewrite P by lia. cbn [bind]. destruct (Qclt_le_dec rnd (cum (probs fs x) (Z.to_nat (k + 1)))) as [Q2|Q2].
          -- assert (Ek : k = Z.of_nat i).
             { destruct (Z.eq_dec k (Z.of_nat i)) as [|Nk]; [assumption|]. exfalso. destruct Lo as [->|Lo]; [lia|]. apply (Qclt_not_le _ _ Q2). eapply Qcle_trans; [|exact Lo]. apply cum_mono; [exact Pos|lia]. }
             destruct (f2_get l fs k F Hk) as (o & f' & -> & Ef' & (_ & Ho & _)). cbn [bind]. destruct (Ho n' x) as [m ->]. cbn [bind fst snd]. eexists. split; [reflexivity|]. right. split; [lia|]. exists m.
             rewrite Ek, Nat2Z.id in Ef'. rewrite Ef in Ef'. injection Ef' as <-. reflexivity.
          -- eexists. split; [reflexivity|]. left. split; [|reflexivity]. destruct (Z.eq_dec k (Z.of_nat i)) as [Ek|Nk]; [|lia]. exfalso. apply (Qclt_not_le _ _ Hi).
             replace (Z.to_nat (k + 1)) with (S i) in Q2 by lia. exact Q2.
        * eexists. split; [reflexivity|]. right. split; [lia|]. exists m. reflexivity.
      + rewrite Es. cbn [bind]. destruct Ps as [[K _]|[_ [m ->]]]; [unfold zlen in *; lia|]. exists m. reflexivity.
  Qed.
  Lemma jump_empty mx rnd n psi : jump R M junk normalize prob [] mx rnd n psi = UB.
  Proof. reflexivity. Qed.
End J.
