(** Proofs about filter chains. *)
From Coq Require Import Ascii String List NArith ZArith Lia Bool Arith Ring.
From Verif Require Import Base Arrays Algebra Model.Filters Spec.Filters.
Import ListNotations.
Open Scope Z_scope.

Section P.
  Variable C : fld.
  Variable X : Type.
  Add Ring RR : (cr_th C).
  Variable norm2 : X -> C.
  Variable normalize : X -> X.
  Variable nstates : X -> option Z.
  Variable overlap : X -> Z -> Z -> C.
  Variable dt : C.
  Notation filt := (filt C X).
  Notation acts_on := (acts_on C X normalize).
  Notation after := (after C X normalize).
  Notation value := (value C X norm2 overlap).
  Notation fits := (fits C X nstates).
  Notation all_fit := (all_fit C X normalize nstates).
  Notation one := (one C X norm2 normalize nstates overlap dt).
  Notation l_apply := (l_apply C X norm2 normalize nstates overlap dt).
  (** the filter after reporting on x, and the numbers reported *)
  Definition upd1 (renorm : bool) (f : filt) (x : X) : filt := match value renorm f x with Some v => add_value C X dt f v | None => f end.
  Definition told1 (renorm : bool) (f : filt) (x : X) : list C := match value renorm f x with Some v => [f_sum C X (add_value C X dt f v)] | None => [] end.
  Fixpoint updated (renorm : bool) (fs : list filt) (x : X) : list filt := match fs with [] => [] | f :: t => upd1 renorm f x :: updated renorm t (acts_on f x) end.
  Notation told := (told C X norm2 normalize overlap dt).
  Lemma told_cons renorm f t x : told renorm (f :: t) x = (told1 renorm f x ++ told renorm t (acts_on f x))%list.
  Proof. reflexivity. Qed.
  Lemma rd_mid {A} (pre : list A) a post : rd (pre ++ a :: post) (zlen pre) = Ok a.
  Proof. unfold rd, zlen. destruct (Z.leb_spec 0 (Z.of_nat (length pre))); [|lia]. rewrite nth_error_app2 by lia. replace (Z.to_nat (Z.of_nat (length pre)) - length pre)%nat with O by lia. reflexivity. Qed.
  Lemma upd_mid {A} (pre : list A) a post b : upd (pre ++ a :: post) (length pre) b = (pre ++ b :: post)%list.
  Proof. induction pre as [|x t IH]; cbn; [reflexivity|]. rewrite IH. reflexivity. Qed.
  Lemma wr_mid {A} (pre : list A) a post b : wr (pre ++ a :: post) (zlen pre) b = Ok (pre ++ b :: post)%list.
  Proof. rewrite wr_ok by (unfold zlen; rewrite app_length; cbn [length]; lia). unfold zlen. rewrite Nat2Z.id, upd_mid. reflexivity. Qed.
  Lemma one_ok renorm pre f post x out : fits f x -> one renorm ((pre ++ f :: post)%list, x, out) (zlen pre) = Ok ((pre ++ upd1 renorm f x :: post)%list, acts_on f x, (out ++ told1 renorm f x)%list).
  Proof.
    intros F. unfold Filters.one. rewrite rd_mid. cbn [bind]. unfold Spec.Filters.fits in F. unfold upd1, told1, Spec.Filters.value, Spec.Filters.acts_on. destruct (f_action C X f) eqn:A.
    - destruct (f_op C X f); [|contradiction]. rewrite wr_mid. reflexivity.
    - destruct (f_op C X f); [|contradiction]. rewrite app_nil_r. reflexivity.
    - destruct (f_op C X f); [|contradiction]. rewrite wr_mid. reflexivity.
    - rewrite app_nil_r. reflexivity.
    - destruct F as (n & -> & F1 & F2). destruct (Z.leb_spec 0 (f_ms0 C X f)), (Z.ltb_spec (f_ms0 C X f) n), (Z.leb_spec 0 (f_ms1 C X f)), (Z.ltb_spec (f_ms1 C X f) n); try lia. cbn [andb]. rewrite wr_mid. reflexivity.
  Qed.
  Lemma all_ok renorm fs : forall pre post x out, all_fit fs x ->
    foldM (one renorm) (upto (zlen pre) (zlen pre + zlen fs)) ((pre ++ fs ++ post)%list, x, out) = Ok ((pre ++ updated renorm fs x ++ post)%list, after fs x, (out ++ told renorm fs x)%list).
  Proof.
    induction fs as [|f t IH]; intros pre post x out F.
    - change (zlen (@nil filt)) with 0. rewrite upto_nil by lia. cbn. rewrite app_nil_r. reflexivity.
    - assert (Zt : zlen (f :: t) = zlen t + 1) by (unfold zlen; cbn [length]; lia). assert (0 <= zlen t) by (unfold zlen; lia). rewrite Zt. rewrite upto_cons by lia. cbn [foldM app]. rewrite one_ok by (apply (F O f); reflexivity). cbn [bind].
      replace (zlen pre + 1) with (zlen (pre ++ [upd1 renorm f x])) by (unfold zlen; rewrite app_length; cbn [length]; lia). replace (zlen pre + (zlen t + 1)) with (zlen (pre ++ [upd1 renorm f x]) + zlen t) by (unfold zlen; rewrite app_length; cbn [length]; lia).
      specialize (IH (pre ++ [upd1 renorm f x])%list post (acts_on f x) (out ++ told1 renorm f x)%list). rewrite <- !app_assoc in IH. cbn [app] in IH. rewrite IH; [rewrite told_cons; cbn [updated Spec.Filters.after fold_left]; rewrite <- ?app_assoc; reflexivity|].
      intros i g E. apply (F (S i) g E).
  Qed.
  Lemma apply_ok s x : 0 <= l_size C X s <= zlen (l_f C X s) -> all_fit (active C X s) x ->
    (l_ready C X s = false -> forall f, In f (active C X s) -> check C X nstates x f = Ok tt) ->
    exists s', l_apply s x = Ok (s', after (active C X s) x, told (l_renorm C X s) (active C X s) x) /\ active C X s' = updated (l_renorm C X s) (active C X s) x /\
      l_renorm C X s' = l_renorm C X s /\ l_size C X s' = l_size C X s /\ zlen (l_f C X s') = zlen (l_f C X s) /\ (l_ready C X s' = true \/ l_size C X s = 0).
  Proof.
    intros Hs F Ck. unfold Filters.l_apply. destruct (Z.eqb_spec (l_size C X s) 0) as [E|E].
    - exists s. assert (A : active C X s = []) by (unfold active; rewrite E; reflexivity). rewrite A. cbn. repeat split; try reflexivity. right. exact E.
    - assert (D : l_f C X s = (active C X s ++ skipn (Z.to_nat (l_size C X s)) (l_f C X s))%list) by (symmetry; apply firstn_skipn).
      assert (L : zlen (active C X s) = l_size C X s) by (unfold active, zlen in *; rewrite firstn_length; lia).
      match goal with |- context [let* _ := ?a in _] => assert (K : a = Ok tt) end.
      { destruct (l_ready C X s); [reflexivity|]. specialize (Ck eq_refl). match goal with |- foldM ?f0 _ _ = _ => destruct (foldM_upto f0 (fun _ _ => True) 0 (l_size C X s) tt) as ([] & Q & _); [lia|constructor| |exact Q] end.
        intros k [] Hk _. exists tt. split; [|constructor]. assert (Hn : (Z.to_nat k < length (active C X s))%nat) by (unfold zlen in L; lia).
        destruct (nth_error (active C X s) (Z.to_nat k)) as [f|] eqn:N; [|apply nth_error_None in N; lia]. unfold rd. destruct (Z.leb_spec 0 k); [|lia]. rewrite D, nth_error_app1, N by lia. cbn [bind]. apply Ck. apply (nth_error_In _ _ N). }
      rewrite K. cbn [bind]. pose proof (all_ok (l_renorm C X s) (active C X s) [] (skipn (Z.to_nat (l_size C X s)) (l_f C X s)) x [] F) as G. change (zlen (@nil filt)) with 0 in G. cbn [app] in G. rewrite L, <- D in G. change (0 + l_size C X s) with (l_size C X s) in G. rewrite G. cbn [bind].
      eexists. split; [reflexivity|]. unfold active at 1. cbn [l_f l_size l_renorm l_ready].
      assert (Lu : forall fs y, length (updated (l_renorm C X s) fs y) = length fs) by (induction fs as [|f t IHt]; intros y; cbn; [reflexivity|]; rewrite IHt; reflexivity).
      split; [|split; [reflexivity|split; [reflexivity|split; [|left; reflexivity]]]].
      + rewrite firstn_app, Lu. replace (Z.to_nat (l_size C X s) - length (active C X s))%nat with O by (unfold zlen in L; lia). cbn [firstn]. rewrite app_nil_r, firstn_all2; [reflexivity|]. rewrite Lu. unfold zlen in L. lia.
      + unfold zlen. rewrite app_length, Lu, <- app_length, <- D. reflexivity.
  Qed.
  (** reports of a filter in a list *)
  Lemma updated_nth renorm fs : forall x i, nth_error (updated renorm fs x) i = match nth_error fs i with Some f => Some (upd1 renorm f (after (firstn i fs) x)) | None => None end.
  Proof.
    induction fs as [|f t IH]; intros x [|i]; cbn [updated nth_error]; try reflexivity. rewrite IH. destruct (nth_error t i); reflexivity.
  Qed.
  (** everything but the sum stays *)
  Definition same (f g : filt) : Prop := f_op C X f = f_op C X g /\ f_ms0 C X f = f_ms0 C X g /\ f_ms1 C X f = f_ms1 C X g /\ f_action C X f = f_action C X g /\ f_int C X f = f_int C X g.
  Lemma upd1_same renorm f x : same f (upd1 renorm f x).
  Proof. unfold upd1. destruct (value renorm f x); repeat split. Qed.
  Lemma same_acts f g x : same f g -> acts_on f x = acts_on g x.
  Proof. intros (H1 & _ & _ & H4 & _). unfold Spec.Filters.acts_on. rewrite H1, H4. reflexivity. Qed.
  Lemma same_value renorm f g x : same f g -> value renorm f x = value renorm g x.
  Proof. intros (H1 & H2 & H3 & H4 & _). unfold Spec.Filters.value. rewrite H1, H2, H3, H4. reflexivity. Qed.
  Lemma same_fits f g x : same f g -> fits f x -> fits g x.
  Proof. intros (H1 & H2 & H3 & H4 & _). unfold Spec.Filters.fits. rewrite H1, H2, H3, H4. auto. Qed.
  Lemma updated_same renorm fs x : Forall2 same fs (updated renorm fs x).
  Proof. revert x. induction fs as [|f t IH]; intros x; cbn; constructor; [apply upd1_same|apply IH]. Qed.
  Lemma after_same fs gs x : Forall2 same fs gs -> after fs x = after gs x.
  Proof. intros F. revert x. induction F as [|f g fs gs H F IH]; intros x; [reflexivity|]. cbn. rewrite (same_acts f g x H). apply IH. Qed.
  Lemma firstn_same fs gs i : Forall2 same fs gs -> Forall2 same (firstn i fs) (firstn i gs).
  Proof. intros F. revert i. induction F as [|f g fs gs H F IH]; intros [|i]; cbn; constructor; [exact H|apply IH]. Qed.
  Lemma nth_same fs gs i g : Forall2 same fs gs -> nth_error gs i = Some g -> exists f, nth_error fs i = Some f /\ same f g.
  Proof. intros F. revert i. induction F as [|f g' fs gs H F IH]; intros [|i] E; cbn in *; try discriminate; [injection E as <-; exists f; split; [reflexivity|exact H]|apply IH; exact E]. Qed.
  Lemma fit_same fs gs x : Forall2 same fs gs -> all_fit fs x -> all_fit gs x.
  Proof.
    intros F H i g E. destruct (nth_same fs gs i g F E) as (f & E1 & S). apply (same_fits f g _ S). rewrite <- (after_same _ _ x (firstn_same fs gs i F)). apply H. exact E1.
  Qed.
  Lemma check_same f g x : same f g -> check C X nstates x f = check C X nstates x g.
  Proof. intros (H1 & H2 & H3 & H4 & _). unfold check. rewrite H1, H2, H3, H4. reflexivity. Qed.
  Lemma applied_sum s xs s' : applied C X norm2 normalize nstates overlap dt s xs s' -> 0 <= l_size C X s <= zlen (l_f C X s) ->
    (forall x, In x xs -> all_fit (active C X s) x /\ forall f, In f (active C X s) -> check C X nstates x f = Ok tt) ->
    forall i f, nth_error (active C X s) i = Some f -> f_int C X f = true ->
      exists f', nth_error (active C X s') i = Some f' /\
        f_sum C X f' = cadd (f_sum C X f) (lsum (fun x => match value (l_renorm C X s) f (after (firstn i (active C X s)) x) with Some v => cmul v dt | None => c0 end) xs).
  Proof.
    induction 1 as [s|s x xs s1 y out s2 E A IH]; intros Hs Hx i f Hf Hi.
    - exists f. split; [exact Hf|]. cbn. ring.
    - destruct (Hx x (or_introl eq_refl)) as [F Ck]. destruct (apply_ok s x Hs F (fun _ => Ck)) as (s1' & E' & U & Rn & Sz & Lf & _). rewrite E in E'. injection E' as <- _ _.
      assert (Sm : Forall2 same (active C X s) (active C X s1)) by (rewrite U; apply updated_same).
      assert (Hf1 : nth_error (active C X s1) i = Some (upd1 (l_renorm C X s) f (after (firstn i (active C X s)) x))) by (rewrite U, updated_nth, Hf; reflexivity).
      pose proof (upd1_same (l_renorm C X s) f (after (firstn i (active C X s)) x)) as S1.
      destruct (IH) with (i := i) (f := upd1 (l_renorm C X s) f (after (firstn i (active C X s)) x)) as (f' & N & Q).
      + rewrite Sz, Lf. exact Hs.
      + intros z Hz. destruct (Hx z (or_intror Hz)) as [Fz Cz]. split; [apply (fit_same _ _ z Sm Fz)|]. intros g Hg. apply In_nth_error in Hg. destruct Hg as [j Hg]. destruct (nth_same _ _ j g Sm Hg) as (g0 & G1 & G2). rewrite <- (check_same g0 g z G2). apply Cz. apply (nth_error_In _ _ G1).
      + exact Hf1.
      + destruct S1 as (_ & _ & _ & _ & S5). rewrite <- S5. exact Hi.
      + exists f'. split; [exact N|]. rewrite Q. cbn [lsum]. rewrite Rn.
        assert (L : lsum (fun z => match value (l_renorm C X s) (upd1 (l_renorm C X s) f (after (firstn i (active C X s)) x)) (after (firstn i (active C X s1)) z) with Some v => cmul v dt | None => c0 end) xs
          = lsum (fun z => match value (l_renorm C X s) f (after (firstn i (active C X s)) z) with Some v => cmul v dt | None => c0 end) xs).
        { apply (lsum_ext C). intros z _. rewrite <- (same_value _ _ _ _ S1), <- (after_same _ _ z (firstn_same _ _ i Sm)). reflexivity. }
        rewrite L. unfold upd1. destruct (value (l_renorm C X s) f (after (firstn i (active C X s)) x)) as [v|]; [|ring]. cbn [add_value f_sum]. rewrite Hi. ring.
  Qed.

  (** * Definitions *)
  Notation defines := (defines C X).
  Definition fresh_from (k : Z) (fs : list filt) : Prop := forall i, k <= i < zlen fs -> rd fs i = Ok (f_blank C X).
  Lemma parse_named a : str_eqb a (lit "normalize") = false -> str_eqb a (lit "rho") = false -> forall x, parse_action a = Some x -> x <> Normalize /\ x <> Rho.
  Proof.
    intros N R x. unfold parse_action. destruct a as [|c t]; [intros E; cbn in E; injection E as <-; split; discriminate|]. rewrite N. destruct (str_eqb (c :: t) (lit "expec")); [intros E; injection E as <-; split; discriminate|].
    destruct (str_eqb (c :: t) (lit "apply")); [intros E; injection E as <-; split; discriminate|]. destruct (str_eqb (c :: t) (lit "expeconly")); [intros E; injection E as <-; split; discriminate|]. rewrite R. discriminate.
  Qed.
  Lemma node_ok s n s' : zlen (l_f C X s) = MAX_FILTERS -> 0 <= l_size C X s -> fresh_from (l_size C X s) (l_f C X s) -> l_node C X s n = Ok s' ->
    zlen (l_f C X s') = MAX_FILTERS /\ l_size C X s' = l_size C X s + 1 /\ l_size C X s < MAX_FILTERS /\ fresh_from (l_size C X s') (l_f C X s') /\ l_ready C X s' = l_ready C X s /\ l_renorm C X s' = l_renorm C X s /\
    exists f, rd (l_f C X s') (l_size C X s) = Ok f /\ defines n f /\ forall i, i < l_size C X s -> rd (l_f C X s') i = rd (l_f C X s) i.
  Proof.
    intros L Z0 Fr E. unfold l_node in E. destruct (Z.leb_spec MAX_FILTERS (l_size C X s)) as [|Hm]; [discriminate|]. rewrite (Fr (l_size C X s)) in E by lia. cbn [bind f_blank f_op f_label f_ms0 f_ms1 f_action f_value f_sum f_int] in E.
    match type of E with (let '(o, label) := ?p in _) = _ => destruct p as [o label] eqn:P end. rewrite wr_ok in E by lia. cbn [bind] in E. unfold l_add in E. cbn [l_size l_f] in E. destruct (Z.leb_spec MAX_FILTERS (l_size C X s)); [discriminate|].
    destruct (parse_value _) as [v|]; [|discriminate]. destruct (parse_action (n_name C X n)) as [a|] eqn:Pa; [|discriminate]. rewrite rd_upd in E by lia. rewrite Z.eqb_refl in E. cbn [bind f_ms0 f_ms1 f_op f_label] in E.
    match type of E with (let* _ := ?p in _) = _ => destruct p as [[i j]| |] eqn:Pm end; [|discriminate|discriminate]. cbn [bind fst snd] in E. rewrite wr_ok in E by (rewrite zlen_upd; lia). cbn [bind] in E. injection E as <-. cbn [l_f l_size l_ready l_renorm].
    rewrite !zlen_upd. split; [exact L|]. split; [reflexivity|]. split; [lia|]. split; [|split; [reflexivity|split; [reflexivity|]]].
    - intros k Hk. rewrite !zlen_upd in Hk. rewrite !rd_upd by (rewrite ?zlen_upd; lia). rewrite !(proj2 (Z.eqb_neq _ _)) by lia. apply Fr. lia.
    - eexists. split; [rewrite rd_upd by (rewrite zlen_upd; lia); rewrite Z.eqb_refl; reflexivity|]. split.
      + unfold defines. cbn [f_action f_int f_sum f_op f_ms0 f_ms1]. split; [exact Pa|]. split; [reflexivity|]. split; [reflexivity|]. split.
        * destruct (str_eqb (n_name C X n) (lit "normalize")) eqn:Nn; [|destruct (str_eqb (n_name C X n) (lit "rho")) eqn:Nr].
          -- apply str_eqb_true in Nn. rewrite Nn in Pa. cbn in Pa. injection Pa as <-. exact I.
          -- apply str_eqb_true in Nr. rewrite Nr in Pa. cbn in Pa. injection Pa as <-. exact I.
          -- injection P as <- _. destruct a; try reflexivity; exact I.
        * destruct (n_ms C X n) as [|x [|y [|z t]]]; try discriminate; injection Pm as <- <-; [right; repeat split|left; reflexivity].
      + intros k Hk. rewrite !rd_upd by (rewrite ?zlen_upd; lia). rewrite !(proj2 (Z.eqb_neq _ _)) by lia. reflexivity.
  Qed.
  Lemma nodes_ok ns : forall s s', zlen (l_f C X s) = MAX_FILTERS -> 0 <= l_size C X s -> fresh_from (l_size C X s) (l_f C X s) -> foldM (l_node C X) ns s = Ok s' ->
    zlen (l_f C X s') = MAX_FILTERS /\ l_size C X s' = l_size C X s + zlen ns /\ l_size C X s' <= Z.max (l_size C X s) MAX_FILTERS /\ l_ready C X s' = l_ready C X s /\ l_renorm C X s' = l_renorm C X s /\
    (forall i, i < l_size C X s -> rd (l_f C X s') i = rd (l_f C X s) i) /\
    forall i n, nth_error ns i = Some n -> exists f, rd (l_f C X s') (l_size C X s + Z.of_nat i) = Ok f /\ defines n f.
  Proof.
    induction ns as [|n t IH]; intros s s' L Z0 Fr E; cbn [foldM] in E.
    - injection E as <-. change (zlen (@nil (node C X))) with 0. repeat split; try assumption; try lia. intros [|i] n; discriminate.
    - destruct (l_node C X s n) as [s1| |] eqn:E1; try discriminate. cbn [bind] in E. destruct (node_ok s n s1 L Z0 Fr E1) as (L1 & S1 & M1 & F1 & R1 & Q1 & f & Rf & Df & Ro).
      destruct (IH s1 s' L1) as (L2 & S2 & M2 & R2 & Q2 & Ro2 & D2); [lia|exact F1|exact E|]. split; [exact L2|]. split; [rewrite S2, S1; unfold zlen; cbn [length]; lia|]. split; [lia|]. split; [congruence|]. split; [congruence|]. split.
      + intros i Hi. rewrite Ro2 by lia. apply Ro. exact Hi.
      + intros [|i] m Em; cbn [nth_error] in Em.
        * injection Em as <-. exists f. split; [|exact Df]. rewrite Z.add_0_r, Ro2 by lia. exact Rf.
        * destruct (D2 i m Em) as (g & Rg & Dg). exists g. split; [|exact Dg]. rewrite S1 in Rg. rewrite <- Rg. f_equal. lia.
  Qed.
  Lemma init_ok renorm ns s : l_init C X (l_new C X) renorm ns = Ok s -> zlen (active C X s) = zlen ns /\ 0 <= l_size C X s <= zlen (l_f C X s) /\ l_ready C X s = false /\
    Forall2 defines ns (active C X s).
  Proof.
    intros E. unfold l_init in E. change (l_size C X (l_new C X)) with 0 in E. cbn [Z.ltb Z.compare] in E. destruct ns as [|n0 t0]; [discriminate|]. set (ns := n0 :: t0) in *.
    match type of E with foldM _ _ ?s0 = _ => destruct (nodes_ok ns s0 s) as (L & S & M & R & Q & _ & D) end.
    - cbn [l_f l_new]. unfold zlen. rewrite repeat_length. reflexivity.
    - reflexivity.
    - intros i Hi. cbn [l_f l_new l_size] in *. rewrite (rd_nth _ i (f_blank C X)) by lia. rewrite nth_repeat. reflexivity.
    - exact E.
    - cbn [l_size l_new] in *. assert (Ln : zlen ns <= MAX_FILTERS) by (unfold MAX_FILTERS in *; lia). assert (La : zlen (active C X s) = zlen ns) by (unfold active, zlen in *; rewrite firstn_length; lia).
      split; [exact La|]. split; [unfold zlen in *; lia|]. split; [exact R|].
      assert (G : forall (l1 : list (node C X)) (l2 : list filt), length l1 = length l2 -> (forall i n, nth_error l1 i = Some n -> exists f, nth_error l2 i = Some f /\ defines n f) -> Forall2 defines l1 l2).
      { induction l1 as [|a l1 IHl]; intros [|b l2] Hl H; try discriminate; constructor; [destruct (H O a eq_refl) as (f & Ef & Df); injection Ef as <-; exact Df|]. apply IHl; [cbn in Hl; lia|]. intros i n Hn. apply (H (Datatypes.S i) n Hn). }
      apply G; [unfold zlen in La; lia|]. intros i n Hn. destruct (D i n Hn) as (f & Rf & Df). exists f. split; [|exact Df]. assert (Hi : (i < length ns)%nat) by (apply nth_error_Some; congruence).
      unfold rd in Rf. destruct (Z.leb_spec 0 (0 + Z.of_nat i)); [|lia]. replace (Z.to_nat (0 + Z.of_nat i)) with i in Rf by lia. destruct (nth_error (l_f C X s) i) as [g|] eqn:N; [|discriminate]. injection Rf as <-.
      unfold active. rewrite <- (firstn_skipn (Z.to_nat (l_size C X s)) (l_f C X s)) in N. rewrite nth_error_app1 in N; [exact N|]. fold (active C X s). unfold zlen in La. lia.
  Qed.
  Lemma usable_fit ns fs x : (forall y, nstates (normalize y) = nstates y) -> Forall2 defines ns fs -> (forall n, In n ns -> keeps C X nstates n) -> (forall n, In n ns -> usable C X nstates x n) ->
    all_fit fs x /\ forall f, In f fs -> check C X nstates x f = Ok tt.
  Proof.
    intros Hn D K U.
    assert (K1 : forall l y, (forall f, In f l -> exists n, In n ns /\ defines n f) -> nstates (after l y) = nstates y).
    { induction l as [|f l IH]; intros y Hl; [reflexivity|]. cbn [Spec.Filters.after fold_left]. fold (after l (acts_on f y)). rewrite IH by (intros g Hg; apply Hl; right; exact Hg). destruct (Hl f (or_introl eq_refl)) as (n & In1 & _ & _ & _ & Dop & _). unfold Spec.Filters.acts_on. destruct (f_action C X f); try reflexivity; try (rewrite Dop; apply (K n In1)); apply Hn. }
    assert (Src : forall f, In f fs -> exists n, In n ns /\ defines n f).
    { intros f Hf. clear - D Hf. induction D as [|n g ns fs H D IH]; [contradiction|]. destruct Hf as [<-|Hf]; [exists n; split; [left; reflexivity|exact H]|]. destruct (IH Hf) as (m & Hm & Dm). exists m. split; [right; exact Hm|exact Dm]. }
    split.
    - intros i f E. destruct (Src f (nth_error_In _ _ E)) as (n & In1 & Da & _ & _ & Dop & Dms). specialize (U n In1). unfold usable in U. unfold Spec.Filters.fits.
      assert (Ns : nstates (after (firstn i fs) x) = nstates x). { apply K1. intros g Hg. apply Src. rewrite <- (firstn_skipn i fs). apply in_or_app. left. exact Hg. }
      destruct (f_action C X f); try exact I; try (rewrite Dop; discriminate). rewrite Ns. destruct Dms as [Dms|(Dms & _)]; rewrite Dms in U; [exact U|]. exfalso. apply U. clear - Da. unfold parse_action in Da. destruct (n_name C X n) as [|c t]; [discriminate|].
      repeat (match type of Da with (if ?b then _ else _) = _ => destruct b eqn:? end; try discriminate). apply str_eqb_true. assumption.
    - intros f Hf. destruct (Src f Hf) as (n & In1 & _ & _ & _ & Dop & Dms). specialize (U n In1). unfold usable in U. unfold check.
      assert (B : (match f_action C X f with Normalize | Rho => Ok tt | _ => match f_op C X f with None => UB | Some _ => Ok tt end end) = Ok tt) by (destruct (f_action C X f); try reflexivity; rewrite Dop; reflexivity). rewrite B. cbn [bind].
      destruct Dms as [Dms|(Dms & -> & ->)]; [|reflexivity]. rewrite Dms in U. destruct U as (k & -> & U1 & U2). destruct (_ || _)%bool; [|reflexivity]. destruct (Z.leb_spec k (f_ms0 C X f)), (Z.leb_spec k (f_ms1 C X f)); try lia. reflexivity.
  Qed.
  Lemma applied_inv s xs s' : applied C X norm2 normalize nstates overlap dt s xs s' -> 0 <= l_size C X s <= zlen (l_f C X s) ->
    (forall x, In x xs -> all_fit (active C X s) x /\ forall f, In f (active C X s) -> check C X nstates x f = Ok tt) ->
    Forall2 same (active C X s) (active C X s') /\ 0 <= l_size C X s' <= zlen (l_f C X s').
  Proof.
    induction 1 as [s|s x xs s1 y out s2 E A IH]; intros Hs Hx.
    - split; [|exact Hs]. clear. induction (active C X s); constructor; [repeat split|assumption].
    - destruct (Hx x (or_introl eq_refl)) as [F Ck]. destruct (apply_ok s x Hs F (fun _ => Ck)) as (s1' & E' & U & Rn & Sz & Lf & _). rewrite E in E'. injection E' as <- _ _.
      assert (Sm : Forall2 same (active C X s) (active C X s1)) by (rewrite U; apply updated_same).
      destruct IH as [F2 B].
      + rewrite Sz, Lf. exact Hs.
      + intros z Hz. destruct (Hx z (or_intror Hz)) as [Fz Cz]. split; [apply (fit_same _ _ z Sm Fz)|]. intros g Hg. apply In_nth_error in Hg. destruct Hg as [j Hg]. destruct (nth_same _ _ j g Sm Hg) as (g0 & G1 & G2). rewrite <- (check_same g0 g z G2). apply Cz. apply (nth_error_In _ _ G1).
      + split; [|exact B]. clear - Sm F2. revert F2. generalize (active C X s2). induction Sm as [|a b l1 l2 H F IH]; intros l3 F2; inversion F2 as [|? c ? l4 H2 F3]; subst; constructor; [|apply IH; exact F3]. unfold same in *. intuition congruence.
  Qed.
  Lemma applied_snoc s xs s1 x y out s2 : applied C X norm2 normalize nstates overlap dt s xs s1 -> l_apply s1 x = Ok (s2, y, out) -> applied C X norm2 normalize nstates overlap dt s (xs ++ [x]) s2.
  Proof. induction 1; intros E; cbn [app]; [eapply ap_cons; [exact E|constructor]|eapply ap_cons; [eassumption|auto]]. Qed.
  Lemma history_apply renorm ns s0 xs s x : (forall y, nstates (normalize y) = nstates y) -> (forall n, In n ns -> keeps C X nstates n) -> (forall n y, In n ns -> In y (xs ++ [x]) -> usable C X nstates y n) ->
    l_init C X (l_new C X) renorm ns = Ok s0 -> applied C X norm2 normalize nstates overlap dt s0 xs s ->
    exists s', l_apply s x = Ok (s', after (active C X s0) x, told (l_renorm C X s) (active C X s) x) /\ applied C X norm2 normalize nstates overlap dt s0 (xs ++ [x]) s'.
  Proof.
    intros Hn K U E A. destruct (init_ok renorm ns s0 E) as (_ & B & _ & D).
    assert (Hx : forall y, In y (xs ++ [x]) -> all_fit (active C X s0) y /\ forall f, In f (active C X s0) -> check C X nstates y f = Ok tt) by (intros y Hy; apply (usable_fit ns); auto).
    destruct (applied_inv s0 xs s A B) as [Sm B1]; [intros y Hy; apply Hx; apply in_or_app; left; exact Hy|]. destruct (Hx x) as [F Ck]; [apply in_or_app; right; left; reflexivity|].
    destruct (apply_ok s x B1 (fit_same _ _ x Sm F)) as (s' & E' & _).
    - intros _ g Hg. apply In_nth_error in Hg. destruct Hg as [j Hg]. destruct (nth_same _ _ j g Sm Hg) as (g0 & G1 & G2). rewrite <- (check_same g0 g x G2). apply Ck. apply (nth_error_In _ _ G1).
    - exists s'. rewrite (after_same _ _ x Sm). split; [exact E'|]. eapply applied_snoc; eassumption.
  Qed.
  Lemma history_sum renorm ns s0 xs s : (forall y, nstates (normalize y) = nstates y) -> (forall n, In n ns -> keeps C X nstates n) -> (forall n y, In n ns -> In y xs -> usable C X nstates y n) ->
    l_init C X (l_new C X) renorm ns = Ok s0 -> applied C X norm2 normalize nstates overlap dt s0 xs s ->
    forall i f, nth_error (active C X s0) i = Some f -> f_int C X f = true ->
    exists f', nth_error (active C X s) i = Some f' /\
      f_sum C X f' = cmul (lsum (fun x => match value (l_renorm C X s0) f (after (firstn i (active C X s0)) x) with Some v => v | None => c0 end) xs) dt.
  Proof.
    intros Hn K U E A i f Hf Hi. destruct (init_ok renorm ns s0 E) as (_ & B & _ & D).
    destruct (applied_sum s0 xs s A B) with (i := i) (f := f) as (f' & N & Q); [intros y Hy; apply (usable_fit ns); auto|exact Hf|exact Hi|]. exists f'. split; [exact N|]. rewrite Q.
    assert (S0 : f_sum C X f = c0). { clear - D Hf. revert i Hf. induction D as [|n g ns fs H D IH]; intros [|i] Hf; cbn in Hf; try discriminate; [injection Hf as <-; apply H|apply (IH i Hf)]. }
    rewrite S0. clear. induction xs as [|y t IH]; cbn [lsum]; [ring|]. match goal with |- cadd c0 (cadd ?a ?b) = _ => replace (cadd c0 (cadd a b)) with (cadd a (cadd c0 b)) by ring end. rewrite IH. destruct (value _ _ _); ring.
  Qed.
  Lemma add_null o h a v ms int s x : a <> lit "normalize" -> a <> lit "rho" -> l_add C X (l_new C X) (Some o) h a v ms int = Ok s -> l_apply s x = UB.
  Proof.
    intros Na Nr E. unfold l_add in E. change (MAX_FILTERS <=? l_size C X (l_new C X)) with false in E. cbv iota in E. destruct (parse_value v) as [k|]; [|discriminate]. destruct (parse_action a) as [b|] eqn:Pa; [|discriminate].
    change (rd (l_f C X (l_new C X)) (l_size C X (l_new C X))) with (@Ok filt (f_blank C X)) in E. cbn [bind f_ms0 f_ms1 f_op f_blank f_label] in E. match type of E with (let* _ := ?p in _) = _ => destruct p as [[i j]| |] end; try discriminate. cbn [bind fst snd] in E.
    change (l_size C X (l_new C X)) with 0 in E. rewrite wr_ok in E by (split; [lia|reflexivity]). cbn [bind] in E. injection E as <-. unfold Filters.l_apply. cbn [l_size l_ready l_f]. change (0 + 1 =? 0) with false. cbv iota.
    assert (Nb : b <> Normalize /\ b <> Rho). { apply (parse_named a) with (x := b); [| |exact Pa]; apply str_eqb_false; assumption. } destruct Nb as [N1 N2].
    destruct b; try congruence; reflexivity.
  Qed.
  (** states that do not exist *)
  Lemma fold_throw (g : Z -> outcome unit) l : (forall k, In k l -> g k = Ok tt \/ g k = Throw) -> (exists k, In k l /\ g k = Throw) -> foldM (fun _ k => g k) l tt = Throw.
  Proof.
    induction l as [|a l IH]; intros H (k & Hk & E); [contradiction|]. cbn [foldM]. destruct (H a (or_introl eq_refl)) as [Ea|Ea]; rewrite Ea; [|reflexivity]. cbn [bind].
    apply IH; [intros b Hb; apply H; right; exact Hb|]. destruct Hk as [->|Hk]; [congruence|]. exists k. split; assumption.
  Qed.
  Lemma states_refused renorm ns s nd i j x : l_init C X (l_new C X) renorm ns = Ok s -> In nd ns -> n_ms C X nd = [i; j] -> -1 < i \/ -1 < j ->
    nstates x = None \/ (exists n, nstates x = Some n /\ (n <= i \/ n <= j)) -> l_apply s x = Throw.
  Proof.
    intros E In1 M Pos Bad. destruct (init_ok renorm ns s E) as (La & Sz & R & D).
    assert (Hs : 0 < l_size C X s). { destruct ns; [contradiction|]. unfold active, zlen in La. rewrite firstn_length in La. cbn [length] in La. lia. }
    unfold Filters.l_apply. destruct (Z.eqb_spec (l_size C X s) 0); [lia|]. rewrite R.
    rewrite (fold_throw (fun i => let* f := rd (l_f C X s) i in check C X nstates x f)); [reflexivity| |].
    - intros k Hk. apply in_upto in Hk.
      assert (Hn : (Z.to_nat k < length (active C X s))%nat) by (unfold active; rewrite firstn_length; unfold zlen in *; lia).
      destruct (nth_error (active C X s) (Z.to_nat k)) as [f|] eqn:N; [|apply nth_error_None in N; lia].
      assert (Rk : rd (l_f C X s) k = Ok f).
      { unfold rd. destruct (Z.leb_spec 0 k); [|lia]. rewrite <- (firstn_skipn (Z.to_nat (l_size C X s)) (l_f C X s)). fold (active C X s). rewrite nth_error_app1, N by lia. reflexivity. }
      rewrite Rk. cbn [bind]. assert (Df : exists n, defines n f). { apply nth_error_In in N. clear - D N. induction D as [|a b l1 l2 H D IH]; [contradiction|]. destruct N as [<-|N]; [exists a; exact H|exact (IH N)]. }
      destruct Df as (n0 & _ & _ & _ & Op & _). unfold check.
      assert (O1 : match f_action C X f with Normalize | Rho => Ok tt | _ => match f_op C X f with None => UB | Some _ => Ok tt end end = Ok tt) by (destruct (f_action C X f); try reflexivity; rewrite Op; reflexivity).
      rewrite O1. cbn [bind]. destruct (_ || _); [|left; reflexivity]. destruct (nstates x); [|right; reflexivity]. destruct (_ || _); [right|left]; reflexivity.
    - assert (Q : exists k f, nth_error (active C X s) k = Some f /\ defines nd f).
      { clear - D In1. induction D as [|a b l1 l2 H D IH]; [contradiction|]. destruct In1 as [->|In1]; [exists O, b; split; [reflexivity|exact H]|]. destruct (IH In1) as (k & f & N & Df). exists (S k), f. split; assumption. }
      destruct Q as (k & f & N & _ & _ & _ & Op & Ms). assert (Hk : (k < length (active C X s))%nat) by (apply nth_error_Some; congruence).
      assert (Hk2 : Z.of_nat k < l_size C X s) by (unfold active in Hk; rewrite firstn_length in Hk; lia).
      exists (Z.of_nat k). split; [apply in_upto; lia|]. unfold rd. destruct (Z.leb_spec 0 (Z.of_nat k)); [|lia]. rewrite Nat2Z.id.
      rewrite <- (firstn_skipn (Z.to_nat (l_size C X s)) (l_f C X s)). fold (active C X s). rewrite nth_error_app1, N by lia. cbn [bind]. unfold check.
      assert (O1 : match f_action C X f with Normalize | Rho => Ok tt | _ => match f_op C X f with None => UB | Some _ => Ok tt end end = Ok tt) by (destruct (f_action C X f); try reflexivity; rewrite Op; reflexivity).
      rewrite O1. cbn [bind]. destruct Ms as [Ms|(Ms & _)]; [|congruence]. rewrite M in Ms. injection Ms as <- <-.
      assert (P1 : ((-1 <? i) || (-1 <? j))%bool = true) by (apply orb_true_iff; rewrite !Z.ltb_lt; exact Pos). rewrite P1.
      destruct Bad as [->|(ns1 & -> & B)]; [reflexivity|]. assert (P2 : ((ns1 <=? i) || (ns1 <=? j))%bool = true) by (apply orb_true_iff; rewrite !Z.leb_le; exact B). rewrite P2. reflexivity.
  Qed.
  (** every section starts its integrals at 0 *)
  Definition zeroed (s : flist C X) : Prop := forall i, 0 <= i < l_size C X s -> exists f, rd (l_f C X s) i = Ok f /\ f_sum C X f = c0.
  Lemma node_zero s n s' : zeroed s -> l_node C X s n = Ok s' -> zeroed s'.
  Proof.
    intros Zs E. unfold l_node in E. destruct (MAX_FILTERS <=? l_size C X s); [discriminate|]. destruct (rd (l_f C X s) (l_size C X s)) as [f| |] eqn:Rf; try discriminate. cbn [bind] in E.
    match type of E with (let '(o, label) := ?p in _) = _ => destruct p as [o label] end.
    destruct (wr _ _ _) as [fs| |] eqn:W in E; try discriminate. cbn [bind] in E. apply wr_inv in W. destruct W as [B ->]. unfold l_add in E. cbn [l_size l_f] in E. destruct (MAX_FILTERS <=? l_size C X s); [discriminate|].
    destruct (parse_value _); [|discriminate]. destruct (parse_action _); [|discriminate]. rewrite rd_upd, Z.eqb_refl in E by exact B. cbn [bind] in E.
    match type of E with (let* _ := ?p in _) = _ => destruct p as [[i0 j0]| |] end; try discriminate. cbn [bind fst snd] in E. rewrite wr_ok in E by (rewrite zlen_upd; exact B). cbn [bind] in E. injection E as <-.
    intros i Hi. cbn [l_f l_size] in *. rewrite rd_upd by (rewrite zlen_upd; exact B). destruct (Z.eqb_spec i (l_size C X s)) as [->|Ne]; [eexists; split; reflexivity|].
    rewrite rd_upd by exact B. rewrite (proj2 (Z.eqb_neq _ _) Ne). apply Zs. lia.
  Qed.
  Lemma init_zero s renorm ns s' : l_init C X s renorm ns = Ok s' -> Forall (fun f => f_sum C X f = c0) (active C X s').
  Proof.
    intros E. assert (G : forall ns s, zeroed s -> foldM (l_node C X) ns s = Ok s' -> zeroed s').
    { clear E s ns. induction ns as [|n t IH]; intros s Zs E; cbn [foldM] in E; [injection E as <-; exact Zs|]. destruct (l_node C X s n) as [s1| |] eqn:E1; try discriminate. cbn [bind] in E. apply (IH s1); [apply (node_zero s n s1 Zs E1)|exact E]. }
    unfold l_init in E. destruct ns as [|n t]; [discriminate|]. apply G in E.
    - apply Forall_forall. intros f Hf. apply In_nth_error in Hf. destruct Hf as (k & Hk). assert (Lk : (k < length (active C X s'))%nat) by (apply nth_error_Some; congruence).
      assert (Lk2 : 0 <= Z.of_nat k < l_size C X s') by (unfold active in Lk; rewrite firstn_length in Lk; lia). destruct (E (Z.of_nat k) Lk2) as (g & Rg & Sg).
      unfold rd in Rg. destruct (Z.leb_spec 0 (Z.of_nat k)); [|lia]. rewrite Nat2Z.id in Rg. rewrite <- (firstn_skipn (Z.to_nat (l_size C X s')) (l_f C X s')) in Rg. fold (active C X s') in Rg. rewrite nth_error_app1, Hk in Rg by lia. injection Rg as <-. exact Sg.
    - intros i Hi. cbn [l_size] in Hi. destruct (Z.ltb_spec 0 (l_size C X s)); cbn [l_size] in Hi; lia.
  Qed.
End P.
