From Coq Require Import Ascii String List ZArith Lia Bool Permutation.
From Verif Require Import Base Arrays Model.Find Spec.Find.
Import ListNotations.
Open Scope Z_scope.

(** ** Induction over operator trees *)
Section Ind.
  Variable P : op -> Prop.
  Hypothesis HW : forall i, P (Wanted i).
  Hypothesis HP : forall i, P (Plain i).
  Hypothesis HL : forall i l, (forall o, In o l -> P o) -> P (OL i l).
  Hypothesis HM : forall i m, (forall r o, In r m -> In (Some o) r -> P o) -> P (MS i m).
  Lemma op_ind' : forall o, P o.
  Proof.
    fix IH 1. intros [i|i|i l|i m].
    - apply HW.
    - apply HP.
    - apply HL. induction l as [|a t IHl]; intros o []; [subst o; apply IH|apply IHl; assumption].
    - apply HM. induction m as [|a t IHm]; intros r o []; [subst r|apply IHm; assumption].
      induction a as [|e a IHa]; intros []; [|apply IHa; assumption]. destruct e as [o'|]; [|discriminate]. injection H as <-. apply IH.
  Qed.
End Ind.

Lemma at_in {A} (m : list (list (option A))) i j o : at_ m i j = Some o -> exists r, In r m /\ In (Some o) r.
Proof.
  unfold at_. intros E. exists (nth (Z.to_nat i) m []). assert (In (Some o) (nth (Z.to_nat i) m [])) as H.
  - rewrite <- E. apply nth_In. destruct (Nat.lt_ge_cases (Z.to_nat j) (length (nth (Z.to_nat i) m []))) as [L|L]; [exact L|]. rewrite nth_overflow in E by exact L. discriminate.
  - split; [|exact H]. apply nth_In. destruct (Nat.lt_ge_cases (Z.to_nat i) (length m)) as [L|L]; [exact L|]. rewrite nth_overflow in H by exact L. destruct H.
Qed.
Lemma at_map {A B} (f : A -> B) m i j : at_ (map (map (option_map f)) m) i j = option_map f (at_ m i j).
Proof.
  unfold at_. change (@nil (option B)) with (map (option_map f) []). rewrite map_nth. change (@None B) with (option_map f None) at 1. rewrite map_nth. reflexivity.
Qed.
Lemma elem_at {A} (m : list (list (option A))) i j : i < zlen m -> j < zlen m -> elem m i j = at_ m i j.
Proof. intros Hi Hj. unfold elem, at_. rewrite (proj2 (Z.ltb_lt _ _) Hi), (proj2 (Z.ltb_lt _ _) Hj). reflexivity. Qed.
Lemma in_below n i j : In (i, j) (below n) <-> 0 <= j < i /\ i < n.
Proof.
  unfold below. rewrite in_flat_map. split.
  - intros (x & I & H). apply in_map_iff in H. destruct H as (y & E & J). injection E as -> ->. apply in_upto in I, J. lia.
  - intros (J & I). exists i. split; [apply in_upto; lia|]. apply in_map_iff. exists j. split; [reflexivity|apply in_upto; lia].
Qed.
Lemma flat_map_flat_map {A B C} (f : B -> list C) (g : A -> list B) l : flat_map f (flat_map g l) = flat_map (fun x => flat_map f (g x)) l.
Proof. induction l as [|a l IH]; [reflexivity|]. cbn. rewrite flat_map_app, IH. reflexivity. Qed.
Lemma flat_map_map {A B C} (f : B -> list C) (g : A -> B) l : flat_map f (map g l) = flat_map (fun x => f (g x)) l.
Proof. induction l as [|a l IH]; [reflexivity|]. cbn. rewrite IH. reflexivity. Qed.
Lemma existsb_flat_map {A B} (f : B -> bool) (g : A -> list B) l : existsb f (flat_map g l) = existsb (fun x => existsb f (g x)) l.
Proof. induction l as [|a l IH]; [reflexivity|]. cbn. rewrite existsb_app, IH. reflexivity. Qed.
Lemma existsb_map {A B} (f : B -> bool) (g : A -> B) l : existsb f (map g l) = existsb (fun x => f (g x)) l.
Proof. induction l as [|a l IH]; [reflexivity|]. cbn. rewrite IH. reflexivity. Qed.
Lemma existsb_ext_in {A} (f g : A -> bool) l : (forall x, In x l -> f x = g x) -> existsb f l = existsb g l.
Proof. induction l as [|a l IH]; intros H; [reflexivity|]. cbn. rewrite H by (left; reflexivity). rewrite IH by (intros; apply H; right; assumption). reflexivity. Qed.
Lemma flat_map_ext_in {A B} (f g : A -> list B) l : (forall x, In x l -> f x = g x) -> flat_map f l = flat_map g l.
Proof. induction l as [|a l IH]; intros H; [reflexivity|]. cbn. rewrite H by (left; reflexivity). rewrite IH by (intros; apply H; right; assumption). reflexivity. Qed.
Lemma zlen_app {A} (a b : list A) : zlen (a ++ b) = zlen a + zlen b.
Proof. unfold zlen. rewrite app_length. lia. Qed.
Lemma zlen_within h l : zlen (within h l) = zlen l.
Proof. unfold within. apply zlen_map. Qed.
Lemma zlen_nonneg {A} (l : list A) : 0 <= zlen l.
Proof. unfold zlen. lia. Qed.
Lemma within_nil h l : within h l = [] <-> l = [].
Proof. destruct l; split; intros; solve [reflexivity|discriminate]. Qed.
Lemma zlen_nil {A} (l : list A) : zlen l = 0 <-> l = [].
Proof. destruct l; split; intros E; solve [reflexivity|discriminate|exfalso; cbn in E; lia]. Qed.

Lemma rd_app_r {A} (v w : list A) i : 0 <= i -> rd (v ++ w) (zlen v + i) = rd w i.
Proof.
  intros H. unfold rd. pose proof (zlen_nonneg v). rewrite !(proj2 (Z.leb_le _ _)) by lia. rewrite nth_error_app2 by (unfold zlen in *; lia).
  replace (Z.to_nat (zlen v + i) - length v)%nat with (Z.to_nat i) by (unfold zlen in *; lia). reflexivity.
Qed.

(** ** Writing the results *)
Definition vals (ts : list occ) : list (option Z) := map (fun t => Some (snd t)) ts.
Definition put (f : list (option Z)) (i0 : Z) (ts : list occ) (f' : list (option Z)) : Prop :=
  zlen f' = zlen f /\ forall i, rd f' i = if (i0 <=? i) && (i <? i0 + zlen ts) then rd (vals ts) (i - i0) else rd f i.
Lemma zlen_vals ts : zlen (vals ts) = zlen ts.
Proof. apply zlen_map. Qed.
Lemma vals_within h ts : vals (within h ts) = vals ts.
Proof. unfold vals, within. rewrite map_map. reflexivity. Qed.
Lemma put_nil f i0 : put f i0 [] f.
Proof. split; [reflexivity|]. intros i. destruct (Z.leb_spec i0 i); destruct (Z.ltb_spec i (i0 + zlen (@nil occ))); cbn [andb]; try reflexivity. exfalso. cbn in *. lia. Qed.
Lemma put_within f i0 h ts f' : put f i0 ts f' <-> put f i0 (within h ts) f'.
Proof. unfold put. rewrite zlen_within, vals_within. reflexivity. Qed.
Lemma put_app f i0 a b f1 f2 : put f i0 a f1 -> put f1 (i0 + zlen a) b f2 -> put f i0 (a ++ b) f2.
Proof.
  intros [L1 R1] [L2 R2]. split; [congruence|]. intros i. rewrite R2, R1, zlen_app. unfold vals. rewrite map_app. 
  pose proof (zlen_nonneg a). pose proof (zlen_nonneg b).
  destruct (Z.leb_spec (i0 + zlen a) i), (Z.ltb_spec i (i0 + zlen a + zlen b)), (Z.leb_spec i0 i), (Z.ltb_spec i (i0 + zlen a)), (Z.ltb_spec i (i0 + (zlen a + zlen b))); cbn [andb]; try lia; try reflexivity.
  - replace (i - i0) with (zlen (vals a) + (i - (i0 + zlen a))) by (rewrite zlen_vals; lia). change (map (fun t : place * Z => Some (snd t))) with vals. rewrite rd_app_r by lia. reflexivity.
  - change (map (fun t : place * Z => Some (snd t))) with vals. symmetry. apply rd_app_l. rewrite zlen_vals. lia.
Qed.

Section Find.
  Variable lab : Z -> str -> bool.
  Variable label : option str.
  Variable N : Z.
  Hypothesis HN : 0 <= N.
  Notation find := (find lab label). Notation searched := (searched lab label). Notation prints := (prints lab label).
  Definition pr (o : op) : bool := match label with None => prints o | Some _ => false end.

  Lemma copy_ok sop found index nops ts : zlen sop = N -> zlen found = N -> 0 <= index -> 0 <= nops -> index + nops + zlen ts <= N ->
    (forall k, 0 <= k < zlen ts -> rd sop (index + nops + k) = rd (vals ts) k) ->
    exists f', copy_found sop found N index nops (zlen ts) = Ok (f', false) /\ put found (index + nops) ts f'.
  Proof.
    intros Ls Lf Hi Hn Hb Hs. unfold copy_found.
    destruct (foldM_upto (fun (x : list (option Z) * bool) k => if snd x then Ok x else
      let* c := rd sop (index + nops + k) in match c with None => UB | Some _ => let* f := wr (fst x) (index + nops + k) c in Ok (f, N <=? nops + k) end)
      (fun k x => snd x = false /\ zlen (fst x) = N /\ forall i, rd (fst x) i = if (index + nops <=? i) && (i <? index + nops + k) then rd (vals ts) (i - (index + nops)) else rd found i) 0 (zlen ts) (found, false)) as ([f' b] & E & (B & L & R)).
    - pose proof (zlen_nonneg ts). lia.
    - split; [reflexivity|split; [exact Lf|]]. intros i. destruct (Z.leb_spec (index + nops) i), (Z.ltb_spec i (index + nops + 0)); cbn [andb fst]; try reflexivity; lia.
    - intros k [f b] Hk (B & L & R). cbn [fst snd] in *. subst b. rewrite Hs by lia. rewrite (rd_nth (vals ts) k None) by (rewrite zlen_vals; lia). cbn [bind].
      assert (exists c, nth (Z.to_nat k) (vals ts) None = Some c) as (c & Ec).
      { unfold vals. rewrite (nth_indep _ None ((fun t => Some (snd t)) (([], 0) : occ))) by (rewrite map_length; unfold zlen, occ in *; lia).
        rewrite (map_nth (fun t : occ => Some (snd t))). eauto. }
      rewrite Ec, wr_ok by lia. cbn [bind]. eexists. split; [reflexivity|]. cbn [fst snd]. split; [apply Z.leb_gt; lia|]. split; [rewrite zlen_upd; exact L|].
      intros i. rewrite rd_upd by lia. rewrite R. destruct (Z.eqb_spec i (index + nops + k)) as [->|Ne].
      + rewrite (proj2 (Z.leb_le _ _)) by lia. rewrite (proj2 (Z.ltb_lt _ _)) by lia. cbn [andb]. replace (index + nops + k - (index + nops)) with k by lia.
        rewrite (rd_nth (vals ts) k None) by (rewrite zlen_vals; lia). rewrite Ec. reflexivity.
      + destruct (Z.leb_spec (index + nops) i), (Z.ltb_spec i (index + nops + k)), (Z.ltb_spec i (index + nops + (k + 1))); cbn [andb]; try reflexivity; lia.
    - cbn [fst snd] in *. subst b. exists f'. split; [exact E|]. split; [congruence|]. exact R.
  Qed.

  (** what a call does: ts are the occurrences it finds, bad says that it prints a missing label, dm is the number if nothing is found *)
  Definition good (c : call) (ts : list occ) (bad : bool) (dm : Z) : Prop := forall found index, zlen found = N -> 0 <= index ->
    (bad = true \/ (ts <> [] /\ N < index + zlen ts) -> c found N index = UB) /\
    (bad = false -> ts = [] \/ index + zlen ts <= N -> exists r f' m, c found N index = Ok (r, (f', m)) /\ put found index ts f' /\
       match r with None => ts = [] /\ m = dm | Some p => ts <> [] /\ pterms p = ts /\ m = zlen ts end).
  (** the two cases are all there are *)
  Lemma good_cases c ts bad dm found index : good c ts bad dm -> zlen found = N -> 0 <= index ->
    (c found N index = UB /\ (bad = true \/ (ts <> [] /\ N < index + zlen ts))) \/
    (bad = false /\ (ts = [] \/ index + zlen ts <= N) /\ exists r f' m, c found N index = Ok (r, (f', m)) /\ put found index ts f' /\
       match r with None => ts = [] /\ m = dm | Some p => ts <> [] /\ pterms p = ts /\ m = zlen ts end).
  Proof.
    intros G L Hi. destruct (G found index L Hi) as [G1 G2]. destruct bad.
    - left. split; [apply G1; left; reflexivity|left; reflexivity].
    - destruct ts as [|t ts].
      + right. split; [reflexivity|]. split; [left; reflexivity|]. apply G2; auto.
      + destruct (Z_lt_le_dec N (index + zlen (t :: ts))) as [H|H].
        * left. assert (t :: ts <> []) by discriminate. split; [apply G1; right; auto|right; auto].
        * right. split; [reflexivity|]. split; [right; exact H|]. apply G2; auto.
  Qed.

  Definition dmis (o : op) : Z := match o with Wanted _ => N | _ => 0 end.
  Definition okf (o : op) : Prop := good (find o) (searched o) (pr o) (dmis o).

  (** *** Lists *)
  Lemma list_good l : (forall o, In o l -> okf o) -> forall sop found package done index, zlen sop = N -> zlen found = N -> 0 <= index ->
    flat_map (fun p => within InList (pterms p)) package = done -> (done = [] \/ index + zlen done <= N) ->
    let rest := flat_map (fun o => within InList (searched o)) l in
    (existsb pr l = true \/ (rest <> [] /\ N < index + zlen done + zlen rest) -> list_loop (map find l) sop found N index package (zlen done) = UB) /\
    (existsb pr l = false -> rest = [] \/ index + zlen done + zlen rest <= N -> exists r f' m, list_loop (map find l) sop found N index package (zlen done) = Ok (r, (f', m)) /\
       put found (index + zlen done) rest f' /\ match r with None => done ++ rest = [] /\ m = 0 | Some p => done ++ rest <> [] /\ pterms p = done ++ rest /\ m = zlen (done ++ rest) end).
  Proof.
    induction l as [|o l IH]; intros G sop found package done index Ls Lf Hi Hp Hd; cbn [flat_map existsb map list_loop].
    - split; [intros [H|[H _]]; [discriminate|congruence]|]. intros _ _. destruct (Z.eqb_spec (zlen done) 0) as [E|E].
      + apply zlen_nil in E. rewrite E. exists None, found, 0. split; [reflexivity|]. split; [apply put_nil|]. split; reflexivity.
      + exists (Some (PList package)), found, (zlen done). split; [reflexivity|]. split; [apply put_nil|]. rewrite app_nil_r. split; [intros Ed; apply E; rewrite Ed; reflexivity|]. split; [exact Hp|reflexivity].
    - pose proof (zlen_nonneg done) as Hz. set (rest := flat_map (fun o => within InList (searched o)) l). specialize (IH (fun o H => G o (or_intror H))).
      destruct (good_cases _ _ _ _ sop (index + zlen done) (G o (or_introl eq_refl)) Ls) as [(E & Bad)|(Bad & Fit & r & sop' & m & E & Pt & Rr)]; [lia| |].
      + rewrite E. cbn [bind]. split; [reflexivity|]. intros B H. exfalso. apply orb_false_iff in B. destruct B as [B1 B2]. destruct Bad as [Bad|[Ne Gt]]; [congruence|].
        rewrite zlen_app, zlen_within in H. pose proof (zlen_nonneg rest). destruct H as [H|H]; [|lia]. apply app_eq_nil in H. destruct H as [H _]. apply within_nil in H. congruence.
      + rewrite E. cbn [bind fst snd]. rewrite Bad. cbn [orb]. destruct r as [p|].
        * destruct Rr as (Ne & Ep & ->). destruct Fit as [Fit|Fit]; [congruence|].
          destruct (copy_ok sop' found index (zlen done) (searched o)) as (f1 & Ec & Pf); [destruct Pt; congruence|exact Lf|exact Hi|exact Hz|lia| |].
          { intros k Hk. destruct Pt as [_ Pt]. rewrite Pt, (proj2 (Z.leb_le _ _)), (proj2 (Z.ltb_lt _ _)) by lia. cbn [andb]. f_equal. lia. }
          rewrite Ec. cbn [bind]. set (done' := done ++ within InList (searched o)). assert (zlen done + zlen (searched o) = zlen done') as Ed by (unfold done'; rewrite zlen_app, zlen_within; reflexivity). rewrite Ed.
          destruct (IH sop' f1 (package ++ [p]) done' index) as [I1 I2]; [destruct Pt; congruence|destruct Pf; congruence|exact Hi| | |].
          { rewrite flat_map_app, Hp. cbn [flat_map]. rewrite app_nil_r, Ep. reflexivity. }
          { right. lia. }
          fold rest in I1, I2. rewrite zlen_app, zlen_within. replace (index + zlen done + (zlen (searched o) + zlen rest)) with (index + zlen done' + zlen rest) by lia.
          split.
          -- intros H. apply I1. destruct H as [H|[H1 H2]]; [left; exact H|]. right. split; [|exact H2]. intros Er. rewrite Er in H2. cbn in H2. lia.
          -- intros B H. destruct I2 as (r & f' & m' & E' & P' & Q'); [exact B| |].
             { destruct H as [H|H]; [|right; exact H]. apply app_eq_nil in H. destruct H as [H _]. apply within_nil in H. congruence. }
             exists r, f', m'. split; [exact E'|]. split.
             ++ apply (put_app _ _ _ _ f1 f'); [apply put_within; exact Pf|]. rewrite zlen_within. replace (index + zlen done + zlen (searched o)) with (index + zlen done') by lia. exact P'.
             ++ rewrite app_assoc. exact Q'.
        * destruct Rr as (En & ->). rewrite En in *. cbn [within map app].
          destruct (IH sop' found package done index) as [I1 I2]; [destruct Pt; congruence|exact Lf|exact Hi|exact Hp|exact Hd|]. split; assumption.
  Qed.

  (** *** Multistate operators *)
  Definition pair_terms (m : list (list (option op))) (ij : Z * Z) : list occ :=
    let '(i, j) := ij in
    match at_ m i j with
    | None => []
    | Some o =>
        match searched o with
        | [] => []
        | ts => within (InState i j) ts ++
            match at_ m j i with
            | Some o' => if pid o =? pid o' then [] else within (InState j i) (searched o')
            | None => []
            end
        end
    end.
  Definition pair_bad (m : list (list (option op))) (ij : Z * Z) : bool :=
    let '(i, j) := ij in
    match label with
    | Some _ => false
    | None =>
        match at_ m i j with
        | None => false
        | Some o => pr o || (negb (zlen (searched o) =? 0) && match at_ m j i with Some o' => negb (pid o =? pid o') | None => false end)
        end
    end.
  Definition pk_terms (e : Z * Z * pk) : list occ := within (InState (fst (fst e)) (snd (fst e))) (pterms (snd e)).
  Lemma ms_good (m : list (list (option op))) : (forall i j o, at_ m i j = Some o -> okf o) ->
    forall ps, (forall i j, In (i, j) ps -> 0 <= j < i /\ i < zlen m) -> forall sop found package done index, zlen sop = N -> zlen found = N -> 0 <= index ->
    flat_map pk_terms package = done -> (done = [] \/ index + zlen done <= N) ->
    let mm := map (map (option_map (fun o => (pid o, find o)))) m in
    let rest := flat_map (pair_terms m) ps in
    (existsb (pair_bad m) ps = true \/ (rest <> [] /\ N < index + zlen done + zlen rest) -> ms_loop label mm ps sop found N index package (zlen done) = UB) /\
    (existsb (pair_bad m) ps = false -> rest = [] \/ index + zlen done + zlen rest <= N -> exists r f' n, ms_loop label mm ps sop found N index package (zlen done) = Ok (r, (f', n)) /\
       put found (index + zlen done) rest f' /\ match r with None => done ++ rest = [] /\ n = 0 | Some p => done ++ rest <> [] /\ pterms p = done ++ rest /\ n = zlen (done ++ rest) end).
  Proof.
    intros G. induction ps as [|[i j] ps IH]; intros Hps sop found package done index Ls Lf Hi Hp Hd mm; cbn [flat_map existsb].
    - cbn [ms_loop]. split; [intros [H|[H _]]; [discriminate|congruence]|]. intros _ _. destruct (Z.eqb_spec (zlen done) 0) as [E|E].
      + apply zlen_nil in E. rewrite E. exists None, found, 0. split; [reflexivity|]. split; [apply put_nil|]. split; reflexivity.
      + eexists _, found, (zlen done). split; [reflexivity|]. split; [apply put_nil|]. rewrite app_nil_r. split; [intros Ed; apply E; rewrite Ed; reflexivity|]. split; [exact Hp|reflexivity].
    - pose proof (zlen_nonneg done) as Hz. set (rest := flat_map (pair_terms m) ps). pose proof (zlen_nonneg rest) as Hr.
      specialize (IH (fun i j H => Hps i j (or_intror H))). destruct (Hps i j (or_introl eq_refl)) as [Hj Hi'].
      assert (forall d : list occ, d = [] \/ index + zlen d <= N -> N <? zlen d = false) as Small. { intros d [->|H]; apply Z.ltb_ge; [cbn|]; lia. }
      assert (zlen mm = zlen m) as Lm by apply zlen_map.
      remember (pair_terms m (i, j)) as pt eqn:Ept. remember (pair_bad m (i, j)) as bd eqn:Ebd. unfold pair_terms in Ept. unfold pair_bad in Ebd. cbn [ms_loop].
      assert (forall a b, a < zlen m -> b < zlen m -> elem mm a b = option_map (fun o => (pid o, find o)) (at_ m a b)) as Em.
      { intros a b Ha Hb. rewrite elem_at by lia. apply at_map. } rewrite !Em by lia. clear Em. subst pt bd.
      destruct (at_ m i j) as [o|] eqn:Eij.
      2:{ cbn [option_map app orb]. replace (match label with Some _ => false | None => false end) with false by (destruct label; reflexivity). cbn [orb].
          destruct (IH sop found package done index) as [I1 I2]; try assumption. split; assumption. }
      cbn [option_map]. 
      destruct (good_cases _ _ _ _ sop (index + zlen done) (G i j o Eij) Ls) as [(E & Bad)|(Bad & Fit & r & sop' & n & E & Pt & Rr)]; [lia| |].
      { rewrite E. cbn [bind]. split; [reflexivity|]. intros B H. exfalso. destruct Bad as [Bad|[Ne Gt]].
        - apply orb_false_iff in B. destruct B as [B _]. rewrite Bad in B. cbn [orb] in B. unfold pr in Bad. destruct label; congruence.
        - destruct (searched o) as [|t ts] eqn:Es; [congruence|]. rewrite !zlen_app, zlen_within in H. destruct H as [H|H]; [apply app_eq_nil in H; destruct H as [H _]; apply app_eq_nil in H; destruct H as [H _]; discriminate|].
          match type of H with _ + (_ + zlen ?x + _) <= _ => pose proof (zlen_nonneg x) end. lia. }
      rewrite E. cbn [bind fst snd]. assert (zlen sop' = N) as Ls' by (destruct Pt; congruence).
      destruct r as [p|].
      2:{ destruct Rr as (En & _). rewrite En, (Small done Hd). cbn [app]. rewrite Bad. change (zlen (@nil occ) =? 0) with true. cbn [negb andb orb].
          replace (match label with Some _ => false | None => false end) with false by (destruct label; reflexivity). cbn [orb].
          destruct (IH sop' found package done index) as [I1 I2]; try assumption. split; assumption. }
      destruct Rr as (Ne & Ep & ->). destruct Fit as [Fit|Fit]; [congruence|].
      destruct (copy_ok sop' found index (zlen done) (searched o)) as (f1 & Ec & Pf); [assumption|exact Lf|exact Hi|exact Hz|lia| |].
      { intros k Hk. destruct Pt as [_ Pt]. rewrite Pt, (proj2 (Z.leb_le _ _)), (proj2 (Z.ltb_lt _ _)) by lia. cbn [andb]. f_equal. lia. }
      rewrite Ec. cbn [bind]. assert (zlen f1 = N) as Lf1 by (destruct Pf; congruence).
      set (d1 := done ++ within (InState i j) (searched o)). assert (zlen done + zlen (searched o) = zlen d1) as Ed1 by (unfold d1; rewrite zlen_app, zlen_within; reflexivity). rewrite Ed1.
      set (k1 := package ++ [(i, j, p)]). assert (flat_map pk_terms k1 = d1) as Hk1 by (unfold k1, d1; rewrite flat_map_app, Hp; cbn [flat_map]; rewrite app_nil_r; unfold pk_terms; cbn [fst snd]; rewrite Ep; reflexivity).
      assert (d1 = [] \/ index + zlen d1 <= N) as Hd1 by (right; lia). rewrite (Small d1 Hd1).
      assert (d1 <> []) as Nd1. { unfold d1. intros H. apply app_eq_nil in H. destruct H as [_ H]. apply within_nil in H. congruence. }
      assert (put found (index + zlen done) (within (InState i j) (searched o)) f1) as Pf1 by (apply put_within; exact Pf).
      rewrite Bad. cbn [orb]. assert (zlen (searched o) =? 0 = false) as Sz. { apply Z.eqb_neq. intros H. apply zlen_nil in H. congruence. } rewrite Sz. cbn [negb andb].
      (* the case that nothing is searched at the opposite place, or nothing found *)
      assert (forall sop2, zlen sop2 = N ->
        let rest' := (within (InState i j) (searched o) ++ []) ++ rest in
        (existsb (pair_bad m) ps = true \/ (rest' <> [] /\ N < index + zlen done + zlen rest') -> ms_loop label mm ps sop2 f1 N index k1 (zlen d1) = UB) /\
        (existsb (pair_bad m) ps = false -> rest' = [] \/ index + zlen done + zlen rest' <= N -> exists r f' n, ms_loop label mm ps sop2 f1 N index k1 (zlen d1) = Ok (r, (f', n)) /\
          put found (index + zlen done) rest' f' /\ match r with None => done ++ rest' = [] /\ n = 0 | Some p => done ++ rest' <> [] /\ pterms p = done ++ rest' /\ n = zlen (done ++ rest') end)) as Plain1.
      { intros sop2 Ls2 rest'. unfold rest'. rewrite app_nil_r. destruct (IH sop2 f1 k1 d1 index Ls2 Lf1 Hi Hk1 Hd1) as [I1 I2]. fold mm rest in I1, I2. rewrite zlen_app, zlen_within.
        replace (index + zlen done + (zlen (searched o) + zlen rest)) with (index + zlen d1 + zlen rest) by lia. split.
        - intros H. apply I1. destruct H as [H|[H1 H2]]; [left; exact H|]. right. split; [|exact H2]. intros Er. rewrite Er in H2. cbn in H2. lia.
        - intros B H. destruct I2 as (r & f' & n & E' & P' & Q'); [exact B| |].
          { destruct H as [H|H]; [|right; exact H]. apply app_eq_nil in H. destruct H as [H _]. apply within_nil in H. congruence. }
          exists r, f', n. split; [exact E'|]. split; [|rewrite app_assoc; exact Q'].
          apply (put_app _ _ _ _ f1 f'); [exact Pf1|]. rewrite zlen_within. replace (index + zlen done + zlen (searched o)) with (index + zlen d1) by lia. exact P'. }
      assert (forall A (x y : A), match searched o with [] => x | _ => y end = y) as NeM by (intros; destruct (searched o); [congruence|reflexivity]).
      replace (match searched o with [] => [] | t0 :: l0 => within (InState i j) (t0 :: l0) ++ match at_ m j i with Some o' => if pid o =? pid o' then [] else within (InState j i) (searched o') | None => [] end end)
        with (within (InState i j) (searched o) ++ match at_ m j i with Some o' => if pid o =? pid o' then [] else within (InState j i) (searched o') | None => [] end) by (destruct (searched o); [congruence|reflexivity]).
      destruct (at_ m j i) as [o'|] eqn:Eji; cbn [option_map].
      2:{ replace (match label with Some _ => false | None => false end) with false by (destruct label; reflexivity). cbn [orb]. exact (Plain1 sop' Ls'). }
      destruct (Z.eqb_spec (pid o) (pid o')) as [Ei|Ei]; cbn [negb].
      { replace (match label with Some _ => false | None => false end) with false by (destruct label; reflexivity). cbn [orb]. exact (Plain1 sop' Ls'). }
      assert ((label = None /\ (forall A (u v : A), match label with Some _ => v | None => u end = u)) \/
        (label <> None /\ (forall A (u v : A), match label with Some _ => v | None => u end = v))) as [[El Em]|[El Em]] by (destruct label; [right|left]; (split; [congruence|reflexivity])).
      { rewrite !Em. cbn [orb]. split; [reflexivity|discriminate]. }
      rewrite !Em. cbn [orb]. pose proof (zlen_nonneg d1) as Hz1.
      destruct (good_cases _ _ _ _ sop' (index + zlen d1) (G j i o' Eji) Ls') as [(E2 & Bad2)|(Bad2 & Fit2 & r2 & sop2 & n2 & E2 & Pt2 & Rr2)]; [lia| |].
      { rewrite E2. cbn [bind]. split; [reflexivity|]. intros B H. exfalso. destruct Bad2 as [Bad2|[Ne2 Gt2]].
        - unfold pr in Bad2. rewrite Em in Bad2. discriminate.
        - rewrite !zlen_app, !zlen_within in H. destruct H as [H|H]; [|lia]. apply app_eq_nil in H; destruct H as [H _]; apply app_eq_nil in H; destruct H as [H _]. apply within_nil in H. congruence. }
      rewrite E2. cbn [bind fst snd]. assert (zlen sop2 = N) as Ls2 by (destruct Pt2; congruence). destruct r2 as [p2|].
      2:{ destruct Rr2 as (En2 & _). rewrite En2. cbn [within map]. exact (Plain1 sop2 Ls2). }
      destruct Rr2 as (Ne2 & Ep2 & ->). destruct Fit2 as [Fit2|Fit2]; [congruence|].
      destruct (copy_ok sop2 f1 index (zlen d1) (searched o')) as (f2 & Ec2 & Pf2); [assumption|exact Lf1|exact Hi|apply zlen_nonneg|lia| |].
      { intros k Hk. destruct Pt2 as [_ Pt2]. rewrite Pt2, (proj2 (Z.leb_le _ _)), (proj2 (Z.ltb_lt _ _)) by lia. cbn [andb]. f_equal. lia. }
      rewrite Ec2. cbn [bind]. set (d2 := d1 ++ within (InState j i) (searched o')). assert (zlen d1 + zlen (searched o') = zlen d2) as Ed2 by (unfold d2; rewrite zlen_app, zlen_within; reflexivity). rewrite Ed2.
      assert (d2 = [] \/ index + zlen d2 <= N) as Hd2 by (right; lia). rewrite (Small d2 Hd2).
      destruct (IH sop2 f2 (k1 ++ [(j, i, p2)]) d2 index Ls2) as [I1 I2]; [destruct Pf2; congruence|exact Hi| |exact Hd2|].
      { unfold d2. rewrite flat_map_app, Hk1. cbn [flat_map]. rewrite app_nil_r. unfold pk_terms. cbn [fst snd]. rewrite Ep2. reflexivity. }
      fold mm rest in I1, I2. rewrite !zlen_app, !zlen_within.
      replace (index + zlen done + (zlen (searched o) + zlen (searched o') + zlen rest)) with (index + zlen d2 + zlen rest) by lia. split.
      + intros H. apply I1. destruct H as [H|[H1 H2]]; [left; exact H|]. right. split; [|exact H2]. intros Er. rewrite Er in H2. cbn in H2. lia.
      + intros B H. destruct I2 as (r & f' & n & E' & P' & Q'); [exact B| |].
        { destruct H as [H|H]; [|right; exact H]. apply app_eq_nil in H. destruct H as [H _]. apply app_eq_nil in H. destruct H as [H _]. apply within_nil in H. congruence. }
        exists r, f', n. split; [exact E'|]. split.
        * apply (put_app _ _ _ _ f2 f').
          -- apply (put_app _ _ _ _ f1 f2); [exact Pf1|]. apply put_within. rewrite zlen_within. replace (index + zlen done + zlen (searched o)) with (index + zlen d1) by lia. exact Pf2.
          -- rewrite zlen_app, !zlen_within. replace (index + zlen done + (zlen (searched o) + zlen (searched o'))) with (index + zlen d2) by lia. exact P'.
        * unfold d2, d1 in Q'. rewrite <- !app_assoc in *. destruct r; [|exact Q']. destruct Q' as (Q1 & Q2 & Q3). split; [exact Q1|]. split; [exact Q2|]. rewrite Q3, !zlen_app, !zlen_within. lia.
  Qed.

  Lemma find_good o : okf o.
  Proof.
    induction o as [i|i|i l IH|i m IH] using op_ind'; intros found index L Hi.
    - cbn [Model.Find.find Spec.Find.searched]. unfold leaf, counts, wanted, pr, dmis. cbn [snd prints]. destruct (match label with Some l => lab i l | None => true end) eqn:E.
      + split.
        * intros [H|[_ H]]; [destruct label; discriminate|]. change (zlen [([], i)]) with 1 in H. unfold wr. rewrite (proj2 (Z.ltb_ge _ _)), andb_false_r by (unfold zlen in L; lia). reflexivity.
        * intros _ [H|H]; [discriminate|]. change (zlen [([], i)]) with 1 in H. rewrite wr_ok by lia. cbn [bind]. eexists _, _, _. split; [reflexivity|]. split.
          -- split; [apply zlen_upd|]. intros k. rewrite rd_upd by lia. change (zlen [([], i)]) with 1. destruct (Z.eqb_spec k index) as [->|Ne].
             ++ rewrite (proj2 (Z.leb_le _ _)), (proj2 (Z.ltb_lt _ _)) by lia. cbn [andb]. rewrite Z.sub_diag. reflexivity.
             ++ destruct (Z.leb_spec index k), (Z.ltb_spec k (index + 1)); cbn [andb]; try reflexivity; lia.
          -- split; [discriminate|]. split; reflexivity.
      + split; [intros [H|[H _]]; [destruct label; discriminate|congruence]|]. intros _ _. eexists _, _, _. split; [reflexivity|]. split; [apply put_nil|]. split; reflexivity.
    - cbn [Model.Find.find Spec.Find.searched]. unfold pr, dmis. cbn [prints]. split; [intros [H|[H _]]; [destruct label; discriminate|congruence]|].
      intros _ _. eexists _, _, _. split; [reflexivity|]. split; [apply put_nil|]. split; reflexivity.
    - cbn [Model.Find.find Spec.Find.searched]. destruct (list_good l IH (fresh N) found [] [] index) as [G1 G2].
      { unfold fresh, zlen. rewrite repeat_length. lia. } { exact L. } { exact Hi. } { reflexivity. } { left. reflexivity. }
      change (zlen (@nil occ)) with 0 in *. rewrite !Z.add_0_r in *. cbn [app dmis] in *.
      assert (pr (OL i l) = existsb pr l) as Ep. { unfold pr. cbn [prints]. destruct label; [|reflexivity]. generalize l. clear. intros l. induction l; [reflexivity|assumption]. }
      rewrite Ep. split; assumption.
    - cbn [Model.Find.find Spec.Find.searched].
      destruct (ms_good m (fun i j o E => match at_in m i j o E with ex_intro _ r (conj I1 I2) => IH r o I1 I2 end) (below (zlen m)) (fun i j => proj1 (in_below _ _ _)) (fresh N) found [] [] index) as [G1 G2].
      { unfold fresh, zlen. rewrite repeat_length. lia. } { exact L. } { exact Hi. } { reflexivity. } { left. reflexivity. }
      change (zlen (@nil occ)) with 0 in *. rewrite !Z.add_0_r in *. cbn [app dmis] in *.
      assert (pr (MS i m) = existsb (pair_bad m) (below (zlen m))) as Ep.
      { unfold pr, below. rewrite existsb_flat_map. destruct label eqn:El.
        - symmetry. clear - El. induction (upto 0 (zlen m)) as [|a u IHu]; [reflexivity|]. cbn [existsb]. rewrite IHu, orb_false_r. rewrite existsb_map. induction (upto 0 a) as [|b w IHw]; [reflexivity|]. cbn [existsb]. rewrite IHw. unfold pair_bad. rewrite El. reflexivity.
        - cbn [prints]. apply existsb_ext_in. intros a _. rewrite existsb_map. apply existsb_ext_in. intros b _. rewrite !at_map. unfold pair_bad, pr. rewrite El. destruct (at_ m a b) as [o|]; [|reflexivity]. cbn [option_map]. destruct (at_ m b a); reflexivity. }
      assert (flat_map (pair_terms m) (below (zlen m)) = flat_map (fun i => flat_map (fun j => match at_ (map (map (option_map (fun o => (pid o, searched o)))) m) i j with
          | None => [] | Some (p, []) => []
          | Some (p, ts) => within (InState i j) ts ++ match at_ (map (map (option_map (fun o => (pid o, searched o)))) m) j i with Some (p', ts') => if p =? p' then [] else within (InState j i) ts' | None => [] end
          end) (upto 0 i)) (upto 0 (zlen m))) as Et.
      { unfold below. rewrite flat_map_flat_map. apply flat_map_ext_in. intros a _. rewrite flat_map_map. apply flat_map_ext_in. intros b _. rewrite !at_map. unfold pair_terms. destruct (at_ m a b) as [o|]; [|reflexivity]. cbn [option_map].
        destruct (searched o); [reflexivity|]. destruct (at_ m b a); reflexivity. }
      rewrite Ep, <- Et. split; assumption.
  Qed.
End Find.

(** ** What is asked for, in trees where all of it is looked at *)
Section Asked.
  Variable lab : Z -> str -> bool.
  Variable label : option str.
  Notation searched := (searched lab label). Notation asked := (asked lab label). Notation lower := (lower lab label). Notation wanted := (wanted lab label).

  Lemma filter_within h l : filter wanted (within h l) = within h (filter wanted l).
  Proof. induction l as [|t l IH]; [reflexivity|]. cbn [within map filter]. change (wanted (h :: fst t, snd t)) with (wanted t). destruct (wanted t); [cbn [map]; f_equal|]; exact IH. Qed.
  Lemma filter_flat_map {A B} (p : B -> bool) (f : A -> list B) l : filter p (flat_map f l) = flat_map (fun x => filter p (f x)) l.
  Proof. induction l as [|a l IH]; [reflexivity|]. cbn [flat_map]. rewrite filter_app, IH. reflexivity. Qed.
  Lemma perm_flat_map {A B} (f g : A -> list B) l : (forall x, In x l -> Permutation (f x) (g x)) -> Permutation (flat_map f l) (flat_map g l).
  Proof. induction l as [|a l IH]; intros H; [constructor|]. cbn [flat_map]. apply Permutation_app; [apply H; left; reflexivity|apply IH; intros; apply H; right; assumption]. Qed.
  Lemma perm_flat_map_app {A B} (f g : A -> list B) l : Permutation (flat_map (fun x => f x ++ g x) l) (flat_map f l ++ flat_map g l).
  Proof.
    induction l as [|a l IH]; [constructor|]. cbn [flat_map]. rewrite <- !app_assoc. apply Permutation_app_head. rewrite (Permutation_app_comm (flat_map f l)). rewrite <- app_assoc.
    apply Permutation_app_head. rewrite IH. apply Permutation_app_comm.
  Qed.
  (** a square is what is below, above and on the diagonal *)
  Lemma square {B} (F : Z -> Z -> list B) n : 0 <= n -> Permutation (flat_map (fun i => flat_map (fun j => F i j) (upto 0 n)) (upto 0 n))
    (flat_map (fun i => flat_map (fun j => F i j ++ F j i) (upto 0 i) ++ F i i) (upto 0 n)).
  Proof.
    intros Hn. pattern n. apply natlike_ind; [constructor| |exact Hn]. clear n Hn. intros n Hn IH. unfold Z.succ.
    rewrite !(upto_snoc 0 n) by lia. rewrite !flat_map_app. cbn [flat_map]. rewrite !app_nil_r.
    assert (Permutation (flat_map (fun i => flat_map (fun j => F i j) (upto 0 n ++ [n])) (upto 0 n)) (flat_map (fun i => flat_map (fun j => F i j) (upto 0 n)) (upto 0 n) ++ flat_map (fun i => F i n) (upto 0 n))) as E.
    { rewrite <- perm_flat_map_app. apply perm_flat_map. intros x _. rewrite flat_map_app. cbn [flat_map]. rewrite app_nil_r. reflexivity. }
    rewrite E, IH, <- app_assoc. apply Permutation_app_head. rewrite flat_map_app. cbn [flat_map]. rewrite app_nil_r, app_assoc. apply Permutation_app_tail.
    rewrite perm_flat_map_app. apply Permutation_app_comm.
  Qed.

  Lemma lower_list l o : fold_right (fun o P => lower o /\ P) True l -> In o l -> lower o.
  Proof. induction l as [|a l IH]; intros H []; cbn [fold_right] in H; [subst; apply H|apply IH; [apply H|assumption]]. Qed.
  Lemma lower_row r o : fold_right (fun e P => match e with Some o => lower o /\ P | None => P end) True r -> In (Some o) r -> lower o.
  Proof.
    induction r as [|e r IH]; intros H []; cbn [fold_right] in H; [subst e; apply H|]. apply IH; [|assumption]. destruct e; [apply H|exact H].
  Qed.
  Lemma lower_rows m r o : fold_right (fun r P => fold_right (fun e P => match e with Some o => lower o /\ P | None => P end) True r /\ P) True m -> In r m -> In (Some o) r -> lower o.
  Proof. induction m as [|a m IH]; intros H [] I; cbn [fold_right] in H; [subst; apply (lower_row r); [apply H|assumption]|apply IH; [apply H|assumption|assumption]]. Qed.

  Lemma searched_asked o : lower o -> Permutation (searched o) (asked o).
  Proof.
    induction o as [i|i|i l IH|i m IH] using op_ind'; intros Lo.
    - unfold Spec.Find.asked. cbn [terms filter Spec.Find.searched]. reflexivity.
    - constructor.
    - unfold Spec.Find.asked. cbn [terms Spec.Find.searched]. rewrite filter_flat_map. apply perm_flat_map. intros o Io. rewrite filter_within. apply Permutation_map. apply IH; [exact Io|]. apply (lower_list l o Lo Io).
    - cbn [Spec.Find.lower] in Lo. destruct Lo as (L0 & L1 & L2).
      assert (forall a b o, at_ m a b = Some o -> Permutation (searched o) (asked o)) as P.
      { intros a b o E. destruct (at_in m a b o E) as (r & I1 & I2). apply (IH r o I1 I2). exact (lower_rows m r o L0 I1 I2). }
      unfold Spec.Find.asked. cbn [terms Spec.Find.searched]. rewrite filter_flat_map. unfold upto_pairs. rewrite flat_map_flat_map.
      set (F := fun i j => match at_ m i j with None => [] | Some o => match at_ m j i with Some o' => if (i <? j) && (pid o =? pid o') then [] else within (InState i j) (asked o) | None => within (InState i j) (asked o) end end).
      rewrite (flat_map_ext_in (fun x => flat_map _ (map _ _)) (fun a => flat_map (fun b => F a b) (upto 0 (zlen m)))).
      2:{ intros a _. rewrite flat_map_map. apply flat_map_ext_in. intros b _. rewrite !at_map. unfold F. destruct (at_ m a b) as [o|]; [|reflexivity]. cbn [option_map]. destruct (at_ m b a) as [o'|]; cbn [option_map]; [|apply filter_within].
          destruct ((a <? b) && (pid o =? pid o')); [reflexivity|apply filter_within]. }
      rewrite square by apply zlen_nonneg. apply perm_flat_map. intros a Ia. apply in_upto in Ia.
      assert (F a a = []) as Fa. { unfold F. destruct (at_ m a a) as [o|] eqn:E; [|reflexivity]. rewrite Z.ltb_irrefl. cbn [andb]. rewrite (L1 a o Ia E). reflexivity. }
      rewrite Fa, app_nil_r. apply perm_flat_map. intros b Ib. apply in_upto in Ib. rewrite !at_map. unfold F.
      rewrite (proj2 (Z.ltb_ge a b)), (proj2 (Z.ltb_lt b a)) by lia. cbn [andb].
      destruct (at_ m a b) as [o|] eqn:E1; cbn [option_map].
      + assert (match at_ m b a with Some o' => within (InState a b) (asked o) | None => within (InState a b) (asked o) end = within (InState a b) (asked o)) as -> by (destruct (at_ m b a); reflexivity).
        pose proof (P a b o E1) as Po. destruct (searched o) as [|t ts] eqn:Es.
        * apply Permutation_nil in Po. rewrite Po. cbn [within map app]. destruct (at_ m b a) as [o'|] eqn:E2; [|constructor]. destruct (pid o' =? pid o); [constructor|].
          destruct (asked o') as [|t ts] eqn:Ea; [constructor|]. exfalso. destruct (L2 a b o' Ib) as (o2 & E3 & Ne); [lia|exact E2|rewrite Ea; discriminate|]. congruence.
        * apply Permutation_app; [apply Permutation_map; exact Po|]. destruct (at_ m b a) as [o'|] eqn:E2; cbn [option_map]; [|constructor]. rewrite (Z.eqb_sym (pid o')). destruct (pid o =? pid o'); [constructor|].
          apply Permutation_map. exact (P b a o' E2).
      + cbn [app]. destruct (at_ m b a) as [o'|] eqn:E2; [|constructor]. destruct (asked o') as [|t ts] eqn:Ea; [constructor|]. exfalso. destruct (L2 a b o' Ib) as (o2 & E3 & Ne); [lia|exact E2|rewrite Ea; discriminate|]. congruence.
  Qed.
End Asked.

(** ** Statements about whole searches *)
Definition taken (f : list (option Z)) (n : Z) : list (option Z) := firstn (Z.to_nat n) f.
Lemma put_taken f ts f' : put f 0 ts f' -> zlen ts <= zlen f -> taken f' (zlen ts) = vals ts.
Proof.
  intros [L R] H. apply rd_ext.
  - unfold taken, zlen in *. rewrite firstn_length. unfold vals. rewrite map_length. unfold occ in *. lia.
  - intros i Hi. assert (0 <= i < zlen ts) as Hi'. { unfold taken, zlen in *. rewrite firstn_length in Hi. unfold occ in *. lia. }
    specialize (R i). rewrite (proj2 (Z.leb_le _ _)), (proj2 (Z.ltb_lt _ _)) in R by lia. cbn [andb] in R. rewrite Z.sub_0_r in R. rewrite <- R.
    unfold rd. rewrite (proj2 (Z.leb_le 0 i)) by lia. unfold taken. rewrite <- (firstn_skipn (Z.to_nat (zlen ts)) f') at 2. rewrite nth_error_app1; [reflexivity|].
    rewrite firstn_length. unfold zlen, occ in *. lia.
Qed.
(** what a search from outside does, exactly *)
Lemma find_exact lab label o n found : 0 <= n -> zlen found = n ->
  let ts := searched lab label o in
  if (match label with None => prints lab label o | Some _ => false end) || (n <? zlen ts) then find lab label o found n 0 = UB
  else exists r f' m, find lab label o found n 0 = Ok (r, (f', m)) /\ put found 0 ts f' /\
    match r with None => ts = [] /\ m = dmis n o | Some p => ts <> [] /\ pterms p = ts /\ m = zlen ts /\ taken f' m = vals ts end.
Proof.
  intros Hn L ts. destruct (find_good lab label n Hn o found 0 L) as [G1 G2]; [lia|]. fold ts in G1, G2. unfold pr in *. pose proof (zlen_nonneg ts).
  destruct (match label with None => prints lab label o | Some _ => false end); cbn [orb].
  - apply G1. left. reflexivity.
  - destruct (Z.ltb_spec n (zlen ts)).
    + apply G1. right. split; [|lia]. intros E. rewrite E in *. cbn in *. lia.
    + destruct G2 as (r & f' & m & E & P & Q); [reflexivity|right; lia|]. exists r, f', m. split; [exact E|]. split; [exact P|]. destruct r; [|exact Q].
      destruct Q as (Q1 & Q2 & Q3). split; [exact Q1|]. split; [exact Q2|]. split; [exact Q3|]. rewrite Q3. apply (put_taken found); [exact P|lia].
Qed.

(** ** The lasers of the optimal control program *)
Lemma zlen_fresh n : 0 <= n -> zlen (fresh n) = n.
Proof. intros H. unfold fresh, zlen. rewrite repeat_length. lia. Qed.
Lemma read_all f ts f' : put f 0 ts f' -> zlen ts <= zlen f ->
  foldM (fun ls l => let* c := rd f' l in match c with Some c => Ok (ls ++ [c]) | None => UB end) (upto 0 (zlen ts)) [] = Ok (map snd ts).
Proof.
  intros [L R] H. destruct (foldM_upto (fun ls l => let* c := rd f' l in match c with Some c => Ok (ls ++ [c]) | None => UB end) (fun k ls => ls = map snd (firstn (Z.to_nat k) ts)) 0 (zlen ts) []) as (ls & E & P).
  - apply zlen_nonneg.
  - reflexivity.
  - intros k ls Hk ->. rewrite R, (proj2 (Z.leb_le _ _)), (proj2 (Z.ltb_lt _ _)) by lia. cbn [andb]. rewrite Z.sub_0_r. unfold vals. rewrite rd_map. rewrite (@rd_nth (place * Z) ts k ([], 0)) by exact Hk. cbn [bind].
    eexists. split; [reflexivity|]. replace (Z.to_nat (k + 1)) with (S (Z.to_nat k)) by lia. assert (Z.to_nat k < length ts)%nat as Hl by (unfold zlen in Hk; lia). clear - Hl. revert Hl. generalize (Z.to_nat k). intros n. revert ts.
    induction n; intros [|t ts] Hl; cbn in Hl; try lia; [reflexivity|]. cbn [firstn map app nth]. f_equal. apply IHn. lia.
  - rewrite E, P. unfold zlen. rewrite Nat2Z.id, firstn_all. reflexivity.
Qed.
Lemma choose_exact lab H :
  let ts1 := searched lab (Some (lit "OptLaser")) H in
  let ts2 := searched lab None H in
  choose lab H =
    if max_lasers <? zlen ts1 then UB else
    if negb (zlen ts1 =? 0) then Ok (map snd ts1) else
    match H with Wanted _ => UB | _ =>
      if prints lab None H || (max_lasers <? zlen ts2) then UB else
      if zlen ts2 =? 0 then Throw else Ok (map snd ts2)
    end.
Proof.
  intros ts1 ts2. unfold choose. pose proof (find_exact lab (Some (lit "OptLaser")) H max_lasers (fresh max_lasers)) as F1. cbn [orb] in F1. fold ts1 in F1.
  destruct (max_lasers <? zlen ts1) eqn:G1; [rewrite F1 by (try apply zlen_fresh; unfold max_lasers; lia); reflexivity|]. apply Z.ltb_ge in G1.
  destruct F1 as (r & f' & m & E & P & Q); [unfold max_lasers; lia|apply zlen_fresh; unfold max_lasers; lia|]. rewrite E. cbn [bind fst snd].
  destruct r as [p|].
  - destruct Q as (Q1 & _ & -> & _). destruct (Z.eqb_spec (zlen ts1) 0) as [Z0|Z0]; [apply zlen_nil in Z0; congruence|]. cbn [bind negb fst snd]. rewrite (proj2 (Z.eqb_neq _ _) Z0).
    apply (read_all (fresh max_lasers)); [exact P|]. rewrite zlen_fresh by (unfold max_lasers; lia). exact G1.
  - destruct Q as (Q1 & ->). rewrite Q1. change (negb (zlen (@nil occ) =? 0)) with false. cbv iota. destruct H as [i|i|i l|i m]; cbn [dmis].
    + change (max_lasers =? 0) with false. cbv iota. cbn [bind fst snd]. change (max_lasers =? 0) with false. cbv iota. rewrite (upto_cons 0 max_lasers) by (unfold max_lasers; lia). cbn [foldM].
      destruct P as [_ P]. rewrite (P 0). rewrite Q1. reflexivity.
    + change (0 =? 0) with true. cbv iota. reflexivity.
    + change (0 =? 0) with true. cbv iota. pose proof (find_exact lab None (OL i l) max_lasers f') as F2. fold ts2 in F2. cbv zeta iota in F2. set (H := OL i l) in *. fold ts2 in F2.
      assert (zlen f' = max_lasers) as Lf by (destruct P as [P _]; rewrite P; apply zlen_fresh; unfold max_lasers; lia).
      destruct (prints lab None H || (max_lasers <? zlen ts2)) eqn:G2; [rewrite F2 by (try assumption; unfold max_lasers; lia); reflexivity|].
      destruct F2 as (r2 & f2 & m2 & E2 & P2 & R2); [unfold max_lasers; lia|exact Lf|]. rewrite E2. cbn [bind fst snd]. apply orb_false_iff in G2. destruct G2 as [_ G2]. apply Z.ltb_ge in G2. destruct r2.
      * destruct R2 as (R1 & _ & -> & _). destruct (Z.eqb_spec (zlen ts2) 0) as [Z0|Z0]; [apply zlen_nil in Z0; congruence|]. apply (read_all f'); [exact P2|]. rewrite Lf. exact G2.
      * destruct R2 as (-> & ->). reflexivity.
    + change (0 =? 0) with true. cbv iota. pose proof (find_exact lab None (MS i m) max_lasers f') as F2. cbv zeta iota in F2. set (H := MS i m) in *. fold ts2 in F2.
      assert (zlen f' = max_lasers) as Lf by (destruct P as [P _]; rewrite P; apply zlen_fresh; unfold max_lasers; lia).
      destruct (prints lab None H || (max_lasers <? zlen ts2)) eqn:G2; [rewrite F2 by (try assumption; unfold max_lasers; lia); reflexivity|].
      destruct F2 as (r2 & f2 & m2 & E2 & P2 & R2); [unfold max_lasers; lia|exact Lf|]. rewrite E2. cbn [bind fst snd]. apply orb_false_iff in G2. destruct G2 as [_ G2]. apply Z.ltb_ge in G2. destruct r2.
      * destruct R2 as (R1 & _ & -> & _). destruct (Z.eqb_spec (zlen ts2) 0) as [Z0|Z0]; [apply zlen_nil in Z0; congruence|]. apply (read_all f'); [exact P2|]. rewrite Lf. exact G2.
      * destruct R2 as (-> & ->). reflexivity.
Qed.
