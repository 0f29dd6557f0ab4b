(** Loops over the stripes of a grid along one dimension. *)
From Coq Require Import List ZArith Lia Bool Arith.
From Verif Require Import Base Arrays Model.Grid Spec.Grid Proofs.Grid.
Import ListNotations.
Open Scope Z_scope.

(** facts about all stripes along a dimension *)
Lemma stripes (g0 G : grid) acts dim : let ds := g_sizes G in let g := ready g0 G acts dim in let Nx := size_of ds dim in
  Forall (fun d => 0 < d) ds -> (dim < length ds)%nat ->
  exists no lo (bse : Z -> Z), NumOthers g = Ok no /\ LowOthers g = Ok lo /\ 0 < lo /\ 0 < no /\ 0 < Nx /\
    (forall rep, 0 <= rep < no -> IndexBase g rep = Ok (bse rep) /\ 0 <= bse rep) /\
    (forall rep k, 0 <= rep < no -> 0 <= k < Nx -> 0 <= bse rep + k * lo < points ds) /\
    (forall rep k rep' k', 0 <= rep < no -> 0 <= k < Nx -> 0 <= rep' < no -> 0 <= k' < Nx ->
        bse rep + k * lo = bse rep' + k' * lo -> rep = rep' /\ k = k') /\
    (forall cs, in_box ds cs -> exists rep, 0 <= rep < no /\ 0 <= nth dim cs 0 < Nx /\
        (forall k, 0 <= k < Nx -> flat ds (firstn dim cs ++ k :: skipn (S dim) cs) = bse rep + k * lo) /\
        flat ds cs = bse rep + nth dim cs 0 * lo) /\
    (exists rep, 0 <= rep < no /\ bse rep + (Nx - 1) * lo = points ds - 1) /\
    (exists rep, 0 <= rep < no /\ bse rep = 0).
Proof.
  intros ds g Nx Pos Hd. destruct (ready_info g0 G acts dim Hd) as (S1 & S2 & S3 & S4). fold g in S1, S2, S3, S4.
  fold ds in S1, S2, S3, S4. destruct (at_dim_ex ds dim Hd) as (lo & hi & AD). fold Nx in AD.
  set (od := remove_at dim ds).
  assert (Nod : num_others ds dim = points od) by (unfold od; rewrite (at_dim_remove _ _ _ _ _ AD); apply (num_others_spec _ _ _ _ _ AD)).
  assert (Elo : low_others ds dim = points lo) by (apply (low_others_spec _ _ _ _ _ AD)).
  rewrite Nod in S3. rewrite Elo in S2. set (L := points lo) in *.
  assert (PO : Forall (fun d => 0 < d) od) by (apply remove_pos; exact Pos).
  assert (P0 : 0 < Nx) by (apply nth_pos; assumption).
  assert (PL : 0 < L).
  { apply points_pos. rewrite (ad_eq _ _ _ _ _ AD) in Pos. apply Forall_app in Pos. tauto. }
  exists (points od), L, (fun rep => match IndexBase g rep with Ok b => b | _ => 0 end).
  set (bse := fun rep => match IndexBase g rep with Ok b => b | _ => 0 end).
  assert (ST : forall rep, 0 <= rep < points od -> exists cs, in_box od cs /\ flat od cs = rep /\ IndexBase g rep = Ok (bse rep) /\
     forall k, 0 <= k < Nx -> bse rep + k * L = flat ds (insert_at dim k cs)).
  { intros rep Hr. destruct (flat_surj od rep PO Hr) as (cs & B & E). exists cs. split; [exact B|]. split; [exact E|].
    destruct (index_flat g0 G acts dim cs 0 Hd B ltac:(change (0 <= 0 < Nx); lia)) as (_ & I0 & _). fold g ds od in I0. rewrite E in I0.
    assert (Eb : bse rep = flat ds (insert_at dim 0 cs)) by (unfold bse; rewrite I0; reflexivity).
    split; [rewrite I0, Eb; reflexivity|]. intros k Hk. rewrite Eb.
    destruct (box_insert _ _ _ _ _ cs k AD B Hk) as (_ & Fk & _). rewrite Fk. reflexivity. }
  assert (BD : forall rep k, 0 <= rep < points od -> 0 <= k < Nx -> 0 <= bse rep + k * L < points ds).
  { intros rep k Hr Hk. destruct (ST rep Hr) as (cs & B & _ & _ & A). rewrite A by assumption. apply flat_bound.
    apply (box_insert _ _ _ _ _ cs k AD B Hk). }
  assert (CS : forall cs, in_box ds cs -> exists rep, 0 <= rep < points od /\ 0 <= nth dim cs 0 < Nx /\
        (forall k, 0 <= k < Nx -> flat ds (firstn dim cs ++ k :: skipn (S dim) cs) = bse rep + k * L) /\
        flat ds cs = bse rep + nth dim cs 0 * L).
  { intros cs Bc. destruct (box_remove _ _ _ _ _ cs AD Bc) as (B1 & B2 & B3). fold od in B1.
    assert (Hr : 0 <= flat od (remove_at dim cs) < points od) by (apply flat_bound; exact B1).
    destruct (ST _ Hr) as (cs' & B' & Er & _ & A). assert (cs' = remove_at dim cs) by (apply (flat_inj od); assumption). subst cs'.
    exists (flat od (remove_at dim cs)). split; [exact Hr|]. split; [exact B2|]. split.
    - intros k Hk. rewrite A by exact Hk. f_equal.
      assert (Lc : (dim < length cs)%nat) by (rewrite <- (box_len _ _ Bc); exact Hd).
      destruct (split_nth cs dim 0 Lc) as [_ Lf]. unfold remove_at. rewrite insert_app by exact Lf. reflexivity.
    - rewrite A by exact B2. rewrite B3. reflexivity. }
  repeat match goal with |- _ /\ _ => split end; auto.
  - apply points_pos. exact PO.
  - intros rep Hr. destruct (ST rep Hr) as (cs & _ & _ & I0 & _). split; [exact I0|].
    specialize (BD rep 0 Hr ltac:(lia)). fold (bse rep). lia.
  - intros r k r' k' Hr Hk Hr' Hk' E.
    destruct (ST r Hr) as (cs & B & Er & _ & A). destruct (ST r' Hr') as (cs' & B' & Er' & _ & A').
    fold (bse r) (bse r') in E.
    rewrite A, A' in E by assumption. destruct (box_insert _ _ _ _ _ cs k AD B Hk) as (C1 & _ & C3 & C4).
    destruct (box_insert _ _ _ _ _ cs' k' AD B' Hk') as (D1 & _ & D3 & D4).
    apply (flat_inj ds) in E; [|assumption|assumption]. rewrite E in C3, C4. rewrite C3 in D3. rewrite C4 in D4.
    split; congruence.
  - pose proof (points_pos ds Pos) as PP. destruct (flat_surj ds (points ds - 1) Pos ltac:(lia)) as (cs & B & Ef).
    destruct (CS cs B) as (rep & Hr & Hk & _ & E). exists rep. split; [exact Hr|]. fold (bse rep).
    destruct (Z.eq_dec (nth dim cs 0) (Nx - 1)) as [e|e]; [rewrite <- e; lia|]. exfalso.
    specialize (BD rep (nth dim cs 0 + 1) Hr ltac:(lia)). nia.
  - destruct (flat_surj ds 0 Pos) as (cs & B & Ef); [pose proof (points_pos ds Pos); lia|].
    destruct (CS cs B) as (rep & Hr & Hk & _ & E). exists rep. split; [exact Hr|]. fold (bse rep).
    specialize (BD rep 0 Hr ltac:(lia)). nia.
Qed.

(** ** updates at addresses that may repeat *)
Section Apply.
  Context {A Q : Type}.
  Variable addr : Q -> Z.
  Variable fn : Q -> A -> A.

  Definition hit (a : Z) (x : A) (q : Q) : A := if addr q =? a then fn q x else x.

  Lemma foldM_apply qs (v : list A) : (forall q, In q qs -> 0 <= addr q < zlen v) ->
    exists v', foldM (fun v q => let* x := rd v (addr q) in wr v (addr q) (fn q x)) qs v = Ok v' /\ zlen v' = zlen v /\
      forall a x, rd v a = Ok x -> rd v' a = Ok (fold_left (hit a) qs x).
  Proof.
    revert v; induction qs as [|q t IH]; intros v B; [exists v; cbn; auto|].
    assert (Bq := B q (or_introl eq_refl)). destruct (proj1 (rd_ok v (addr q)) Bq) as [y Ey]. cbn [foldM].
    rewrite Ey. cbn [bind]. rewrite wr_ok by exact Bq. cbn [bind].
    destruct (IH (upd v (Z.to_nat (addr q)) (fn q y))) as (v' & E & L & H).
    { intros p Hp. rewrite zlen_upd. apply B. right; exact Hp. }
    exists v'. rewrite zlen_upd in L. split; [exact E|]. split; [exact L|]. intros a x Ex. cbn [fold_left]. apply H.
    rewrite rd_upd by exact Bq. unfold hit. rewrite (Z.eqb_sym (addr q) a). destruct (a =? addr q) eqn:Ea; [|exact Ex].
    apply Z.eqb_eq in Ea. congruence.
  Qed.

  Lemma fold_miss a qs x : (forall q, In q qs -> addr q <> a) -> fold_left (hit a) qs x = x.
  Proof.
    revert x; induction qs as [|q t IH]; intros x H; [reflexivity|]. cbn. unfold hit at 2.
    rewrite (proj2 (Z.eqb_neq _ _)) by (apply H; left; reflexivity). apply IH. intros p Hp. apply H. right; exact Hp.
  Qed.
End Apply.

Section Upd.
  Context {A : Type}.
  (** what the updates L of a stripe do to the value at coordinate k *)
  Definition at_coord (k : Z) (L : list (Z * (A -> A))) (x : A) : A :=
    fold_left (fun x kf => if fst kf =? k then snd kf x else x) L x.

  (** each stripe is updated at the listed coordinates, in that order *)
  Lemma stripe_fold (g0 G : grid) acts dim (L : list (Z * (A -> A))) (v : list A) :
    let ds := g_sizes G in let g := ready g0 G acts dim in let Nx := size_of ds dim in
    Forall (fun d => 0 < d) ds -> (dim < length ds)%nat -> zlen v = points ds ->
    (forall kf, In kf L -> 0 <= fst kf < Nx) ->
    exists no lo v', NumOthers g = Ok no /\ LowOthers g = Ok lo /\
      foldM (fun v rep => let* b := IndexBase g rep in
               foldM (fun v kf => let* x := rd v (b + fst kf * lo) in wr v (b + fst kf * lo) (snd kf x)) L v) (upto 0 no) v = Ok v' /\
      zlen v' = zlen v /\
      forall cs x, in_box ds cs -> rd v (flat ds cs) = Ok x -> rd v' (flat ds cs) = Ok (at_coord (nth dim cs 0) L x).
  Proof.
    intros ds g Nx Pos Hd Lv HL.
    destruct (stripes g0 G acts dim Pos Hd) as (no & lo & bse & E1 & E2 & Plo & Pno & PN & IB & BD & INJ & CS & _).
    fold g ds Nx in E1, E2, PN, IB, BD, INJ, CS. exists no, lo.
    rewrite (foldM_ext _ (fun v rep => foldM (fun v kf => let* x := rd v (bse rep + fst kf * lo) in
               wr v (bse rep + fst kf * lo) (snd kf x)) L v)).
    2: { intros rep s Hr. apply in_upto in Hr. destruct (IB rep Hr) as [-> _]. reflexivity. }
    rewrite (foldM_nested (fun v rep kf => let* x := rd v (bse rep + fst kf * lo) in wr v (bse rep + fst kf * lo) (snd kf x))
               (upto 0 no) (fun _ => L)).
    set (addr := fun q : Z * (Z * (A -> A)) => bse (fst q) + fst (snd q) * lo).
    set (fn := fun (q : Z * (Z * (A -> A))) a => snd (snd q) a).
    destruct (foldM_apply addr fn (flat_map (fun i => map (pair i) L) (upto 0 no)) v) as (v' & E & Lr & H).
    { intros q Hq. apply in_flat_map in Hq. destruct Hq as (r & Hr & Hq). apply in_upto in Hr. apply in_map_iff in Hq.
      destruct Hq as (kf & <- & Hk). unfold addr. cbn [fst snd]. rewrite Lv. apply BD; auto. }
    exists v'. split; [exact E1|]. split; [exact E2|]. split; [exact E|]. split; [exact Lr|].
    intros cs x B Ex. destruct (CS cs B) as (rep & Hr & Hk & _ & Ef). rewrite (H _ _ Ex). f_equal. clear H E Ex.
    rewrite Ef.
    assert (Sp : upto 0 no = upto 0 rep ++ rep :: upto (rep + 1) no).
    { rewrite (upto_app 0 rep no) by lia. f_equal. apply upto_cons. lia. }
    assert (Miss : forall l y, (forall r, In r l -> 0 <= r < no /\ r <> rep) ->
       fold_left (hit addr fn (bse rep + nth dim cs 0 * lo)) (flat_map (fun i => map (pair i) L) l) y = y).
    { intros l y Hl. apply fold_miss. intros q Hq. apply in_flat_map in Hq. destruct Hq as (r & Hr' & Hq).
      apply in_map_iff in Hq. destruct Hq as (kf & <- & Hk'). unfold addr. cbn [fst snd]. intros Ea.
      destruct (Hl r Hr') as [Hb Hn]. apply INJ in Ea; auto. destruct Ea; contradiction. }
    rewrite Sp, flat_map_app, fold_left_app. rewrite (Miss (upto 0 rep)) by (intros r Hq; apply in_upto in Hq; lia).
    cbn [flat_map]. rewrite fold_left_app. rewrite (Miss (upto (rep + 1) no)) by (intros r Hq; apply in_upto in Hq; lia).
    clear -Hk Hr INJ HL Plo. unfold at_coord. revert x. induction L as [|[k f] t IH]; intros x; [reflexivity|].
    cbn [map fold_left fst snd]. unfold hit at 2. unfold addr at 2. cbn [fst snd].
    replace (bse rep + k * lo =? bse rep + nth dim cs 0 * lo) with (k =? nth dim cs 0).
    2: { apply eq_true_iff_eq. rewrite !Z.eqb_eq. nia. }
    apply IH. intros kf Hkf. apply HL. right; exact Hkf.
  Qed.
End Upd.
