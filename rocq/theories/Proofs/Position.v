(** Proofs about the position operator (C99). *)
From Coq Require Import List ZArith Lia Bool Arith Ring Field.
From Verif Require Import Base Arrays Algebra Complex Ordered Model.Grid Spec.Grid Proofs.Grid Proofs.Derive Model.Position Spec.Position.
Import ListNotations.
Open Scope Z_scope.

Section Proofs.
  Variable F : ofld.
  Add Field PSf : (f_th F).
  Definition triple (a : dim_ F) : Z * F * F := (d_n a, d_lo a, d_hi a).
  Definition ptab (ds : list Z) (t : list (option F)) (f : list Z -> option F) : Prop := zlen t = points ds /\ forall cs, in_box ds cs -> rd t (flat ds cs) = Ok (f cs).

  Lemma ptab_const ds x : Forall (fun d => 0 < d) ds -> ptab ds (repeat x (Z.to_nat (points ds))) (fun _ => x).
  Proof.
    intros Pos. assert (P : 0 < points ds) by (apply points_pos; exact Pos). split.
    - unfold zlen. rewrite repeat_length. lia.
    - intros cs B. pose proof (flat_bound _ _ B) as Hb.
      destruct (proj1 (rd_ok (repeat x (Z.to_nat (points ds))) (flat ds cs))) as [y Ey].
      { unfold zlen. rewrite repeat_length. lia. }
      rewrite Ey. f_equal. unfold rd in Ey. destruct (0 <=? _); [|discriminate]. destruct (nth_error _ _) eqn:E; [|discriminate].
      injection Ey as ->. apply nth_error_In in E. apply repeat_spec in E. exact E.
  Qed.
  Lemma ptab_ext ds t f h : ptab ds t f -> (forall cs, in_box ds cs -> f cs = h cs) -> ptab ds t h.
  Proof. intros [A B] H. split; [exact A|]. intros cs Hc. rewrite <- (H cs Hc). apply B, Hc. Qed.

  Section Loop.
    Variables (o : posn F) (g : list (dim_ F)).
    Hypothesis G : s_grid o = g.
    Notation ds := (sizes g).
    Hypothesis Pos : Forall (fun d => 0 < d) ds.
    Definition val (d : nat) (cs : list Z) : option F :=
      match spaced (nth d g no_dim) (nth d cs 0) with Some x => Some (cmul (cadd (d_lo (nth d g no_dim)) x) (s_scale o)) | None => None end.
    Lemma size_nth d : (d < length g)%nat -> nth d ds 0 = d_n (nth d g no_dim).
    Proof. intros H. unfold sizes. change 0 with (d_n (@no_dim F)). apply map_nth. Qed.
    Definition J (d : nat) (v : vview (option F)) (f : list Z -> option F) : Prop := exists a seen, vinv ds seen a v /\
      (forall e, In e seen -> exists p, a = Some p) /\ (forall e, In e seen -> (e < d)%nat) /\ ptab ds (v_data v) f.
    Lemma step d v f : (d < length g)%nat -> J d v f -> exists v', init_dim o v d = Ok v' /\ J (S d) v' (fun cs => nadd (f cs) (val d cs)).
    Proof.
      intros Hd (a & seen & I & SA & Le & T). assert (Hd' : (d < length ds)%nat) by (unfold sizes; rewrite map_length; exact Hd).
      destruct (view_act_ok ds seen a d v Pos Hd' I SA) as (v1 & E1 & I1 & D1).
      { intros Hs. apply Le in Hs. lia. }
      unfold init_dim. rewrite E1, G. cbn [bind]. pose proof (nth_pos ds d Pos Hd') as N. unfold size_of in N.
      assert (L : zlen (coords (nth d g no_dim) (s_scale o)) = nth d ds 0).
      { unfold coords, zlen. rewrite map_length, upto_length, size_nth by exact Hd. rewrite size_nth in N by exact Hd. lia. }
      destruct (view_op_ok ds (d :: seen) d v1 nadd _ Pos I1 L) as (v2 & E2 & I2 & A2).
      exists v2. split; [exact E2|]. exists (Some d), (d :: seen). split; [exact I2|]. split; [intros; eauto|]. split.
      - intros e [<-|He]; [lia|]. apply Le in He. lia.
      - rewrite D1 in A2. destruct T as [T1 T2], A2 as [A1 A2]. split; [exact (eq_trans A1 T1)|]. intros cs Hc. apply A2; [exact Hc|apply T2; exact Hc|].
        pose proof (box_nth ds cs d Hc Hd') as Hb. rewrite size_nth in Hb by exact Hd. unfold coords, val. rewrite rd_map, rd_upto by lia. reflexivity.
    Qed.
    Lemma loop n : forall d v f, (d + n <= length g)%nat -> J d v f ->
      exists v', foldM (init_dim o) (seq d n) v = Ok v' /\ ptab ds (v_data v') (fun cs => fold_left (fun x e => nadd x (val e cs)) (seq d n) (f cs)).
    Proof.
      induction n as [|n IH]; intros d v f Hn HJ; cbn [seq foldM fold_left].
      - exists v. split; [reflexivity|]. destruct HJ as (? & ? & ? & ? & ? & T). exact T.
      - destruct (step d v f) as (v1 & E1 & J1); [lia|exact HJ|]. rewrite E1. cbn [bind]. destruct (IH (S d) v1 _ ltac:(lia) J1) as (v2 & E2 & T). exists v2. split; assumption.
    Qed.
  End Loop.

  (** at least two points *)
  Definition wide (a : dim_ F) : Prop := 2 <= d_n a.
  Lemma val_wide o g d cs : (d < length g)%nat -> wide (nth d g no_dim) -> val o g d cs = Some (cmul (coord (map triple g) cs d) (s_scale o)).
  Proof.
    intros H W. unfold val, spaced. unfold wide in W. destruct (Z.eqb_spec (d_n (nth d g no_dim)) 1); [lia|]. f_equal. unfold coord. rewrite nth_error_map, (nth_error_nth' g no_dim H). cbn. unfold place. f_equal. f_equal. apply (Ring_theory.Rmul_comm (cr_th F)).
  Qed.
  Lemma fold_vals o g cs n : forall d x, (d + n <= length g)%nat -> (forall e, (d <= e < d + n)%nat -> wide (nth e g no_dim)) ->
    fold_left (fun x e => nadd x (val o g e cs)) (seq d n) (Some x) = Some (cadd x (cmul (total (map (coord (map triple g) cs) (seq d n))) (s_scale o))).
  Proof.
    induction n as [|n IH]; intros d x H W; cbn [seq fold_left map total fold_right].
    - f_equal. ring.
    - rewrite (val_wide o g d cs) by (try apply W; lia). cbn [nadd]. rewrite IH; [|lia|intros e He; apply W; lia]. f_equal. unfold total. ring.
  Qed.
  Lemma nth_wide (g : list (dim_ F)) d : (forall a, In a g -> wide a) -> (d < length g)%nat -> wide (nth d g no_dim).
  Proof. intros H L. apply H. apply nth_In. exact L. Qed.
  Lemma wide_pos (g : list (dim_ F)) : (forall a, In a g -> wide a) -> Forall (fun d => 0 < d) (sizes g).
  Proof. intros H. apply Forall_forall. intros z Hz. unfold sizes in Hz. apply in_map_iff in Hz. destruct Hz as (a & <- & Ha). apply H in Ha. unfold wide in Ha. lia. Qed.

  Definition start (p : ppars F) (g : list (dim_ F)) : outcome (posn F * bool) := let* o := posn_params posn_new p in posn_psi o (Some g).
  Definition scale_of (p : ppars F) : F := match pp_scale p with Some x => x | None => c1 end.
  Definition asked (p : ppars F) (n : nat) : Prop := match pp_dim p with Some d => 0 <= d < Z.of_nat n | None => True end.
  Lemma points_len ds : ds <> [] -> Forall (fun d => 0 < d) ds -> grid_size ds = points ds.
  Proof. intros H _. apply grid_size_spec. exact H. Qed.
  Lemma start_ok p g : g <> [] -> (length g <= 4)%nat -> (forall a, In a g -> wide a) -> asked p (length g) ->
    exists o, start p g = Ok (o, true) /\ s_grid o = g /\ s_dim o = match pp_dim p with Some d => d | None => -1 end /\ s_scale o = scale_of p /\
      table_of (sizes g) (s_tab o) (fun cs => cmul (scale_of p) (position (map triple g) (pp_dim p) cs)).
  Proof.
    intros N L4 W A. pose proof (wide_pos g W) as P. assert (Ns : sizes g <> []) by (destruct g; [contradiction|discriminate]).
    unfold start, posn_params. set (dim := match pp_dim p with Some d => d | None => -1 end).
    assert (Ed : (match pp_dim p with None => Ok (s_dim (@posn_new F)) | Some d => if d <? 0 then Throw else Ok d end) = Ok dim).
    { unfold dim, asked in *. destruct (pp_dim p) as [d|]; [|reflexivity]. destruct (Z.ltb_spec d 0); [lia|reflexivity]. }
    rewrite Ed. cbn [bind]. change (match pp_scale p with Some x => x | None => s_scale posn_new end) with (scale_of p). unfold posn_psi. cbn [s_tab posn_new s_dim s_scale s_grid].
    change (0 <? zlen []) with false. cbv beta iota zeta.
    assert (Bd : -1 <= dim < Z.of_nat (length g)) by (unfold dim, asked in *; destruct (pp_dim p); lia).
    destruct (Z.eqb_spec dim 2147483647); [lia|]. unfold zlen at 1. destruct (Z.ltb_spec (Z.of_nat (length g)) (dim + 1)); [lia|].
    rewrite grid_size_spec by exact Ns. set (t := repeat (Some c0) (Z.to_nat (points (sizes g)))). set (o := mkPosn dim (scale_of p) g t).
    pose proof (ptab_const (sizes g) (Some (c0 : F)) P) as T0.
    assert (J0 : forall d, J g d (new_view t (sizes g)) (fun _ => Some c0)).
    { intros d. exists None, []. split; [apply new_vinv; apply T0|]. split; [intros ? []|]. split; [intros ? []|exact T0]. }
    destruct (Z.ltb_spec dim 0) as [Hn|Hn].
    - destruct (loop o g eq_refl P (length g) 0 _ _ ltac:(lia) (J0 O)) as (v & E & T). rewrite E. cbn [bind]. eexists. split; [reflexivity|]. repeat split; try reflexivity; [apply T|].
      intros cs Hc. cbn [s_tab]. destruct T as [_ T]. rewrite (T cs Hc), (fold_vals o g cs (length g) 0 c0 ltac:(lia)) by (intros e He; apply nth_wide; [exact W|lia]).
      assert (Ep : pp_dim p = None) by (unfold dim, asked in *; destruct (pp_dim p); [lia|reflexivity]). rewrite Ep. cbn [position]. rewrite map_length. do 2 f_equal. cbn [s_scale o]. ring.
    - assert (Hd : (Z.to_nat dim < length g)%nat) by lia. cbn [foldM]. destruct (step o g eq_refl P (Z.to_nat dim) _ _ Hd (J0 (Z.to_nat dim))) as (v & E & JJ). rewrite E. cbn [bind]. destruct JJ as (_ & _ & _ & _ & _ & T).
      eexists. split; [reflexivity|]. repeat split; try reflexivity; [apply T|]. intros cs Hc. cbn [s_tab]. destruct T as [_ T]. rewrite (T cs Hc), (val_wide o g _ cs Hd (nth_wide g _ W Hd)).
      assert (Ep : pp_dim p = Some dim) by (unfold dim, asked in *; destruct (pp_dim p); [reflexivity|lia]). rewrite Ep. cbn [position nadd]. do 2 f_equal. cbn [s_scale o]. ring.
  Qed.

  Lemma ofZ_pos z : 0 < z -> olt (c0 : F) (ofZ z).
  Proof.
    intros H. rewrite <- (Z2Nat.id z) by lia. assert (N : (0 < Z.to_nat z)%nat) by lia. induction (Z.to_nat z) as [|n IH]; [lia|]. rewrite Nat2Z.inj_succ. unfold Z.succ. rewrite (ofZ_add F), (ofZ_1 F).
    destruct n as [|n]; [change (olt (c0 : F) (cadd (ofZ 0) c1)); rewrite (ofZ_0 F); replace (cadd c0 c1 : F) with (c1 : F) by ring; apply one_pos|]. apply (olt_tr F c0 c1); [apply one_pos|]. pose proof (olt_add F _ _ (c1 : F) (IH ltac:(lia))) as X. replace (cadd c0 c1 : F) with (c1 : F) in X by ring. exact X.
  Qed.
  Lemma place_within N (lo hi : F) n : 2 <= N -> olt lo hi -> 0 <= n < N -> within lo (place N lo hi n) hi.
  Proof.
    intros HN L Hn. assert (P : olt (c0 : F) (ofZ (N - 1))) by (apply ofZ_pos; lia). assert (D : olt (c0 : F) (csub hi lo)).
    { pose proof (olt_add F _ _ (copp lo) L) as X. replace (cadd lo (copp lo)) with (c0 : F) in X by ring. replace (cadd hi (copp lo)) with (csub hi lo) in X by ring. exact X. }
    assert (Q : olt (c0 : F) (fdiv (csub hi lo) (ofZ (N - 1)))).
    { replace (fdiv (csub hi lo) (ofZ (N - 1))) with (cmul (csub hi lo) (fdiv c1 (ofZ (N - 1)))) by (field; apply pos_neq; exact P). apply olt_mul; [exact D|apply inv_pos; exact P]. }
    unfold place. split.
    - destruct (Z.eq_dec n 0) as [->|]; [right; rewrite (ofZ_0 F); ring|left]. pose proof (olt_mul F _ _ (ofZ_pos n ltac:(lia)) Q) as X. pose proof (olt_add F _ _ lo X) as Y.
      replace (cadd c0 lo) with (lo : F) in Y by ring. replace (cadd lo (cmul (ofZ n) (fdiv (csub hi lo) (ofZ (N - 1))))) with (cadd (cmul (ofZ n) (fdiv (csub hi lo) (ofZ (N - 1)))) lo) by ring. exact Y.
    - assert (E : hi = cadd lo (cmul (ofZ (N - 1)) (fdiv (csub hi lo) (ofZ (N - 1))))) by (field; apply pos_neq; exact P).
      destruct (Z.eq_dec n (N - 1)) as [->|]; [right; symmetry; exact E|left]. rewrite E at 2. pose proof (olt_mul F _ _ (ofZ_pos (N - 1 - n) ltac:(lia)) Q) as X. rewrite (ofZ_sub F (N - 1) n) in X.
      pose proof (olt_add F _ _ (cadd lo (cmul (ofZ n) (fdiv (csub hi lo) (ofZ (N - 1))))) X) as Y. replace (cadd c0 (cadd lo (cmul (ofZ n) (fdiv (csub hi lo) (ofZ (N - 1)))))) with (cadd lo (cmul (ofZ n) (fdiv (csub hi lo) (ofZ (N - 1))))) in Y by ring.
      replace (cadd (cmul (csub (ofZ (N - 1)) (ofZ n)) (fdiv (csub hi lo) (ofZ (N - 1)))) (cadd lo (cmul (ofZ n) (fdiv (csub hi lo) (ofZ (N - 1)))))) with (cadd lo (cmul (ofZ (N - 1)) (fdiv (csub hi lo) (ofZ (N - 1))))) in Y by ring. exact Y.
  Qed.

  Lemma params_of p : posn_params posn_new p = match pp_dim p with Some d => if d <? 0 then Throw else Ok (mkPosn d (scale_of p) [] []) | None => Ok (mkPosn (-1) (scale_of p) [] []) end.
  Proof. unfold posn_params, scale_of. destruct (pp_dim p) as [d|]; [destruct (d <? 0)|]; reflexivity. Qed.
  Lemma negative p d g : pp_dim p = Some d -> d < 0 -> start p g = Throw.
  Proof. intros E H. unfold start. rewrite params_of, E. destruct (Z.ltb_spec d 0); [reflexivity|lia]. Qed.
  Definition zeros (g : list (dim_ F)) : list (option F) := repeat (Some c0) (Z.to_nat (points (sizes g))).
  Lemma too_large p d g : g <> [] -> pp_dim p = Some d -> Z.of_nat (length g) <= d -> 0 <= d -> d <> 2147483647 -> start p g = Ok (mkPosn d (scale_of p) g (zeros g), false).
  Proof.
    intros N E H D X. unfold start. rewrite params_of, E. destruct (Z.ltb_spec d 0); [lia|]. cbn [bind]. unfold posn_psi. cbn [s_tab s_dim s_scale s_grid]. change (0 <? zlen []) with false. cbv beta iota zeta.
    destruct (Z.eqb_spec d 2147483647); [contradiction|]. unfold zlen. destruct (Z.ltb_spec (Z.of_nat (length g)) (d + 1)); [|lia]. rewrite grid_size_spec; [reflexivity|]. destruct g; [contradiction|discriminate].
  Qed.
  Lemma overflow p g : pp_dim p = Some 2147483647 -> start p g = UB.
  Proof. intros E. unfold start. rewrite params_of, E. reflexivity. Qed.
  Lemma other_kind o : posn_psi (F := F) o None = Ok (o, false).
  Proof. reflexivity. Qed.
  Lemma zeros_len g : 0 < points (sizes g) -> zlen (zeros g) = points (sizes g).
  Proof. intros H. unfold zeros, zlen. rewrite repeat_length. lia. Qed.
  Lemma again o g : 0 < zlen (s_tab o) -> posn_psi (F := F) o (Some g) = Ok (o, true).
  Proof. intros H. unfold posn_psi. destruct (Z.ltb_spec 0 (zlen (s_tab o))); [reflexivity|lia]. Qed.

  Lemma rd_combine {A B} : forall (l : list A) (m : list B) k a b, rd l k = Ok a -> rd m k = Ok b -> rd (combine l m) k = Ok (a, b).
  Proof.
    intros l m k a b. unfold rd. destruct (0 <=? k); [|discriminate]. generalize (Z.to_nat k). intros n. revert m n. induction l as [|x l IH]; intros [|y m] [|n]; cbn; try discriminate.
    - congruence.
    - apply IH.
  Qed.
  Lemma rd_map_ok {A B} (h : A -> B) l k x : rd l k = Ok x -> rd (map h l) k = Ok (h x).
  Proof. intros E. rewrite rd_map, E. reflexivity. Qed.
  Lemma apply_ok o ds f (psi : list (Cx F)) : table_of ds (s_tab o) f -> zlen psi = points ds ->
    exists r, posn_apply o psi = Ok r /\ zlen r = zlen psi /\ forall cs x, in_box ds cs -> rd psi (flat ds cs) = Ok x -> rd r (flat ds cs) = Ok (Some (cx_scale (f cs) x)).
  Proof.
    intros [T1 T2] L. unfold posn_apply. assert (E : zlen psi = zlen (s_tab o)) by (etransitivity; [exact L|symmetry; exact T1]). rewrite E, Z.eqb_refl. cbn [negb].
    eexists. split; [reflexivity|]. split.
    - unfold zlen in *. rewrite map_length, combine_length. lia.
    - intros cs x Hc Hx. refine (rd_map_ok (fun x : Cx F * option F => match snd x with Some s => Some (cx_scale s (fst x)) | None => None end) _ _ (x, Some (f cs)) _). exact (rd_combine psi (s_tab o) _ x (Some (f cs)) Hx (T2 cs Hc)).
  Qed.
  Lemma apply_ub o (psi : list (Cx F)) : zlen psi <> zlen (s_tab o) -> posn_apply o psi = UB.
  Proof. intros H. unfold posn_apply. destruct (Z.eqb_spec (zlen psi) (zlen (s_tab o))); [contradiction|reflexivity]. Qed.
  Lemma herm_lists : forall (t : list (option F)) (a b : list (Cx F)), length a = length t -> length b = length t ->
    let sc := fun l => map (fun x => match snd x with Some s => Some (cx_scale s (fst x)) | None => None end) (combine l t) in
    forall ra rb, sc a = map Some ra -> sc b = map Some rb -> dot a rb = dot ra b.
  Proof.
    induction t as [|s t IH]; intros [|x a] [|y b]; cbn; try discriminate; intros La Lb [|u ra] [|v rb]; cbn; try discriminate; [reflexivity|].
    destruct s as [s|]; [|discriminate]. intros Ha Hb. injection Ha as Hu Ha. injection Hb as Hv Hb. pose proof (IH a b (eq_add_S _ _ La) (eq_add_S _ _ Lb) ra rb Ha Hb) as I.
    change (cadd (c := Cx F) (cmul (c := Cx F) (cx_conj x) v) (dot a rb) = cadd (c := Cx F) (cmul (c := Cx F) (cx_conj u) y) (dot ra b)). rewrite I. f_equal. subst u v. destruct x as [xr xi], y as [yr yi]. apply cx_eq; cbn; ring.
  Qed.
  Lemma herm o (a b : list (Cx F)) ra rb : posn_apply o a = Ok (map Some ra) -> posn_apply o b = Ok (map Some rb) -> dot a rb = dot ra b.
  Proof.
    unfold posn_apply. destruct (Z.eqb_spec (zlen a) (zlen (s_tab o))); [|discriminate]. destruct (Z.eqb_spec (zlen b) (zlen (s_tab o))); [|discriminate]. cbn [negb].
    intros Ha Hb. injection Ha as Ha. injection Hb as Hb. exact (herm_lists (s_tab o) a b (Nat2Z.inj _ _ e) (Nat2Z.inj _ _ e0) ra rb Ha Hb).
  Qed.
  Lemma all_some o ds f (psi : list (Cx F)) : Forall (fun d => 0 < d) ds -> table_of ds (s_tab o) f -> zlen psi = points ds -> exists r, posn_apply o psi = Ok (map Some r).
  Proof.
    intros P [T1 T2] L. unfold posn_apply. assert (E : zlen psi = zlen (s_tab o)) by (etransitivity; [exact L|symmetry; exact T1]). rewrite E, Z.eqb_refl. cbn [negb].
    assert (A : forall x, In x (s_tab o) -> x <> None).
    { intros x Hx. apply In_nth_error in Hx. destruct Hx as [n Hn]. assert (B : (n < length (s_tab o))%nat) by (apply nth_error_Some; congruence). assert (T3 : Z.of_nat (length (s_tab o)) = points ds) by exact T1.
      destruct (flat_surj ds (Z.of_nat n) P) as (cs & Hc & Ef); [rewrite <- T3; lia|]. pose proof (T2 cs Hc) as X. rewrite Ef in X. unfold rd in X. destruct (Z.leb_spec 0 (Z.of_nat n)); [|lia]. rewrite Nat2Z.id, Hn in X. congruence. }
    clear T1 T2 L P E. revert psi. induction (s_tab o) as [|s t IH]; intros [|x psi]; try (exists []; reflexivity).
    destruct (IH ltac:(intros z Hz; apply A; right; exact Hz) psi) as [r Er]. destruct s as [s|]; [|exfalso; apply (A None); [left; reflexivity|reflexivity]].
    injection Er as Er. exists (cx_scale s x :: r). cbn. rewrite Er. reflexivity.
  Qed.
  Lemma bounds_ok p g d a : g <> [] -> (length g <= 4)%nat -> (forall a, In a g -> wide a) -> pp_dim p = Some d -> scale_of p = c1 -> 0 <= d -> nth_error g (Z.to_nat d) = Some a -> olt (d_lo a) (d_hi a) ->
    exists o, start p g = Ok (o, true) /\ posn_emin o = Ok (d_lo a) /\ posn_emax o = Ok (d_hi a) /\
      forall cs, in_box (sizes g) cs -> exists x, rd (s_tab o) (flat (sizes g) cs) = Ok (Some x) /\ within (d_lo a) x (d_hi a).
  Proof.
    intros N L W E S D Ha O. assert (B : (Z.to_nat d < length g)%nat) by (apply nth_error_Some; congruence).
    destruct (start_ok p g N L W) as (o & Eo & G & Ed & Es & T1 & T2). { unfold asked. rewrite E. lia. }
    exists o. split; [exact Eo|]. unfold posn_emin, posn_emax. rewrite G, Ed, E.
    assert (R : rd g d = Ok a) by (unfold rd; destruct (Z.leb_spec 0 d); [rewrite Ha; reflexivity|lia]). rewrite R. split; [reflexivity|]. split; [reflexivity|].
    intros cs Hc. eexists. split; [apply T2; exact Hc|]. rewrite E, S. cbn [position]. unfold coord. rewrite nth_error_map, Ha. cbn.
    assert (Hb : 0 <= nth (Z.to_nat d) cs 0 < d_n a).
    { assert (X : (Z.to_nat d < length (sizes g))%nat) by (unfold sizes; rewrite map_length; exact B). pose proof (box_nth (sizes g) cs (Z.to_nat d) Hc X) as Y. rewrite (size_nth g) in Y by exact B. rewrite (nth_error_nth g _ no_dim Ha) in Y. exact Y. }
    replace (cmul c1 (place (d_n a) (d_lo a) (d_hi a) (nth (Z.to_nat d) cs 0))) with (place (d_n a) (d_lo a) (d_hi a) (nth (Z.to_nat d) cs 0)) by ring.
    apply place_within; [|exact O|exact Hb]. apply W. apply (nth_error_In g (Z.to_nat d)). exact Ha.
  Qed.
End Proofs.
