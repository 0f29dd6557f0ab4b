(** Proofs about the kinetic energy with absorbing layers (C101). *)
From Coq Require Import List ZArith Lia Bool Arith Ring Field.
From Verif Require Import Base Arrays Algebra Ordered Model.OPML Spec.OPML.
From Verif Require Proofs.Projection.
Import ListNotations.
Open Scope Z_scope.

Lemma rd_at {A} (pre post : list A) m : rd (pre ++ m :: post) (Z.of_nat (length pre)) = Ok m.
Proof. unfold rd. destruct (Z.leb_spec 0 (Z.of_nat (length pre))); [|lia]. rewrite Nat2Z.id, nth_error_app2, Nat.sub_diag by lia. reflexivity. Qed.

Section Proofs.
  Variable F : ofld.
  Add Field OPf : (f_th F).
  Definition begun (mass : option (list F)) (d : Z) : outcome (kin F) := kin_psi (kin_params kin_new mass) (Some d).
  Variable M : cmodule F.
  Variable D : Z -> M -> M.
  Variable P : bool -> Z -> M -> M.

  Lemma factor (m : F) : m <> c0 -> fdiv (fdiv (copp c1) (cadd c1 c1)) m = copp (fdiv c1 (cmul (cadd c1 c1) m)).
  Proof. intros H. field. split; [exact H|apply two_neq]. Qed.
  Lemma madd_0_r (x : M) : madd x m0 = x. Proof. rewrite madd_comm. apply madd_0. Qed.

  Definition term (c : bool) (psi : M) (im : nat * F) : M :=
    let (i, m) := im in if left_out m then m0 else P c (Z.of_nat i) (mscale (copp (fdiv c1 (cmul (cadd c1 c1) m))) (D (Z.of_nat i) (P c (Z.of_nat i) (D (Z.of_nat i) psi)))).
  Lemma kin_term_ok o psi i m : rd (k_mass o) (Z.of_nat i) = Ok m -> m <> c0 -> kin_term D P o psi (Z.of_nat i) = Ok (Some (term (k_conj o) psi (i, m))).
  Proof.
    intros R N. unfold kin_term, term, left_out. rewrite R. cbn [bind]. destruct (ocmp m c0) as [[H|H]|H]; [|contradiction|]; rewrite factor by exact N; reflexivity.
  Qed.
  Lemma loop o psi : forall post pre rest s, k_mass o = pre ++ post ++ rest -> (forall m, In m post -> m <> c0) ->
    foldM (fun s i => let* t := kin_term D P o psi i in Ok match s, t with Some a, Some b => Some (madd a b) | _, _ => None end) (upto (Z.of_nat (length pre)) (Z.of_nat (length pre + length post))) (Some s)
    = Ok (Some (madd s (msum (map (term (k_conj o) psi) (combine (seq (length pre) (length post)) post))))).
  Proof.
    induction post as [|m post IH]; intros pre rest s E N.
    - rewrite upto_nil by (cbn [length]; lia). cbn. rewrite madd_0_r. reflexivity.
    - rewrite upto_cons by (cbn [length]; lia). cbn [foldM]. rewrite (kin_term_ok o psi (length pre) m); [|rewrite E; apply rd_at|apply N; left; reflexivity]. cbn [bind].
      specialize (IH (pre ++ [m]) rest (madd s (term (k_conj o) psi (length pre, m)))). rewrite app_length in IH. cbn [length] in IH.
      replace (Z.of_nat (length pre + 1)) with (Z.of_nat (length pre) + 1) in IH by lia. replace (length pre + 1 + length post)%nat with (length pre + S (length post))%nat in IH by lia. cbn [length].
      rewrite IH; [|rewrite <- app_assoc; exact E|intros x Hx; apply N; right; exact Hx]. do 2 f_equal. rewrite <- madd_assoc. f_equal. cbn [length seq combine map msum fold_right]. f_equal.
      replace (length pre + 1)%nat with (S (length pre)) by lia. reflexivity.
  Qed.
  Lemma apply_ok mass d c psi o : 0 <= d <= zlen mass -> (forall m, In m (firstn (Z.to_nat d) mass) -> m <> c0) -> begun (Some mass) d = Ok o ->
    kin_apply D P (kin_set_conj o c) psi = Ok (Some (layered D (P c) (firstn (Z.to_nat d) mass) psi)).
  Proof.
    intros L N E. injection E as <-. unfold kin_apply. cbn [k_buf kin_set_conj k_dims kin_params kin_new k_conj k_mass].
    set (pre := firstn (Z.to_nat d) mass) in *. assert (Lp : length pre = Z.to_nat d) by (unfold pre, zlen in *; rewrite firstn_length; lia).
    pose proof (loop (kin_set_conj (mkKin mass d (Live d) false) c) psi pre [] (skipn (Z.to_nat d) mass) m0) as X. cbn [length app k_mass kin_set_conj k_dims k_buf] in X.
    specialize (X (eq_sym (firstn_skipn _ _)) N). replace (Z.of_nat (0 + length pre)) with d in X by lia. etransitivity; [exact X|]. rewrite madd_0. reflexivity.
  Qed.
  (** masses that are missing *)
  Lemma missing mass d c psi o : zlen (match mass with Some l => l | None => [] end) < d -> begun mass d = Ok o -> kin_apply D P (kin_set_conj o c) psi = UB.
  Proof.
    intros L E. injection E as <-. set (l := match mass with Some l => l | None => [] end) in *. unfold kin_apply. cbn [k_buf kin_set_conj k_dims kin_params kin_new k_conj k_mass].
    assert (G : forall n a s, 0 <= a <= zlen l -> Z.to_nat (d - a) = n -> foldM (fun s i => let* t := kin_term D P (mkKin l d (Live d) c) psi i in Ok match s, t with Some a, Some b => Some (madd a b) | _, _ => None end) (upto a d) s = UB).
    { induction n as [|n IH]; intros a s Ha Hn; [lia|]. rewrite upto_cons by lia. cbn [foldM]. destruct (Z.eq_dec a (zlen l)) as [->|Na].
      - unfold kin_term at 1. cbn [k_mass]. assert (R : rd l (zlen l) = UB). { unfold rd, zlen. destruct (0 <=? Z.of_nat (length l)); [|reflexivity]. rewrite Nat2Z.id. replace (nth_error l (length l)) with (@None F); [reflexivity|symmetry; apply nth_error_None; lia]. }
        rewrite R. reflexivity.
      - unfold kin_term at 1. cbn [k_mass k_conj]. destruct (proj1 (rd_ok l a) ltac:(lia)) as [m Em]. rewrite Em. cbn [bind]. destruct (ocmp m c0) as [[H|H]|H]; cbn [bind]; apply IH; lia. }
    apply (G (Z.to_nat (d - 0)) 0); [unfold zlen; lia|reflexivity].
  Qed.
  (** a mass 0 *)
  Lemma zero_mass mass d c psi o i : 0 <= i < d -> d <= zlen mass -> rd mass i = Ok c0 -> begun (Some mass) d = Ok o -> kin_apply D P (kin_set_conj o c) psi = Ok None.
  Proof.
    intros Hi L Z0 E. injection E as <-. unfold kin_apply. cbn [k_buf kin_set_conj k_dims kin_params kin_new k_conj k_mass].
    assert (G : forall n a s, 0 <= a <= d -> Z.to_nat (d - a) = n -> (s = None \/ a <= i) -> foldM (fun s i => let* t := kin_term D P (mkKin mass d (Live d) c) psi i in Ok match s, t with Some a, Some b => Some (madd a b) | _, _ => None end) (upto a d) s = Ok None).
    { induction n as [|n IH]; intros a s Ha Hn Hs; [rewrite upto_nil by lia; destruct Hs as [-> |]; [reflexivity|lia]|]. rewrite upto_cons by lia. cbn [foldM]. unfold kin_term at 1. cbn [k_mass k_conj].
      destruct (proj1 (rd_ok mass a) ltac:(lia)) as [m Em]. rewrite Em. cbn [bind]. destruct (ocmp m c0) as [[H|H]|H]; cbn [bind]; (apply IH; [lia|lia|]); (destruct Hs as [-> |Hs]; [left; reflexivity|]);
      try (left; destruct s; reflexivity); right; destruct (Z.eq_dec a i) as [->|]; try lia; rewrite Em in Z0; injection Z0 as ->; exfalso; exact (olt_irr F _ H). }
    apply (G (Z.to_nat (d - 0)) 0); [lia|reflexivity|right; lia].
  Qed.
  (** linearity *)
  Lemma linear_comp (f g : M -> M) : linear f -> linear g -> linear (fun x => f (g x)).
  Proof. intros [A B] [C E]. split; intros; [rewrite C, A|rewrite E, B]; reflexivity. Qed.
  Lemma linear_sum {A} (f : A -> M -> M) l : (forall a, linear (f a)) -> linear (fun x => msum (map (fun a => f a x) l)).
  Proof.
    intros H. induction l as [|a l [IA IS]]; split; cbn [map msum fold_right].
    - intros _ _. rewrite madd_0. reflexivity.
    - intros c _. symmetry. apply Projection.mscale_m0.
    - intros x y. unfold msum in IA. rewrite IA, (proj1 (H a)). rewrite <- !madd_assoc. f_equal. rewrite !madd_assoc. f_equal. apply madd_comm.
    - intros c x. unfold msum in IS. rewrite IS, (proj2 (H a)), <- mscale_add_r. reflexivity.
  Qed.
  Lemma linear_scale (k : F) : linear (fun x : M => mscale k x).
  Proof. split; intros; [apply mscale_add_r|]. rewrite <- !mscale_mul. f_equal. ring. Qed.
  Lemma layered_linear (Q : Z -> M -> M) masses : (forall i, linear (D i)) -> (forall i, linear (Q i)) -> linear (layered D Q masses).
  Proof.
    intros HD HQ. unfold layered.
    assert (T : forall im : nat * F, linear (fun psi => let (i, m) := im in if left_out m then m0 else Q (Z.of_nat i) (mscale (copp (fdiv c1 (cmul (cadd c1 c1) m))) (D (Z.of_nat i) (Q (Z.of_nat i) (D (Z.of_nat i) psi)))))).
    { intros [i m]. destruct (left_out m).
      - split; intros; [rewrite madd_0|rewrite Projection.mscale_m0]; reflexivity.
      - apply (linear_comp (Q (Z.of_nat i))); [apply HQ|]. apply (linear_comp (fun x => mscale _ x)); [apply linear_scale|]. apply (linear_comp (D (Z.of_nat i))); [apply HD|]. apply (linear_comp (Q (Z.of_nat i))); [apply HQ|apply HD]. }
    exact (linear_sum _ _ T).
  Qed.
  (** without layers *)
  Section Dot.
    Variable dot : M -> M -> F.
    Hypothesis Ar : forall x y z, dot x (madd y z) = cadd (dot x y) (dot x z).
    Hypothesis Al : forall x y z, dot (madd y z) x = cadd (dot y x) (dot z x).
    Hypothesis Sr : forall a x y, dot x (mscale a y) = cmul a (dot x y).
    Hypothesis Sl : forall a x y, dot (mscale a x) y = cmul a (dot x y).
    Hypothesis Anti : forall i x y, dot (D i x) y = copp (dot x (D i y)).
    Lemma dot_0_r x : dot x m0 = c0.
    Proof. pose proof (Sr c0 x m0) as H. rewrite Projection.mscale_m0 in H. rewrite H. ring. Qed.
    Lemma dot_0_l x : dot m0 x = c0.
    Proof. pose proof (Sl c0 m0 x) as H. rewrite Projection.mscale_m0 in H. rewrite H. ring. Qed.
    Lemma herm_sum {A} (f : A -> M -> M) l : (forall a x y, dot x (f a y) = dot (f a x) y) -> forall x y, dot x (msum (map (fun a => f a y) l)) = dot (msum (map (fun a => f a x) l)) y.
    Proof. intros H x y. induction l as [|a l IH]; cbn [map msum fold_right]; [rewrite dot_0_r, dot_0_l; reflexivity|]. rewrite Ar, Al, H. f_equal. exact IH. Qed.
    Lemma plain_herm masses x y : dot x (layered D (fun _ z => z) masses y) = dot (layered D (fun _ z => z) masses x) y.
    Proof.
      unfold layered. revert x y. apply (herm_sum (fun (im : nat * F) psi => let (i, m) := im in if left_out m then m0 else mscale (copp (fdiv c1 (cmul (cadd c1 c1) m))) (D (Z.of_nat i) (D (Z.of_nat i) psi)))).
      intros [i m] x y. destruct (left_out m); [rewrite dot_0_r, dot_0_l; reflexivity|]. rewrite Sr, Sl. f_equal. rewrite !Anti. ring.
    Qed.
    (** with layers: the adjoint has the layers before the derivatives *)
    Lemma adjoint (A B : Z -> M -> M) masses : (forall i x y, dot (A i x) y = dot x (B i y)) -> forall x y, dot (layered D A masses x) y =
      dot x (msum (map (fun im : nat * F => let (i, m) := im in if left_out m then m0 else D (Z.of_nat i) (B (Z.of_nat i) (D (Z.of_nat i) (mscale (copp (fdiv c1 (cmul (cadd c1 c1) m))) (B (Z.of_nat i) y))))) (combine (seq 0 (length masses)) masses))).
    Proof.
      intros AB x y. unfold layered. generalize (combine (seq 0 (length masses)) masses). intros l. induction l as [|[i m] l IH]; cbn [map msum fold_right]; [rewrite dot_0_r, dot_0_l; reflexivity|].
      rewrite Ar, Al. f_equal; [|exact IH]. destruct (left_out m); [rewrite dot_0_r, dot_0_l; reflexivity|]. rewrite AB, Sl, Anti, AB, Anti.
      assert (X : forall k u v, dot (D (Z.of_nat i) u) (mscale k v) = cmul k (dot (D (Z.of_nat i) u) v)) by (intros; apply Sr). 
      set (k := copp (fdiv c1 (cmul (cadd c1 c1) m))). assert (Y : dot x (D (Z.of_nat i) (B (Z.of_nat i) (D (Z.of_nat i) (mscale k (B (Z.of_nat i) y))))) = cmul k (dot x (D (Z.of_nat i) (B (Z.of_nat i) (D (Z.of_nat i) (B (Z.of_nat i) y)))))).
      { assert (N : forall j u v, dot u (D j v) = copp (dot (D j u) v)) by (intros j u v; rewrite Anti; ring). assert (G : forall u, dot x (D (Z.of_nat i) (B (Z.of_nat i) (D (Z.of_nat i) u))) = dot (D (Z.of_nat i) (A (Z.of_nat i) (D (Z.of_nat i) x))) u) by (intros u; rewrite N, <- AB, N; ring).
        rewrite !G, Sr. reflexivity. }
      rewrite Y. ring.
    Qed.
  End Dot.
End Proofs.

Section Emax.
  Variable F : ofld.
  Add Field OPe : (f_th F).
  (** Emax *)
  Lemma le_add (a b c d : F) : ole a b -> ole c d -> ole (cadd a c) (cadd b d).
  Proof.
    intros [H| ->] [K| ->]; [| | |right; reflexivity]; left.
    - apply (olt_tr F _ (cadd b c)); [apply olt_add; exact H|]. pose proof (olt_add F _ _ b K) as X. replace (cadd b c : F) with (cadd c b : F) by ring. replace (cadd b d : F) with (cadd d b : F) by ring. exact X.
    - apply olt_add. exact H.
    - pose proof (olt_add F _ _ b K) as X. replace (cadd b c : F) with (cadd c b : F) by ring. replace (cadd b d : F) with (cadd d b : F) by ring. exact X.
  Qed.
  Lemma le_scale (a b c : F) : olt c0 c -> ole a b -> ole (cmul c a) (cmul c b).
  Proof.
    intros C [H| ->]; [left|right; reflexivity]. pose proof (olt_add F _ _ (copp a) H) as X. replace (cadd a (copp a)) with (c0 : F) in X by ring. pose proof (olt_mul F _ _ C X) as Y.
    pose proof (olt_add F _ _ (cmul c a) Y) as Z0. replace (cadd c0 (cmul c a)) with (cmul c a : F) in Z0 by ring. replace (cadd (cmul c (cadd b (copp a))) (cmul c a)) with (cmul c b : F) in Z0 by ring. exact Z0.
  Qed.
  Fixpoint esum (dx : Z -> F) (i : Z) (l : list F) : F := match l with [] => c0 | m :: l => cadd (fdiv c1 (cmul (cmul m (dx i)) (dx i))) (esum dx (i + 1) l) end.
  Lemma emax_loop dx o : forall post pre rest s, k_mass o = pre ++ post ++ rest -> (forall m, In m post -> olt c0 m) ->
    foldM (fun T i => let* m := rd (k_mass o) i in match ocmp c0 m with inleft (left _) => Ok (cadd T (fdiv c1 (cmul (cmul m (dx i)) (dx i)))) | _ => Ok T end) (upto (Z.of_nat (length pre)) (Z.of_nat (length pre + length post))) s
    = Ok (cadd s (esum dx (Z.of_nat (length pre)) post)).
  Proof.
    induction post as [|m post IH]; intros pre rest s E N.
    - rewrite upto_nil by (cbn [length]; lia). cbn. f_equal. ring.
    - rewrite upto_cons by (cbn [length]; lia). cbn [foldM]. replace (rd (k_mass o) (Z.of_nat (length pre))) with (Ok m) by (rewrite E; symmetry; apply rd_at). cbn [bind].
      destruct (ocmp c0 m) as [[H|H]|H]; [|exfalso; apply (olt_irr F m); rewrite <- H at 1; apply N; left; reflexivity|exfalso; apply (olt_irr F c0), (olt_tr F _ m); [apply N; left; reflexivity|exact H]]. cbn [bind].
      specialize (IH (pre ++ [m]) rest (cadd s (fdiv c1 (cmul (cmul m (dx (Z.of_nat (length pre)))) (dx (Z.of_nat (length pre))))))). rewrite app_length in IH. cbn [length] in IH.
      replace (Z.of_nat (length pre + 1)) with (Z.of_nat (length pre) + 1) in IH by lia. replace (length pre + 1 + length post)%nat with (length pre + S (length post))%nat in IH by lia. cbn [length].
      rewrite IH; [|rewrite <- app_assoc; exact E|intros x Hx; apply N; right; exact Hx]. f_equal. cbn [esum]. ring.
  Qed.
  Lemma energy_le dx (pi : F) : forall masses ks i, (forall j, olt c0 (dx j)) -> (forall m, In m masses -> olt c0 m) ->
    (forall n k, nth_error ks n = Some k -> ole (cmul k k) (fdiv (cmul pi pi) (cmul (dx (i + Z.of_nat n)) (dx (i + Z.of_nat n))))) -> length ks = length masses ->
    ole (energy masses ks) (cmul (fdiv (cmul pi pi) (cadd c1 c1)) (esum dx i masses)).
  Proof.
    induction masses as [|m ms IH]; intros ks i HX HM HK L; destruct ks as [|k ks]; try discriminate; cbn [energy esum]; [right; ring|].
    assert (Pm : olt c0 m) by (apply HM; left; reflexivity). pose proof (HK O k eq_refl) as K. rewrite Z.add_0_r in K.
    replace (cmul (fdiv (cmul pi pi) (cadd c1 c1)) (cadd (fdiv c1 (cmul (cmul m (dx i)) (dx i))) (esum dx (i + 1) ms)))
      with (cadd (cmul (fdiv c1 (cmul (cadd c1 c1) m)) (fdiv (cmul pi pi) (cmul (dx i) (dx i)))) (cmul (fdiv (cmul pi pi) (cadd c1 c1)) (esum dx (i + 1) ms)) : F) by (field; repeat split; first [apply two_neq|apply pos_neq; assumption|apply pos_neq, HX]).
    apply le_add.
    - replace (fdiv (cmul k k) (cmul (cadd c1 c1) m)) with (cmul (fdiv c1 (cmul (cadd c1 c1) m)) (cmul k k) : F) by (field; repeat split; first [apply two_neq|apply pos_neq; assumption]).
      apply le_scale; [|exact K]. apply inv_pos, olt_mul; [apply two_pos|exact Pm].
    - apply IH; [exact HX|intros x Hx; apply HM; right; exact Hx| |injection L as L; exact L]. intros n x Hn. replace (i + 1 + Z.of_nat n) with (i + Z.of_nat (S n)) by lia. apply HK. exact Hn.
  Qed.
  Lemma emax_ok dx mass d o : 0 <= d <= zlen mass -> (forall m, In m (firstn (Z.to_nat d) mass) -> olt c0 m) -> begun F (Some mass) d = Ok o -> kin_emax dx o = Ok (esum dx 0 (firstn (Z.to_nat d) mass)).
  Proof.
    intros L N E. injection E as <-. unfold kin_emax. cbn [k_dims kin_params k_mass].
    set (pre := firstn (Z.to_nat d) mass) in *. assert (Lp : length pre = Z.to_nat d) by (unfold pre, zlen in *; rewrite firstn_length; lia).
    pose proof (emax_loop dx (mkKin mass d (Live d) false) pre [] (skipn (Z.to_nat d) mass) c0) as X. cbn [length app k_mass] in X.
    specialize (X (eq_sym (firstn_skipn _ _)) N). replace (Z.of_nat (0 + length pre)) with d in X by lia. etransitivity; [exact X|]. apply (f_equal Ok). exact (Ring_theory.Radd_0_l (cr_th F) _).
  Qed.
End Emax.
