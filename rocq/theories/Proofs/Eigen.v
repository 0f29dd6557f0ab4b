(** Proofs about eigenfunctions by relaxation. *)
From Coq Require Import List ZArith Lia Bool QArith Qcanon Ring.
From Verif Require Import Base Arrays Algebra Complex Model.Operators Spec.Operators Proofs.Operators Proofs.OMultistate Spec.Projection Proofs.Projection Model.Eigen Spec.Eigen.
Import ListNotations.
Open Scope Z_scope.

Lemma nth_app_snoc {A} (l : list A) x k y : nth_error (l ++ [x]) k = Some y -> (nth_error l k = Some y /\ (k < length l)%nat) \/ (k = length l /\ y = x).
Proof.
  intros E. destruct (Nat.lt_ge_cases k (length l)) as [L|L].
  - left. rewrite nth_error_app1 in E by exact L. auto.
  - right. rewrite nth_error_app2 in E by exact L. destruct (k - length l)%nat as [|m] eqn:Em; cbn in E; [|destruct m; discriminate]. split; [lia|congruence].
Qed.

Section S.
  Variable D : cring.
  Variable M : cmodule (Cx D).
  Variable dot : M -> M -> Cx D.
  Variable U : Z -> M -> M.
  Variable H : M -> M.
  Variable normalize : M -> option M.
  Variable dist : M -> M -> Qc.
  Variable lapack : Z -> (Z -> Z -> D) -> option ((Z -> D) * (Z -> Z -> D)).
  Add Ring DD : (cr_th D).
  Add Ring CD : (cr_th (Cx D)).
  Notation "a *: x" := (mscale a x) (at level 40, left associativity).
  Infix "+:" := madd (at level 50, left associativity).
  Notation expec := (expec D M dot H).
  Notation relax := (relax D M dot U normalize dist).
  Notation relaxed := (relaxed D M dot U normalize dist).
  Notation ef_loop := (ef_loop D M dot U H normalize dist).
  Notation imag_time := (imag_time D M dot U H normalize dist).
  Notation run := (run D M dot U H normalize dist lapack).
  Notation relaxes := (relaxes D M dot U normalize dist).
  Notation disk := (disk D M).
  Notation outside := (outside D M dot).

  Lemma project_onto P x : project D M dot P x = onto (Cx D) M dot P x.
  Proof.
    clear lapack dist normalize H U. unfold project. rewrite (msum_fold (Cx D) M (fun w => dot w x *: w)). apply (madd_0 (Cx D) M). Qed.
  Lemma removed P i x : i = zlen P -> (if 0 <? i then x +: copp c1 *: project D M dot P x else x) = outside P x.
  Proof.
    clear lapack dist normalize H U.
    intros ->. unfold Spec.Eigen.outside. rewrite project_onto, (mopp_scale (Cx D) M). destruct (Z.ltb_spec 0 (zlen P)) as [L|L]; [reflexivity|].
    destruct P as [|w P]; [|unfold zlen in L; cbn in L; lia]. unfold onto. cbn [map msum]. rewrite (mscale_m0 (Cx D) M), (madd_0r (Cx D) M). reflexivity.
  Qed.

  (** * The relaxation *)
  Lemma relax_path conv P i n clk psi w : i = zlen P -> relax conv P i n clk psi = Some w -> (0 < n)%nat ->
    exists (x : Z -> M) (m : Z), clk + 1 <= m <= clk + Z.of_nat n /\ x clk = psi /\ x m = w /\
      (forall k, clk <= k < m -> normalize (outside P (U k (x k))) = Some (x (k + 1))) /\
      (forall k, clk <= k < m - 1 -> Qclt conv (dist (x k) (x (k + 1)))) /\
      (m = clk + Z.of_nat n \/ Qcle (dist (x (m - 1)) (x m)) conv).
  Proof.
    clear lapack H.
    intros Hi. revert clk psi. induction n as [|n IH]; intros clk psi E Hn; [lia|]. cbn [Model.Eigen.relax] in E. rewrite (removed P i (U clk psi) Hi) in E.
    destruct (normalize (outside P (U clk psi))) as [y|] eqn:Ey; [|discriminate].
    assert (Stop : forall c, c = Some y -> c = Some w -> (n = 0%nat \/ Qcle (dist psi y) conv) -> exists (x : Z -> M) (m : Z), clk + 1 <= m <= clk + Z.of_nat (S n) /\ x clk = psi /\ x m = w /\
      (forall k, clk <= k < m -> normalize (outside P (U k (x k))) = Some (x (k + 1))) /\
      (forall k, clk <= k < m - 1 -> Qclt conv (dist (x k) (x (k + 1)))) /\
      (m = clk + Z.of_nat (S n) \/ Qcle (dist (x (m - 1)) (x m)) conv)).
    { intros c Ec Ew Hd. exists (fun k => if k =? clk then psi else y), (clk + 1). split; [lia|]. rewrite Z.eqb_refl. split; [reflexivity|].
      rewrite (proj2 (Z.eqb_neq (clk + 1) clk)) by lia. split; [congruence|]. split; [|split].
      - intros k Hk. replace k with clk by lia. rewrite Z.eqb_refl, (proj2 (Z.eqb_neq (clk + 1) clk)) by lia. exact Ey.
      - intros k Hk. lia.
      - destruct Hd as [->|Hd]; [left; lia|]. right. rewrite (proj2 (Z.eqb_eq (clk + 1 - 1) clk)) by lia. exact Hd. }
    destruct (Qclt_le_dec conv (dist psi y)) as [Lt|Le]; [|apply (Stop _ eq_refl E); right; exact Le].
    destruct n as [|n]; [apply (Stop _ eq_refl E); left; reflexivity|].
    destruct (IH (clk + 1) y E ltac:(lia)) as (x & m & Hm & X0 & Xm & Hs & Hc & He).
    exists (fun k => if k =? clk then psi else x k), m. split; [lia|]. rewrite Z.eqb_refl. split; [reflexivity|]. rewrite (proj2 (Z.eqb_neq m clk)) by lia. split; [exact Xm|]. split; [|split].
    - intros k Hk. destruct (Z.eqb_spec k clk) as [->|Nk]; rewrite (proj2 (Z.eqb_neq _ clk)) by lia.
      + rewrite X0. exact Ey.
      + apply Hs. lia.
    - intros k Hk. destruct (Z.eqb_spec k clk) as [->|Nk]; rewrite (proj2 (Z.eqb_neq _ clk)) by lia.
      + rewrite X0. exact Lt.
      + apply Hc. lia.
    - destruct He as [->|He]; [left; lia|]. right. rewrite (proj2 (Z.eqb_neq (m - 1) clk)) by lia. exact He.
  Qed.
  Lemma relaxed_path conv P i max psi w : i = zlen P -> 1 <= max -> Qclt conv (Q2Qc 1) -> relaxed conv P i max psi = Some w -> relaxes conv max P psi w.
  Proof.
    clear lapack H.
    intros Hi Hmax Hc E. unfold Model.Eigen.relaxed in E. destruct (Qclt_le_dec conv (Q2Qc 1)) as [L|L]; [|exfalso; revert Hc; apply Qcle_not_lt; exact L].
    destruct (relax_path conv P i (Z.to_nat max) 0 psi w Hi E ltac:(lia)) as (x & m & Hm & X0 & Xm & Hs & Hd & He).
    exists x, m. rewrite Z2Nat.id in Hm, He by lia. split; [lia|]. split; [exact X0|]. split; [exact Xm|]. split; [exact Hs|]. split; [exact Hd|]. destruct He as [->|He]; [left; lia|right; exact He].
  Qed.
  Lemma relaxes_outside conv max low x0 w : product D M dot -> normalizes D M dot normalize -> orthonormal (Cx D) M dot low -> relaxes conv max low x0 w ->
    dot w w = c1 /\ forall v, In v low -> dot v w = c0.
  Proof.
    clear lapack H.
    intros [Lin Cj] Nm On (x & n & Hn & _ & Xn & Hs & _). specialize (Hs (n - 1) ltac:(lia)). replace (n - 1 + 1) with n in Hs by lia. rewrite Xn in Hs.
    destruct (Nm _ _ Hs) as [Hu [r Er]]. split; [exact Hu|]. intros v Hv. rewrite Er, (proj2 Lin). unfold Spec.Eigen.outside. rewrite (rest_zero (Cx D) M dot Lin low _ v On Hv). ring.
  Qed.
  Lemma orthonormal_snoc l w : product D M dot -> orthonormal (Cx D) M dot l -> dot w w = c1 -> (forall v, In v l -> dot v w = c0) -> orthonormal (Cx D) M dot (l ++ [w]).
  Proof.
    clear lapack dist normalize H U.
    intros [Lin Cj] On Hw Hv i j x y Ex Ey. apply nth_app_snoc in Ex, Ey. destruct Ex as [[Ex Li]|[-> ->]], Ey as [[Ey Lj]|[-> ->]].
    - apply (On i j x y Ex Ey).
    - rewrite (Hv x (nth_error_In _ _ Ex)). destruct (Nat.eqb_spec i (length l)); [lia|reflexivity].
    - rewrite Cj, (Hv y (nth_error_In _ _ Ey)). destruct (Nat.eqb_spec (length l) j); [lia|]. apply cx_eq; cbn; ring.
    - rewrite Nat.eqb_refl. exact Hw.
  Qed.

  (** * The loop over the states *)
  Fixpoint number (i : Z) (l : list M) : list (Z * M) := match l with [] => [] | w :: l => (i, w) :: number (i + 1) l end.
  Lemma ef_ok conv max psi0 n i P E fs P' E' fs' : i = zlen P -> ef_loop conv max psi0 n i (P, E, fs) = Ok (P', E', fs') ->
    exists l, P' = P ++ l /\ length l = n /\ E' = E ++ map expec l /\ fs' = fs ++ number i l /\
      forall k w, nth_error l k = Some w -> exists p, psi0 = Some p /\ relaxed conv (P ++ firstn k l) (i + Z.of_nat k) max p = Some w.
  Proof.
    clear lapack.
    revert i P E fs. induction n as [|n IH]; intros i P E fs Hi F; cbn [Model.Eigen.ef_loop] in F.
    - injection F as <- <- <-. exists []. rewrite !app_nil_r. repeat split; try reflexivity. intros [|k] w; discriminate.
    - destruct psi0 as [p|]; [|discriminate]. destruct (relaxed conv P i max p) as [psi|] eqn:Er; [|discriminate]. unfold set_state in F. rewrite (proj2 (Z.eqb_eq i (zlen P)) Hi) in F. cbn [bind] in F.
      assert (Hi' : i + 1 = zlen (P ++ [psi])) by (unfold zlen in *; rewrite app_length; cbn; lia).
      destruct (IH (i + 1) _ _ _ Hi' F) as (l & -> & Hl & -> & -> & Hk).
      exists (psi :: l). cbn [length map number]. rewrite <- !app_assoc. repeat split; try reflexivity; [lia|]. intros [|k] w Ew; cbn in Ew.
      + injection Ew as <-. exists p. split; [reflexivity|]. cbn [firstn]. rewrite app_nil_r. replace (i + Z.of_nat 0) with i by lia. exact Er.
      + destruct (Hk k w Ew) as (p' & Ep & Hr). exists p'. split; [exact Ep|]. cbn [firstn]. rewrite <- app_assoc in Hr. cbn [app] in Hr. replace (i + Z.of_nat (S k)) with (i + 1 + Z.of_nat k) by lia. exact Hr.
  Qed.
  Lemma ef_app conv max psi0 n m i r : ef_loop conv max psi0 (n + m) i r = let* r' := ef_loop conv max psi0 n i r in ef_loop conv max psi0 m (i + Z.of_nat n) r'.
  Proof.
    clear lapack.
    revert i r. induction n as [|n IH]; intros i [[P E] fs]; cbn [Nat.add Model.Eigen.ef_loop bind]; [f_equal; lia|].
    destruct (match psi0 with Some p => relaxed conv P i max p | None => None end) as [psi|]; [|reflexivity].
    destruct (set_state D M P i psi) as [P'| |]; cbn [bind]; try reflexivity. rewrite IH. replace (i + 1 + Z.of_nat n) with (i + Z.of_nat (S n)) by lia. reflexivity.
  Qed.
  Lemma ef_files conv max psi0 n i P E fs : ef_loop conv max psi0 n i (P, E, fs) = let* r := ef_loop conv max psi0 n i (P, E, []) in Ok (fst r, fs ++ snd r).
  Proof.
    clear lapack.
    revert i P E fs.
    assert (G : forall i P E fs gs, ef_loop conv max psi0 n i (P, E, fs ++ gs) = let* r := ef_loop conv max psi0 n i (P, E, gs) in Ok (fst r, fs ++ snd r)).
    { induction n as [|n' IH]; intros i P E fs gs; cbn [Model.Eigen.ef_loop bind fst snd]; [reflexivity|].
      destruct (match psi0 with Some p => relaxed conv P i max p | None => None end) as [psi|]; [|reflexivity].
      destruct (set_state D M P i psi) as [P'| |]; cbn [bind]; try reflexivity. rewrite <- app_assoc. apply IH. }
    intros i P E fs. rewrite <- (app_nil_r fs) at 1. apply G.
  Qed.
  Lemma ef_no_ub conv max psi0 n i P E fs : i = zlen P -> ef_loop conv max psi0 n i (P, E, fs) <> UB.
  Proof.
    clear lapack.
    revert i P E fs. induction n as [|n IH]; intros i P E fs Hi; cbn [Model.Eigen.ef_loop]; [discriminate|].
    destruct (match psi0 with Some p => relaxed conv P i max p | None => None end) as [psi|]; [|discriminate]. unfold set_state. rewrite (proj2 (Z.eqb_eq i (zlen P)) Hi). cbn [bind].
    apply IH. unfold zlen in *. rewrite app_length. cbn. lia.
  Qed.

  (** * Files *)
  Lemma disk_number files l i k : disk files (number i l) k = if (i <=? k) && (k <? i + zlen l) then nth_error l (Z.to_nat (k - i)) else files k.
  Proof.
    clear lapack dist normalize H U dot.
    unfold Spec.Eigen.disk. generalize (files k) as o. revert i. induction l as [|w l IH]; intros i o; cbn [number fold_left fst snd].
    - unfold zlen. cbn. destruct (Z.leb_spec i k), (Z.ltb_spec k (i + 0)); cbn; try reflexivity; lia.
    - rewrite IH. unfold zlen. cbn [length]. rewrite Nat2Z.inj_succ.
      destruct (Z.eqb_spec i k) as [->|Nk].
      + rewrite (proj2 (Z.leb_gt (k + 1) k)) by lia. cbn [andb]. rewrite (proj2 (Z.leb_le k k)), (proj2 (Z.ltb_lt k _)) by lia. cbn [andb]. rewrite Z.sub_diag. reflexivity.
      + destruct (Z.leb_spec (i + 1) k), (Z.leb_spec i k); try lia; cbn [andb]; [|reflexivity].
        replace (i + Z.succ (Z.of_nat (length l))) with (i + 1 + Z.of_nat (length l)) by lia. destruct (k <? i + 1 + Z.of_nat (length l)); [|reflexivity].
        replace (Z.to_nat (k - i)) with (S (Z.to_nat (k - (i + 1)))) by lia. reflexivity.
  Qed.
  Lemma disk_app files fs gs k : disk files (fs ++ gs) k = disk (disk files fs) gs k.
  Proof.
    clear lapack dist normalize H U dot. unfold Spec.Eigen.disk. rewrite fold_left_app. reflexivity. Qed.
  Lemma read_ok files n i l : read_states D M files n i = Some l <-> length l = n /\ forall k w, nth_error l k = Some w -> files (i + Z.of_nat k) = Some w.
  Proof.
    clear lapack dist normalize H U dot.
    revert i l. induction n as [|n IH]; intros i l; cbn [read_states].
    - split; [intros [= <-]; split; [reflexivity|intros [|k] w; discriminate]|]. intros [Hl _]. destruct l; [reflexivity|discriminate].
    - destruct (files i) as [w|] eqn:Ef.
      + destruct (read_states D M files n (i + 1)) as [l'|] eqn:Er.
        * destruct (proj1 (IH (i + 1) l') Er) as [Hl Hk]. split.
          -- intros [= <-]. split; [cbn; lia|]. intros [|k] v Ev; cbn in Ev; [injection Ev as <-; replace (i + Z.of_nat 0) with i by lia; exact Ef|].
             replace (i + Z.of_nat (S k)) with (i + 1 + Z.of_nat k) by lia. apply (Hk k v Ev).
          -- intros [Hl2 Hk2]. destruct l as [|v l]; [discriminate|]. pose proof (Hk2 0%nat v eq_refl) as Hv. replace (i + Z.of_nat 0) with i in Hv by lia. rewrite Ef in Hv. injection Hv as ->.
             assert (Hl3 : Some l' = Some l); [|congruence]. rewrite <- Er. apply (proj2 (IH (i + 1) l)). split; [cbn in Hl2; lia|]. intros k u Eu. replace (i + 1 + Z.of_nat k) with (i + Z.of_nat (S k)) by lia. apply (Hk2 (S k) u Eu).
        * split; [discriminate|]. intros [Hl2 Hk2]. destruct l as [|v l]; [discriminate|]. assert (C : None = Some l); [|discriminate C]. rewrite <- Er. apply (proj2 (IH (i + 1) l)). split; [cbn in Hl2; lia|].
          intros k u Eu. replace (i + 1 + Z.of_nat k) with (i + Z.of_nat (S k)) by lia. apply (Hk2 (S k) u Eu).
      + split; [discriminate|]. intros [Hl2 Hk2]. destruct l as [|v l]; [discriminate|]. pose proof (Hk2 0%nat v eq_refl) as Hv. replace (i + Z.of_nat 0) with i in Hv by lia. congruence.
  Qed.

  (** * The run without diagonalisation *)
  Lemma imag_ok files nef start max conv psi0 P E fs : 0 <= start <= nef -> imag_time files nef start max conv psi0 = Ok (P, E, fs) ->
    exists low l, P = low ++ l /\ zlen low = start /\ zlen P = nef /\ E = map expec P /\ fs = number start l /\
      (forall k w, nth_error low k = Some w -> files (Z.of_nat k) = Some w) /\
      forall k w, nth_error l k = Some w -> exists p, psi0 = Some p /\ relaxed conv (low ++ firstn k l) (start + Z.of_nat k) max p = Some w.
  Proof.
    clear lapack.
    intros Hs F. unfold Model.Eigen.imag_time in F.
    assert (R : exists low, (if 0 <? start then match read_states D M files (Z.to_nat start) 0 with Some l => Ok l | None => Throw end else Ok []) = Ok low).
    { destruct (if 0 <? start then match read_states D M files (Z.to_nat start) 0 with Some l => Ok l | None => Throw end else Ok []) as [low| |]; [exists low; reflexivity|discriminate|discriminate]. }
    destruct R as [low R]. rewrite R in F. cbn [bind] in F.
    assert (L : zlen low = start /\ forall k w, nth_error low k = Some w -> files (Z.of_nat k) = Some w).
    { destruct (Z.ltb_spec 0 start) as [L|L].
      - destruct (read_states D M files (Z.to_nat start) 0) as [l|] eqn:E1; [|discriminate]. injection R as <-. apply read_ok in E1. destruct E1 as [E1 E2]. split; [unfold zlen; lia|exact E2].
      - injection R as <-. split; [unfold zlen; cbn; lia|]. intros [|k] w; discriminate. }
    destruct L as [L1 L2]. destruct (ef_ok _ _ _ _ _ _ _ _ _ _ _ (eq_sym L1) F) as (l & -> & Hl & -> & -> & Hk).
    exists low, l. rewrite map_app. repeat split; try reflexivity; try assumption. unfold zlen in *. rewrite app_length. lia.
  Qed.
  Lemma energy_ok nef E : zlen E = nef -> exists t, energy_file D nef E = Ok t /\ zlen t = nef /\ forall i e, rd E i = Ok e -> rd t i = energy_row D E i.
  Proof.
    clear lapack dist normalize H U dot.
    intros HE. unfold energy_file.
    destruct (foldM_upto (fun l i => let* r := energy_row D E i in Ok (l ++ [r])) (fun k l => zlen l = k /\ forall i, 0 <= i < k -> rd l i = energy_row D E i) 0 nef []) as (t & Et & Ht1 & Ht2).
    - unfold zlen in HE. lia.
    - split; [reflexivity|]. intros i Hi. lia.
    - intros k l Hk [Hl1 Hl2]. assert (R : exists r, energy_row D E k = Ok r).
      { unfold energy_row. destruct (proj1 (rd_ok E k) ltac:(lia)) as [e Ee]. rewrite Ee. cbn [bind]. destruct (proj1 (rd_ok E 0) ltac:(lia)) as [e0 Ee0]. rewrite Ee0. cbn [bind].
        destruct (Z.ltb_spec 0 k); [|eexists; reflexivity]. destruct (proj1 (rd_ok E (k - 1)) ltac:(lia)) as [ep Eep]. rewrite Eep. eexists. reflexivity. }
      destruct R as [r Er]. rewrite Er. cbn [bind]. eexists. split; [reflexivity|]. split; [unfold zlen in *; rewrite app_length; cbn; lia|].
      intros i Hi. destruct (Z.eq_dec i k) as [->|Ni].
      + unfold rd. rewrite (proj2 (Z.leb_le 0 k)) by lia. rewrite nth_error_app2 by (unfold zlen in *; lia). replace (Z.to_nat k - length l)%nat with 0%nat by (unfold zlen in *; lia). cbn. symmetry. exact Er.
      + rewrite rd_app_l by lia. apply Hl2. lia.
    - exists t. split; [exact Et|]. split; [exact Ht1|]. intros i e Ei. apply Ht2. rewrite <- HE. apply (rd_bounds _ _ _ Ei).
  Qed.
  Lemma run_checks files nef start max conv diag psi r : run files nef start max conv diag psi = Ok r ->
    1 <= nef /\ 0 <= start <= nef /\ 1 <= max /\ Qcle conv (Q2Qc 1).
  Proof.
    unfold Model.Eigen.run. destruct (Z.ltb_spec nef 1); [discriminate|]. destruct (Z.ltb_spec start 0); [discriminate|]. destruct (Z.ltb_spec nef start); [discriminate|].
    destruct (Qclt_le_dec (Q2Qc 1) conv) as [?|C]; [discriminate|]. destruct (Z.ltb_spec max 1); [discriminate|]. intros _. repeat split; try lia. exact C.
  Qed.
  Lemma run_raw files nef start max conv psi E t fs : run files nef start max conv false psi = Ok (E, t, fs) <->
    1 <= nef /\ 0 <= start <= nef /\ 1 <= max /\ Qcle conv (Q2Qc 1) /\ (exists P, imag_time files nef start max conv (normalize psi) = Ok (P, E, fs)) /\ energy_file D nef E = Ok t.
  Proof.
    split.
    - intros F. destruct (run_checks _ _ _ _ _ _ _ _ F) as (H1 & H2 & H3 & H4). repeat split; try assumption; try lia.
      + unfold Model.Eigen.run in F. rewrite (proj2 (Z.ltb_ge nef 1)), (proj2 (Z.ltb_ge start 0)), (proj2 (Z.ltb_ge nef start)), (proj2 (Z.ltb_ge max 1)) in F by lia.
        destruct (Qclt_le_dec (Q2Qc 1) conv) as [?|C]; [discriminate|]. destruct (imag_time files nef start max conv (normalize psi)) as [[[P E'] fs']| |]; try discriminate. cbn [bind fst snd] in F.
        destruct (energy_file D nef E') as [t'| |]; try discriminate. cbn [bind fst snd] in F. injection F as <- <- <-. exists P. reflexivity.
      + unfold Model.Eigen.run in F. rewrite (proj2 (Z.ltb_ge nef 1)), (proj2 (Z.ltb_ge start 0)), (proj2 (Z.ltb_ge nef start)), (proj2 (Z.ltb_ge max 1)) in F by lia.
        destruct (Qclt_le_dec (Q2Qc 1) conv) as [?|C]; [discriminate|]. destruct (imag_time files nef start max conv (normalize psi)) as [[[P E'] fs']| |]; try discriminate. cbn [bind fst snd] in F.
        destruct (energy_file D nef E') as [t'| |] eqn:Et; try discriminate. cbn [bind fst snd] in F. injection F as <- <- <-. exact Et.
    - intros (H1 & H2 & H3 & H4 & [P Hi] & Ht). unfold Model.Eigen.run. rewrite (proj2 (Z.ltb_ge nef 1)), (proj2 (Z.ltb_ge start 0)), (proj2 (Z.ltb_ge nef start)), (proj2 (Z.ltb_ge max 1)) by lia.
      destruct (Qclt_le_dec (Q2Qc 1) conv) as [C|C]; [exfalso; revert C; apply Qcle_not_lt; exact H4|]. rewrite Hi. cbn [bind fst snd]. rewrite Ht. reflexivity.
  Qed.
  Lemma zlen_app {A} (a b : list A) : zlen (a ++ b) = zlen a + zlen b.
  Proof.
    clear lapack dist normalize H U dot. unfold zlen. rewrite app_length. lia. Qed.
  Lemma firstn_app_len {A} (a b : list A) k : firstn (length a + k) (a ++ b) = a ++ firstn k b.
  Proof.
    clear lapack dist normalize H U dot. induction a as [|x a IH]; cbn; [reflexivity|]. rewrite IH. reflexivity. Qed.
  (** what the run leaves: the states in their files *)
  Lemma run_states files nef start max conv psi E t fs : run files nef start max conv false psi = Ok (E, t, fs) ->
    exists P, zlen P = nef /\ E = map expec P /\ (forall k w, nth_error P k = Some w -> disk files fs (Z.of_nat k) = Some w) /\
      (forall k, start <= k < nef -> exists p w, normalize psi = Some p /\ nth_error P (Z.to_nat k) = Some w /\ relaxed conv (firstn (Z.to_nat k) P) k max p = Some w) /\
      (forall k, ~ (start <= k < nef) -> disk files fs k = files k) /\ (forall k w, 0 <= k < start -> nth_error P (Z.to_nat k) = Some w -> files k = Some w).
  Proof.
    intros F. apply run_raw in F. destruct F as (H1 & H2 & H3 & H4 & [P Hi] & Ht). destruct (imag_ok _ _ _ _ _ _ _ _ _ H2 Hi) as (low & l & -> & Hlow & HP & -> & -> & Hf & Hr).
    assert (Hl : zlen l = nef - start) by (rewrite zlen_app in HP; lia).
    exists (low ++ l). split; [exact HP|]. split; [reflexivity|]. split; [|split; [|split]].
    - intros k w Ew. rewrite disk_number. destruct (Nat.lt_ge_cases k (length low)) as [L|L].
      + rewrite nth_error_app1 in Ew by exact L. rewrite (proj2 (Z.leb_gt start (Z.of_nat k))) by (unfold zlen in *; lia). cbn [andb]. apply (Hf k w Ew).
      + rewrite nth_error_app2 in Ew by exact L. pose proof (proj1 (nth_error_Some l (k - length low)) ltac:(congruence)).
        rewrite (proj2 (Z.leb_le start (Z.of_nat k))), (proj2 (Z.ltb_lt (Z.of_nat k) _)) by (unfold zlen in *; lia). cbn [andb]. replace (Z.to_nat (Z.of_nat k - start)) with (k - length low)%nat by (unfold zlen in *; lia). exact Ew.
    - intros k Hk. destruct (nth_error l (Z.to_nat (k - start))) as [w|] eqn:Ew; [|apply nth_error_None in Ew; unfold zlen in *; lia].
      destruct (Hr _ _ Ew) as (p & Ep & Rp). exists p, w. split; [exact Ep|].
      assert (Ek : Z.to_nat k = (length low + Z.to_nat (k - start))%nat) by (unfold zlen in *; lia).
      rewrite Ek, firstn_app_len. rewrite nth_error_app2 by lia. replace (length low + Z.to_nat (k - start) - length low)%nat with (Z.to_nat (k - start)) by lia. split; [exact Ew|].
      replace (start + Z.of_nat (Z.to_nat (k - start))) with k in Rp by lia. exact Rp.
    - intros k Hk. rewrite disk_number. rewrite Hl. destruct (Z.leb_spec start k), (Z.ltb_spec k (start + (nef - start))); cbn [andb]; try reflexivity. lia.
    - intros k w Hk Ew. rewrite nth_error_app1 in Ew by (unfold zlen in *; lia). replace k with (Z.of_nat (Z.to_nat k)) by lia. apply (Hf _ _ Ew).
  Qed.
  Lemma firstn_zlen (P : list M) k : 0 <= k <= zlen P -> k = zlen (firstn (Z.to_nat k) P).
  Proof.
    clear lapack dist normalize H U dot. intros Hk. unfold zlen in *. rewrite firstn_length. lia. Qed.
  Lemma run_ortho files nef start max conv psi E t fs : product D M dot -> normalizes D M dot normalize -> sound_files D M dot files start -> Qclt conv (Q2Qc 1) ->
    run files nef start max conv false psi = Ok (E, t, fs) ->
    exists P, zlen P = nef /\ E = map expec P /\ (forall k w, nth_error P k = Some w -> disk files fs (Z.of_nat k) = Some w) /\ orthonormal (Cx D) M dot P /\
      (forall k, start <= k < nef -> exists p w, normalize psi = Some p /\ nth_error P (Z.to_nat k) = Some w /\ relaxes conv max (firstn (Z.to_nat k) P) p w).
  Proof.
    intros Pr Nm Sf Hc F. destruct (run_checks _ _ _ _ _ _ _ _ F) as (H1 & H2 & H3 & H4). destruct (run_states _ _ _ _ _ _ _ _ _ F) as (P & HP & HE & Hd & Hr & _ & Hlow).
    assert (Hr' : forall k, start <= k < nef -> exists p w, normalize psi = Some p /\ nth_error P (Z.to_nat k) = Some w /\ relaxes conv max (firstn (Z.to_nat k) P) p w).
    { intros k Hk. destruct (Hr k Hk) as (p & w & Ep & Ew & Rw). exists p, w. split; [exact Ep|]. split; [exact Ew|]. apply (relaxed_path conv _ k max p w); try assumption; try lia. apply firstn_zlen. lia. }
    exists P. split; [exact HP|]. split; [exact HE|]. split; [exact Hd|]. split; [|exact Hr'].
    assert (G : forall n, start + Z.of_nat n <= nef -> orthonormal (Cx D) M dot (firstn (Z.to_nat (start + Z.of_nat n)) P)).
    { induction n as [|n IH]; intros Hn.
      - replace (start + Z.of_nat 0) with start by lia. intros i k x y Ex Ey.
        assert (Li : (i < Z.to_nat start)%nat) by (pose proof (proj1 (nth_error_Some (firstn (Z.to_nat start) P) i) ltac:(congruence)); rewrite firstn_length in *; lia).
        assert (Lk : (k < Z.to_nat start)%nat) by (pose proof (proj1 (nth_error_Some (firstn (Z.to_nat start) P) k) ltac:(congruence)); rewrite firstn_length in *; lia).
        rewrite <- (firstn_skipn (Z.to_nat start) P) in Hlow.
        assert (Fx : files (Z.of_nat i) = Some x) by (apply Hlow; [lia|]; rewrite Nat2Z.id, nth_error_app1; [exact Ex|]; apply nth_error_Some; congruence).
        assert (Fy : files (Z.of_nat k) = Some y) by (apply Hlow; [lia|]; rewrite Nat2Z.id, nth_error_app1; [exact Ey|]; apply nth_error_Some; congruence).
        rewrite (Sf (Z.of_nat i) (Z.of_nat k) x y ltac:(lia) ltac:(lia) Fx Fy). unfold delta. destruct (Z.eqb_spec (Z.of_nat i) (Z.of_nat k)), (Nat.eqb_spec i k); try reflexivity; lia.
      - specialize (IH ltac:(lia)). destruct (Hr' (start + Z.of_nat n) ltac:(lia)) as (p & w & _ & Ew & Rw).
        replace (Z.to_nat (start + Z.of_nat (S n))) with (S (Z.to_nat (start + Z.of_nat n))) by lia. rewrite (firstn_snoc _ _ _ Ew).
        destruct (relaxes_outside _ _ _ _ _ Pr Nm IH Rw) as [G1 G2]. apply orthonormal_snoc; assumption. }
    specialize (G (Z.to_nat (nef - start)) ltac:(lia)). rewrite firstn_all2 in G; [exact G|]. unfold zlen in HP. lia.
  Qed.
  (** continuing a run *)
  Lemma read_disk files s k psi0 max conv P E fs : 0 <= s <= k -> 1 <= k -> imag_time files k s max conv psi0 = Ok (P, E, fs) -> read_states D M (disk files fs) (Z.to_nat k) 0 = Some P.
  Proof.
    clear lapack.
    intros Hs Hk F. destruct (imag_ok _ _ _ _ _ _ _ _ _ Hs F) as (low & l & -> & Hlow & HP & -> & -> & Hf & Hr). apply read_ok. split; [unfold zlen in *; lia|].
    intros j w Ew. cbn [Z.add]. rewrite disk_number. rewrite zlen_app in HP. destruct (Nat.lt_ge_cases j (length low)) as [L|L].
    - rewrite nth_error_app1 in Ew by exact L. rewrite (proj2 (Z.leb_gt s (Z.of_nat j))) by (unfold zlen in *; lia). apply (Hf j w Ew).
    - rewrite nth_error_app2 in Ew by exact L. pose proof (proj1 (nth_error_Some l (j - length low)) ltac:(congruence)).
      rewrite (proj2 (Z.leb_le s (Z.of_nat j))), (proj2 (Z.ltb_lt (Z.of_nat j) _)) by (unfold zlen in *; lia). cbn [andb]. replace (Z.to_nat (Z.of_nat j - s)) with (j - length low)%nat by (unfold zlen in *; lia). exact Ew.
  Qed.
  Lemma imag_continue files s k nef psi0 max conv P1 E1 fs1 : 0 <= s <= k -> 1 <= k <= nef -> imag_time files k s max conv psi0 = Ok (P1, E1, fs1) ->
    imag_time files nef s max conv psi0 = let* r := imag_time (disk files fs1) nef k max conv psi0 in Ok (fst r, fs1 ++ snd r).
  Proof.
    clear lapack.
    intros Hs Hk F. pose proof (read_disk _ _ _ _ _ _ _ _ _ Hs ltac:(lia) F) as Rd. destruct (imag_ok _ _ _ _ _ _ _ _ _ Hs F) as (_ & _ & _ & _ & HP & HE & _).
    unfold Model.Eigen.imag_time at 2. rewrite (proj2 (Z.ltb_lt 0 k)) by lia. rewrite Rd. cbn [bind]. rewrite <- HE.
    unfold Model.Eigen.imag_time in F |- *. destruct (if 0 <? s then match read_states D M files (Z.to_nat s) 0 with Some l => Ok l | None => Throw end else Ok []) as [low| |]; try discriminate. cbn [bind] in F |- *.
    replace (Z.to_nat (nef - s)) with (Z.to_nat (k - s) + Z.to_nat (nef - k))%nat by lia. rewrite ef_app, F. cbn [bind]. replace (s + Z.of_nat (Z.to_nat (k - s))) with k by lia. apply ef_files.
  Qed.
  Lemma run_continue files s k nef psi max conv E1 t1 fs1 E t fs : 1 <= k <= nef -> run files k s max conv false psi = Ok (E1, t1, fs1) ->
    (run (disk files fs1) nef k max conv false psi = Ok (E, t, fs) <-> run files nef s max conv false psi = Ok (E, t, fs1 ++ fs)).
  Proof.
    intros Hk F. apply run_raw in F. destruct F as (H1 & H2 & H3 & H4 & [P1 Hi] & Ht). pose proof (imag_continue _ _ _ _ _ _ _ _ _ _ H2 Hk Hi) as C.
    rewrite !run_raw. split.
    - intros (G1 & G2 & G3 & G4 & [P Gi] & Gt). repeat split; try lia; try assumption. exists P. rewrite C, Gi. reflexivity.
    - intros (G1 & G2 & G3 & G4 & [P Gi] & Gt). repeat split; try lia; try assumption. exists P. rewrite C in Gi. destruct (imag_time (disk files fs1) nef k max conv (normalize psi)) as [[[P' E'] fs']| |]; try discriminate.
      cbn [bind fst snd] in Gi. injection Gi as -> -> Gf. apply app_inv_head in Gf. rewrite Gf. reflexivity.
  Qed.

  (** * The diagonalisation *)
  Definition st (P : list M) (j : Z) : M := nth (Z.to_nat j) P m0.
  Lemma get_st P j : 0 <= j < zlen P -> get_state D M P j = Ok (st P j).
  Proof.
    clear lapack dist normalize H U dot. intros Hj. unfold get_state. rewrite (proj2 (Z.leb_le 0 j)), (proj2 (Z.ltb_lt j _)) by lia. cbn [andb]. apply rd_nth. exact Hj. Qed.
  Lemma build_ok P nef : zlen P = nef -> exists A, build D M dot H P (map expec P) nef = Ok A /\ forall j i, 0 <= j <= i -> i < nef -> A j i = fst (dot (st P i) (H (st P j))).
  Proof.
    clear lapack dist normalize U.
    intros HP. unfold build. destruct (foldM_upto (fun A i =>
      let* bra := get_state D M P i in
      let* A := foldM (fun A j => let* ket := get_state D M P j in Ok (mset_at D A j i (fst (matel D M dot H bra ket)))) (upto 0 i) A in
      let* e := rd (map expec P) i in Ok (mset_at D A i i e)) (fun k A => forall j i, 0 <= j <= i -> i < k -> A j i = fst (dot (st P i) (H (st P j)))) 0 nef (fun _ _ => c0)) as (A & EA & HA).
    - unfold zlen in HP. lia.
    - intros j i Hj Hi. lia.
    - intros k A Hk HA. rewrite get_st by lia. cbn [bind].
      destruct (foldM_upto (fun A j => let* ket := get_state D M P j in Ok (mset_at D A j k (fst (matel D M dot H (st P k) ket))))
        (fun m A => (forall j i, 0 <= j <= i -> i < k -> A j i = fst (dot (st P i) (H (st P j)))) /\ forall j, 0 <= j < m -> A j k = fst (dot (st P k) (H (st P j)))) 0 k A) as (A' & EA' & HA1 & HA2).
      + lia.
      + split; [exact HA|]. intros j Hj. lia.
      + intros m B Hm [HB1 HB2]. rewrite get_st by lia. cbn [bind]. eexists. split; [reflexivity|]. unfold mset_at. split.
        * intros j i Hj Hi. rewrite (proj2 (Z.eqb_neq i k)) by lia. rewrite andb_false_r. apply HB1; assumption.
        * intros j Hj. rewrite Z.eqb_refl, andb_true_r. destruct (Z.eqb_spec j m) as [->|Nj]; [reflexivity|]. apply HB2. lia.
      + rewrite EA'. cbn [bind]. rewrite rd_map, (rd_nth P k m0) by lia. cbn [bind]. eexists. split; [reflexivity|]. intros j i Hj Hi. unfold mset_at.
        destruct (Z.eqb_spec i k) as [->|Ni]; [|rewrite andb_false_r; apply HA1; lia]. rewrite andb_true_r. destruct (Z.eqb_spec j k) as [->|Nj]; [reflexivity|]. apply HA2. lia.
    - exists A. split; [exact EA|exact HA].
  Qed.
  Definition comb (P : list M) (V : Z -> Z -> D) (nef i : Z) : M := msum (Cx D) M (map (fun j => cx_of (V j i) *: st P j) (upto 0 nef)).
  Lemma msum_app (a b : list M) : msum (Cx D) M (a ++ b) = msum (Cx D) M a +: msum (Cx D) M b.
  Proof.
    clear lapack dist normalize H U dot. induction a as [|x a IH]; cbn [app msum]; [symmetry; apply (madd_0 (Cx D) M)|]. rewrite IH, (madd_assoc (Cx D) M). reflexivity. Qed.
  Lemma combine_ok P V nef i : zlen P = nef -> 1 <= nef -> combine D M P V nef i = Ok (comb P V nef i).
  Proof.
    clear lapack dist normalize H U dot.
    intros HP Hn. unfold combine. rewrite get_st by lia. cbn [bind].
    destruct (foldM_upto (fun psi j => let* w := get_state D M P j in Ok (psi +: cx_of (V j i) *: w)) (fun k psi => psi = comb P V k i) 1 nef (cx_of (V 0 i) *: st P 0)) as (w & Ew & Hw).
    - lia.
    - unfold comb. change (upto 0 1) with [0]. cbn [map msum]. rewrite (madd_0r (Cx D) M). reflexivity.
    - intros k w Hk ->. rewrite get_st by lia. cbn [bind]. eexists. split; [reflexivity|]. unfold comb. rewrite upto_snoc by lia. rewrite map_app, msum_app. cbn [map msum]. rewrite (madd_0r (Cx D) M). reflexivity.
    - rewrite Ew, Hw. reflexivity.
  Qed.
  Lemma number_snoc i l w : number i (l ++ [w]) = number i l ++ [(i + zlen l, w)].
  Proof.
    clear lapack dist normalize H U dot. revert i. induction l as [|v l IH]; intros i; cbn [app number]; [rewrite Z.add_0_r; reflexivity|]. rewrite IH. do 4 f_equal. unfold zlen. cbn [length]. lia. Qed.
  Lemma zlen_upto a b : a <= b -> zlen (upto a b) = b - a.
  Proof.
    clear lapack dist normalize H U dot. intros Hab. unfold zlen. rewrite upto_length. lia. Qed.
  Lemma diag_ok P nef fs r : zlen P = nef -> 1 <= nef -> diag_basis D M dot H lapack nef (P, map expec P, fs) = Ok r ->
    exists A Ed V, lapack nef A = Some (Ed, V) /\ (forall j i, 0 <= j <= i -> i < nef -> A j i = fst (dot (st P i) (H (st P j)))) /\
      r = (map Ed (upto 0 nef), fs ++ number 0 (map (comb P V nef) (upto 0 nef))).
  Proof.
    clear dist normalize U.
    intros HP Hn F. unfold diag_basis in F. destruct (build_ok P nef HP) as (A & EA & HA). rewrite EA in F. cbn [bind] in F. destruct (lapack nef A) as [[Ed V]|] eqn:El; [|discriminate].
    exists A, Ed, V. split; [exact El|]. split; [exact HA|].
    destruct (foldM_upto (fun s i => let* psi := combine D M P V nef i in Ok (fst s ++ [Ed i], snd s ++ [(i, psi)])) (fun k s => s = (map Ed (upto 0 k), fs ++ number 0 (map (comb P V nef) (upto 0 k)))) 0 nef ([], fs)) as (s & Es & Hs).
    - lia.
    - cbn. rewrite app_nil_r. reflexivity.
    - intros k s Hk ->. rewrite combine_ok by assumption. cbn [bind fst snd]. eexists. split; [reflexivity|]. rewrite upto_snoc by lia. rewrite !map_app. cbn [map]. rewrite number_snoc, zlen_map, zlen_upto by lia.
      rewrite Z.sub_0_r, Z.add_0_l, app_assoc. reflexivity.
    - congruence.
  Qed.
  Lemma dot_comb_l P V nef i y : product D M dot -> dot (comb P V nef i) y = lsum (fun j => cmul (cx_of (V j i)) (dot (st P j) y)) (upto 0 nef).
  Proof.
    clear lapack dist normalize H U.
    intros [Lin Cj]. rewrite Cj. unfold comb. rewrite (dot_msum (Cx D) M dot Lin), conj_lsum. apply lsum_ext. intros j _. rewrite (proj2 Lin), conj_mul, <- Cj. f_equal. apply cx_eq; cbn; ring.
  Qed.
  Lemma linear_comb (F : M -> M) P V nef i : linear_map D M F -> F (comb P V nef i) = msum (Cx D) M (map (fun j => cx_of (V j i) *: F (st P j)) (upto 0 nef)).
  Proof.
    clear lapack dist normalize H U dot.
    intros [Fa Fm]. assert (F0 : F m0 = m0) by (rewrite <- (mscale_0 (Cx D) M m0) at 1; rewrite Fm; apply (mscale_0 (Cx D) M)). unfold comb. induction (upto 0 nef) as [|j l IH]; cbn [map msum]; [exact F0|]. rewrite Fa, Fm, IH. reflexivity.
  Qed.
  Lemma dot_comb (F : M -> M) P V nef i k : product D M dot -> linear_map D M F ->
    dot (comb P V nef i) (F (comb P V nef k)) = lsum (fun j => cmul (cx_of (V j i)) (lsum (fun l => cmul (cx_of (V l k)) (dot (st P j) (F (st P l)))) (upto 0 nef))) (upto 0 nef).
  Proof.
    clear lapack dist normalize H U.
    intros Pr Lf. rewrite (dot_comb_l _ _ _ _ _ Pr). apply lsum_ext. intros j _. f_equal. rewrite (linear_comb F P V nef k Lf), (dot_msum (Cx D) M dot (proj1 Pr)). apply lsum_ext. intros l _. apply (proj2 (proj1 Pr)).
  Qed.
  Lemma of_lsum {A} (f : A -> D) l : lsum (fun a => cx_of (f a) : Cx D) l = cx_of (lsum f l).
  Proof.
    clear lapack dist normalize H U dot. induction l as [|a l IH]; [reflexivity|]. cbn [lsum]. rewrite IH. apply cx_eq; cbn; ring. Qed.
  Lemma pick_one (f : Z -> Cx D) j n : 0 <= j < n -> lsum (fun l => cmul (f l) (delta D j l)) (upto 0 n) = f j.
  Proof.
    clear lapack dist normalize H U dot.
    intros Hj. rewrite (upto_app 0 j n), lsum_app by lia. rewrite (upto_cons j n) by lia. cbn [lsum]. rewrite !lsum_zero.
    - unfold delta. rewrite Z.eqb_refl. ring.
    - intros l Hl. apply in_upto in Hl. unfold delta. rewrite (proj2 (Z.eqb_neq j l)) by lia. ring.
    - intros l Hl. apply in_upto in Hl. unfold delta. rewrite (proj2 (Z.eqb_neq j l)) by lia. ring.
  Qed.
  Lemma st_nth P j : 0 <= j < zlen P -> nth_error P (Z.to_nat j) = Some (st P j).
  Proof.
    clear lapack dist normalize H U dot. intros Hj. unfold st. apply nth_error_nth'. unfold zlen in Hj. lia. Qed.
  Lemma comb_ortho P A Ed V nef i k : product D M dot -> dsyev D lapack -> orthonormal (Cx D) M dot P -> zlen P = nef -> lapack nef A = Some (Ed, V) -> 0 <= i < nef -> 0 <= k < nef ->
    dot (comb P V nef i) (comb P V nef k) = delta D i k.
  Proof.
    clear dist normalize H U.
    intros Pr Lp On HP El Hi Hk. pose proof (dot_comb (fun x => x) P V nef i k Pr (conj (fun _ _ => eq_refl) (fun _ _ => eq_refl))) as E. cbn beta in E. rewrite E.
    rewrite (lsum_ext _ _ (fun j => cx_of (cmul (V j i) (V j k)))).
    - rewrite of_lsum, (proj2 (Lp _ _ _ _ El) i k Hi Hk). unfold delta. destruct (i =? k); reflexivity.
    - intros j Hj. apply in_upto in Hj. rewrite (lsum_ext _ _ (fun l => cmul (cx_of (V l k)) (delta D j l))).
      + rewrite (pick_one (fun l => cx_of (V l k)) j nef Hj). apply cx_eq; cbn; ring.
      + intros l Hl. apply in_upto in Hl. f_equal. rewrite (On _ _ _ _ (st_nth P j ltac:(lia)) (st_nth P l ltac:(lia))). unfold delta. destruct (Nat.eqb_spec (Z.to_nat j) (Z.to_nat l)), (Z.eqb_spec j l); try reflexivity; lia.
  Qed.
  Lemma comb_diag P A Ed V nef i k : product D M dot -> linear_map D M H -> hermitian D M dot H -> dsyev D lapack -> zlen P = nef ->
    (forall j l, 0 <= j < nef -> 0 <= l < nef -> snd (dot (st P j) (H (st P l))) = c0) -> (forall j i, 0 <= j <= i -> i < nef -> A j i = fst (dot (st P i) (H (st P j)))) ->
    lapack nef A = Some (Ed, V) -> 0 <= i < nef -> 0 <= k < nef ->
    dot (comb P V nef i) (H (comb P V nef k)) = cmul (cx_of (Ed k)) (delta D i k).
  Proof.
    clear dist normalize U.
    intros Pr Lh Hh Lp HP Re HA El Hi Hk. rewrite (dot_comb H P V nef i k Pr Lh). destruct (Lp _ _ _ _ El) as [L1 L2].
    rewrite (lsum_ext _ _ (fun j => cx_of (cmul (Ed k) (cmul (V j i) (V j k))))).
    - rewrite of_lsum, lsum_mul, (L2 i k Hi Hk). unfold delta. destruct (i =? k); apply cx_eq; cbn; ring.
    - intros j Hj. apply in_upto in Hj. rewrite (lsum_ext _ _ (fun l => cx_of (cmul (if j <=? l then A j l else A l j) (V l k)))).
      + rewrite of_lsum, (L1 k j Hk Hj). apply cx_eq; cbn; ring.
      + intros l Hl. apply in_upto in Hl. assert (E : dot (st P j) (H (st P l)) = cx_of (if j <=? l then A j l else A l j)).
        { apply cx_eq; [|apply Re; assumption]. cbn [fst cx_of]. destruct (Z.leb_spec j l) as [L|L]; rewrite HA by lia; [|reflexivity]. rewrite (Hh (st P l) (st P j)). reflexivity. }
        rewrite E. apply cx_eq; cbn; ring.
  Qed.
  Lemma run_diag files nef start max conv psi E t fs : run files nef start max conv true psi = Ok (E, t, fs) ->
    exists E0 t0 fs0 P A Ed V, run files nef start max conv false psi = Ok (E0, t0, fs0) /\ zlen P = nef /\ E0 = map expec P /\ lapack nef A = Some (Ed, V) /\
      (forall j i, 0 <= j <= i -> i < nef -> A j i = fst (dot (st P i) (H (st P j)))) /\ E = map Ed (upto 0 nef) /\ energy_file D nef E = Ok t /\
      (forall k, 0 <= k < nef -> disk files fs0 k = Some (st P k)) /\ (forall k, 0 <= k < nef -> disk files fs k = Some (comb P V nef k)) /\ 1 <= nef.
  Proof.
    intros F. destruct (run_checks _ _ _ _ _ _ _ _ F) as (H1 & H2 & H3 & H4). unfold Model.Eigen.run in F. rewrite (proj2 (Z.ltb_ge nef 1)), (proj2 (Z.ltb_ge start 0)), (proj2 (Z.ltb_ge nef start)), (proj2 (Z.ltb_ge max 1)) in F by lia.
    destruct (Qclt_le_dec (Q2Qc 1) conv) as [?|C]; [discriminate|]. destruct (imag_time files nef start max conv (normalize psi)) as [[[P E0] fs0]| |] eqn:Ei; try discriminate. cbn [bind fst snd] in F.
    destruct (imag_ok _ _ _ _ _ _ _ _ _ H2 Ei) as (low & l & EP & Hlow & HP & HE & Hfs & Hf & Hr).
    destruct (diag_basis D M dot H lapack nef (P, E0, fs0)) as [s| |] eqn:Ed; try discriminate. cbn [bind] in F. destruct (energy_file D nef (fst s)) as [t'| |] eqn:Et; try discriminate. cbn [bind] in F. injection F as <- <- <-.
    rewrite HE in Ed. destruct (diag_ok P nef fs0 s HP H1 Ed) as (A & Ev & V & El & HA & ->). cbn [fst snd] in *.
    destruct (energy_ok nef E0) as (t0 & Et0 & _); [rewrite HE, zlen_map; exact HP|].
    assert (Rr : run files nef start max conv false psi = Ok (E0, t0, fs0)) by (apply run_raw; repeat split; try lia; try assumption; exists P; exact Ei).
    exists E0, t0, fs0, P, A, Ev, V. repeat split; try assumption.
    - intros k Hk. destruct (run_states _ _ _ _ _ _ _ _ _ Rr) as (P' & HP' & HE' & Hd & _).
      subst fs0. rewrite disk_number. assert (Hl : zlen l = nef - start) by (subst P; rewrite zlen_app in HP; lia). rewrite Hl. destruct (Z.leb_spec start k) as [L|L]; cbn [andb].
      + rewrite (proj2 (Z.ltb_lt k _)) by lia. pose proof (st_nth P k ltac:(lia)) as Es. subst P. rewrite nth_error_app2 in Es by (unfold zlen in *; lia). rewrite <- Es. f_equal. unfold zlen in *. lia.
      + pose proof (st_nth P k ltac:(lia)) as Es. subst P. rewrite nth_error_app1 in Es by (unfold zlen in *; lia). replace k with (Z.of_nat (Z.to_nat k)) at 1 by lia. apply Hf. exact Es.
    - intros k Hk. rewrite disk_app, disk_number, zlen_map, zlen_upto by lia. rewrite (proj2 (Z.leb_le 0 k)), (proj2 (Z.ltb_lt k _)) by lia. cbn [andb].
      rewrite Z.sub_0_r, nth_error_map. pose proof (rd_upto 0 nef k ltac:(lia)) as Ru. apply rd_nth_error in Ru. rewrite Ru. reflexivity.
  Qed.
  Lemma run_no_ub files nef start max conv diag psi : run files nef start max conv diag psi <> UB.
  Proof.
    unfold Model.Eigen.run. destruct (Z.ltb_spec nef 1); [discriminate|]. destruct (Z.ltb_spec start 0); [discriminate|]. destruct (Z.ltb_spec nef start); [discriminate|].
    destruct (Qclt_le_dec (Q2Qc 1) conv) as [?|C]; [discriminate|]. destruct (Z.ltb_spec max 1); [discriminate|].
    destruct (imag_time files nef start max conv (normalize psi)) as [[[P E0] fs0]| |] eqn:Ei; cbn [bind fst snd].
    - destruct (imag_ok _ _ _ _ _ _ _ _ _ (conj H1 H2) Ei) as (low & l & EP & Hlow & HP & HE & Hfs & Hf & Hr). destruct diag; cbn [bind fst snd].
      + destruct (diag_basis D M dot H lapack nef (P, E0, fs0)) as [s| |] eqn:Ed; cbn [bind]; [|discriminate|].
        * rewrite HE in Ed. destruct (diag_ok P nef fs0 s HP H0 Ed) as (A & Ev & V & El & HA & ->). cbn [fst snd]. destruct (energy_ok nef (map Ev (upto 0 nef))) as (t & Et & _); [rewrite zlen_map, zlen_upto; lia|]. rewrite Et. discriminate.
        * exfalso. revert Ed. unfold diag_basis. rewrite HE. destruct (build_ok P nef HP) as (A & EA & _). rewrite EA. cbn [bind]. destruct (lapack nef A) as [[Ed V]|]; [|discriminate].
          destruct (foldM_upto (fun s i => let* psi := combine D M P V nef i in Ok (fst s ++ [Ed i], snd s ++ [(i, psi)])) (fun _ _ => True) 0 nef ([], fs0)) as (s & Es & _); [lia|exact I| |rewrite Es; discriminate].
          intros k s Hk _. rewrite combine_ok by (assumption || lia). cbn [bind]. eexists. split; [reflexivity|exact I].
      + destruct (energy_ok nef E0) as (t & Et & _); [rewrite HE, zlen_map; exact HP|]. rewrite Et. discriminate.
    - discriminate.
    - exfalso. revert Ei. unfold Model.Eigen.imag_time. destruct (Z.ltb_spec 0 start).
      + destruct (read_states D M files (Z.to_nat start) 0) as [l|] eqn:El; cbn [bind]; [|discriminate]. apply read_ok in El. apply ef_no_ub. unfold zlen. lia.
      + cbn [bind]. apply ef_no_ub. unfold zlen. cbn. lia.
  Qed.
End S.
