From Coq Require Import Ascii List ZArith Lia Bool Arith QArith Qabs Lqa.
From Verif Require Import Base Arrays Algebra Model.GMat Spec.Operators Spec.GMat Proofs.Projection Proofs.OMultistate.
Import ListNotations.
Open Scope Z_scope.

(** ** Triangles *)
Definition tz (i j : Z) : Z := Z.max i j * (Z.max i j + 1) / 2 + Z.min i j.
Lemma half_even r : 2 * (r * (r + 1) / 2) = r * (r + 1).
Proof.
  assert (E : (r * (r + 1)) mod 2 = 0).
  { rewrite Z.mul_mod, Z.add_mod by lia. assert (H : r mod 2 = 0 \/ r mod 2 = 1) by (pose proof (Z.mod_pos_bound r 2); lia). destruct H as [-> | ->]; reflexivity. }
  pose proof (Z.div_mod (r * (r + 1)) 2). lia.
Qed.
Lemma tz_2 i j : 2 * tz i j = Z.max i j * (Z.max i j + 1) + 2 * Z.min i j.
Proof. unfold tz. pose proof (half_even (Z.max i j)). lia. Qed.
Lemma tz_sym i j : tz i j = tz j i.
Proof. unfold tz. rewrite Z.max_comm, Z.min_comm. reflexivity. Qed.
Lemma tz_lower i j : 0 <= j <= i -> tz i j = i * (i + 1) / 2 + j.
Proof. intros H. unfold tz. rewrite Z.max_l, Z.min_r by lia. reflexivity. Qed.
Lemma tz_inj i j a b : 0 <= j <= i -> 0 <= b <= a -> tz i j = tz a b -> i = a /\ j = b.
Proof.
  intros H1 H2 E. apply (f_equal (Z.mul 2)) in E. rewrite !tz_2, !Z.max_l, !Z.min_r in E by lia.
  assert (H : i < a \/ i = a \/ a < i) by lia. destruct H as [H|[->|H]]; [nia|lia|nia].
Qed.
Lemma tz_bound i j n : 0 <= i < n -> 0 <= j < n -> 0 <= tz i j < (n * n + n) / 2.
Proof.
  intros Hi Hj. pose proof (tz_2 i j). pose proof (half_even n). replace (n * n + n) with (n * (n + 1)) by lia.
  assert (Z.max i j < n /\ 0 <= Z.min i j <= Z.max i j) by lia. nia.
Qed.
Lemma tri_tz i j : tri_pos i j = Z.to_nat (tz i j).
Proof. reflexivity. Qed.

Lemma mt_in_true {A} (m : mat A) i j : 0 <= i < mt_size m -> 0 <= j < mt_size m -> mt_in m i j = true.
Proof. intros. unfold mt_in. rewrite !andb_true_iff, !Z.leb_le, !Z.ltb_lt. lia. Qed.
Lemma mt_rd_ok {A} (m : mat A) i j : 0 <= i < mt_size m -> 0 <= j < mt_size m -> mt_rd m i j = Ok (mt_at m i j).
Proof. intros. unfold mt_rd. rewrite mt_in_true by assumption. reflexivity. Qed.
Lemma mt_wr_ok {A} (m : mat A) i j x : 0 <= i < mt_size m -> 0 <= j < mt_size m ->
  mt_wr m i j x = Ok (mkMat (mt_size m) (fun a b => if (a =? i) && (b =? j) then x else mt_at m a b)).
Proof. intros. unfold mt_wr. rewrite mt_in_true by assumption. reflexivity. Qed.

Lemma tri_loop {A} (l : list A) : forall (m : mat A) r c, 0 <= c <= r -> tz r c + zlen l <= (mt_size m * mt_size m + mt_size m) / 2 -> 0 <= mt_size m ->
  exists m' r' c', foldM tri_step l (m, r, r + 1, c) = Ok (m', r', r' + 1, c') /\ mt_size m' = mt_size m /\
    forall i j, 0 <= i < mt_size m -> 0 <= j < mt_size m ->
      mt_at m' i j = if tz i j <? tz r c then mt_at m i j else match nth_error l (Z.to_nat (tz i j - tz r c)) with Some x => x | None => mt_at m i j end.
Proof.
  induction l as [|x l IH]; intros m r c Hc Hl Hs.
  - exists m, r, c. cbn [foldM]. split; [reflexivity|]. split; [reflexivity|]. intros i j Hi Hj. destruct (tz i j <? tz r c); [reflexivity|].
    destruct (Z.to_nat (tz i j - tz r c)); reflexivity.
  - assert (Hz : zlen (x :: l) = 1 + zlen l) by (unfold zlen; cbn [length]; lia). rewrite Hz in Hl. assert (0 <= zlen l) by (unfold zlen; lia).
    assert (Hr : r < mt_size m).
    { pose proof (tz_2 r c) as T. rewrite Z.max_l, Z.min_r in T by lia. pose proof (half_even (mt_size m)) as E. replace (mt_size m * mt_size m + mt_size m) with (mt_size m * (mt_size m + 1)) in Hl by lia. nia. }
    cbn [foldM]. unfold tri_step at 1. rewrite mt_wr_ok by lia. cbn [bind]. rewrite mt_wr_ok by (cbn [mt_size]; lia). cbn [bind mt_size mt_at].
    set (m1 := mkMat (mt_size m) _).
    assert (At : forall i j, 0 <= i -> 0 <= j -> mt_at m1 i j = if tz i j =? tz r c then x else mt_at m i j).
    { intros i j Hi Hj. subst m1. cbn [mt_at]. destruct (Z.eqb_spec (tz i j) (tz r c)) as [E|E].
      - assert (Q : Z.max i j = r /\ Z.min i j = c).
        { apply tz_inj; [lia|lia|]. rewrite <- E. unfold tz. rewrite (Z.max_l (Z.max i j)), (Z.min_r (Z.max i j)) by lia. reflexivity. }
        destruct (Z.le_ge_cases i j); [rewrite Z.max_r, Z.min_l in Q by lia|rewrite Z.max_l, Z.min_r in Q by lia]; destruct Q as [-> ->]; rewrite !Z.eqb_refl; [reflexivity|]. destruct ((r =? c) && (c =? r)); reflexivity.
      - destruct ((i =? c) && (j =? r)) eqn:E1; [apply andb_true_iff in E1; rewrite !Z.eqb_eq in E1; destruct E1 as [-> ->]; exfalso; apply E; apply tz_sym|].
        destruct ((i =? r) && (j =? c)) eqn:E2; [apply andb_true_iff in E2; rewrite !Z.eqb_eq in E2; destruct E2 as [-> ->]; exfalso; apply E; reflexivity|]. reflexivity. }
    assert (Nx : exists r' c', (if c + 1 =? r + 1 then Ok (m1, r + 1, r + 1 + 1, 0) else Ok (m1, r, r + 1, c + 1)) = Ok (m1, r', r' + 1, c') /\ 0 <= c' <= r' /\ tz r' c' = tz r c + 1).
    { destruct (Z.eqb_spec (c + 1) (r + 1)) as [E|E].
      - exists (r + 1), 0. split; [reflexivity|]. split; [lia|]. pose proof (tz_2 r c) as T1. pose proof (tz_2 (r + 1) 0) as T2. rewrite Z.max_l, Z.min_r in T1, T2 by lia. nia.
      - exists r, (c + 1). split; [reflexivity|]. split; [lia|]. rewrite !tz_lower by lia. lia. }
    destruct Nx as (r' & c' & -> & Hc' & T'). cbn [bind].
    destruct (IH m1 r' c' Hc') as (m' & r2 & c2 & E2 & S2 & A2); [rewrite T'; cbn; lia|exact Hs|].
    exists m', r2, c2. split; [exact E2|]. split; [exact S2|]. intros i j Hi Hj. rewrite A2, At by (assumption || lia). rewrite T'.
    destruct (Z.ltb_spec (tz i j) (tz r c + 1)), (Z.ltb_spec (tz i j) (tz r c)), (Z.eqb_spec (tz i j) (tz r c)); try lia; try reflexivity.
    + rewrite e, Z.sub_diag. reflexivity.
    + replace (Z.to_nat (tz i j - tz r c)) with (S (Z.to_nat (tz i j - (tz r c + 1)))) by lia. reflexivity.
Qed.
Lemma nth_cut {A} n (l : list A) i j : 0 <= i < n -> 0 <= j < n -> nth_error (cut n l) (tri_pos i j) = nth_error l (tri_pos i j).
Proof.
  intros Hi Hj. unfold cut. pose proof (tz_bound i j n Hi Hj) as B. rewrite tri_tz.
  assert (L : (Z.to_nat (tz i j) < Z.to_nat ((n * n + n) / 2))%nat) by lia. revert L. generalize (Z.to_nat (tz i j)) (Z.to_nat ((n * n + n) / 2)). intros k.
  revert l. induction k as [|k IH]; intros [|x l] [|m] L; cbn; try reflexivity; try lia. apply IH. lia.
Qed.
Lemma reorder_ok {A} n (l : list A) d : 0 <= n -> exists m, reorder (cut n l) (mt_all n d) = Ok m /\ mt_size m = n /\
  forall i j, 0 <= i < n -> 0 <= j < n -> mt_at m i j = match nth_error l (tri_pos i j) with Some x => x | None => d end.
Proof.
  intros Hn. unfold reorder. assert (L : zlen (cut n l) <= (n * n + n) / 2).
  { unfold zlen, cut. rewrite firstn_length. assert (0 <= (n * n + n) / 2) by (apply Z.div_pos; nia). lia. }
  destruct (tri_loop (cut n l) (mt_all n d) 0 0) as (m & r & c & E & S & A0); [lia|exact L|exact Hn|].
  change (0 + 1) with 1 in E. rewrite E. cbn [bind]. exists m. split; [reflexivity|]. split; [exact S|]. intros i j Hi Hj. rewrite A0 by assumption.
  change (tz 0 0) with 0. rewrite Z.sub_0_r. destruct (Z.ltb_spec (tz i j) 0); [pose proof (tz_bound i j n Hi Hj); lia|].
  rewrite <- tri_tz, nth_cut by assumption. reflexivity.
Qed.

(** loops that end in undefined behaviour *)
Lemma foldM_ub {A B} (Inv : B -> Prop) (f : B -> A -> outcome B) l : (forall s x, In x l -> Inv s -> f s x = UB \/ exists s', f s x = Ok s' /\ Inv s') ->
  (exists x, In x l /\ forall s, Inv s -> f s x = UB) -> forall s, Inv s -> foldM f l s = UB.
Proof.
  induction l as [|y l IH]; intros H (x & Hx & U) s I; [destruct Hx|]. cbn [foldM]. destruct (H s y (or_introl eq_refl) I) as [-> | (s' & E & I')]; [reflexivity|].
  destruct Hx as [->|Hx]; [rewrite (U s I) in E; discriminate|]. rewrite E. cbn [bind]. apply IH; [|exists x; auto|exact I']. intros t z Hz. apply H. right. exact Hz.
Qed.
Lemma foldM_ub_or {A B} (Inv : B -> Prop) (f : B -> A -> outcome B) l : (forall s x, In x l -> Inv s -> f s x = UB \/ exists s', f s x = Ok s' /\ Inv s') ->
  forall s, Inv s -> foldM f l s = UB \/ exists s', foldM f l s = Ok s' /\ Inv s'.
Proof.
  induction l as [|y l IH]; intros H s I; [right; exists s; auto|]. cbn [foldM]. destruct (H s y (or_introl eq_refl) I) as [-> | (s' & -> & I')]; [left; reflexivity|].
  cbn [bind]. apply IH; [|exact I']. intros t z Hz. apply H. right. exact Hz.
Qed.
Lemma foldM_unit {A} (f : A -> outcome unit) l : (forall x, In x l -> f x = Ok tt) -> foldM (fun _ x => f x) l tt = Ok tt.
Proof. induction l as [|y l IH]; intros H; [reflexivity|]. cbn [foldM]. rewrite (H y (or_introl eq_refl)). cbn [bind]. apply IH. intros x Hx. apply H. right. exact Hx. Qed.

Lemma unit_or {A} (f : A -> outcome unit) l : (forall x, In x l -> f x = Throw \/ f x = Ok tt) -> foldM (fun _ x => f x) l tt = Throw \/ foldM (fun _ x => f x) l tt = Ok tt.
Proof.
  induction l as [|y l IH]; intros H; [right; reflexivity|]. cbn [foldM]. destruct (H y (or_introl eq_refl)) as [-> | ->]; cbn [bind]; [left; reflexivity|]. apply IH. intros x Hx. apply H. right. exact Hx.
Qed.
Lemma unit_throw {A} (f : A -> outcome unit) l x : (forall x, In x l -> f x = Throw \/ f x = Ok tt) -> In x l -> f x = Throw -> foldM (fun _ x => f x) l tt = Throw.
Proof.
  induction l as [|y l IH]; intros H Hx E; [destruct Hx|]. cbn [foldM]. destruct (H y (or_introl eq_refl)) as [Q|Q]; rewrite Q; cbn [bind]; [reflexivity|].
  destruct Hx as [->|Hx]; [congruence|]. apply IH; auto. intros z Hz. apply H. right. exact Hz.
Qed.

Section P.
  Variable R : cring.
  Variable M : cmodule R.
  Variable V : Type.
  Variable half : R.
  Variable mul : V -> M -> M.
  Variable D : Z -> M -> M.
  Variable dv : R -> Z -> V -> V.
  Variable junk : M -> M.
  Variable P : Z -> M -> M.
  Add Ring RR : (cr_th R).
  Notation params := (params R).
  Notation op := (op R V).
  Infix "+:" := madd (at level 50, left associativity).
  Infix "*:" := mscale (at level 40, left associativity).
  Notation dsum := (dsum R M).
  Notation msum := (msum R M).
  Notation kind := (kind R).
  Notation const := (const R).
  Notation counts := (counts R).
  Notation apply_add := (apply_add R M V half mul D junk P).
  Notation elem_step := (elem_step R M V half mul D junk P).
  Notation dndx := (dndx R M V D).
  Notation init_psi := (init_psi R V half dv).

  (** ** Reading the elements *)
  Definition loaded (p : params) (i j : Z) : bool := counts p i j && is_grid (kind p i j).
  Definition gm_spec (p : params) (files : Z -> Z -> option V) (i j : Z) : ptr V :=
    let r := Z.max i j in let c := Z.min i j in
    match (if loaded p r c then files r c else None) with Some v => PObj v | None => if j <=? i then PNull else PWild end.
  Definition good (p : params) (files : Z -> Z -> option V) (o : op) : Prop :=
    o_par R V o = p /\ o_size R V o = p_dims R p /\ o_coup R V o = p_coup R p /\
    mt_size (o_src R V o) = p_dims R p /\ (forall i j, 0 <= i < p_dims R p -> 0 <= j < p_dims R p -> mt_at (o_src R V o) i j = kind p i j) /\
    mt_size (o_c R V o) = p_dims R p /\ (forall i j, 0 <= i < p_dims R p -> 0 <= j < p_dims R p -> mt_at (o_c R V o) i j = const p i j) /\
    mt_size (o_gm R V o) = p_dims R p /\ (forall i j, 0 <= i < p_dims R p -> 0 <= j < p_dims R p -> mt_at (o_gm R V o) i j = gm_spec p files i j).
  Lemma src_of_kind c : src_of c = if Ascii.eqb c "g" then SGrid else if Ascii.eqb c "c" then SConst else SNone.
  Proof.
    clear. unfold src_of. destruct (Ascii.eqb_spec c "x") as [->|]; [reflexivity|]. destruct (Ascii.eqb_spec c "c") as [->|]; [reflexivity|]. destruct (Ascii.eqb c "g"); reflexivity.
  Qed.
  Lemma kind_sym p i j : kind p i j = kind p j i.
  Proof. clear. unfold Spec.GMat.kind. rewrite !tri_tz, (tz_sym i j). reflexivity. Qed.
  Lemma const_sym p i j : const p i j = const p j i.
  Proof. clear. unfold Spec.GMat.const. rewrite !tri_tz, (tz_sym i j). reflexivity. Qed.
  Lemma counts_sym p i j : counts p i j = counts p j i.
  Proof. clear. unfold Spec.GMat.counts. rewrite (Z.eqb_sym i j). reflexivity. Qed.
  Lemma loaded_mm p i j : loaded p (Z.max i j) (Z.min i j) = loaded p i j.
  Proof.
    clear. unfold loaded. destruct (Z.le_ge_cases i j); [rewrite Z.max_r, Z.min_l by lia|rewrite Z.max_l, Z.min_r by lia; reflexivity].
    rewrite (counts_sym p j i), (kind_sym p j i). reflexivity.
  Qed.
  Lemma load_ok p files same src gm : available R V p files same -> mt_size src = p_dims R p -> (forall i j, 0 <= i < p_dims R p -> 0 <= j < p_dims R p -> mt_at src i j = kind p i j) ->
    mt_size gm = p_dims R p -> (forall i j, mt_at gm i j = if j <=? i then PNull else PWild) -> 0 <= p_dims R p ->
    exists gm', foldM (fun gm i => foldM (fun gm j => load_step R V p files src gm i j) (upto 0 (i + 1)) gm) (upto 0 (p_dims R p)) gm = Ok gm' /\
      mt_size gm' = p_dims R p /\ forall i j, 0 <= i < p_dims R p -> 0 <= j < p_dims R p -> mt_at gm' i j = gm_spec p files i j.
  Proof.
    clear - R V. intros Av Hs Hsrc Hg Hgm Hn. set (n := p_dims R p) in *.
    set (val := fun k i j => match (if (tz i j <? k) && loaded p i j then files (Z.max i j) (Z.min i j) else None) with Some v => PObj v | None => if j <=? i then PNull else PWild end).
    destruct (foldM_upto (fun gm i => foldM (fun gm j => load_step R V p files src gm i j) (upto 0 (i + 1)) gm)
      (fun i g => mt_size g = n /\ forall a b, 0 <= a < n -> 0 <= b < n -> mt_at g a b = val (tz i 0) a b) 0 n gm) as (g' & E & Sg & Ag).
    - exact Hn.
    - split; [exact Hg|]. intros a b Ha Hb. rewrite Hgm. unfold val. change (tz 0 0) with 0. pose proof (tz_bound a b n Ha Hb). destruct (Z.ltb_spec (tz a b) 0); [lia|]. reflexivity.
    - intros i g Hi (Sg & Ag).
      destruct (foldM_upto (fun gm j => load_step R V p files src gm i j)
        (fun j g => mt_size g = n /\ forall a b, 0 <= a < n -> 0 <= b < n -> mt_at g a b = val (tz i 0 + j) a b) 0 (i + 1) g) as (g1 & E1 & S1 & A1).
      + lia.
      + split; [exact Sg|]. rewrite Z.add_0_r. exact Ag.
      + clear g Sg Ag. intros j g Hj (Sg & Ag).
        assert (Tk : tz i 0 + j = tz i j) by (rewrite !tz_lower by lia; lia).
        assert (Same : forall a b, 0 <= a < n -> 0 <= b < n -> tz a b = tz i j -> Z.max a b = i /\ Z.min a b = j).
        { intros a b Ha Hb T. apply tz_inj; [lia|lia|]. rewrite <- T. unfold tz. rewrite (Z.max_l (Z.max a b)), (Z.min_r (Z.max a b)) by lia. reflexivity. }
        assert (Skip : loaded p i j = false -> exists g', Ok g = Ok g' /\ mt_size g' = n /\ forall a b, 0 <= a < n -> 0 <= b < n -> mt_at g' a b = val (tz i 0 + (j + 1)) a b).
        { intros L. exists g. split; [reflexivity|]. split; [exact Sg|]. intros a b Ha Hb. rewrite Ag by assumption. unfold val.
          destruct (Z.ltb_spec (tz a b) (tz i 0 + j)), (Z.ltb_spec (tz a b) (tz i 0 + (j + 1))); try lia; try reflexivity. cbn [andb].
          destruct (Same a b Ha Hb) as [Q1 Q2]; [lia|]. rewrite <- loaded_mm, Q1, Q2, L. reflexivity. }
        unfold load_step. fold (counts p i j). destruct (counts p i j) eqn:Ec; [|apply Skip; unfold loaded; rewrite Ec; reflexivity].
        rewrite mt_rd_ok by lia. cbn [bind]. rewrite Hsrc by lia. destruct (is_grid (kind p i j)) eqn:Ek; [|apply Skip; unfold loaded; rewrite Ec, Ek; reflexivity].
        assert (Ek' : kind p i j = SGrid) by (destruct (kind p i j); try discriminate; reflexivity).
        destruct (Av i j) as (Nm & v & Fv & _); [lia|fold n; lia|exact Ec|exact Ek'|].
        rewrite (proj2 (Nat.ltb_ge _ _)) by lia. rewrite Fv. rewrite mt_wr_ok by lia. cbn [bind]. rewrite mt_wr_ok by (cbn [mt_size]; lia).
        eexists. split; [reflexivity|]. cbn [mt_size mt_at]. split; [exact Sg|]. intros a b Ha Hb.
        destruct (Z.eqb_spec (tz a b) (tz i j)) as [T|T].
        * destruct (Same a b Ha Hb T) as [Q1 Q2].
          assert (X : val (tz i 0 + (j + 1)) a b = PObj v).
          { unfold val. destruct (Z.ltb_spec (tz a b) (tz i 0 + (j + 1))); [|lia]. cbn [andb]. rewrite <- loaded_mm, Q1, Q2. unfold loaded. rewrite Ec, Ek. cbn [andb]. rewrite Fv. reflexivity. }
          rewrite X. destruct (Z.le_ge_cases a b); [rewrite Z.max_r, Z.min_l in * by lia|rewrite Z.max_l, Z.min_r in * by lia]; subst; rewrite !Z.eqb_refl; [reflexivity|].
          destruct ((i =? j) && (j =? i)); reflexivity.
        * assert (X : val (tz i 0 + (j + 1)) a b = val (tz i 0 + j) a b).
          { unfold val. destruct (Z.ltb_spec (tz a b) (tz i 0 + j)), (Z.ltb_spec (tz a b) (tz i 0 + (j + 1))); try lia; reflexivity. }
          rewrite X. destruct ((a =? j) && (b =? i)) eqn:E1; [apply andb_true_iff in E1; rewrite !Z.eqb_eq in E1; destruct E1 as [-> ->]; exfalso; apply T; apply tz_sym|].
          destruct ((a =? i) && (b =? j)) eqn:E2; [apply andb_true_iff in E2; rewrite !Z.eqb_eq in E2; destruct E2 as [-> ->]; exfalso; apply T; reflexivity|].
          apply Ag; assumption.
      + exists g1. split; [exact E1|]. split; [exact S1|]. intros a b Ha Hb. rewrite A1 by assumption.
        replace (tz i 0 + (i + 1)) with (tz (i + 1) 0); [reflexivity|]. pose proof (tz_2 i 0) as T1. pose proof (tz_2 (i + 1) 0) as T2. rewrite Z.max_l, Z.min_r in T1, T2 by lia. nia.
    - exists g'. split; [exact E|]. split; [exact Sg|]. intros i j Hi Hj. rewrite Ag by assumption. unfold val, gm_spec. rewrite loaded_mm.
      assert (tz i j < tz n 0).
      { pose proof (tz_bound i j n Hi Hj). rewrite (tz_lower n 0) by lia. replace (n * n + n) with (n * (n + 1)) in * by lia. lia. }
      destruct (Z.ltb_spec (tz i j) (tz n 0)); [|lia]. reflexivity.
  Qed.
  Lemma init_ok p files same : 1 <= p_dims R p <= 4 -> available R V p files same ->
    exists o, init R V p files = Ok o /\ good p files o /\ o_buf R V o = false /\ o_chain R V o = false.
  Proof.
    clear - R V. intros Hn Av. unfold init. set (n := p_dims R p) in *.
    rewrite (proj2 (Z.ltb_ge n 1)), (proj2 (Z.ltb_ge 4 n)) by lia.
    assert (H1 : exists m, match p_def R p with Some l => reorder (cut n l) (mt_all n (match p_G R p with Some _ => "c" | None => "g" end)%char) | None => Ok (mt_all n (match p_G R p with Some _ => "c" | None => "g" end)%char) end = Ok m /\
      mt_size m = n /\ forall i j, 0 <= i < n -> 0 <= j < n -> src_of (mt_at m i j) = kind p i j).
    { destruct (p_def R p) as [l|] eqn:Ed.
      - destruct (reorder_ok n l (match p_G R p with Some _ => "c" | None => "g" end)%char) as (m & E & S & A0); [lia|]. exists m. split; [exact E|]. split; [exact S|].
        intros i j Hi Hj. rewrite A0 by assumption. unfold Spec.GMat.kind. rewrite Ed. destruct (nth_error l (tri_pos i j)); [apply src_of_kind|]. destruct (p_G R p); reflexivity.
      - eexists. split; [reflexivity|]. split; [reflexivity|]. intros i j _ _. unfold Spec.GMat.kind. rewrite Ed. destruct (p_G R p); reflexivity. }
    destruct H1 as (defs & -> & Sd & Ad). cbn [bind].
    assert (H2 : exists m, match p_G R p with Some l => reorder (cut n l) (mt_all n c0) | None => Ok (mt_all n c0) end = Ok m /\
      mt_size m = n /\ forall i j, 0 <= i < n -> 0 <= j < n -> mt_at m i j = const p i j).
    { destruct (p_G R p) as [l|] eqn:Ed.
      - destruct (reorder_ok n l (@c0 R)) as (m & E & S & A0); [lia|]. exists m. split; [exact E|]. split; [exact S|].
        intros i j Hi Hj. rewrite A0 by assumption. unfold Spec.GMat.const. rewrite Ed. destruct (nth_error l (tri_pos i j)) eqn:En; [erewrite nth_error_nth by exact En; reflexivity|].
        rewrite nth_overflow; [reflexivity|]. apply nth_error_None. exact En.
      - eexists. split; [reflexivity|]. split; [reflexivity|]. intros i j _ _. unfold Spec.GMat.const. rewrite Ed. reflexivity. }
    destruct H2 as (c & -> & Sc & Ac). cbn [bind].
    destruct (load_ok p files same (mkMat n (fun i j => src_of (mt_at defs i j))) (mkMat n (fun i j => if j <=? i then PNull else PWild))) as (gm & E & Sg & Ag);
      [exact Av|reflexivity|exact Ad|reflexivity|reflexivity|fold n; lia|].
    fold n in E. rewrite E. cbn [bind]. eexists. split; [reflexivity|]. split; [|split; reflexivity].
    unfold good. cbn [o_par o_size o_coup o_src o_c o_gm mt_size mt_at]. fold n. repeat (split; [reflexivity || assumption|]). assumption.
  Qed.

  (** ** The wave function *)
  Definition ready (p : params) (files : Z -> Z -> option V) (o : op) : Prop :=
    good p files o /\ o_dim R V o = p_dims R p /\ o_bufs R V o = p_dims R p /\ o_buf R V o = true /\ o_buf1 R V o = true /\ o_diff R V o = true /\
    o_pml R V o = p_pml R p /\ o_chain R V o = p_chain R p.
  Notation safe := (safe R).
  Notation all_grid := (all_grid R).
  Lemma all_grid_safe p : all_grid p -> safe p.
  Proof.
    clear. intros H. unfold Spec.GMat.safe. destruct (p_coup R p) eqn:E; [left; reflexivity|]. right. intros i j Hj Hi K. destruct (H i j) as [C _]; [lia|lia|]. unfold Spec.GMat.counts in C. rewrite E in C.
    destruct (Z.eqb_spec i j); [lia|discriminate].
  Qed.
  Lemma kind_grid s : is_grid s = true -> s = SGrid.
  Proof. clear. destruct s; try discriminate; reflexivity. Qed.
  Lemma gm_loaded p files same i j : available R V p files same -> 0 <= i < p_dims R p -> 0 <= j < p_dims R p -> counts p i j = true -> kind p i j = SGrid ->
    exists v, files (Z.max i j) (Z.min i j) = Some v /\ same v = true /\ gm_spec p files i j = PObj v.
  Proof.
    clear - R V. intros Av Hi Hj C K. assert (C' : counts p (Z.max i j) (Z.min i j) = true /\ kind p (Z.max i j) (Z.min i j) = SGrid).
    { destruct (Z.le_ge_cases i j); [rewrite Z.max_r, Z.min_l by lia; rewrite counts_sym, kind_sym|rewrite Z.max_l, Z.min_r by lia]; auto. }
    destruct (Av (Z.max i j) (Z.min i j)) as (_ & v & F & S); [lia|lia|apply C'|apply C'|]. exists v. split; [exact F|]. split; [exact S|].
    unfold gm_spec, loaded. rewrite (proj1 C'), (proj2 C'). cbn [andb is_grid]. rewrite F. reflexivity.
  Qed.
  Lemma gm_not p files i j : loaded p i j = false -> gm_spec p files i j = if j <=? i then PNull else PWild.
  Proof. clear. intros H. unfold gm_spec. rewrite loaded_mm, H. reflexivity. Qed.
  Lemma check_cases p files same o i j : available R V p files same -> good p files o -> 0 <= j <= i -> i < p_dims R p ->
    check_step R V same o i j = if is_grid (kind p i j) && negb (counts p i j) then UB else Ok tt.
  Proof.
    clear - R V. intros Av (_ & _ & _ & Ss & As & _ & _ & Sg & Ag) Hj Hi. unfold check_step. rewrite mt_rd_ok by lia. cbn [bind]. rewrite As by lia.
    destruct (is_grid (kind p i j)) eqn:K; [|reflexivity]. rewrite mt_rd_ok by lia. cbn [bind]. rewrite Ag by lia. destruct (counts p i j) eqn:C.
    - destruct (gm_loaded p files same i j Av) as (v & _ & S & ->); [lia|lia|exact C|apply kind_grid; exact K|]. cbn [deref bind]. rewrite S. reflexivity.
    - rewrite gm_not by (unfold loaded; rewrite C; reflexivity). destruct (j <=? i); reflexivity.
  Qed.
  Lemma check_any p files same o i j : available R V p files (fun _ => true) -> good p files o -> safe p -> 0 <= j <= i -> i < p_dims R p ->
    check_step R V same o i j = match (if loaded p i j then files i j else None) with Some v => if same v then Ok tt else Throw | None => Ok tt end.
  Proof.
    clear - R V. intros Av (_ & _ & _ & Ss & As & _ & _ & Sg & Ag) Sf Hj Hi. unfold check_step. rewrite mt_rd_ok by lia. cbn [bind]. rewrite As by lia. unfold loaded.
    destruct (is_grid (kind p i j)) eqn:K; [|rewrite andb_false_r; reflexivity]. rewrite mt_rd_ok by lia. cbn [bind]. rewrite Ag by lia. destruct (counts p i j) eqn:C; cbn [andb].
    - destruct (gm_loaded p files (fun _ => true) i j Av) as (v & F & _ & ->); [lia|lia|exact C|apply kind_grid; exact K|]. rewrite Z.max_l, Z.min_r in F by lia. rewrite F. reflexivity.
    - exfalso. unfold Spec.GMat.counts in C. apply orb_false_iff in C. destruct C as [C1 C2]. apply Z.eqb_neq in C1. destruct Sf as [S|S]; [congruence|]. apply (S i j); [lia|lia|]. apply kind_grid. exact K.
  Qed.
  Definition check (same : V -> bool) (o : op) (d : Z) : outcome unit :=
    foldM (fun _ i => foldM (fun _ j => check_step R V same o i j) (upto 0 (i + 1)) tt) (upto 0 d) tt.
  Lemma check_ok p files same o : available R V p files same -> good p files o -> safe p -> check same o (p_dims R p) = Ok tt.
  Proof.
    clear - R V. intros Av G S. unfold check. apply (foldM_unit (fun i => foldM (fun _ j => check_step R V same o i j) (upto 0 (i + 1)) tt)). intros i Hi. apply in_upto in Hi.
    apply (foldM_unit (fun j => check_step R V same o i j)). intros j Hj. apply in_upto in Hj. rewrite (check_cases p files) by (assumption || lia).
    destruct (is_grid (kind p i j)) eqn:K; [|reflexivity]. destruct (counts p i j) eqn:C; [reflexivity|]. exfalso. unfold Spec.GMat.counts in C. apply orb_false_iff in C. destruct C as [C1 C2].
    apply Z.eqb_neq in C1. destruct S as [S|S]; [congruence|]. apply (S i j); [lia|lia|]. apply kind_grid. exact K.
  Qed.
  Lemma check_or p files same o : available R V p files same -> good p files o -> check same o (p_dims R p) = UB \/ check same o (p_dims R p) = Ok tt.
  Proof.
    clear - R V. intros Av G. unfold check. destruct (foldM_ub_or (fun _ : unit => True) (fun _ i => foldM (fun _ j => check_step R V same o i j) (upto 0 (i + 1)) tt) (upto 0 (p_dims R p))) with (s := tt) as [E|([] & E & _)]; auto.
    intros [] i Hi _. apply in_upto in Hi. destruct (foldM_ub_or (fun _ : unit => True) (fun _ j => check_step R V same o i j) (upto 0 (i + 1))) with (s := tt) as [E|([] & E & _)]; auto.
    - intros [] j Hj _. apply in_upto in Hj. rewrite (check_cases p files) by (assumption || lia). destruct (is_grid (kind p i j) && negb (counts p i j)); [left; reflexivity|right; exists tt; auto].
    - right. exists tt. auto.
  Qed.
  Lemma check_ub p files same o i j : available R V p files same -> good p files o -> 0 <= j < i -> i < p_dims R p -> p_coup R p = false -> kind p i j = SGrid -> check same o (p_dims R p) = UB.
  Proof.
    clear - R V. intros Av G Hj Hi C K. unfold check. apply (foldM_ub (fun _ : unit => True)); auto.
    - intros [] a Ha _. apply in_upto in Ha. destruct (foldM_ub_or (fun _ : unit => True) (fun _ j => check_step R V same o a j) (upto 0 (a + 1))) with (s := tt) as [E|([] & E & _)]; auto.
      + intros [] b Hb _. apply in_upto in Hb. rewrite (check_cases p files) by (assumption || lia). destruct (is_grid (kind p a b) && negb (counts p a b)); [left; reflexivity|right; exists tt; auto].
      + right. exists tt. auto.
    - exists i. split; [apply in_upto; lia|]. intros [] _. apply (foldM_ub (fun _ : unit => True)); auto.
      + intros [] b Hb _. apply in_upto in Hb. rewrite (check_cases p files) by (assumption || lia). destruct (is_grid (kind p i b) && negb (counts p i b)); [left; reflexivity|right; exists tt; auto].
      + exists j. split; [apply in_upto; lia|]. intros [] _. rewrite (check_cases p files) by (assumption || lia). rewrite K. unfold Spec.GMat.counts. rewrite C. destruct (Z.eqb_spec i j); [lia|reflexivity].
  Qed.
  Lemma init_psi_plain p files same o : good p files o -> o_buf R V o = false -> o_chain R V o = false -> p_chain R p = false -> check same o (p_dims R p) = Ok tt ->
    exists o', init_psi o (p_dims R p) same = Ok o' /\ ready p files o'.
  Proof.
    clear - R V. intros G B Ch Pc Ck. unfold Model.GMat.init_psi. rewrite B. fold (check same o (p_dims R p)). rewrite Ck. cbn [bind]. rewrite Ch, andb_false_r.
    destruct G as (Gp & G). rewrite Gp, Pc. eexists. split; [reflexivity|]. unfold ready, good. cbn. rewrite Pc. destruct G as (G1 & G). rewrite ?G1. repeat match goal with |- _ /\ _ => split end; solve [reflexivity | assumption | tauto].
  Qed.
  Definition diff_loop (o : op) (n : Z) : outcome (mat (option V)) :=
    foldM (fun gd i => foldM (fun gd j => diff_step R V half dv o gd i j) (upto 0 n) gd) (upto 0 n) (mt_all n None).
  Lemma init_psi_chain p files same o : good p files o -> o_buf R V o = false -> o_chain R V o = false -> p_chain R p = true -> check same o (p_dims R p) = Ok tt ->
    forall gd, diff_loop o (p_dims R p) = Ok gd -> exists o', init_psi o (p_dims R p) same = Ok o' /\ ready p files o' /\ o_gd R V o' = gd.
  Proof.
    clear - R V. intros G B Ch Pc Ck gd Hd. unfold Model.GMat.init_psi. rewrite B. fold (check same o (p_dims R p)). rewrite Ck. cbn [bind]. rewrite Ch, andb_false_r.
    destruct G as (Gp & G1 & G). rewrite Gp, Pc, G1. fold (diff_loop o (p_dims R p)). rewrite Hd. cbn [bind]. eexists. split; [reflexivity|]. split; [|reflexivity]. unfold ready, good. cbn. rewrite Pc. rewrite ?G1. repeat match goal with |- _ /\ _ => split end; solve [reflexivity | assumption | tauto].
  Qed.

  (** ** Application *)
  Lemma dndx_ok p files o a i x : ready p files o -> 0 <= i < p_dims R p -> dndx o a i x = Ok (a *: D i x).
  Proof.
    intros (_ & Hd & _ & _ & _ & Hf & _) Hi. unfold Model.GMat.dndx. rewrite Hf, Hd, (proj2 (Z.leb_le 0 i)), (proj2 (Z.ltb_lt i _)) by lia. reflexivity.
  Qed.
  Lemma layer_ok p files o i x : ready p files o -> 0 <= i < p_dims R p -> layer R M V P o i x = Ok (P i x).
  Proof. intros (_ & Hd & _) Hi. unfold layer. rewrite Hd, (proj2 (Z.leb_le 0 i)), (proj2 (Z.ltb_lt i _)) by lia. reflexivity. Qed.
  Lemma dsum_ext n f g : (forall i j, 0 <= i < n -> 0 <= j < n -> f i j = g i j) -> dsum n f = dsum n g.
  Proof.
    clear. intros H. unfold Spec.GMat.dsum. f_equal. apply map_ext_in. intros i Hi. apply in_upto in Hi. f_equal. apply map_ext_in. intros j Hj. apply in_upto in Hj. apply H; lia.
  Qed.
  (** the loops add up what the steps add *)
  Lemma loops p files o (t : M -> Z -> Z -> M) b dest psi : ready p files o -> 0 <= p_dims R p ->
    (forall i j dest w buf, 0 <= i < p_dims R p -> 0 <= j < p_dims R p -> exists buf', elem_step o i j (dest, w, buf) = Ok (dest +: t w i j, w, buf')) ->
    apply_add o b dest psi = Ok (dest +: dsum (p_dims R p) (fun i j => t (D i psi) i j)).
  Proof.
    intros Rd Hn St. pose proof Rd as ((_ & Gs & _) & Hd & Hb & Hb0 & Hb1 & _). unfold Model.GMat.apply_add. rewrite Hd, Hb, Hb0, Hb1, (proj2 (Z.ltb_ge _ _)) by lia. cbn [negb orb]. rewrite Gs.
    set (n := p_dims R p) in *.
    destruct (foldM_upto (fun (s : M * M) i => let '(dest, buf) := s in let* w := dndx o c1 i psi in let* t := foldM (fun t j => elem_step o i j t) (upto 0 n) (dest, w, buf) in let '(dest, _, buf) := t in Ok (dest, buf))
      (fun k s => fst s = dest +: msum (map (fun i => msum (map (fun j => t (D i psi) i j) (upto 0 n))) (upto 0 k))) 0 n (dest, b)) as (s & E & F).
    - exact Hn.
    - rewrite (upto_nil 0 0) by lia. cbn. symmetry. apply madd_0r.
    - intros i [d bu] Hi F. cbn [fst] in F. subst d. rewrite (dndx_ok p files) by (assumption || (fold n; lia)). cbn [bind]. rewrite mscale_1.
      set (d0 := dest +: _).
      destruct (foldM_upto (fun t j => elem_step o i j t) (fun k s => exists bu, s = (d0 +: msum (map (fun j => t (D i psi) i j) (upto 0 k)), D i psi, bu)) 0 n (d0, D i psi, bu)) as (s & E & (bu1 & F)).
      + exact Hn.
      + exists bu. rewrite (upto_nil 0 0) by lia. cbn. rewrite madd_0r. reflexivity.
      + intros j s Hj (bu1 & ->). destruct (St i j (d0 +: msum (map (fun j => t (D i psi) i j) (upto 0 j))) (D i psi) bu1 Hi Hj) as (bu2 & ->). eexists. split; [reflexivity|]. exists bu2.
        rewrite (upto_snoc 0 j) by lia. rewrite map_app, msum_app. cbn [map Spec.Operators.msum]. rewrite madd_0r, madd_assoc. reflexivity.
      + rewrite E. cbn [bind]. subst s. eexists. split; [reflexivity|]. cbn [fst]. unfold d0. rewrite (upto_snoc 0 i), map_app, msum_app by lia. cbn [map Spec.Operators.msum]. rewrite madd_0r, madd_assoc. reflexivity.
    - rewrite E. cbn [bind]. rewrite F. reflexivity.
  Qed.
  Definition term (p : params) (files : Z -> Z -> option V) (pml : bool) (w : M) (i j : Z) : M :=
    if counts p i j then
      match kind p i j with
      | SNone => m0
      | SConst => let y := cmul (copp half) (const p i j) *: D j w in if pml then P j (P i y) else y
      | SGrid => match files (Z.max i j) (Z.min i j) with Some v => let y := copp half *: D j (mul v w) in if pml then P j y else y | None => m0 end
      end
    else m0.
  Lemma step_plain p files same o i j dest w buf : available R V p files same -> ready p files o -> p_chain R p = false -> 0 <= i < p_dims R p -> 0 <= j < p_dims R p ->
    exists buf', elem_step o i j (dest, w, buf) = Ok (dest +: term p files (p_pml R p) w i j, w, buf').
  Proof.
    intros Av Rd Pc Hi Hj. pose proof Rd as ((Gp & Gs & Gc & Ss & As & Sc & Ac & Sg & Ag) & Hd & Hb & Hb0 & Hb1 & Hf & Hp & Hc). unfold Model.GMat.elem_step, term. rewrite Gc. fold (counts p i j).
    destruct (counts p i j) eqn:C; [|exists buf; rewrite madd_0r; reflexivity]. rewrite Hc, Pc. rewrite mt_rd_ok by lia. cbn [bind]. rewrite As by lia. rewrite Hp. destruct (kind p i j) eqn:K.
    - exists buf. rewrite madd_0r. reflexivity.
    - rewrite mt_rd_ok by lia. cbn [bind]. rewrite Ac by lia. destruct (p_pml R p).
      + rewrite (dndx_ok p files) by assumption. cbn [bind]. rewrite !(layer_ok p files) by assumption. cbn [bind]. rewrite (layer_ok p files) by assumption. cbn [bind]. eexists. reflexivity.
      + rewrite (dndx_ok p files) by assumption. cbn [bind]. eexists. reflexivity.
    - destruct (gm_loaded p files same i j Av Hi Hj C K) as (v & F & _ & Q). rewrite mt_rd_ok by lia. cbn [bind]. rewrite Ag, Q by lia. cbn [deref bind]. rewrite (dndx_ok p files) by assumption. cbn [bind]. rewrite F.
      destruct (p_pml R p); [rewrite (layer_ok p files) by assumption; cbn [bind]|]; eexists; reflexivity.
  Qed.
  Lemma made_plain p files same : 1 <= p_dims R p <= 4 -> available R V p files same -> p_chain R p = false -> safe p ->
    exists o, made R V half dv p files (p_dims R p) same = Ok o /\ ready p files o.
  Proof.
    clear - R V. intros Hn Av Pc S. destruct (init_ok p files same Hn Av) as (o & E & G & B & Ch). unfold made. rewrite E. cbn [bind]. apply init_psi_plain; auto. apply (check_ok p files); assumption.
  Qed.
  Lemma plain_code p files same : 1 <= p_dims R p <= 4 -> available R V p files same -> p_chain R p = false -> safe p ->
    exists o, made R V half dv p files (p_dims R p) same = Ok o /\
      forall b dest psi, apply_add o b dest psi = Ok (dest +: dsum (p_dims R p) (fun i j => term p files (p_pml R p) (D i psi) i j)).
  Proof.
    intros Hn Av Pc S. destruct (made_plain p files same Hn Av Pc S) as (o & E & Rd). exists o. split; [exact E|]. intros b dest psi.
    apply (loops p files o (fun w i j => term p files (p_pml R p) w i j)); [exact Rd|lia|]. intros i j d w bu Hi Hj. apply (step_plain p files same); assumption.
  Qed.
  Lemma hom_m0 F : homogeneous R M F -> F m0 = m0.
  Proof. clear. intros H. rewrite <- (mscale_0 R M m0) at 1. rewrite H. apply mscale_0. Qed.
  Lemma plain_kinetic p files same : 1 <= p_dims R p <= 4 -> available R V p files same -> p_chain R p = false -> p_pml R p = false -> safe p -> (forall i, homogeneous R M (D i)) ->
    exists o, made R V half dv p files (p_dims R p) same = Ok o /\
      forall b dest psi, apply_add o b dest psi = Ok (dest +: kinetic R M half D (p_dims R p) (elem R M V mul p files) psi).
  Proof.
    intros Hn Av Pc Pp S Hh. destruct (plain_code p files same Hn Av Pc S) as (o & E & A0). exists o. split; [exact E|]. intros b dest psi. rewrite A0. do 2 f_equal. unfold kinetic. apply dsum_ext. intros i j Hi Hj.
    unfold term, elem. rewrite Pp. destruct (counts p i j); [|rewrite hom_m0, mscale_m0 by auto; reflexivity]. destruct (kind p i j).
    - rewrite hom_m0, mscale_m0 by auto. reflexivity.
    - rewrite Hh, mscale_mul. reflexivity.
    - destruct (files (Z.max i j) (Z.min i j)); [reflexivity|]. rewrite hom_m0, mscale_m0 by auto. reflexivity.
  Qed.

  (** ** Sums *)
  Lemma madd4 (a b c d : M) : a +: b +: (c +: d) = a +: c +: (b +: d).
  Proof. clear. rewrite <- !madd_assoc. f_equal. rewrite !madd_assoc. f_equal. apply madd_comm. Qed.
  Lemma msum_add {A} (f g : A -> M) l : msum (map (fun a => f a +: g a) l) = msum (map f l) +: msum (map g l).
  Proof. clear. induction l as [|a l IH]; cbn [map Spec.Operators.msum]; [symmetry; apply madd_0|]. rewrite IH. apply madd4. Qed.
  Lemma msum_zero {A} (l : list A) : msum (map (fun _ => m0) l) = m0.
  Proof. clear. induction l as [|a l IH]; [reflexivity|]. cbn [map Spec.Operators.msum]. rewrite IH. apply madd_0. Qed.
  Lemma msum_swap {A B} (f : A -> B -> M) k l : msum (map (fun a => msum (map (f a) l)) k) = msum (map (fun b => msum (map (fun a => f a b) k)) l).
  Proof. clear. induction k as [|a k IH]; cbn [map Spec.Operators.msum]; [symmetry; apply msum_zero|]. rewrite IH. symmetry. apply (msum_add (f a) (fun b => msum (map (fun a => f a b) k))). Qed.
  Lemma dsum_add n f g : dsum n (fun i j => f i j +: g i j) = dsum n f +: dsum n g.
  Proof. clear. unfold Spec.GMat.dsum. rewrite <- msum_add. f_equal. apply map_ext. intros i. apply msum_add. Qed.
  Lemma dsum_swap n f : dsum n f = dsum n (fun i j => f j i).
  Proof. clear. unfold Spec.GMat.dsum. apply (msum_swap f). Qed.
  Lemma dsum_lower n f : (forall i j, 0 <= i < n -> 0 <= j < n -> f i j = f j i) ->
    dsum n (fun i j => if i =? j then f i j else if j <? i then f i j +: f i j else m0) = dsum n f.
  Proof.
    clear. intros H. set (U := fun i j => if i <? j then f i j else m0). set (L := fun i j => if j <? i then f i j else m0). set (E := fun i j => if i =? j then f i j else m0).
    transitivity (dsum n (fun i j => L i j +: (L i j +: E i j))).
    { apply dsum_ext. intros i j _ _. unfold L, E. destruct (Z.eqb_spec i j), (Z.ltb_spec j i); try lia; rewrite ?madd_0, ?madd_0r; reflexivity. }
    transitivity (dsum n (fun i j => U i j +: (L i j +: E i j))).
    { rewrite !(dsum_add n _ (fun i j => L i j +: E i j)). f_equal. rewrite (dsum_swap n U). apply dsum_ext. intros i j Hi Hj. unfold U, L. destruct (j <? i); [apply H; assumption|reflexivity]. }
    apply dsum_ext. intros i j _ _. unfold U, L, E. destruct (Z.eqb_spec i j), (Z.ltb_spec j i), (Z.ltb_spec i j); try lia; rewrite ?madd_0, ?madd_0r; reflexivity.
  Qed.

  (** ** Product rule *)
  Definition gd_val (p : params) (files : Z -> Z -> option V) (i j : Z) : option V := option_map (dv (copp half) i) (files (Z.max i j) (Z.min i j)).
  Lemma diff_ok p files same o : available R V p files same -> good p files o -> all_grid p -> 0 <= p_dims R p ->
    exists gd, diff_loop o (p_dims R p) = Ok gd /\ mt_size gd = p_dims R p /\ forall i j, 0 <= i < p_dims R p -> 0 <= j < p_dims R p -> mt_at gd i j = gd_val p files i j.
  Proof.
    clear M mul D junk P. intros Av (_ & _ & _ & _ & _ & _ & _ & Sg & Ag) Al Hn. unfold diff_loop. set (n := p_dims R p) in *.
    destruct (foldM_upto (fun gd i => foldM (fun gd j => diff_step R V half dv o gd i j) (upto 0 n) gd)
      (fun k gd => mt_size gd = n /\ forall i j, 0 <= i < k -> 0 <= j < n -> mt_at gd i j = gd_val p files i j) 0 n (mt_all n None)) as (gd & E & Q1 & Q2).
    - exact Hn.
    - split; [reflexivity|]. intros; lia.
    - intros i gd Hi (S0 & A0).
      destruct (foldM_upto (fun gd j => diff_step R V half dv o gd i j)
        (fun k gd => mt_size gd = n /\ (forall a j, 0 <= a < i -> 0 <= j < n -> mt_at gd a j = gd_val p files a j) /\ (forall j, 0 <= j < k -> mt_at gd i j = gd_val p files i j)) 0 n gd) as (gd' & E & S1 & A1 & B1).
      + exact Hn.
      + split; [exact S0|]. split; [exact A0|]. intros; lia.
      + clear gd S0 A0. intros j gd Hj (S0 & A0 & B0). destruct (Al i j Hi Hj) as [C K]. destruct (gm_loaded p files same i j Av Hi Hj C K) as (v & F & _ & G).
        unfold diff_step. rewrite mt_rd_ok by lia. cbn [bind]. rewrite Ag, G by assumption. cbn [nonnull bind deref]. rewrite mt_wr_ok by lia. eexists. split; [reflexivity|]. cbn [mt_size mt_at].
        split; [exact S0|]. split.
        * intros a b Ha Hb. destruct (Z.eqb_spec a i); [lia|]. cbn [andb]. apply A0; lia.
        * intros b Hb. rewrite Z.eqb_refl. cbn [andb]. destruct (Z.eqb_spec b j) as [->|]; [unfold gd_val; rewrite F; reflexivity|]. apply B0. lia.
      + exists gd'. split; [exact E|]. split; [exact S1|]. intros a b Ha Hb. destruct (Z.eq_dec a i) as [->|]; [apply B1; lia|apply A1; lia].
    - exists gd. auto.
  Qed.
  Definition chain_term (p : params) (files : Z -> Z -> option V) (w : M) (i j : Z) : M :=
    match files (Z.max i j) (Z.min i j) with
    | Some v => mul (dv (copp half) j v) w +: (if i =? j then mul v (copp half *: D j w) else if j <? i then mul v (copp c1 *: D j w) else m0)
    | None => m0
    end.
  Lemma step_chain p files same o i j dest w buf : available R V p files same -> ready p files o -> p_chain R p = true -> all_grid p ->
    mt_size (o_gd R V o) = p_dims R p -> (forall i j, 0 <= i < p_dims R p -> 0 <= j < p_dims R p -> mt_at (o_gd R V o) i j = gd_val p files i j) -> 0 <= i < p_dims R p -> 0 <= j < p_dims R p ->
    exists buf', elem_step o i j (dest, w, buf) = Ok (dest +: chain_term p files w i j, w, buf').
  Proof.
    intros Av Rd Pc Al Sd Ad Hi Hj. pose proof Rd as ((Gp & Gs & Gc & Ss & As & Sc & Ac & Sg & Ag) & Hd & Hb & Hb0 & Hb1 & Hf & Hp & Hc). destruct (Al i j Hi Hj) as [C K].
    destruct (gm_loaded p files same i j Av Hi Hj C K) as (v & F & _ & Q).
    unfold Model.GMat.elem_step, chain_term. rewrite Gc. fold (counts p i j). rewrite C, Hc, Pc. rewrite mt_rd_ok by lia. cbn [bind]. rewrite Ad by assumption. unfold gd_val. rewrite (Z.max_comm j i), (Z.min_comm j i), F. cbn [option_map].
    destruct (Z.leb_spec j i) as [L|L].
    - rewrite (dndx_ok p files) by assumption. cbn [bind]. rewrite mt_rd_ok by lia. cbn [bind]. rewrite Ag, Q by assumption. cbn [deref bind]. rewrite madd_assoc. destruct (Z.eqb_spec i j); [eexists; reflexivity|]. destruct (Z.ltb_spec j i); [eexists; reflexivity|lia].
    - destruct (Z.eqb_spec i j); [lia|]. destruct (Z.ltb_spec j i); [lia|]. rewrite madd_0r. eexists. reflexivity.
  Qed.
  Lemma chain_kinetic p files same : 1 <= p_dims R p <= 4 -> available R V p files same -> p_chain R p = true -> all_grid p -> cadd half half = c1 -> calculus R M V mul D dv ->
    exists o, made R V half dv p files (p_dims R p) same = Ok o /\
      forall b dest psi, apply_add o b dest psi = Ok (dest +: kinetic R M half D (p_dims R p) (elem R M V mul p files) psi).
  Proof.
    intros Hn Av Pc Al Hh (Cm & Pr & Ml). destruct (init_ok p files same Hn Av) as (o & E & G & B & Ch).
    destruct (diff_ok p files same o Av G Al) as (gd & Eg & Sd & Ad); [lia|].
    destruct (init_psi_chain p files same o G B Ch Pc (check_ok p files same o Av G (all_grid_safe p Al)) gd Eg) as (o' & E' & Rd & Egd).
    exists o'. unfold made. rewrite E. cbn [bind]. split; [exact E'|]. intros b dest psi.
    rewrite (loops p files o' (fun w i j => chain_term p files w i j)); [|exact Rd|lia|].
    2: { intros i j d w bu Hi Hj. apply (step_chain p files same); auto; rewrite Egd; assumption. }
    do 2 f_equal. unfold kinetic. set (n := p_dims R p) in *.
    set (val := fun i j => files (Z.max i j) (Z.min i j)).
    set (f := fun i j => match val i j with Some v => copp half *: mul v (D j (D i psi)) | None => m0 end).
    set (g := fun i j => match val i j with Some v => mul (dv (copp half) j v) (D i psi) | None => m0 end).
    transitivity (dsum n (fun i j => g i j +: (if i =? j then f i j else if j <? i then f i j +: f i j else m0))).
    - apply dsum_ext. intros i j Hi Hj. unfold chain_term, f, g. fold (val i j). destruct (Al i j Hi Hj) as [C K]. destruct (gm_loaded p files same i j Av Hi Hj C K) as (v & F & _ & Q). fold (val i j) in F. rewrite F. f_equal.
      destruct (i =? j); [apply (proj2 (Ml v))|]. destruct (j <? i); [|reflexivity]. rewrite (proj2 (Ml v)). rewrite <- mscale_add_l. f_equal. rewrite <- Hh. ring.
    - rewrite dsum_add. rewrite dsum_lower.
      + rewrite <- dsum_add. apply dsum_ext. intros i j Hi Hj. unfold f, g, elem. fold (val i j). destruct (Al i j Hi Hj) as [C K]. destruct (gm_loaded p files same i j Av Hi Hj C K) as (v & F & _ & Q). fold (val i j) in F. rewrite C, K, F. apply Pr.
      + intros i j _ _. unfold f, val. rewrite (Z.max_comm j i), (Z.min_comm j i), (Cm i j). reflexivity.
  Qed.

  (** ** Product rule with other elements *)
  Lemma bind_nothrow {A B} (x : outcome A) (f : A -> outcome B) : x <> Throw -> (forall a, f a <> Throw) -> (let* a := x in f a) <> Throw.
  Proof. clear. destruct x; cbn [bind]; auto; discriminate. Qed.
  Lemma elem_nothrow' o i j s : elem_step o i j s <> Throw.
  Proof.
    assert (Rd : forall A (m : mat A) i j, mt_rd m i j <> Throw) by (intros; unfold mt_rd; destruct (mt_in _ _ _); discriminate).
    assert (De : forall x, deref V x <> Throw) by (intros []; discriminate).
    assert (Dn : forall a i x, dndx o a i x <> Throw) by (intros; unfold Model.GMat.dndx; destruct (_ && _ && _); discriminate).
    assert (La : forall i x, layer R M V P o i x <> Throw) by (intros; unfold layer; destruct (_ && _); discriminate).
    destruct s as [[dest w] buf]. unfold Model.GMat.elem_step. destruct ((i =? j) || o_coup R V o); [|discriminate].
    destruct (o_chain R V o).
    - apply bind_nothrow; [apply Rd|]. intros [g|]; [|discriminate]. destruct (j <=? i); [|discriminate]. repeat (apply bind_nothrow; [auto|]; intros). discriminate.
    - apply bind_nothrow; [apply Rd|]. intros []; [discriminate| |].
      + apply bind_nothrow; [apply Rd|]. intros c. destruct (o_pml R V o); repeat (apply bind_nothrow; [auto|]; intros); discriminate.
      + do 3 (apply bind_nothrow; [auto|]; intros). destruct (o_pml R V o); [|discriminate]. apply bind_nothrow; [auto|]. discriminate.
  Qed.
  Lemma elem_nothrow o i j s : elem_step o i j s = UB \/ exists s', elem_step o i j s = Ok s'.
  Proof. pose proof (elem_nothrow' o i j s). destruct (elem_step o i j s); eauto. contradiction. Qed.
  Lemma apply_ub p files o i j : ready p files o -> 0 <= i < p_dims R p -> 0 <= j < p_dims R p -> (forall s, elem_step o i j s = UB) -> forall b dest psi, apply_add o b dest psi = UB.
  Proof.
    intros Rd Hi Hj U b dest psi. pose proof Rd as ((_ & Gs & _) & Hd & Hb & Hb0 & Hb1 & _). unfold Model.GMat.apply_add. rewrite Hd, Hb, Hb0, Hb1, (proj2 (Z.ltb_ge _ _)) by lia. cbn [negb orb]. rewrite Gs.
    rewrite (foldM_ub (fun _ => True)); [reflexivity| | |exact I].
    - intros [d bu] a Ha _. apply in_upto in Ha. rewrite (dndx_ok p files) by assumption. cbn [bind].
      destruct (foldM_ub_or (fun _ => True) (fun t j => elem_step o a j t) (upto 0 (p_dims R p))) with (s := (d, c1 *: D a psi, bu)) as [->|(t & -> & _)]; auto.
      + intros s c Hc _. apply in_upto in Hc. destruct (elem_nothrow o a c s) as [->|(s' & ->)]; eauto.
      + right. destruct t as [[? ?] ?]. cbn [bind]. eauto.
    - exists i. split; [apply in_upto; lia|]. intros [d bu] _. rewrite (dndx_ok p files) by assumption. cbn [bind].
      rewrite (foldM_ub (fun _ => True)); [reflexivity| | |exact I].
      + intros s c Hc _. apply in_upto in Hc. destruct (elem_nothrow o i c s) as [->|(s' & ->)]; eauto.
      + exists j. split; [apply in_upto; lia|]. intros s _. apply U.
  Qed.
  Lemma diff_cases p files same o gd i j : available R V p files same -> good p files o -> mt_size gd = p_dims R p -> 0 <= i < p_dims R p -> 0 <= j < p_dims R p ->
    diff_step R V half dv o gd i j = if loaded p i j then match files (Z.max i j) (Z.min i j) with Some v => mt_wr gd i j (Some (dv (copp half) i v)) | None => UB end else if i =? j then Ok gd else UB.
  Proof.
    clear M mul D junk P. intros Av (_ & _ & _ & _ & _ & _ & _ & Sg & Ag) Sd Hi Hj. unfold diff_step. rewrite (mt_rd_ok (o_gm R V o) i j) by lia. cbn [bind]. rewrite Ag by assumption.
    destruct (loaded p i j) eqn:L.
    - assert (L2 := L). unfold loaded in L2. apply andb_true_iff in L2. destruct L2 as [C K]. destruct (gm_loaded p files same i j Av Hi Hj C (kind_grid _ K)) as (v & F & _ & ->). cbn [nonnull bind deref]. rewrite F. reflexivity.
    - rewrite gm_not by exact L. destruct (Z.leb_spec j i) as [Q|Q]; cbn [nonnull bind deref].
      + rewrite mt_rd_ok by lia. cbn [bind]. rewrite Ag by assumption. rewrite gm_not by (rewrite <- loaded_mm, Z.max_comm, Z.min_comm, loaded_mm; exact L).
        destruct (Z.eqb_spec i j) as [->|N]; [rewrite Z.leb_refl; reflexivity|]. rewrite (proj2 (Z.leb_gt i j)) by lia. reflexivity.
      + destruct (Z.eqb_spec i j); [lia|reflexivity].
  Qed.
  Lemma chain_ub p files same i j : 1 <= p_dims R p <= 4 -> available R V p files same -> p_chain R p = true -> 0 <= i < p_dims R p -> 0 <= j < p_dims R p -> loaded p i j = false ->
    made R V half dv p files (p_dims R p) same = UB \/
    exists o, made R V half dv p files (p_dims R p) same = Ok o /\ forall b dest psi, apply_add o b dest psi = UB.
  Proof.
    intros Hn Av Pc Hi Hj L. destruct (init_ok p files same Hn Av) as (o & E & G & B & Ch). unfold made. rewrite E. cbn [bind]. set (n := p_dims R p) in *.
    set (Inv := fun gd : mat (option V) => mt_size gd = n /\ (i = j -> mt_at gd i j = None)).
    assert (Wr : forall gd a b x, 0 <= a < n -> 0 <= b < n -> (a, b) <> (i, j) -> Inv gd -> exists gd', mt_wr gd a b x = Ok gd' /\ Inv gd').
    { intros gd a b x Ha Hb Ne (I1 & I2). rewrite mt_wr_ok by lia. eexists. split; [reflexivity|]. split; [exact I1|]. intros Q. cbn [mt_at]. destruct (Z.eqb_spec i a), (Z.eqb_spec j b); cbn [andb]; try (apply I2; exact Q). subst. congruence. }
    assert (Stp : forall gd a b, 0 <= a < n -> 0 <= b < n -> Inv gd -> diff_step R V half dv o gd a b = UB \/ exists gd', diff_step R V half dv o gd a b = Ok gd' /\ Inv gd').
    { intros gd a b Ha Hb Iv. rewrite (diff_cases p files same) by (assumption || apply Iv). destruct (loaded p a b) eqn:La.
      - destruct (files (Z.max a b) (Z.min a b)); [|auto]. right. apply Wr; auto. intros [= -> ->]. congruence.
      - destruct (a =? b); eauto. }
    assert (I0 : Inv (mt_all n None)) by (split; reflexivity).
    assert (Q : diff_loop o n = UB \/ exists gd, diff_loop o n = Ok gd /\ Inv gd).
    { apply foldM_ub_or; [|exact I0]. intros gd a Ha Iv. apply in_upto in Ha. apply foldM_ub_or; [|exact Iv]. intros gd' b Hb Iv'. apply in_upto in Hb. apply Stp; assumption. }
    assert (Ps : forall x, diff_loop o n = UB -> check same o n = x -> (x = UB \/ x = Ok tt) -> init_psi o n same = UB).
    { intros x Dl Cx Hx. unfold Model.GMat.init_psi. rewrite B. fold (check same o n). rewrite Cx. destruct Hx as [-> | ->]; [reflexivity|]. cbn [bind]. rewrite Ch, andb_false_r.
      destruct G as (Gp & G1 & _). rewrite Gp, Pc, G1. fold n. fold (diff_loop o n). rewrite Dl. reflexivity. }
    destruct (check_or p files same o Av G) as [Ck|Ck]; fold n in Ck.
    - left. unfold Model.GMat.init_psi. rewrite B. fold (check same o n). rewrite Ck. reflexivity.
    - destruct Q as [Q|(gd & Q & Iv)]; [left; eapply Ps; [exact Q|exact Ck|auto]|].
      destruct (Z.eq_dec i j) as [Eij|Nij].
      + right. destruct (init_psi_chain p files same o G B Ch Pc Ck gd Q) as (o' & E' & Rd & Egd). exists o'. split; [exact E'|]. apply (apply_ub p files o' i j Rd Hi Hj). intros [[d w] bu].
        pose proof Rd as (_ & _ & _ & _ & _ & _ & _ & Hc). unfold Model.GMat.elem_step. rewrite (proj2 (Z.eqb_eq i j) Eij). cbn [orb]. rewrite Hc, Pc, Egd. destruct Iv as (I1 & I2). rewrite mt_rd_ok by lia. cbn [bind]. rewrite <- Eij in *. rewrite I2 by reflexivity. reflexivity.
      + left. apply (Ps (Ok tt)); auto. unfold diff_loop. apply (foldM_ub Inv); [| |exact I0].
        * intros gd' a Ha Iv'. apply in_upto in Ha. apply foldM_ub_or; [|exact Iv']. intros gd2 b Hb Iv2. apply in_upto in Hb. apply Stp; assumption.
        * exists i. split; [apply in_upto; lia|]. intros gd' Iv'. apply (foldM_ub Inv); [| |exact Iv'].
          -- intros gd2 b Hb Iv2. apply in_upto in Hb. apply Stp; assumption.
          -- exists j. split; [apply in_upto; lia|]. intros gd2 Iv2. rewrite (diff_cases p files same) by (assumption || apply Iv2). rewrite L. destruct (Z.eqb_spec i j); [contradiction|reflexivity].
  Qed.
  Lemma coup_ub p files same i j : 1 <= p_dims R p <= 4 -> available R V p files same -> p_coup R p = false -> 0 <= j < i -> i < p_dims R p -> kind p i j = SGrid ->
    made R V half dv p files (p_dims R p) same = UB.
  Proof.
    clear M mul D junk P. intros Hn Av Pc Hj Hi K. destruct (init_ok p files same Hn Av) as (o & E & G & B & Ch). unfold made. rewrite E. cbn [bind]. unfold Model.GMat.init_psi. rewrite B. fold (check same o (p_dims R p)).
    rewrite (check_ub p files same o i j) by assumption. reflexivity.
  Qed.

  Lemma refused p files same i j v d : 1 <= p_dims R p <= 4 -> available R V p files (fun _ => true) -> safe p -> 0 <= j <= i -> i < d <= p_dims R p -> loaded p i j = true -> files i j = Some v -> same v = false ->
    made R V half dv p files d same = Throw.
  Proof.
    clear M mul D junk P. intros Hn Av Sf Hj Hi L Fv Sv. destruct (init_ok p files _ Hn Av) as (o & E & G & B & Ch). unfold made. rewrite E. cbn [bind]. unfold Model.GMat.init_psi. rewrite B.
    replace (foldM _ (upto 0 d) tt) with (@Throw unit); [reflexivity|]. symmetry.
    assert (St : forall a b, 0 <= b <= a -> a < p_dims R p -> check_step R V same o a b = Throw \/ check_step R V same o a b = Ok tt).
    { intros a b Hb Ha. rewrite (check_any p files) by assumption. destruct (if loaded p a b then files a b else None); [|auto]. destruct (same v0); auto. }
    assert (Row : forall a, 0 <= a < p_dims R p -> foldM (fun _ j => check_step R V same o a j) (upto 0 (a + 1)) tt = Throw \/ foldM (fun _ j => check_step R V same o a j) (upto 0 (a + 1)) tt = Ok tt).
    { intros a Ha. apply (unit_or (fun j => check_step R V same o a j)). intros b Hb. apply in_upto in Hb. apply St; lia. }
    apply (unit_throw (fun i => foldM (fun _ j => check_step R V same o i j) (upto 0 (i + 1)) tt) (upto 0 d) i); [intros a Ha; apply in_upto in Ha; apply Row; lia|apply in_upto; lia|].
    apply (unit_throw (fun j => check_step R V same o i j) (upto 0 (i + 1)) j); [intros b Hb; apply in_upto in Hb; apply St; lia|apply in_upto; lia|].
    rewrite (check_any p files) by (assumption || lia). rewrite L, Fv, Sv. reflexivity.
  Qed.

  (** ** Copies *)
  Lemma copy_ub neg p files o d same : ready p files o -> 1 <= p_dims R p -> exists o', copy R V neg o = Ok o' /\ init_psi o' d same = Ok o' /\ forall b dest psi, apply_add o' b dest psi = UB.
  Proof.
    intros ((Gp & Gs & Gc & Ss & As & Sc & Ac & Sg & Ag) & Hd & Hb & _) Hn. unfold copy. rewrite Gs, Hb, Z.ltb_irrefl. set (n := p_dims R p) in *.
    destruct (foldM_upto (fun gm i => foldM (fun gm j =>
        let* x := mt_rd (o_gm R V o) i j in let* a := nonnull V x in
        if a then let* c := mt_rd (o_c R V o) i j in
          if neg c then let* v := deref V x in let* gm := mt_wr gm i j (PObj v) in mt_wr gm j i (PObj v) else Ok gm
        else Ok gm) (upto 0 (i + 1)) gm) (fun _ gm => mt_size gm = n) 0 n (mt_all n PWild)) as (gm & E & S1); [lia|reflexivity| |].
    - intros i gm Hi S0. destruct (foldM_upto (fun gm j =>
        let* x := mt_rd (o_gm R V o) i j in let* a := nonnull V x in
        if a then let* c := mt_rd (o_c R V o) i j in
          if neg c then let* v := deref V x in let* gm := mt_wr gm i j (PObj v) in mt_wr gm j i (PObj v) else Ok gm
        else Ok gm) (fun _ gm => mt_size gm = n) 0 (i + 1) gm) as (gm' & E & S1); [lia|exact S0| |eauto].
      intros j g Hj Sg0. rewrite mt_rd_ok by lia. cbn [bind]. rewrite Ag by lia. unfold gm_spec. rewrite (proj2 (Z.leb_le j i)) by lia.
      destruct (if loaded p (Z.max i j) (Z.min i j) then files (Z.max i j) (Z.min i j) else None); cbn [nonnull bind]; [|eauto].
      rewrite mt_rd_ok by lia. cbn [bind]. destruct (neg (mt_at (o_c R V o) i j)); [|eauto]. cbn [deref bind]. rewrite mt_wr_ok by lia. cbn [bind]. rewrite mt_wr_ok by (cbn [mt_size]; lia). eexists. split; [reflexivity|]. exact Sg0.
    - rewrite E. cbn [bind]. eexists. split; [reflexivity|]. split.
      + unfold Model.GMat.init_psi. cbn [o_buf]. rewrite (proj2 (Z.ltb_lt 0 n)) by lia. reflexivity.
      + intros b dest psi. unfold Model.GMat.apply_add. cbn [o_bufs o_dim o_buf o_buf1]. destruct (n <? o_dim R V o); [reflexivity|]. rewrite orb_true_r. reflexivity.
  Qed.

  (** ** Wave functions with another number of dimensions *)
  Lemma dims_more p files same d : 1 <= p_dims R p <= 4 -> available R V p files same -> safe p -> p_dims R p < d -> made R V half dv p files d same = UB.
  Proof.
    clear M mul D junk P. intros Hn Av Sf Hd. destruct (init_ok p files same Hn Av) as (o & E & G & B & Ch). unfold made. rewrite E. cbn [bind]. unfold Model.GMat.init_psi. rewrite B.
    replace (foldM _ (upto 0 d) tt) with (@UB unit); [reflexivity|]. symmetry. pose proof (check_ok p files same o Av G Sf) as Ck. unfold check in Ck.
    rewrite (upto_app 0 (p_dims R p) d) by lia. rewrite foldM_app, Ck. cbn [bind]. rewrite (upto_cons (p_dims R p)) by lia. cbn [foldM]. rewrite (upto_cons 0) by lia. cbn [foldM].
    unfold check_step at 1. unfold mt_rd, mt_in. destruct G as (_ & _ & _ & -> & _). rewrite Z.ltb_irrefl, andb_false_r. reflexivity.
  Qed.
  Lemma dims_less p files same d : 1 <= p_dims R p <= 4 -> available R V p files same -> (forall i j, kind p i j <> SGrid) -> p_chain R p = false -> 0 <= d < p_dims R p ->
    exists o, made R V half dv p files d same = Ok o /\ forall b dest psi, apply_add o b dest psi = UB.
  Proof.
    intros Hn Av Kn Pc Hd. destruct (init_ok p files same Hn Av) as (o & E & G & B & Ch). unfold made. rewrite E. cbn [bind]. unfold Model.GMat.init_psi. rewrite B.
    pose proof G as (Gp & Gs & Gc & Ss & As & Sc & Ac & Sg & Ag). set (n := p_dims R p) in *.
    replace (foldM _ (upto 0 d) tt) with (Ok tt).
    2: { symmetry. apply (foldM_unit (fun i => foldM (fun _ j => check_step R V same o i j) (upto 0 (i + 1)) tt)). intros i Hi. apply in_upto in Hi.
      apply (foldM_unit (fun j => check_step R V same o i j)). intros j Hj. apply in_upto in Hj. rewrite (check_cases p files) by (assumption || fold n; lia).
      destruct (is_grid (kind p i j)) eqn:K; [|reflexivity]. exfalso. apply (Kn i j). apply kind_grid. exact K. }
    cbn [bind]. rewrite Ch, andb_false_r, Gp, Pc. eexists. split; [reflexivity|]. intros b dest psi. unfold Model.GMat.apply_add. cbn [o_bufs o_dim o_buf o_buf1 o_size]. rewrite Gs.
    rewrite (proj2 (Z.ltb_ge n d)) by lia. cbn [negb orb].
    set (o' := mkOp _ _ _ _ _ _ _ _ _ _ _ _ _ _ _ _).
    rewrite (foldM_ub (fun _ => True)); [reflexivity| | |exact I].
    - intros [de bu] a Ha _. apply in_upto in Ha. unfold Model.GMat.dndx. destruct (_ && _ && _); cbn [bind]; [|left; reflexivity].
      match goal with |- context [foldM ?f ?l ?s0] => destruct (foldM_ub_or (fun _ => True) f l) with (s := s0) as [->|(t & -> & _)]; auto end.
      + intros s c _ _. destruct (elem_nothrow o' a c s) as [->|(s' & ->)]; eauto.
      + right. destruct t as [[? ?] ?]. cbn [bind]. eauto.
    - exists d. split; [apply in_upto; lia|]. intros [de bu] _. unfold Model.GMat.dndx. cbn [o_dim o']. rewrite Z.ltb_irrefl, andb_false_r. reflexivity.
  Qed.

  (** ** Hermitian *)
  Section H.
    Variable S : cring.
    Variable dot : M -> M -> S.
    Hypothesis dot_r : forall x y z, dot x (y +: z) = cadd (dot x y) (dot x z).
    Hypothesis dot_l : forall x y z, dot (y +: z) x = cadd (dot y x) (dot z x).
    Hypothesis anti : forall i x y, dot (D i x) y = copp (dot x (D i y)).
    Hypothesis real_half : forall x y, dot (copp half *: x) y = dot x (copp half *: y).
    Hypothesis Dh : forall i, homogeneous R M (D i).
    Add Ring SR : (cr_th S).
    Lemma dot_zero_r x : dot x m0 = c0.
    Proof. clear - dot_r. assert (E : dot x m0 = cadd (dot x m0) (dot x m0)) by (rewrite <- dot_r, madd_0; reflexivity). transitivity (csub (cadd (dot x m0) (dot x m0)) (dot x m0)); [ring|]. rewrite <- E. ring. Qed.
    Lemma dot_zero_l x : dot m0 x = c0.
    Proof. clear - dot_l. assert (E : dot m0 x = cadd (dot m0 x) (dot m0 x)) by (rewrite <- dot_l, madd_0; reflexivity). transitivity (csub (cadd (dot m0 x) (dot m0 x)) (dot m0 x)); [ring|]. rewrite <- E. ring. Qed.
    Lemma dot_msum_r {A} x (f : A -> M) l : dot x (msum (map f l)) = lsum (fun a => dot x (f a)) l.
    Proof. clear - dot_r. induction l as [|a l IH]; cbn [map Spec.Operators.msum lsum]; [apply dot_zero_r|]. rewrite dot_r, IH. reflexivity. Qed.
    Lemma dot_msum_l {A} x (f : A -> M) l : dot (msum (map f l)) x = lsum (fun a => dot (f a) x) l.
    Proof. clear - dot_l. induction l as [|a l IH]; cbn [map Spec.Operators.msum lsum]; [apply dot_zero_l|]. rewrite dot_l, IH. reflexivity. Qed.
    Lemma kinetic_herm n (G : Z -> Z -> M -> M) : (forall i j x y, dot x (G i j y) = dot (G j i x) y) -> (forall i j, homogeneous R M (G i j)) ->
      forall x y, dot x (kinetic R M half D n G y) = dot (kinetic R M half D n G x) y.
    Proof.
      intros Gs Gh x y. unfold kinetic, Spec.GMat.dsum. rewrite dot_msum_r, dot_msum_l.
      rewrite (lsum_ext _ _ (fun i => lsum (fun j => dot (copp half *: D i (G j i (D j x))) y) (upto 0 n))).
      - rewrite lsum_swap. apply lsum_ext. intros i _. rewrite dot_msum_l. reflexivity.
      - intros i _. rewrite dot_msum_r. apply lsum_ext. intros j _. rewrite <- real_half.
        assert (A : forall k u v, dot u (D k v) = copp (dot (D k u) v)) by (intros k u v; rewrite anti; ring).
        rewrite A, Gs, A. rewrite (Dh j), (Gh j i), (Dh i). ring.
    Qed.
  End H.
End P.

(** ** Bounds *)
Open Scope Q_scope.
Lemma vec_max_ge l m x : vec_max l = Ok m -> (x < length l)%nat -> nth x l 0 <= m.
Proof.
  destruct l as [|a t]; [discriminate|]. cbn [vec_max]. intros [= <-] H.
  assert (G : forall t d, d <= fold_left (fun d x => if Qlt_le_dec d x then x else d) t d /\ forall y, In y t -> y <= fold_left (fun d x => if Qlt_le_dec d x then x else d) t d).
  { clear. induction t as [|b t IH]; intros d; cbn [fold_left]; [split; [apply Qle_refl|intros y []]|].
    destruct (IH (if Qlt_le_dec d b then b else d)) as [I1 I2]. split; [eapply Qle_trans; [|exact I1]; destruct (Qlt_le_dec d b); lra|].
    intros y [->|Hy]; [eapply Qle_trans; [|exact I1]; destruct (Qlt_le_dec d y); lra|apply I2; exact Hy]. }
  destruct x as [|x]; [apply (proj1 (G t a))|]. cbn [nth]. apply (proj2 (G t a)). apply nth_In. cbn in H. lia.
Qed.
Lemma vec_min_le l m x : vec_min l = Ok m -> (x < length l)%nat -> m <= nth x l 0.
Proof.
  destruct l as [|a t]; [discriminate|]. cbn [vec_min]. intros [= <-] H.
  assert (G : forall t d, fold_left (fun d x => if Qlt_le_dec x d then x else d) t d <= d /\ forall y, In y t -> fold_left (fun d x => if Qlt_le_dec x d then x else d) t d <= y).
  { clear. induction t as [|b t IH]; intros d; cbn [fold_left]; [split; [apply Qle_refl|intros y []]|].
    destruct (IH (if Qlt_le_dec b d then b else d)) as [I1 I2]. split; [eapply Qle_trans; [exact I1|]; destruct (Qlt_le_dec b d); lra|].
    intros y [->|Hy]; [eapply Qle_trans; [exact I1|]; destruct (Qlt_le_dec y d); lra|apply I2; exact Hy]. }
  destruct x as [|x]; [apply (proj1 (G t a))|]. cbn [nth]. apply (proj2 (G t a)). apply nth_In. cbn in H. lia.
Qed.
Lemma foldM_post {B} (f : B -> Z -> outcome B) (Pr : Z -> B -> Prop) a b : (a <= b)%Z -> (forall k s s', (a <= k < b)%Z -> Pr k s -> f s k = Ok s' -> Pr (k + 1)%Z s') ->
  forall s s', Pr a s -> foldM f (upto a b) s = Ok s' -> Pr b s'.
Proof.
  intros Hab. remember (Z.to_nat (b - a)) as m eqn:Em. revert a Hab Em. induction m as [|m IH]; intros a Hab Em St s s' Ps E.
  - replace b with a in * by lia. rewrite upto_nil in E by lia. injection E as <-. exact Ps.
  - rewrite upto_cons in E by lia. cbn [foldM] in E. destruct (f s a) as [s1| |] eqn:E1; try discriminate. cbn [bind] in E.
    apply (IH (a + 1)%Z) with (s := s1); try lia; auto; [|apply (St a s); auto; lia]. intros k t t' Hk. apply St. lia.
Qed.
Lemma qsum_snoc (f : Z -> Q) k : (0 <= k)%Z -> qsum (map f (upto 0 (k + 1))) == qsum (map f (upto 0 k)) + f k.
Proof.
  intros H. rewrite upto_snoc by lia. rewrite map_app. cbn [map]. unfold qsum. rewrite fold_right_app. cbn [fold_right].
  assert (G : forall l z, fold_right Qplus z l == fold_right Qplus 0 l + z) by (induction l as [|y l IH]; intros z; cbn [fold_right]; [ring|rewrite IH; ring]). rewrite G. ring.
Qed.
Lemma abs_le x b : Qabs x <= b -> - b <= x /\ x <= b.
Proof. intros H. apply Qabs_Qle_condition in H. exact H. Qed.
Lemma unit_mul v b t : - b <= v -> v <= b -> - (1) <= t -> t <= 1 -> v * t <= b.
Proof. intros. destruct (Qlt_le_dec v 0); nra. Qed.
Lemma unit_prod s t : - (1) <= s -> s <= 1 -> - (1) <= t -> t <= 1 -> - (1) <= s * t /\ s * t <= 1.
Proof. intros. split; nra. Qed.
Lemma div_le a b d : 0 < d -> a <= b -> a / d <= b / d.
Proof. intros Hd H. unfold Qdiv. apply Qmult_le_compat_r; [exact H|]. apply Qlt_le_weak, Qinv_lt_0_compat, Hd. Qed.
Section EP.
  Variable n : Z.
  Variable coup : bool.
  Variable src : Z -> Z -> source.
  Variable c : Z -> Z -> Q.
  Variable g : Z -> Z -> list Q.
  Variable dx : Z -> Q.
  Notation value := (value coup src c g).
  Notation fair := (fair n coup src c g dx).
  Lemma emax_bound m x k T : (0 <= n)%Z -> points src g m -> (x < m)%nat -> spaced dx -> momenta k -> fair m ->
    (forall i, (0 <= i < n)%Z -> 0 <= value x i i) -> emax n coup src c g dx = Ok T -> form n coup src c g dx x k <= T.
  Proof.
    intros Hn Pt Hx Sp Mo Fa Po E. unfold form. unfold emax in E.
    assert (Dp : forall i j, 0 < dx i * dx j) by (intros i j; pose proof (Sp i); pose proof (Sp j); nra).
    assert (K : forall i, - (1) <= k i /\ k i <= 1) by (intros i; apply abs_le, Mo).
    assert (Kk : forall i j, - (1) <= k i * k j /\ k i * k j <= 1) by (intros i j; destruct (K i), (K j); apply unit_prod; assumption).
    set (off := fun i j => 2 * (value x i j / (dx i * dx j)) * (k i * k j)). set (dia := fun i => value x i i / (dx i * dx i) * (k i * k i)).
    assert (Hdia : forall i T T', (0 <= i < n)%Z -> emax_step coup src c g dx T i i = Ok T' -> T + dia i <= T').
    { intros i T0 T' Hi Es. unfold emax_step in Es. rewrite Z.eqb_refl in Es. cbn [negb andb] in Es. unfold dia. pose proof (Po i Hi) as P0.
      assert (V0 : 0 <= value x i i / (dx i * dx i)) by (apply Qle_shift_div_l; [apply Dp|]; lra).
      assert (Le : forall b, value x i i / (dx i * dx i) <= b -> value x i i / (dx i * dx i) * (k i * k i) <= b).
      { intros b Hb. apply unit_mul; [lra|exact Hb|apply Kk|apply Kk]. }
      revert V0 Le. unfold Spec.GMat.value. rewrite Z.eqb_refl. cbn [orb]. intros V0 Le.
      destruct (src i i) eqn:Es0.
      - injection Es as <-. specialize (Le 0). assert (0 / (dx i * dx i) <= 0) by (apply Qle_shift_div_r; [apply Dp|lra]). specialize (Le H). lra.
      - injection Es as <-. specialize (Le (c i i / (dx i * dx i)) (Qle_refl _)). lra.
      - destruct (vec_max (g i i)) as [a| |] eqn:Em; try discriminate. cbn [bind] in Es. injection Es as <-. apply Qplus_le_r. apply Le. apply div_le; [apply Dp|]. apply vec_max_ge with (1 := Em). rewrite (Pt i i Es0). exact Hx. }
    assert (Hoff : forall i j T T', (0 <= j < i)%Z -> (i < n)%Z -> emax_step coup src c g dx T i j = Ok T' -> T + off i j <= T').
    { intros i j T0 T' Hj Hi Es. unfold emax_step in Es. destruct (Z.eqb_spec i j) as [|Ne]; [lia|]. cbn [negb andb] in Es. unfold off.
      pose proof (Fa i j Hj Hi) as Fij. pose proof (Dp i j) as D0. set (d := dx i * dx j) in *.
      assert (Z0 : forall y, value y i j = 0 -> 2 * (value y i j / d) * (k i * k j) <= 0).
      { intros y ->. assert (0 / d == 0) by (unfold Qdiv; ring). rewrite H. lra. }
      assert (Le : forall v b, - b <= v -> v <= b -> 2 * v * (k i * k j) <= 2 * b).
      { intros v b H1 H2. pose proof (unit_mul v b (k i * k j) H1 H2 (proj1 (Kk i j)) (proj2 (Kk i j))). lra. }
      destruct coup eqn:Ec.
      2: { injection Es as <-. specialize (Z0 x). unfold Spec.GMat.value in *. rewrite (proj2 (Z.eqb_neq i j)) in * by lia. cbn [orb] in *. specialize (Z0 eq_refl). lra. }
      specialize (Fij eq_refl). unfold Spec.GMat.value in *. rewrite orb_true_r in *. destruct (src i j) eqn:Es0.
      - cbn [bind] in Es. destruct (Qlt_le_dec 0 0) as [W|_]; [lra|]. injection Es as <-. specialize (Z0 0%nat eq_refl). lra.
      - cbn [bind] in Es. destruct Fij as [F1 F2]. destruct (Qlt_le_dec (c i j) 0) as [W|_]; [lra|]. injection Es as <-. apply Qplus_le_r. apply Le.
        + assert (0 <= c i j / d) by (apply Qle_shift_div_l; lra). lra.
        + apply Qle_shift_div_r; [exact D0|]. nra.
      - destruct (vec_max (g i j)) as [a| |] eqn:Ea; try discriminate. destruct (vec_min (g i j)) as [b| |] eqn:Eb; try discriminate. cbn [bind] in Es.
        assert (Lo : forall y, (y < m)%nat -> b <= nth y (g i j) 0 /\ nth y (g i j) 0 <= a).
        { intros y Hy. split; [apply vec_min_le with (1 := Eb)|apply vec_max_ge with (1 := Ea)]; rewrite (Pt i j Es0); exact Hy. }
        assert (Ld : forall y, (y < m)%nat -> b / d <= nth y (g i j) 0 / d /\ nth y (g i j) 0 / d <= a / d).
        { intros y Hy. destruct (Lo y Hy). split; apply div_le; assumption. }
        destruct (Ld x Hx) as [L1 L2]. set (v := nth x (g i j) 0 / d) in *. set (A := a / d) in *. set (B := b / d) in *.
        assert (Pos : 0 <= A \/ B < A).
        { destruct Fij as (y & Hy & [Q|(z & Hz & Q)]).
          - left. destruct (Ld y Hy) as [_ L]. eapply Qle_trans; [|exact L]. apply Qle_shift_div_l; lra.
          - right. destruct (Lo y Hy) as [Q1 _]. destruct (Lo z Hz) as [_ Q2]. unfold A, B, Qdiv. apply Qmult_lt_compat_r; [apply Qinv_lt_0_compat, D0|lra]. }
        clearbody v A B.
        destruct (Qlt_le_dec B 0) as [W|W].
        + assert (Ab : Qabs B == - B) by (apply Qabs_neg; lra).
          destruct (Qlt_le_dec (Qabs A) (Qabs B)) as [X|X]; injection Es as <-; apply Qplus_le_r.
          * pose proof (Qle_Qabs A). assert (H1 : 2 * v * (k i * k j) <= 2 * - B) by (apply Le; lra). lra.
          * rewrite Ab in X. apply Le; [|exact L2]. destruct (Qlt_le_dec A 0) as [Y|Y]; [|rewrite (Qabs_pos A) in X by exact Y; lra].
            rewrite (Qabs_neg A) in X by lra. destruct Pos; lra.
        + injection Es as <-. apply Qplus_le_r. apply Le; lra. }
    apply (foldM_post (fun T i => foldM (fun T j => emax_step coup src c g dx T i j) (upto 0 (i + 1)) T)
      (fun i T => qsum (map (fun i => qsum (map (off i) (upto 0 i)) + dia i) (upto 0 i)) <= T) 0 n) with (s := 0); [exact Hn| |rewrite upto_nil by lia; apply Qle_refl|exact E].
    intros i s s' Hi Ps Es. rewrite qsum_snoc by lia. rewrite upto_snoc in Es by lia. rewrite foldM_app in Es. destruct (foldM (fun T j => emax_step coup src c g dx T i j) (upto 0 i) s) as [s1| |] eqn:E1; try discriminate. cbn [bind foldM] in Es.
    destruct (emax_step coup src c g dx s1 i i) as [s2| |] eqn:E2; try discriminate. cbn [bind] in Es. injection Es as <-. pose proof (Hdia i s1 s2 Hi E2) as Q2.
    assert (Q1 : s + qsum (map (off i) (upto 0 i)) <= s1).
    { apply (foldM_post (fun T j => emax_step coup src c g dx T i j) (fun j T => s + qsum (map (off i) (upto 0 j)) <= T) 0 i) with (s := s); [lia| |rewrite (upto_nil 0 0) by lia; cbn; lra|exact E1].
      intros j t t' Hj Pt' Et. rewrite qsum_snoc by lia. pose proof (Hoff i j t t') as Q. specialize (Q ltac:(lia) ltac:(lia) Et). lra. }
    lra.
  Qed.
  Lemma emin_neg T : (0 <= n)%Z -> emin n coup src c g dx = Ok T -> T <= 0.
  Proof.
    intros Hn E. unfold emin in E. apply (foldM_post (fun T i => foldM (fun T j => emin_step coup src c g dx T i j) (upto 0 i) T) (fun _ T => T <= 0) 0 n) with (s := 0) (s' := T); [exact Hn| |apply Qle_refl|exact E].
    intros i s s' Hi Ps Es. apply (foldM_post (fun T j => emin_step coup src c g dx T i j) (fun _ T => T <= 0) 0 i) with (s := s) (s' := s'); [lia| |exact Ps|exact Es].
    intros j t t' Hj Pt Et. unfold emin_step in Et. destruct ((i =? j)%Z || coup); [|injection Et as <-; exact Pt].
    assert (G : forall q : Q, (if Qlt_le_dec q 0 then Ok (t + q) else Ok t) = Ok t' -> t' <= 0).
    { intros q H. destruct (Qlt_le_dec q 0); injection H as <-; lra. }
    destruct (src i j); cbn [bind] in Et; eauto. destruct (vec_min (g i j)); try discriminate. cbn [bind] in Et. eauto.
  Qed.
End EP.
