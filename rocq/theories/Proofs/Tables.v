From Coq Require Import List ZArith QArith Qabs Bool Lia.
From Verif Require Import Base Arrays Model.Tables Spec.Tables.
Import ListNotations.

Definition zfact (n : Z) : Z := fold_right Z.mul 1%Z (upto 1 (n + 1)).
Definition exact_side (p d m : Z) : Q :=
  let b := (zfact p * zfact p)%Z in let c := (zfact (p - m) * zfact (p + m))%Z in
  if (d =? 1)%Z then Qred ((if Z.odd m then -1 else 1) * b # Z.to_pos (m * c))
  else Qred ((if Z.odd m then 2 else -2) * b # Z.to_pos (m * m * c)).
Definition exact_list (p d : Z) : list Q :=
  map (fun j => exact_side p d (p - j)) (upto 0 p) ++
  [if (d =? 1)%Z then 0%Q else Qred (- (2#1) * qsum (fun m => 1 # Z.to_pos (m * m)) (upto 1 (p + 1)))].
Definition qnth (l : list Q) (i : Z) : Q := nth (Z.to_nat i) l 0%Q.

(** moments with a common denominator D: zs are the weights at the distances ms times D *)
Definition zsum (zs : list Z) : Z := fold_right Z.add 0%Z zs.
Fixpoint mom_loop (n : nat) (k d : Z) (D : Z) (ms zs : list Z) : bool :=
  match n with
  | O => true
  | S n => (zsum zs =? (if (k =? d)%Z then fold_right Z.mul 1%Z (upto 1 (k + 1)) * D else 0))%Z &&
           mom_loop n (k + 1) d D ms (map (fun q => fst q * snd q)%Z (combine ms zs))
  end.
Definition mom_b (l : list Q) (p d : Z) : bool :=
  let ms := upto (- p) (p + 1) in
  let D := fold_right (fun x D => Pos.mul D (Z.to_pos (Z.pos (Qden x) / Z.gcd (Z.pos (Qden x)) (Z.pos D)))) 1%positive l in
  let ws := map (side_weight (qnth l) p d) ms in
  let zs := map (fun w => (Qnum w * (Z.pos D / Z.pos (Qden w)))%Z) ws in
  forallb (fun q => (Qnum (fst q) * Z.pos D =? snd q * Z.pos (Qden (fst q)))%Z) (combine ws zs) &&
  mom_loop (Z.to_nat (2 * p + 1)) 0 d (Z.pos D) ms zs.

Lemma qsum_add {A} (f : A -> Q) l : (qsum f l == fold_right (fun a s => f a + s) 0 l)%Q.
Proof.
  induction l as [|a t IH]; [reflexivity|]. change (Qred (f a + qsum f t) == f a + fold_right (fun a s => f a + s) 0 t)%Q.
  rewrite Qred_correct, IH. reflexivity.
Qed.

Lemma mom_qsum (w : Z -> Q) D k : (0 <= k)%Z -> forall ms zs, length zs = length ms ->
  (forall m z, In (m, z) (combine ms zs) -> (w m * inject_Z (m ^ k) == z # D)%Q) ->
  (fold_right (fun m s => w m * inject_Z (m ^ k) + s) 0 ms == zsum zs # D)%Q.
Proof.
  intros Hk. induction ms as [|m ms IH]; intros [|z zs] L H; try discriminate.
  - cbn. reflexivity.
  - cbn [fold_right zsum]. rewrite (IH zs), (H m z); [|left; reflexivity|cbn in L; congruence|intros; apply H; right; assumption].
    unfold zsum. unfold Qeq, Qplus. cbn [Qnum Qden]. rewrite Pos2Z.inj_mul. ring.
Qed.

Lemma combine_step ms zs m y : length zs = length ms -> In (m, y) (combine ms (map (fun q => fst q * snd q)%Z (combine ms zs))) ->
  exists z, In (m, z) (combine ms zs) /\ y = (m * z)%Z.
Proof.
  revert zs; induction ms as [|a ms IH]; intros [|z zs] L H; try discriminate; [destruct H|]. cbn in H. destruct H as [E|H].
  - injection E as -> <-. exists z. split; [left; reflexivity|reflexivity].
  - destruct (IH zs) as (z' & I' & E'); [cbn in L; congruence|exact H|]. exists z'. split; [right; exact I'|exact E'].
Qed.

Lemma mom_loop_ok (w : Z -> Q) D d ms n : forall k zs, (0 <= k)%Z -> length zs = length ms ->
  (forall m z, In (m, z) (combine ms zs) -> (w m * inject_Z (m ^ k) == z # D)%Q) ->
  mom_loop n k d (Z.pos D) ms zs = true -> forall j, (k <= j < k + Z.of_nat n)%Z ->
  (qsum (fun m => w m * inject_Z (m ^ j)) ms == if (j =? d)%Z then inject_Z (fold_right Z.mul 1%Z (upto 1 (j + 1))) else 0)%Q.
Proof.
  induction n as [|n IH]; intros k zs Hk L H E j Hj; [lia|]. cbn [mom_loop] in E. apply andb_prop in E. destruct E as [E1 E2].
  destruct (Z.eq_dec j k) as [->|Nj].
  - rewrite qsum_add, (mom_qsum w D k Hk ms zs L H). apply Z.eqb_eq in E1. rewrite E1.
    destruct (k =? d)%Z; unfold Qeq, inject_Z; cbn [Qnum Qden]; lia.
  - apply (IH (k + 1)%Z (map (fun q => fst q * snd q)%Z (combine ms zs))); [lia| | |exact E2|lia].
    + rewrite map_length, combine_length. lia.
    + intros m y Hy. destruct (combine_step ms zs m y L Hy) as (z & Iz & ->). specialize (H m z Iz).
      rewrite Z.pow_add_r, Z.pow_1_r by lia. rewrite inject_Z_mult, Qmult_assoc, H.
      unfold Qeq, Qmult, inject_Z. cbn [Qnum Qden]. rewrite Pos.mul_1_r. ring.
Qed.

Lemma mom_b_ok l p d : (0 <= p)%Z -> mom_b l p d = true -> moments (side_weight (qnth l) p d) p d.
Proof.
  intros Hp H k Hk. unfold mom_b in H. cbv zeta in H. set (D := fold_right _ _ _) in H. apply andb_prop in H. destruct H as [H1 H2].
  rewrite forallb_forall in H1. eapply mom_loop_ok with (4 := H2); [lia| | |lia].
  - rewrite !map_length. reflexivity.
  - intros m z Hz. rewrite map_map in Hz. apply in_combine_r in Hz as Hr.
    assert (z = (Qnum (side_weight (qnth l) p d m) * (Z.pos D / Z.pos (Qden (side_weight (qnth l) p d m))))%Z /\ In m (upto (- p) (p + 1))).
    { clear -Hz. induction (upto (- p) (p + 1)) as [|a t IH]; [destruct Hz|]. cbn in Hz. destruct Hz as [E|Hz].
      - injection E as -> <-. split; [reflexivity|left; reflexivity].
      - destruct (IH Hz). split; [assumption|right; assumption]. }
    destruct H as [-> Im]. specialize (H1 (side_weight (qnth l) p d m, (Qnum (side_weight (qnth l) p d m) * (Z.pos D / Z.pos (Qden (side_weight (qnth l) p d m))))%Z)).
    cbn [fst snd] in H1. rewrite Z.pow_0_r. change (inject_Z 1) with 1%Q. rewrite Qmult_1_r. unfold Qeq. cbn [Qnum Qden].
    apply Z.eqb_eq. apply H1. clear -Im. rewrite map_map. induction (upto (- p) (p + 1)) as [|a t IH]; [destruct Im|].
    destruct Im as [->|Im]; [left; reflexivity|right; apply IH; exact Im].
Qed.

Definition tol : Q := 1 # Z.to_pos (10 ^ 16)%Z.
Definition near_b (r l : list Q) (p : Z) : bool :=
  (p <? zlen r)%Z &&
  forallb (fun j => Qle_bool (Qabs (qnth r j - qnth l j)) (tol * (if (j =? p)%Z then 1 else Qabs (qnth l j)))%Q) (upto 0 (p + 1)).
Definition check (d p : Z) : bool :=
  match rd cfd_table (Z.quot ((d - 1) * 50) 2 + p - 1) with
  | Ok r => mom_b (exact_list p d) p d && near_b r (exact_list p d) p
  | _ => false
  end.
Lemma check_all : forallb (fun d => forallb (check d) (upto 1 26)) (upto 1 3) = true.
Proof. vm_compute. reflexivity. Qed.

Lemma table_near d p : (1 <= d <= 2)%Z -> (1 <= p <= 25)%Z ->
  exists row exact, rd cfd_table (Z.quot ((d - 1) * 50) 2 + p - 1) = Ok row /\ (p < zlen row)%Z /\
    moments (side_weight exact p d) p d /\
    forall j, (0 <= j <= p)%Z ->
      (Qabs (nth (Z.to_nat j) row 0 - exact j) <= (1 # Z.to_pos (10 ^ 16)) * (if (j =? p)%Z then 1 else Qabs (exact j)))%Q.
Proof.
  intros Hd Hp. pose proof check_all as H. rewrite forallb_forall in H. specialize (H d ltac:(apply in_upto; lia)).
  rewrite forallb_forall in H. specialize (H p ltac:(apply in_upto; lia)). unfold check in H.
  destruct (rd cfd_table _) as [row| |]; try discriminate. apply andb_prop in H. destruct H as [H1 H2].
  apply andb_prop in H2. destruct H2 as [H2 H3]. apply Z.ltb_lt in H2.
  exists row, (qnth (exact_list p d)). split; [reflexivity|]. split; [exact H2|]. split.
  - apply mom_b_ok; [lia|exact H1].
  - intros j Hj. rewrite forallb_forall in H3. specialize (H3 j ltac:(apply in_upto; lia)). apply Qle_bool_iff in H3. exact H3.
Qed.
