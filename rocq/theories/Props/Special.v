(** Properties C49, C51, C52: grid sums, matrix operators, the Lanczos basis. *)
From Coq Require Import List ZArith Lia Bool QArith Qcanon.
From Verif Require Import Base Arrays Algebra Model.Operators Spec.Operators Model.Special Spec.Special Proofs.Special Props.Stepper.
Import ListNotations.
Open Scope Z_scope.

(** * C49 *)
(** Full statement: after the update for a time step the values are the sums of the parts' values. *)
Definition C49_full : Prop := forall (R : cring) junk s ps t, (forall n, 0 <= n -> zlen (junk n) = n) -> summed R junk s ps -> ps <> [] ->
  exists s', gs_time R t s = Ok s' /\ forall i, 0 <= i < zlen (gs_val R s) -> rd (gs_val R s') i = Ok (total R ps t i).
(** It holds for one part. *)
Theorem C49_partial : forall (R : cring) junk s p t, (forall n, 0 <= n -> zlen (junk n) = n) -> summed R junk s [p] ->
  exists s', gs_time R t s = Ok s' /\ forall i, 0 <= i < zlen (gs_val R s) -> rd (gs_val R s') i = Ok (total R [p] t i).
Proof.
  intros R junk s p t J H. pose proof (summed_inv R junk J s [p] H) as I. pose proof I as (L & N & B & S & P). unfold gs_time. rewrite N. cbn [zlen length Z.of_nat Z.ltb Z.compare].
  eexists. split; [apply (update_one R junk J s p t I)|]. intros i Hi. cbn [gs_val]. destruct (P p (or_introl eq_refl)) as [[P0 P1] P2].
  rewrite (rd_nth _ i c0) by (rewrite P1, P2; exact Hi). f_equal. unfold total, lsum. cbn. rewrite (Ring_theory.Radd_comm (cr_th R)). symmetry. apply (Ring_theory.Radd_0_l (cr_th R)).
Qed.
(** With more parts the second loop is always past the last part. *)
Theorem C49_code : forall (R : cring) junk s p q ps t, (forall n, 0 <= n -> zlen (junk n) = n) -> summed R junk s (p :: q :: ps) -> gs_time R t s = UB.
Proof.
  intros R junk s p q ps t J H. pose proof (summed_inv R junk J s _ H) as I. pose proof I as (L & N & B & S & P). unfold gs_time. rewrite N.
  destruct (Z.ltb_spec 0 (zlen (p :: q :: ps))); [|unfold zlen in *; cbn in *; lia]. apply (update_more R junk J s p q ps t I). destruct (P p (or_introl eq_refl)) as [[P0 P1] P2]. lia.
Qed.
Print Assumptions C49_code.
Definition ex_part (a : Z) : part Zr := mkPart Zr 3 (fun t => [a; a + t; a * t]).
Definition ex_junk (n : Z) : list Zr := repeat 77 (Z.to_nat n).
Example C49_ex : exists s1 s2, summed Zr ex_junk s1 [ex_part 2] /\ summed Zr ex_junk s2 [ex_part 2; ex_part 5] /\
  (exists s', gs_time Zr 4 s1 = Ok s' /\ gs_val Zr s' = [2; 6; 8]) /\ gs_time Zr 4 s2 = UB /\ total Zr [ex_part 2; ex_part 5] 4 1 = 15.
Proof.
  assert (P : forall a, proper Zr (ex_part a)) by (intros a; split; [cbn; lia|intros; reflexivity]).
  destruct (gs_add Zr ex_junk (gs_new Zr) (Some (ex_part 2))) as [s1| |] eqn:E1; [|vm_compute in E1; discriminate..].
  destruct (gs_add Zr ex_junk s1 (Some (ex_part 5))) as [s2| |] eqn:E2; [|vm_compute in E1; injection E1 as <-; vm_compute in E2; discriminate..].
  assert (H1 : summed Zr ex_junk s1 [ex_part 2]) by (apply (sm_add Zr ex_junk (gs_new Zr) [] (ex_part 2)); [apply sm_new|apply P|exact E1]).
  assert (H2 : summed Zr ex_junk s2 [ex_part 2; ex_part 5]) by (apply (sm_add Zr ex_junk s1 [ex_part 2] (ex_part 5)); [exact H1|apply P|exact E2]).
  exists s1, s2. split; [exact H1|]. split; [exact H2|]. cbv in E1. injection E1 as <-. cbv in E2. injection E2 as <-. split; [|split].
  - eexists. split; reflexivity.
  - reflexivity.
  - reflexivity.
Qed.
Theorem C49_refuted : ~ C49_full.
Proof.
  intros Full. destruct C49_ex as (s1 & s2 & _ & H & _ & U & _). destruct (Full Zr ex_junk s2 [ex_part 2; ex_part 5] 4) as (s' & E & _).
  - intros n Hn. unfold ex_junk, zlen. rewrite repeat_length. lia.
  - exact H.
  - discriminate.
  - rewrite U in E. discriminate E.
Qed.
Print Assumptions C49_refuted.
Print Assumptions C49_partial.

(** * C51 *)
Definition C51_full : Prop := forall A E (diag : A -> A * list E) this op, hmade A E diag this -> hmade A E diag op -> copies A E diag this op.
(** The copy is usable exactly if a target never diagonalised receives a matrix that is not diagonalised, or both have eigenvectors. *)
Theorem C51_partial : forall A E (diag : A -> A * list E) this op, hmade A E diag this -> hmade A E diag op -> snd (diag (h_mat A E op)) <> [] ->
  (copies A E diag this op <-> if h_d A E this then h_d A E op <> None else h_valid A E op = false).
Proof. exact copy_iff. Qed.
(** Otherwise the copy asks a missing list for its energies, or copying itself reads missing eigenvectors. *)
Theorem C51_code : forall A E (diag : A -> A * list E) this op, hmade A E diag this -> hmade A E diag op ->
  (h_d A E this = None -> h_valid A E op = true -> exists c, h_copy A E this op = Ok c /\ forall b, h_bound A E diag b c = UB) /\
  (h_d A E this <> None -> h_d A E op = None -> h_copy A E this op = UB).
Proof. exact copy_bad. Qed.
Print Assumptions C51_code.
(** Energies belong to the current matrix after any history without copies. *)
Theorem C51_fresh : forall A E (diag : A -> A * list E) s b, hmade A E diag s -> answer A E diag b s = ebound A E diag b (h_mat A E s).
Proof. intros A E diag s b H. apply answer_ok. apply made_inv. exact H. Qed.
Print Assumptions C51_fresh.
Definition ex_diag (m : Z) : Z * list Z := (m + 1, [m; 2 * m; 3 * m]).
Example C51_ex : let fresh := h_new Z Z 0 in let op := h_init Z Z ex_diag (h_new Z Z 7) in
  hmade Z Z ex_diag fresh /\ hmade Z Z ex_diag op /\ answer Z Z ex_diag true op = Ok 21 /\ copies Z Z ex_diag op op /\ ~ copies Z Z ex_diag fresh op.
Proof.
  cbn zeta. assert (H1 : hmade Z Z ex_diag (h_new Z Z 0)) by constructor. assert (H2 : hmade Z Z ex_diag (h_init Z Z ex_diag (h_new Z Z 7))) by (constructor; constructor).
  split; [exact H1|]. split; [exact H2|]. split; [reflexivity|]. split.
  - apply C51_partial; [exact H2|exact H2|discriminate|discriminate].
  - rewrite (C51_partial _ _ _ _ _ H1 H2) by discriminate. discriminate.
Qed.
Theorem C51_refuted : ~ C51_full.
Proof. intros Full. destruct C51_ex as (H1 & H2 & _ & _ & N). apply N. apply Full; assumption. Qed.
Print Assumptions C51_refuted.
Print Assumptions C51_partial.

(** * C52 *)
(** Full statement: the basis obeys the Lanczos recursion and the diagonal element of every vector used is there. *)
Definition C52_full : Prop := forall (F : fld) (M : cmodule F) junk dot norm conv (H : acts F M) h order q n psi, implements F M H h -> 2 <= order -> zlen q = order ->
  exists st, lz_build F M junk dot norm conv H order q n psi = Ok st /\ 2 <= l_conv F M st <= order /\
    forall i, 0 <= i < l_conv F M st -> exists qi, rd (l_q F M st) i = Ok qi /\ rd (l_a F M st) i = Ok (dot qi (h qi)).
(** The recursion always holds, all but the last vector have their element; the last one exactly when the loop runs through. *)
Theorem C52_partial : forall (F : fld) (M : cmodule F) junk dot norm conv (H : acts F M) h order q n psi, implements F M H h -> 2 <= order -> zlen q = order ->
  exists st, lz_build F M junk dot norm conv H order q n psi = Ok st /\ 2 <= l_conv F M st <= order /\ rd (l_q F M st) 0 = Ok psi /\
    lanczos F M dot norm h (l_q F M st) (l_a F M st) (l_b F M st) (l_conv F M st - 1) /\
    (forall i, 0 <= i < l_conv F M st - 1 -> exists qi, rd (l_q F M st) i = Ok qi /\ rd (l_a F M st) i = Ok (dot qi (h qi))) /\
    ((forall it b, conv it b = false) -> l_conv F M st = order /\ forall i, 0 <= i < order -> exists qi, rd (l_q F M st) i = Ok qi /\ rd (l_a F M st) i = Ok (dot qi (h qi))).
Proof.
  intros F M junk dot norm conv H h order q n psi Hh Ho Lq. destruct (build_ok F M junk dot norm conv H h Hh order q n psi Ho Lq) as (st & K & E & Ck & Hk & Ls & Q0 & Lz & R).
  assert (G : forall i, 0 <= i < K -> exists qi, rd (l_q F M st) i = Ok qi /\ rd (l_a F M st) i = Ok (dot qi (h qi))).
  { intros i Hi. destruct (Lz i Hi) as (qi & ai & bi & y & E1 & E2 & _ & -> & _). exists qi. split; assumption. }
  exists st. split; [exact E|]. split; [lia|]. split; [exact Q0|]. rewrite <- Ck. replace (K + 1 - 1) with K by lia. split; [exact Lz|]. split; [exact G|].
  intros C. destruct R as [[-> (ql & E1 & E2)]|(_ & (b & Cb) & _)]; [|rewrite C in Cb; discriminate]. split; [lia|].
  intros i Hi. destruct (Z.eq_dec i (order - 1)) as [->|]; [exists ql; split; assumption|apply G; lia].
Qed.
(** When the loop is left early the last diagonal element is zero, whatever the Hamiltonian. *)
Theorem C52_code : forall (F : fld) (M : cmodule F) junk dot norm conv (H : acts F M) h order q n psi, implements F M H h -> 2 <= order -> zlen q = order ->
  exists st, lz_build F M junk dot norm conv H order q n psi = Ok st /\ (l_conv F M st < order -> rd (l_a F M st) (l_conv F M st - 1) = Ok c0).
Proof.
  intros F M junk dot norm conv H h order q n psi Hh Ho Lq. destruct (build_ok F M junk dot norm conv H h Hh order q n psi Ho Lq) as (st & K & E & Ck & Hk & Ls & Q0 & Lz & R).
  exists st. split; [exact E|]. intros Lt. rewrite <- Ck. replace (K + 1 - 1) with K by lia. destruct R as [[-> _]|(_ & _ & R)]; [lia|exact R].
Qed.
Print Assumptions C52_code.
(** Triples of rationals, H tridiagonal with 5 on and 1 beside the diagonal; the error estimate is small at once.  On the vectors
    met here [ex_norm] is the norm.  Three of four vectors are used, the third element is 0 and not 5. *)
Definition Q3 : cmodule Qcf.
Proof.
  refine (mkMod Qcf (Qc * Qc * Qc) (0, 0, 0)%Qc (fun x y => (fst (fst x) + fst (fst y), snd (fst x) + snd (fst y), snd x + snd y)%Qc) (fun x => (- fst (fst x), - snd (fst x), - snd x)%Qc)
    (fun a x => (a * fst (fst x), a * snd (fst x), a * snd x)%Qc) _ _ _ _ _ _ _ _);
    intros; repeat match goal with x : (_ * _)%type |- _ => destruct x end; cbn [fst snd Qcf f_ring Qcr cadd cmul c1]; (apply (f_equal2 pair); [apply (f_equal2 pair)|]); ring.
Defined.
Definition ex_dot (x y : Q3) : Qcf := (fst (fst x) * fst (fst y) + snd (fst x) * snd (fst y) + snd x * snd y)%Qc.
Definition ex_norm (x : Q3) : Qcf := ex_dot x x.
Definition ex_h5 (x : Q3) : Q3 := let '(a, b, c) := x in (Q2Qc 5 * a + b, a + Q2Qc 5 * b + c, b + Q2Qc 5 * c)%Qc.
Definition ex_H5 : acts Qcf Q3 := mkActs Qcf Q3 (fun n d s => Ok (ex_h5 s, n)) (fun n p => Ok (ex_h5 p, n)) (fun n d s => Ok (madd d (ex_h5 s), n)).
Definition ex_lz : outcome (lz Qcf Q3) := lz_build Qcf Q3 (fun _ => m0) ex_dot ex_norm (fun _ _ => true) ex_H5 4 (repeat m0 4) O ((1, 0, 0)%Qc : Q3).
Example C52_ex : implements Qcf Q3 ex_H5 ex_h5 /\ exists st, ex_lz = Ok st /\ l_conv Qcf Q3 st = 3 /\
    rd (l_q Qcf Q3 st) 2 = Ok (0, 0, 1)%Qc /\ rd (l_a Qcf Q3 st) 2 = Ok (Q2Qc 0) /\ ex_dot (0, 0, 1)%Qc (ex_h5 (0, 0, 1)%Qc) = Q2Qc 5.
Proof.
  assert (Hh : implements Qcf Q3 ex_H5 ex_h5) by (split; [|split]; intros; exists n; reflexivity). split; [exact Hh|].
  destruct (C52_code Qcf Q3 (fun _ => m0) ex_dot ex_norm (fun _ _ => true) ex_H5 ex_h5 4 (repeat m0 4) O ((1, 0, 0)%Qc : Q3) Hh) as (st & E & A); [lia|reflexivity|].
  exists st. split; [exact E|].
  assert (C : match ex_lz with Ok s => l_conv Qcf Q3 s | _ => 0 end = 3) by (vm_compute; reflexivity).
  assert (Q : match (let* s := ex_lz in rd (l_q Qcf Q3 s) 2) with Ok (a, b, c) => (this a, this b, this c) | _ => (0, 0, 0)%Q end = (0, 0, 1)%Q) by (vm_compute; reflexivity).
  unfold ex_lz in C, Q. rewrite E in C, Q. cbn [bind] in Q. split; [exact C|]. rewrite C in A. split; [|split; [apply A; lia|apply Qc_is_canon; vm_compute; reflexivity]].
  destruct (rd (l_q Qcf Q3 st) 2) as [[[a b] c]| |]; [|discriminate Q..]. injection Q as Qa Qb Qd. f_equal.
  assert (G : forall x y : Qc, this x = this y -> x = y) by (intros x y H; apply Qc_is_canon; rewrite H; reflexivity).
  rewrite (G a 0%Qc Qa), (G b 0%Qc Qb), (G c 1%Qc Qd). reflexivity.
Qed.
Theorem C52_refuted : ~ C52_full.
Proof.
  intros Full. destruct C52_ex as (Hh & st & E & C & Q & A & D).
  destruct (Full Qcf Q3 (fun _ => m0) ex_dot ex_norm (fun _ _ => true) ex_H5 ex_h5 4 (repeat m0 4) O ((1, 0, 0)%Qc : Q3) Hh) as (st' & E' & _ & G); [lia|reflexivity|].
  unfold ex_lz in E. rewrite E in E'. injection E' as <-. rewrite C in G. destruct (G 2) as (qi & G1 & G2); [lia|]. rewrite Q in G1. injection G1 as <-. rewrite A, D in G2. discriminate G2.
Qed.
Print Assumptions C52_refuted.
Print Assumptions C52_partial.
