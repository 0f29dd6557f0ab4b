(** Properties C37, C38: Runge-Kutta and Chebyshev propagators. *)
From Coq Require Import List ZArith Lia Bool QArith Qcanon.
From Verif Require Import Base Arrays Algebra Model.Operators Spec.Operators Model.Stepper Spec.Stepper Proofs.Stepper.
Import ListNotations.
Open Scope Z_scope.

(** * C37 *)
(** In place, for every linear Hamiltonian: the Taylor polynomial of degree four. *)
Theorem C37_in_place : forall (F : fld) (M : cmodule F) junk (H : acts F M) h c dt n psi,
  implements F M H h -> linear F M h -> dt <> c0 -> (ofZ 2 : F) <> c0 -> (ofZ 3 : F) <> c0 ->
  exists n', rk4_ip F M junk H c dt n psi = Ok (taylor F M h c 4 psi, n').
Proof. exact rk4_ok. Qed.
(** Full statement of the copying form: the destination receives the result, the source stays. *)
Definition C37_copy_full : Prop := forall (F : fld) (M : cmodule F) junk (H : acts F M) h c dt n dest src,
  implements F M H h -> linear F M h -> dt <> c0 -> (ofZ 2 : F) <> c0 -> (ofZ 3 : F) <> c0 ->
  exists n', rk4_cp F M junk H c dt n dest src = Ok (taylor F M h c 4 src, src, n').
(** The code takes the destination for the source and the source for the destination. *)
Theorem C37_copy_code : forall (F : fld) (M : cmodule F) junk (H : acts F M) h c dt n dest src,
  implements F M H h -> linear F M h -> dt <> c0 -> (ofZ 2 : F) <> c0 -> (ofZ 3 : F) <> c0 ->
  exists n', rk4_cp F M junk H c dt n dest src = Ok (dest, taylor F M h c 4 dest, n').
Proof.
  intros F M junk H h c dt n dest src A B C D E. destruct (rk4_ok F M junk H h c dt n dest A B C D E) as [n' P]. exists n'.
  apply rk4_copy_code. exact P.
Qed.
Print Assumptions C37_copy_code.

(** Pairs of rational numbers and the operator that exchanges them. *)
Definition Q2 : cmodule Qcf.
Proof.
  refine (mkMod Qcf (Qc * Qc) (0, 0)%Qc (fun x y => (fst x + fst y, snd x + snd y)%Qc) (fun x => (- fst x, - snd x)%Qc) (fun a x => (a * fst x, a * snd x)%Qc) _ _ _ _ _ _ _ _);
    intros; repeat match goal with x : (_ * _)%type |- _ => destruct x end; cbn [fst snd Qcf f_ring Qcr cadd cmul c1]; f_equal; ring.
Defined.
Definition ex_h (x : Q2) : Q2 := (snd x, fst x).
Definition ex_H : acts Qcf Q2 := mkActs Qcf Q2 (fun n d s => Ok (ex_h s, n)) (fun n p => Ok (ex_h p, n)) (fun n d s => Ok (madd d (ex_h s), n)).
Example C37_ex : implements Qcf Q2 ex_H ex_h /\ linear Qcf Q2 ex_h /\ (Q2Qc 3 : Qcf) <> c0 /\ (ofZ 2 : Qcf) <> c0 /\ (ofZ 3 : Qcf) <> c0.
Proof.
  split; [split; [|split]; intros; exists n; reflexivity|]. split; [split; [intros [] []|intros a []]; reflexivity|].
  split; [|split]; discriminate.
Qed.
Theorem C37_copy_refuted : ~ C37_copy_full.
Proof.
  intros Full. destruct C37_ex as (A & B & C & D & E).
  destruct (Full Qcf Q2 (fun _ => m0) ex_H ex_h c0 (Q2Qc 3) O ((0, 0)%Qc : Q2) ((1, 0)%Qc : Q2) A B C D E) as [n' P].
  destruct (C37_copy_code Qcf Q2 (fun _ => m0) ex_H ex_h c0 (Q2Qc 3) O ((0, 0)%Qc : Q2) ((1, 0)%Qc : Q2) A B C D E) as [n2 P2].
  rewrite P2 in P. discriminate P.
Qed.
Print Assumptions C37_copy_refuted.
Print Assumptions C37_in_place.

(** A propagator without a Hamiltonian is refused, with one it applies this one, also after further calls of Init. *)
Theorem C37_init : forall O (h : O) n, rk_init O (rk_new O) = Throw /\
  exists s, rk_init O (rk_add O (rk_new O) h) = Ok s /\ rk_ham O (Nat.iter n (fun s => match rk_init O s with Ok t => t | _ => s end) s) = Ok h.
Proof.
  intros O h n. split; [reflexivity|]. exists (mkRk O (Some h) (Some h) true). split; [reflexivity|].
  assert (G : forall s, rk_ham O s = Ok h -> rk_ham O (match rk_init O s with Ok t => t | _ => s end) = Ok h).
  { intros s H. unfold rk_init. unfold rk_ham in H. destruct (k_buf O s) eqn:B; [unfold rk_ham; rewrite B; exact H|discriminate]. }
  induction n as [|n IH]; [reflexivity|]. exact (G _ IH).
Qed.
Print Assumptions C37_init.
(** A copy of a Runge-Kutta propagator cannot be applied, however often it is initialised. *)
Theorem C37_life_code : forall O (o s : rk O) (hs : list O), rk_copy O (rk_new O) o = Ok s ->
  let s' := fold_left (fun s h => match rk_init O (rk_add O s h) with Ok t => t | _ => s end) hs s in rk_ham O s' = UB.
Proof.
  intros O o s hs E s'. unfold rk_copy in E. destruct (k_buf O o); [|discriminate]. injection E; intros; subst s.
  assert (G : forall s, k_h O s = None -> k_buf O s = true -> rk_ham O (fold_left (fun s h => match rk_init O (rk_add O s h) with Ok t => t | _ => s end) hs s) = UB).
  { induction hs as [|h hs IH]; intros s N B; cbn [fold_left]; [unfold rk_ham; rewrite B, N; reflexivity|]. unfold rk_init at 2. cbn [rk_add k_buf k_h]. rewrite B. apply IH; [exact N|exact B]. }
  apply G; reflexivity.
Qed.
Print Assumptions C37_life_code.
Example C37_life_ex : exists s, rk_init Z (rk_add Z (rk_new Z) 5) = Ok s /\ rk_ham Z s = Ok 5 /\ exists c, rk_copy Z (rk_new Z) s = Ok c.
Proof. eexists. split; [reflexivity|]. split; [reflexivity|]. eexists. reflexivity. Qed.

(** * C38 *)
(** The result is the series with K terms; K is the order unless a term converged, and then the first one (from the third on). *)
Theorem C38_series : forall (F : fld) (M : cmodule F) junk (H : acts F M) h imag ex off scal e coeff stop order n psi,
  implements F M H h -> scal <> c0 -> 2 <= order <= zlen coeff ->
  let X := fun x => mscale ex (shifted F M h off scal x) in
  let s := fun x : M => if (imag : bool) then mopp x else x in
  let S := fun K => series F M X s (fun k => cmul (nth k coeff c0) e) psi (Z.to_nat K) in
  exists K n', 2 <= K <= order /\ cheby_ip F M junk H imag ex off scal e coeff order stop n psi = Ok (S K, n') /\
    (K = order \/ (3 <= K /\ stop psi (K - 1) (S (K - 1)) (S (K - 1 + 1)) = true)) /\ forall j, 2 <= j < K - 1 -> stop psi j (S j) (S (j + 1)) = false.
Proof. intros F M junk H h imag ex off scal e coeff stop order n psi A B C. exact (cheby_ok F M junk H h imag ex off scal e coeff stop order n psi A B C). Qed.
(** Real and imaginary time. *)
Theorem C38_real : forall (F : fld) (M : cmodule F) junk (H : acts F M) h ex off scal e coeff near order n psi,
  implements F M H h -> scal <> c0 -> 3 <= order <= zlen coeff ->
  let S := fun K => series F M (fun x => mscale ex (shifted F M h off scal x)) (fun x => x) (fun k => cmul (nth k coeff c0) e) psi (Z.to_nat K) in
  exists K n', 3 <= K <= order /\ cheby_ip F M junk H false ex off scal e coeff order (stop_real F M near) n psi = Ok (S K, n') /\
    (K = order \/ near psi (S K) = true) /\ forall j, 3 <= j < K -> near psi (S j) = false.
Proof.
  intros F M junk H h ex off scal e coeff near order n psi A B C S. destruct (C38_series F M junk H h false ex off scal e coeff (stop_real F M near) order n psi A B) as (K & n' & BK & E & D & N); [lia|].
  exists K, n'. split; [destruct D as [->|[]]; lia|]. split; [exact E|]. split.
  - destruct D as [->|[_ D]]; [left; reflexivity|right]. replace (K - 1 + 1) with K in D by lia. exact D.
  - intros j Hj. specialize (N (j - 1)). replace (j - 1 + 1) with j in N by lia. apply N. lia.
Qed.
Print Assumptions C38_real.
Theorem C38_imag : forall (F : fld) (M : cmodule F) junk (H : acts F M) h ex off scal e coeff near order n psi,
  implements F M H h -> scal <> c0 -> 3 <= order <= zlen coeff ->
  let S := fun K => series F M (fun x => mscale ex (shifted F M h off scal x)) (fun x => mopp x) (fun k => cmul (nth k coeff c0) e) psi (Z.to_nat K) in
  exists K n', 3 <= K <= order /\ cheby_ip F M junk H true ex off scal e coeff order (stop_imag F M near) n psi = Ok (S K, n') /\
    (K = order \/ (4 <= K /\ near (S (K - 1)) (S K) = true)) /\ forall j, 4 <= j < K -> near (S (j - 1)) (S j) = false.
Proof.
  intros F M junk H h ex off scal e coeff near order n psi A B C S. destruct (C38_series F M junk H h true ex off scal e coeff (stop_imag F M near) order n psi A B) as (K & n' & BK & E & D & N); [lia|].
  exists K, n'. split; [destruct D as [->|[]]; lia|]. split; [exact E|]. split.
  - destruct D as [->|[D1 D]]; [left; reflexivity|right]. replace (K - 1 + 1) with K in D by lia. unfold stop_imag in D. apply andb_true_iff in D. destruct D as [D2 D3].
    apply negb_true_iff, Z.eqb_neq in D2. split; [lia|exact D3].
  - intros j Hj. specialize (N (j - 1)). replace (j - 1 + 1) with j in N by lia. assert (N' := N ltac:(lia)). unfold stop_imag in N'. apply andb_false_iff in N'.
    destruct N' as [N'|N']; [apply negb_false_iff, Z.eqb_eq in N'; lia|exact N'].
Qed.
Print Assumptions C38_imag.
(** The terms are Chebyshev polynomials of the shifted and scaled Hamiltonian, times powers of the exponent per time. *)
Theorem C38_chebyshev : forall (F : fld) (M : cmodule F) h (imag : bool) (ex off scal : F) psi k,
  linear F M h -> cmul ex ex = (if imag then c1 else copp c1) ->
  phi F M (fun x => mscale ex (shifted F M h off scal x)) (fun x => if imag then mopp x else x) psi k =
  mscale (pow F ex k) (cheb F M (shifted F M h off scal) psi k).
Proof. intros F M h imag ex off scal psi k L E. exact (phi_cheb F M h imag ex off scal psi L E k). Qed.
(** The copying form leaves the source alone and does not depend on the destination. *)
Theorem C38_copy : forall (F : fld) (M : cmodule F) junk (H : acts F M) imag ex off scal e coeff order stop n dest src,
  cheby_cp F M junk H imag ex off scal e coeff order stop n dest src = cheby_ip F M junk H imag ex off scal e coeff order stop n src.
Proof. reflexivity. Qed.
Print Assumptions C38_copy.
(** The coefficients set up from the Bessel functions fit the number of terms, provided at least two of them are left. *)
Theorem C38_coefficients : forall (F : fld) want given (bessel : list F) zeroes close small,
  0 <= zeroes -> zlen bessel = want -> 3 <= want -> (given = true -> 2 <= want - zeroes) ->
  (exists order l, cheby_init F want given bessel zeroes close small = Ok (order, l) /\ 2 <= order <= want /\ zlen l = order /\
     nth 0 l c0 = nth 0 bessel c0 /\ forall i, (1 <= i)%nat -> Z.of_nat i < order -> nth i l c0 = cmul (ofZ 2) (nth i bessel c0)) \/ cheby_init F want given bessel zeroes close small = Throw.
Proof. exact init_ok. Qed.
Print Assumptions C38_coefficients.
(** Fewer than three terms are refused.  Without a given order the number of terms is the first one, from two on, for which two
    neighbouring values are close, or all of those that did not underflow. *)
Theorem C38_small : forall (F : fld) want given (bessel : list F) zeroes close small, want < 3 -> cheby_init F want given bessel zeroes close small = Throw.
Proof. intros F want given bessel zeroes close small H. unfold cheby_init. rewrite (proj2 (Z.ltb_lt _ _) H). reflexivity. Qed.
Print Assumptions C38_small.
Theorem C38_terms : forall (F : fld) want (bessel : list F) zeroes close small order l, 0 <= zeroes -> zlen bessel = want ->
  cheby_init F want false bessel zeroes close small = Ok (order, l) ->
  let near := fun j => close (nth (Z.to_nat (j - 1)) bessel c0) (nth (Z.to_nat (j - 2)) bessel c0) in
  (order = Z.max 2 (want - zeroes) \/ near order = true) /\ small order = false /\ forall j, 2 <= j < order -> near j = false.
Proof.
  intros F want bessel zeroes close small order l Hz L E near. unfold cheby_init in E. destruct (want <? 3); [discriminate|].
  destruct (enough F (Z.to_nat (want - zeroes)) bessel close (want - zeroes) 2) as [K| |] eqn:EK; cbn [bind] in E; try discriminate.
  assert (S : small K = false /\ K = order).
  { destruct (small K); [discriminate|]. destruct (rd bessel 0); cbn [bind] in E; try discriminate. destruct (K <? 1); [discriminate|].
    destruct (foldM _ _ _) as [x| |]; cbn [bind] in E; try discriminate. split; [reflexivity|]. congruence. }
  destruct S as [S ->]. apply enough_first in EK; [|lia|lia|lia]. destruct EK as [D N]. split; [exact D|]. split; [exact S|exact N].
Qed.
Print Assumptions C38_terms.
(** Otherwise (order given and all values but the first lost by underflow) the step reads a coefficient that does not exist. *)
Theorem C38_underflow_code : forall (F : fld) (M : cmodule F) junk (H : acts F M) h (bessel : list F) close small imag ex off scal e stop n psi want,
  3 <= want -> zlen bessel = want -> small 1 = false -> implements F M H h ->
  exists l, cheby_init F want true bessel (want - 1) close small = Ok (1, l) /\ cheby_ip F M junk H imag ex off scal e l 1 stop n psi = UB.
Proof.
  intros F M junk H h bessel close small imag ex off scal e stop n psi want W L Sm Hh. unfold cheby_init. destruct (Z.ltb_spec want 3); [lia|]. replace (want - (want - 1)) with 1 by lia. cbn [bind]. rewrite Sm.
  rewrite (rd_nth bessel 0 c0) by lia. cbn [bind]. eexists. split; [reflexivity|]. unfold cheby_ip. destruct (proj1 Hh (4 + n)%nat (junk (1 + n)%nat) psi) as [n1 ->]. cbn [bind]. reflexivity.
Qed.
Print Assumptions C38_underflow_code.
Example C38_ex : linear Qcf Q2 ex_h /\ implements Qcf Q2 ex_H ex_h /\ (Q2Qc 2 : Qcf) <> c0 /\ 3 <= 4 <= zlen [Q2Qc 1; Q2Qc 2; Q2Qc 3; Q2Qc 4] /\
  exists n, cheby_ip Qcf Q2 (fun _ => m0) ex_H true (c1 : Qcf) (c0 : Qcf) (Q2Qc 2 : Qcf) (c1 : Qcf) [Q2Qc 1; Q2Qc 2; Q2Qc 3; Q2Qc 4] 4 (stop_imag Qcf Q2 (fun _ _ => false)) O ((1, 0)%Qc : Q2) =
    Ok ((Q2Qc (-1 # 2), Q2Qc (-3)) : Q2, n).
Proof.
  split; [apply C37_ex|]. split; [apply C37_ex|]. split; [discriminate|]. split; [cbn; lia|]. eexists.
  match goal with |- ?l = _ => let v := eval hnf in l in change l with v end. reflexivity.
Qed.
Print Assumptions C38_series.
Print Assumptions C38_chebyshev.
