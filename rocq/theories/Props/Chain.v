(** Properties C41, C63: wave function definitions. *)
From Coq Require Import List ZArith Lia Bool QArith Qcanon.
From Verif Require Import Base Arrays Algebra Spec.Operators Model.Chain Spec.Chain Proofs.Chain Props.Stepper.
Import ListNotations.
Open Scope Z_scope.

(** * C41 *)
Definition C41_full : Prop := forall (R : cring) (M : cmodule R) norm phase root is0 d, (forall c : R, is0 c = true <-> c = c0) ->
  inhabited R M d = true -> load R M norm phase root is0 d = Ok (Some (meant R M norm phase root d)).
(** A single definition without a zero coefficient is loaded as meant. *)
Theorem C41_single : forall (R : cring) (M : cmodule R) norm phase root is0 a x, (forall c : R, is0 c = true <-> c = c0) -> nonzero R root a ->
  load R M norm phase root is0 (Single R M a x) = Ok (Some (meant R M norm phase root (Single R M a x))).
Proof. intros R M norm phase root is0 a x Z N. apply finish_ok; assumption. Qed.
Print Assumptions C41_single.
(** With a zero coefficient it is loaded as if there were none. *)
Theorem C41_zero_code : forall (R : cring) (M : cmodule R) norm phase root is0 n p x, (forall c : R, is0 c = true <-> c = c0) ->
  load R M norm phase root is0 (Single R M (mkAttrs R n p (Some c0) None) x) = load R M norm phase root is0 (Single R M (mkAttrs R n p None None) x).
Proof. intros. reflexivity. Qed.
Print Assumptions C41_zero_code.
(** A linear combination is loaded as twice the sum of its members, before normalisation, phase and coefficient. *)
Theorem C41_code : forall (R : cring) (M : cmodule R) norm phase root is0 a l ws, l <> [] -> Forall2 (fun d w => load R M norm phase root is0 d = Ok (Some w)) l ws ->
  load R M norm phase root is0 (LC R M a l) = finish R M norm phase root is0 a (Some (mscale (cadd c1 c1) (msum R M ws))).
Proof. intros R M norm phase root is0 a l ws N F. apply lc_code; assumption. Qed.
Print Assumptions C41_code.
(** Definitions in which all linear combinations are normalised (and a factor of two does not change the normalised wave
    function) and no coefficient is zero are loaded as meant, however deep they are. *)
Theorem C41_partial : forall (R : cring) (M : cmodule R) norm phase root is0 d, (forall c : R, is0 c = true <-> c = c0) -> (forall x : M, norm (mscale (cadd c1 c1) x) = norm x) ->
  inhabited R M d = true -> all_attrs R M (nonzero R root) (fun a => a_norm R a = true) d ->
  load R M norm phase root is0 d = Ok (Some (meant R M norm phase root d)).
Proof. intros. apply loads; assumption. Qed.
(** An empty linear combination gives no wave function, and undefined behaviour as part of another one. *)
Theorem C41_empty_code : forall (R : cring) (M : cmodule R) norm phase root is0 a, (forall c : R, is0 c = true <-> c = c0) ->
  load R M norm phase root is0 (LC R M (mkAttrs R false None None None) []) = Ok None /\
  load R M norm phase root is0 (LC R M a [LC R M (mkAttrs R false None None None) []]) = UB.
Proof. intros R M norm phase root is0 a Z. cbn. unfold finish, coeff_of. cbn. rewrite (proj2 (Z c0) eq_refl). split; reflexivity. Qed.
Print Assumptions C41_empty_code.

Definition no_attr : attrs Qcf := mkAttrs Qcf false None None None.
Definition q0 (c : Qc) : bool := if Qc_eq_dec c (Q2Qc 0) then true else false.
Lemma q0_ok : forall c : Qcf, q0 c = true <-> c = c0.
Proof. intros c. unfold q0. destruct (Qc_eq_dec c (Q2Qc 0)); split; try discriminate; auto. Qed.
(** 3 (1, 0) + (0, 1) *)
Definition ex_lc : wfdef Qcf Q2 := LC Qcf Q2 no_attr [Single Qcf Q2 (mkAttrs Qcf false None (Some (Q2Qc 3)) None) (1, 0)%Qc; Single Qcf Q2 no_attr (0, 1)%Qc].
Example C41_ex : inhabited Qcf Q2 ex_lc = true /\ meant Qcf Q2 (fun x => x) (fun x => x) (fun x => x) ex_lc = (Q2Qc 3, Q2Qc 1) /\
  load Qcf Q2 (fun x => x) (fun x => x) (fun x => x) q0 ex_lc = Ok (Some (Q2Qc 6, Q2Qc 2)).
Proof.
  split; [reflexivity|]. assert (E : meant Qcf Q2 (fun x => x) (fun x => x) (fun x => x) ex_lc = (Q2Qc 3, Q2Qc 1)) by (cbn; unfold dressed, factor; cbn; apply (f_equal2 pair); apply Qc_is_canon; vm_compute; reflexivity).
  split; [exact E|]. unfold ex_lc. rewrite (C41_code Qcf Q2 _ _ _ q0 no_attr _ [(Q2Qc 3, 0)%Qc; (0, 1)%Qc]).
  - unfold finish, coeff_of. cbn [no_attr a_norm a_phase a_coeff a_coeff2]. rewrite (proj2 (q0_ok c0) eq_refl). apply (f_equal (fun z : Q2 => Ok (Some z))). cbn. apply (f_equal2 pair); apply Qc_is_canon; vm_compute; reflexivity.
  - discriminate.
  - constructor; [|constructor; [|constructor]].
    + unfold load, finish, coeff_of. cbn [a_norm a_phase a_coeff]. destruct (q0 (Q2Qc 3)) eqn:Q; [apply q0_ok in Q; discriminate|]. apply (f_equal (fun z : Q2 => Ok (Some z))). cbn. apply (f_equal2 pair); apply Qc_is_canon; vm_compute; reflexivity.
    + unfold load, finish, coeff_of. cbn [no_attr a_norm a_phase a_coeff a_coeff2]. rewrite (proj2 (q0_ok c0) eq_refl). reflexivity.
Qed.
(** a norm that a factor of two does not change: the direction of the first component that is not zero *)
Example C41_norm_ex : exists norm : Q2 -> Q2, norm (1, 0)%Qc <> norm (0, 1)%Qc /\ (forall x : Q2, norm (mscale (cadd c1 c1) x) = norm x) /\
  all_attrs Qcf Q2 (nonzero Qcf (fun x => x)) (fun a => a_norm Qcf a = true) (LC Qcf Q2 (mkAttrs Qcf true None None None) [Single Qcf Q2 (mkAttrs Qcf false None (Some (Q2Qc 3)) None) (1, 0)%Qc]).
Proof.
  exists (fun x : Q2 => if Qc_eq_dec (fst x) 0 then (0, 1)%Qc else (1, snd x / fst x)%Qc). split; [|split].
  - cbn. discriminate.
  - intros [a b]. cbn [fst snd Q2 mscale Qcf f_ring Qcr cadd c1]. destruct (Qc_eq_dec a 0) as [->|Na].
    + destruct (Qc_eq_dec ((1 + 1) * 0) 0) as [_|N]; [reflexivity|]. exfalso. apply N. ring.
    + destruct (Qc_eq_dec ((1 + 1) * a) 0) as [E|_].
      * exfalso. apply Na. assert (H : ((1 + 1) * a = 0)%Qc -> a = 0%Qc); [|apply H; exact E]. intros H. apply Qcmult_integral in H. destruct H as [H|H]; [discriminate|exact H].
      * apply (f_equal2 pair); [reflexivity|]. field. split; [exact Na|discriminate].
  - cbn. split; [left; split; reflexivity|]. split; [reflexivity|]. split; [|exact I]. right. cbn. discriminate.
Qed.
Theorem C41_refuted : ~ C41_full.
Proof.
  intros Full. destruct C41_ex as (I & Me & L). rewrite (Full Qcf Q2 (fun x => x) (fun x => x) (fun x => x) q0 ex_lc q0_ok I), Me in L. discriminate L.
Qed.
Print Assumptions C41_refuted.
Print Assumptions C41_partial.

(** * C63 *)
Definition C63_full : Prop := forall (R : cring) (M : cmodule R) psi smap coeffs, map_multi R M psi smap coeffs <> UB.
(** A map of at least two different places: state i goes to place s_i with the coefficient c_i (0 if there are too few), all
    other places stay empty. *)
Theorem C63_multi : forall (R : cring) (M : cmodule R) psi s cs, 1 < zlen s <= zlen psi -> (forall t, In t s -> 0 <= t < zlen psi) -> NoDup s ->
  exists slots, map_multi R M psi (Some s) (Some cs) = Ok (Multi R M slots) /\
    (forall i t x, rd s i = Ok t -> rd psi i = Ok x -> slot_at slots (Z.to_nat t) = Some (mscale (nth (Z.to_nat i) cs c0) x)) /\
    (forall k, ~ In (Z.of_nat k) s -> slot_at slots k = None).
Proof. intros. apply multi_ok; assumption. Qed.
(** A map of one place: the state named there (not state 0) with the first coefficient. *)
Theorem C63_one : forall (R : cring) (M : cmodule R) psi t c cs x, rd psi t = Ok x -> map_multi R M psi (Some [t]) (Some (c :: cs)) = Ok (One R M (mscale c x)).
Proof.
  intros R M psi t c cs x E. pose proof (rd_bounds _ _ _ E) as B. unfold map_multi. change (zlen [t]) with 1. destruct (Z.ltb_spec (zlen psi) 1); [lia|]. cbn [Z.ltb Z.compare Pos.compare Pos.compare_cont]. cbn [rd nth_error Z.to_nat Z.leb Z.compare bind].
  destruct (Z.leb_spec (zlen psi) t); [lia|]. destruct (Z.ltb_spec t 0); [lia|]. cbn [orb]. rewrite E. reflexivity.
Qed.
Print Assumptions C63_one.
(** Too many places or a place out of range are refused. *)
Theorem C63_refuse : forall (R : cring) (M : cmodule R) psi s cs, zlen psi < zlen s -> map_multi R M psi (Some s) cs = Throw.
Proof. intros R M psi s cs H. unfold map_multi. destruct (Z.ltb_spec (zlen psi) (zlen s)); [reflexivity|lia]. Qed.
Print Assumptions C63_refuse.
(** Without a state map: undefined behaviour for every input. *)
Theorem C63_code : forall (R : cring) (M : cmodule R) psi cs, map_multi R M psi None cs = UB.
Proof. intros R M psi cs. unfold map_multi. change (zlen (@nil Z)) with 0. destruct (Z.ltb_spec (zlen psi) 0); [unfold zlen in *; lia|]. reflexivity. Qed.
Print Assumptions C63_code.
Theorem C63_refuted : ~ C63_full.
Proof. intros Full. apply (Full Qcf Q2 [] None None). apply C63_code. Qed.
Print Assumptions C63_refuted.
Example C63_ex : let psi := [(1, 0)%Qc; (0, 1)%Qc; (1, 1)%Qc] : list Q2 in exists slots, map_multi Qcf Q2 psi (Some [2; 0]) (Some [Q2Qc 1; Q2Qc 1]) = Ok (Multi Qcf Q2 slots) /\
  slot_at slots 2 = Some (1, 0)%Qc /\ slot_at slots 0 = Some (0, 1)%Qc /\ slot_at slots 1 = None.
Proof.
  cbn zeta. destruct (C63_multi Qcf Q2 [(1, 0)%Qc; (0, 1)%Qc; (1, 1)%Qc] [2; 0] [Q2Qc 1; Q2Qc 1]) as (slots & E & P & N).
  - unfold zlen. cbn. lia.
  - intros t [<-|[<-|[]]]; unfold zlen; cbn; lia.
  - constructor; [intros [H|[]]; discriminate|]. constructor; [intros []|constructor].
  - exists slots. split; [exact E|]. split; [|split].
    + change 2%nat with (Z.to_nat 2). rewrite (P 0 2 (1, 0)%Qc eq_refl eq_refl). apply (f_equal Some). apply (mscale_1 Qcf Q2).
    + change 0%nat with (Z.to_nat 0). rewrite (P 1 0 (0, 1)%Qc eq_refl eq_refl). apply (f_equal Some). apply (mscale_1 Qcf Q2).
    + apply (N 1%nat). intros [H|[H|[]]]; discriminate.
Qed.
Print Assumptions C63_multi.
