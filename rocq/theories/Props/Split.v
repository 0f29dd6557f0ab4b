(** C85: the split operator propagator over its whole life. *)
From Coq Require Import List ZArith Lia Bool Arith QArith Qcanon.
From Verif Require Import Base Arrays Algebra Complex Ordered Model.Spo Spec.Spo Proofs.Spo Model.Split Spec.Split Proofs.Split.
Import ListNotations.
Open Scope Z_scope.

(** Full claim: after Init, a wave function is propagated with the exponent and at the time step the propagator has at that moment.
    [H]: which histories and needs are considered. *)
Definition C85_claim (H : forall F : ofld, needs F -> list (op F) -> Prop) : Prop :=
  forall (F : ofld) (sq : F -> F) cexp Fw Bw ns junk (n : needs F) c t pre post s psi,
  (forall p, length (Fw p) = length p) -> (forall p, length (Bw p) = length p) ->
  valid F n -> static F n -> shaped F n psi -> ~ In (OInit F) pre -> H F n post ->
  (forall v1 g, n_V1 F n = Some v1 -> n_C F n = Some g -> regular F sq n) ->
  run F sq cexp Fw Bw ns junk n (pre ++ OInit F :: post) (fresh F c t) = Ok s ->
  exists psi' s', apply F sq cexp Fw Bw ns n s psi = Ok (psi', s') /\
    wanted F cexp Fw Bw ns n (exp_of F (exp_of F c pre) post) (clk_of F (clk_of F t pre) post) psi psi'.
(** for one time independent potential; for one potential with a fixed exponent; for two time independent potentials with a fixed exponent *)
Definition C85_direction : Prop := C85_claim (fun F n post => n_td F n = false /\ n_V1 F n = None).
Definition C85_time : Prop := C85_claim (fun F n post => n_V1 F n = None /\ forall c, ~ In (OExponent F c) post).
Definition C85_states : Prop := C85_claim (fun F n post => n_td F n = false /\ forall c, ~ In (OExponent F c) post).

(** Changing direction after Init has no effect. *)
Theorem C85_direction_refuted : ~ C85_direction.
Proof. exact direction_refuted. Qed.
Print Assumptions C85_direction_refuted.
(** At step zero the potential may be that of the step of Init. *)
Theorem C85_time_refuted : ~ C85_time.
Proof. exact time_refuted. Qed.
Print Assumptions C85_time_refuted.
(** Two states without a coupling are not propagated in their potentials. *)
Theorem C85_states_refuted : ~ C85_states.
Proof. exact states_refuted. Qed.
Print Assumptions C85_states_refuted.

(** The claim holds if the exponent is not changed after Init, two potentials come with a coupling (and with points where C84
    holds), and the potential is that of the present step. *)
Theorem C85_partial : forall (F : ofld) (sq : F -> F) cexp Fw Bw ns junk (n : needs F) c t pre post s psi,
  (forall p, length (Fw p) = length p) -> (forall p, length (Bw p) = length p) ->
  valid F n -> static F n -> regular F sq n -> shaped F n psi -> ~ In (OInit F) pre ->
  exp_of F (exp_of F c pre) post = exp_of F c pre ->
  (n_td F n = true -> moved F (clk_of F t pre) post = true \/ clk_of F (clk_of F t pre) post <> 0 \/ clk_of F t pre = 0) ->
  run F sq cexp Fw Bw ns junk n (pre ++ OInit F :: post) (fresh F c t) = Ok s ->
  exists psi' s', apply F sq cexp Fw Bw ns n s psi = Ok (psi', s') /\
    wanted F cexp Fw Bw ns n (exp_of F (exp_of F c pre) post) (clk_of F (clk_of F t pre) post) psi psi'.
Proof. intros F sq cexp Fw Bw ns junk n c t pre post s psi LF LB. exact (history_now F sq cexp Fw Bw ns junk LF LB n c t pre post s psi). Qed.
Print Assumptions C85_partial.
(** What happens in every history: the exponent is that of Init; the potential is that of the present step if the step is not zero or
    a wave function was propagated at another step before, and that of Init otherwise. *)
Theorem C85_code : forall (F : ofld) (sq : F -> F) cexp Fw Bw ns junk (n : needs F) c t pre post s psi,
  (forall p, length (Fw p) = length p) -> (forall p, length (Bw p) = length p) ->
  valid F n -> regular F sq n -> shaped F n psi -> ~ In (OInit F) pre ->
  run F sq cexp Fw Bw ns junk n (pre ++ OInit F :: post) (fresh F c t) = Ok s ->
  exists psi' s', apply F sq cexp Fw Bw ns n s psi = Ok (psi', s') /\
    wanted F cexp Fw Bw ns n (exp_of F c pre)
      (let t0 := clk_of F t pre in let t1 := clk_of F t0 post in
       if n_td F n then (if moved F t0 post || negb (t1 =? 0) then t1 else t0) else t0) psi psi'.
Proof. intros F sq cexp Fw Bw ns junk n c t pre post s psi LF LB. exact (history F sq cexp Fw Bw ns junk LF LB n c t pre post s psi). Qed.
Print Assumptions C85_code.

(** Two propagators of opposite exponents undo each other's step, with one or two states (also where C84 fails). *)
Theorem C85_reverse : forall (F : ofld) (sq : F -> F) (cexp : Cx F -> Cx F) Fw Bw (ns : F) junk (n : needs F) c t psi psi' s',
  (forall p, length (Fw p) = length p) -> (forall p, length (Bw p) = length p) ->
  (forall a b, cexp (a + b)%cr = (cexp a * cexp b)%cr) -> cexp c0 = c1 ->
  (forall k, map (fun z => (cx_of ns * z)%cr) (Fw (Bw k)) = k) -> (forall p, Bw (map (fun z => (cx_of ns * z)%cr) (Fw p)) = p) ->
  valid F n -> rooted F sq n -> shaped F n psi ->
  apply F sq cexp Fw Bw ns n (ready F cexp junk n c t) psi = Ok (psi', s') ->
  exists s'', apply F sq cexp Fw Bw ns n (ready F cexp junk n (copp c) t) psi' = Ok (psi, s'').
Proof.
  intros F sq cexp Fw Bw ns junk n c t psi psi' s' LF LB Ea E0 FB BF.
  exact (reverse F sq cexp Fw Bw ns junk LF LB Ea E0 FB BF n c t psi psi' s').
Qed.
Print Assumptions C85_reverse.

(** An Init that does not throw leaves a propagator that can be used. *)
Definition C85_ready : Prop := forall (F : ofld) (sq : F -> F) cexp Fw Bw ns junk (n : needs F) c t os s s' psi,
  run F sq cexp Fw Bw ns junk n os (fresh F c t) = Ok s -> fst (init F cexp junk n s) = Ok s' -> shaped F n psi ->
  apply F sq cexp Fw Bw ns n s' psi <> UB.
(** The first Init of an incomplete propagator throws, the second returns, and then tables that were never made are used. *)
Theorem C85_ready_refuted : ~ C85_ready.
Proof. exact ready_refuted. Qed.
Print Assumptions C85_ready_refuted.

(** The first Init refuses exactly needs that do not fit together. *)
Theorem C85_refused : forall (F : ofld) cexp junk (n : needs F) (s : spo F), s_buf F s = false ->
  (fitting F n (s_clk F s) -> exists s', fst (init F cexp junk n s) = Ok s') /\ (~ fitting F n (s_clk F s) -> fst (init F cexp junk n s) = Throw).
Proof. exact init_refused. Qed.
Print Assumptions C85_refused.
Example C85_refused_ex : fitting Qco n_two 0 /\ ~ fitting Qco (mkNeeds Qco [zq 1] (fun _ => [zq 1]) None (Some (fun _ => [zq 1])) None false) 0.
Proof.
  split.
  - split; [discriminate|]. split; [reflexivity|]. intros v [H|[H|H]]; try discriminate H; injection H as <-; reflexivity.
  - intros (H & _). apply H; [discriminate|reflexivity].
Qed.

(** UpdateTime can be called after Init. *)
Definition C85_update : Prop := forall (F : ofld) cexp junk (n : needs F) td0 tdc c t t',
  valid F n -> update_time F cexp n td0 tdc (at_clock F (ready F cexp junk n c t) t') <> UB.
Theorem C85_update_refuted : ~ C85_update.
Proof. exact update_refuted. Qed.
Print Assumptions C85_update_refuted.
(** It dereferences a missing coupling at every step but the first, unless the potential is time dependent. *)
Theorem C85_update_code : forall (F : ofld) cexp junk (n : needs F) td0 tdc c t t', valid F n ->
  update_time F cexp n td0 tdc (at_clock F (ready F cexp junk n c t) t') = UB <-> (t' <> 0 /\ td0 = false /\ n_C F n = None).
Proof. exact update_code. Qed.
Print Assumptions C85_update_code.

(** Examples: needs that meet the hypotheses; a propagator turned around after Init still goes forward. *)
Notation qrun := (run Qco sqQ qexp qid qid (zq 1) [zq 0]).
Notation qapply := (apply Qco sqQ qexp qid qid (zq 1)).
Example C85_example : valid Qco n_single /\ static Qco n_single /\ regular Qco sqQ n_single /\ shaped Qco n_single one_psi /\
  (exists s, qrun n_single [OInit Qco; OExponent Qco (copp (qz 1))] (fresh Qco (qz 1) 0) = Ok s /\ out_head (qapply n_single s one_psi) = (9 # 4)%Q) /\
  (exists s, qrun n_single [OExponent Qco (copp (qz 1)); OInit Qco] (fresh Qco (qz 1) 0) = Ok s /\ out_head (qapply n_single s one_psi) = (1 # 4)%Q).
Proof. exact example_single. Qed.
Example C85_example_two : valid Qco n_two /\ static Qco n_two /\ regular Qco sqQ n_two /\ rooted Qco sqQ n_two /\ shaped Qco n_two [[qz 3]; [qz 4]] /\
  exists s, qrun n_two [OInit Qco] (fresh Qco (qz 1) 0) = Ok s /\ out_head (qapply n_two s [[qz 3]; [qz 4]]) = (51 # 1)%Q.
Proof. exact example_two. Qed.
