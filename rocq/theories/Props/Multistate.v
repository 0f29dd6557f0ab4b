(** Properties C28 and C29: multi state wave functions. *)
From Coq Require Import List NArith ZArith Lia Bool.
From Verif Require Import Base Arrays Algebra Complex Model.Multistate Spec.Multistate Proofs.Multistate.
Import ListNotations.
Open Scope Z_scope.

(** Adding under a non negative index never leaves the table: the state is refused when its index is 63 or more, otherwise
    it is stored and nothing else changes (a state that is itself multi state is stored and the exception is then raised). *)
Theorem C28_add : forall R m psi index, built R m -> 0 <= index ->
  (max_states <= index + 1 /\ ms_add R m psi index = Ok (false, m)) \/
  (index + 1 < max_states /\ exists m', ms_add R m psi index = Ok (negb (1 <? w_strides R psi), m') /\ built R m' /\
     m_n R m' = Z.max (m_n R m) (index + 1) /\
     forall i, rd (m_tab R m') i = if i =? index then Ok (Some psi) else rd (m_tab R m) i).
Proof.
  intros R m psi index B Hi. destruct (add_cases R m psi index (built_inv R m B) Hi) as [A|(L & m' & E & I & N & P)]; [left; exact A|right].
  split; [exact L|]. exists m'. split; [exact E|]. split; [exact (b_add R m psi index _ m' B Hi E)|]. split; [exact N|exact P].
Qed.
Print Assumptions C28_add.

(** The full property for Init. *)
Definition C28_init_full : Prop := forall R m req, built R m -> ms_init R m req <> UB.

(** With at most 64 requested states Init never leaves the table.  It throws when there is no state or when two given
    states differ in size.  Otherwise the wave function has max(given, requested) states of one size, the given ones
    unchanged and all others zero. *)
Theorem C28_init_partial : forall R m req, built R m -> req <= max_states ->
  (ms_init R m req = Throw /\
    ((forall i, 0 <= i < m_n R m -> rd (m_tab R m) i = Ok None) \/
     exists i j v w, rd (m_tab R m) i = Ok (Some v) /\ rd (m_tab R m) j = Ok (Some w) /\ zlen (w_data R v) <> zlen (w_data R w))) \/
  (exists m' l s, ms_init R m req = Ok m' /\ consists R m' l /\ zlen l = Z.max (m_n R m) req /\
    (forall i w, rd l i = Ok w -> zlen (w_data R w) = s) /\
    (forall i w, rd (m_tab R m) i = Ok (Some w) -> rd l i = Ok w) /\
    (forall i w, rd (m_tab R m) i = Ok None -> rd l i = Ok w -> Forall (eq c0) (w_data R w))).
Proof. exact (fun R m req B => init_ok R m req (built_inv R m B)). Qed.
Print Assumptions C28_init_partial.

(** What the code does beyond: a request for more than 64 states writes outside the table, whenever there is a state. *)
Theorem C28_init_code : forall R m req j v, built R m -> max_states < req -> rd (m_tab R m) j = Ok (Some v) -> ms_init R m req = UB.
Proof. exact (fun R m req j v B => init_oob R m req j v (built_inv R m B)). Qed.
Print Assumptions C28_init_code.

Definition ex_wf (l : list Z) : wf Zr := mkWf Zr 1 l.
Definition ex_tab : ms Zr := mkMs Zr 3 (None :: Some (ex_wf [4; 5]) :: Some (ex_wf [6; 7]) :: repeat None 61).
Lemma ex_built : built Zr ex_tab.
Proof.
  apply (b_add Zr (mkMs Zr 2 (None :: Some (ex_wf [4; 5]) :: repeat None 62)) (ex_wf [6; 7]) 2 true); [|lia|vm_compute; reflexivity].
  apply (b_add Zr (ms_new Zr) (ex_wf [4; 5]) 1 true); [apply b_new|lia|vm_compute; reflexivity].
Qed.
(** the states file asks for 65 states *)
Theorem C28_init_refuted : ~ C28_init_full.
Proof. intros H. apply (H Zr ex_tab 65 ex_built). vm_compute. reflexivity. Qed.
Print Assumptions C28_init_refuted.
(** Add has no lower bound on the index. *)
Theorem C28_add_negative_code : forall R m psi index, index < 0 -> ms_add R m psi index = UB.
Proof. exact add_negative. Qed.
Print Assumptions C28_add_negative_code.

(** states given at positions 1 and 2, four requested *)
Example C28_example : built Zr ex_tab /\ 4 <= max_states /\
  (exists m', ms_init Zr ex_tab 4 = Ok m' /\ consists Zr m' [ex_wf [0; 0]; ex_wf [4; 5]; ex_wf [6; 7]; ex_wf [0; 0]]) /\
  ms_init Zr (ms_new Zr) 4 = Throw /\ ms_add Zr ex_tab (ex_wf []) 63 = Ok (false, ex_tab).
Proof.
  split; [exact ex_built|]. split; [unfold max_states; lia|]. split; [|split; vm_compute; reflexivity].
  eexists. split; [vm_compute; reflexivity|]. split; [reflexivity|]. split; [reflexivity|]. intros i w E. pose proof (rd_bounds _ _ _ E) as B.
  change (0 <= i < 4) in B. assert (C : i = 0 \/ i = 1 \/ i = 2 \/ i = 3) by lia.
  destruct C as [->|[->|[->| ->]]]; vm_compute in E |- *; injection E as <-; reflexivity.
Qed.

(** The product of two wave functions with the same number of states is the sum over the states, also when the sum is
    distributed over any number of MPI ranks. *)
Theorem C29_product : forall R C sp a b la lb size, consists R a la -> consists R b lb -> length la = length lb -> 0 < size ->
  ms_prod R C sp a b = Ok (inner R C sp la lb) /\ ms_prod_mpi R C sp size a b = Ok (inner R C sp la lb).
Proof. intros R C sp a b la lb size CA CB L Hs. split; [exact (prod_inner R C sp a b la lb CA CB L)|exact (prod_mpi_inner R C sp size a b la lb Hs CA CB L)]. Qed.
Print Assumptions C29_product.
Theorem C29_norm : forall R C sp a la, consists R a la -> ms_norm2 R C sp a = Ok (lsum (fun w => sp w w) la).
Proof. exact norm_inner. Qed.
Print Assumptions C29_norm.
(** Linear in the right argument when the states' product is: x * (a + k b) = x*a + k x*b, state by state. *)
Theorem C29_linear_right : forall R C sp axpy k, (forall x a b, sp x (axpy a b) = cadd (sp x a) (cmul k (sp x b))) ->
  forall lx la lb mx ma mb mc, length lx = length la -> length la = length lb ->
  consists R mx lx -> consists R ma la -> consists R mb lb -> consists R mc (map (fun p => axpy (fst p) (snd p)) (combine la lb)) ->
  exists pa pb, ms_prod R C sp mx ma = Ok pa /\ ms_prod R C sp mx mb = Ok pb /\ ms_prod R C sp mx mc = Ok (cadd pa (cmul k pb)).
Proof.
  intros R C sp axpy k H lx la lb mx ma mb mc L1 L2 CX CA CB CC. exists (inner R C sp lx la), (inner R C sp lx lb).
  split; [exact (prod_inner R C sp mx ma lx la CX CA L1)|]. split; [exact (prod_inner R C sp mx mb lx lb CX CB (eq_trans L1 L2))|].
  rewrite <- (inner_right R C sp axpy k H lx la lb L1 L2). apply prod_inner; [exact CX|exact CC|]. rewrite map_length, combine_length. lia.
Qed.
Print Assumptions C29_linear_right.
(** Conjugate linear in the left argument when the states' product is ([k] stands for the conjugate of the factor). *)
Theorem C29_linear_left : forall R C sp axpy k, (forall x a b, sp (axpy a b) x = cadd (sp a x) (cmul k (sp b x))) ->
  forall lx la lb mx ma mb mc, length lx = length la -> length la = length lb ->
  consists R mx lx -> consists R ma la -> consists R mb lb -> consists R mc (map (fun p => axpy (fst p) (snd p)) (combine la lb)) ->
  exists pa pb, ms_prod R C sp ma mx = Ok pa /\ ms_prod R C sp mb mx = Ok pb /\ ms_prod R C sp mc mx = Ok (cadd pa (cmul k pb)).
Proof.
  intros R C sp axpy k H lx la lb mx ma mb mc L1 L2 CX CA CB CC. exists (inner R C sp la lx), (inner R C sp lb lx).
  split; [apply (prod_inner R C sp ma mx la lx CA CX); lia|]. split; [apply (prod_inner R C sp mb mx lb lx CB CX); lia|].
  rewrite <- (inner_left R C sp axpy k H lx la lb L1 L2). apply prod_inner; [exact CC|exact CX|]. rewrite map_length, combine_length. lia.
Qed.
Print Assumptions C29_linear_left.
(** Assignment copies all states, and throws when the numbers of states differ. *)
Theorem C29_assign : forall R a b la lb, consists R a la -> consists R b lb ->
  (length la = length lb -> exists m, ms_assign R a b = Ok m /\ consists R m lb) /\
  (length la <> length lb -> ms_assign R a b = Throw).
Proof. exact assign_ok. Qed.
Print Assumptions C29_assign.
(** Outside the property: the product does not compare the numbers of states; with fewer states on the right it
    dereferences a null pointer. *)
Theorem C29_missing_code : forall R C sp a b la lb, rd (m_tab R b) (zlen lb) = Ok None -> consists R a la -> consists R b lb -> (length lb < length la)%nat -> ms_prod R C sp a b = UB.
Proof. exact (fun R C sp a b la lb B CA => prod_missing R C sp a b la lb CA B). Qed.
Print Assumptions C29_missing_code.

(** the product of vectors of integers *)
Definition ex_sp (a b : wf Zr) : Zr := lsum (R := Zr) (fun p => fst p * snd p) (combine (w_data Zr a) (w_data Zr b)).
Definition ex_two (u v : list Z) : ms Zr := mkMs Zr 2 (Some (ex_wf u) :: Some (ex_wf v) :: repeat None 62).
Lemma ex_consists u v : consists Zr (ex_two u v) [ex_wf u; ex_wf v].
Proof.
  split; [reflexivity|]. split; [reflexivity|]. intros i w E. pose proof (rd_bounds _ _ _ E) as B. change (0 <= i < 2) in B.
  assert (C : i = 0 \/ i = 1) by lia. destruct C as [->| ->]; cbn in E |- *; injection E as <-; reflexivity.
Qed.
Example C29_example : consists Zr (ex_two [1; 2] [3; 4]) [ex_wf [1; 2]; ex_wf [3; 4]] /\ consists Zr (ex_two [5; 6] [7; 8]) [ex_wf [5; 6]; ex_wf [7; 8]] /\
  ms_prod Zr Zr ex_sp (ex_two [1; 2] [3; 4]) (ex_two [5; 6] [7; 8]) = Ok 70 /\
  ms_prod_mpi Zr Zr ex_sp 3 (ex_two [1; 2] [3; 4]) (ex_two [5; 6] [7; 8]) = Ok 70 /\ ms_norm2 Zr Zr ex_sp (ex_two [1; 2] [3; 4]) = Ok 30 /\ ms_prod Zr Zr ex_sp ex_tab (ex_two [] []) = UB.
Proof. split; [apply ex_consists|]. split; [apply ex_consists|]. repeat split; vm_compute; reflexivity. Qed.
(** a linear combination of vectors of one length *)
Definition ex_axpy (k : Z) (a b : wf Zr) : wf Zr := mkWf Zr 1 (map (fun p => fst p + k * snd p) (combine (w_data Zr a) (w_data Zr b))).
Example C29_linear_example : let sp := fun a b => nth 0 (w_data Zr a) 0 * nth 0 (w_data Zr b) 0 in
  let axpy := fun a b => ex_wf [nth 0 (w_data Zr a) 0 + 3 * nth 0 (w_data Zr b) 0] in
  (forall x a b, sp x (axpy a b) = cadd (c := Zr) (sp x a) (cmul (c := Zr) 3 (sp x b))) /\
  ms_prod Zr Zr sp (ex_two [2] [5]) (ex_two [4 + 3 * 1] [6 + 3 * 10]) = Ok (2 * 4 + 5 * 6 + 3 * (2 * 1 + 5 * 10)).
Proof. split; [intros x a b; cbv [cadd cmul Zr ex_wf w_data]; cbn [nth]; ring|vm_compute; reflexivity]. Qed.
