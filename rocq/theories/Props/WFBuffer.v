(** Properties C22 and C23: the disk backed buffer of wave functions. *)
From Coq Require Import List ZArith Lia Bool.
From Verif Require Import Base Arrays Model.WFBuffer Spec.WFBuffer Proofs.WFBuffer.
Import ListNotations.
Open Scope Z_scope.

(** * C22: the buffer is an array *)

(** The full property: a successful read returns what was stored last ... *)
Definition C22_data_full : Prop := forall V sz reload fresh max b a i v p b', (forall u, reload u = u) -> hist V sz reload fresh max b a -> 0 <= i ->
  a i = Some v -> b_get V sz reload fresh b i = Ok (true, p, b') -> p = Some v.
(** ... and after a successful call the memory held is within the limit ([real]: what a wave function occupies, [sz]: what
    size_bytes() says, [strides]: the number of its states). *)
Definition C22_memory_full : Prop := forall V sz strides reload fresh max b a o b', 0 < sz -> 0 < max -> 1 <= strides -> hist V sz reload fresh max b a -> legal V o ->
  step V sz reload fresh b o = Ok (true, b') -> held V (strides * sz) b' <= max.

(** Whatever was stored, read, locked, resized, swapped to disk in between, and whatever calls failed with an exception: a
    successful read never returns other data than what was stored last (missing: it can return a null pointer, see below). *)
Theorem C22_data_partial : forall V sz reload fresh max b a i v p b', (forall u, reload u = u) -> hist V sz reload fresh max b a -> 0 <= i ->
  a i = Some v -> b_get V sz reload fresh b i = Ok (true, p, b') -> p = Some v \/ p = None.
Proof. exact (fun V sz reload fresh max b a i v p b' HR H Hi A => get_data V sz reload fresh max b a i v p b' H HR Hi A). Qed.
Print Assumptions C22_data_partial.

(** The null pointer only occurs when the entry read is itself the oldest one of a full window of auto-locked entries. *)
Theorem C22_nonnull_partial : forall V sz reload fresh max b a i v p b', (forall u, reload u = u) -> hist V sz reload fresh max b a -> 0 <= i ->
  ~ oldest V b i -> a i = Some v -> b_get V sz reload fresh b i = Ok (true, p, b') -> p = Some v.
Proof.
  intros V sz reload fresh max b a i v p b' HR H Hi N A G. destruct (get_data V sz reload fresh max b a i v p b' H HR Hi A G) as [E|E]; [exact E|].
  destruct (get_live V sz reload fresh max b a i p b' H Hi N G E).
Qed.
Print Assumptions C22_nonnull_partial.

(** Reading is well defined as long as the first entry is in memory. *)
Theorem C22_defined_partial : forall V sz reload fresh max b a i, hist V sz reload fresh max b a -> 0 <= i -> resident V b 0 -> b_get V sz reload fresh b i <> UB.
Proof. exact get_defined. Qed.
Print Assumptions C22_defined_partial.

(** As long as no call failed, the memory (as counted by size_bytes()) stays within the limit. *)
Theorem C22_memory_partial : forall V sz reload fresh max b, 0 < sz -> 0 < max -> calm V sz reload fresh max b -> held V sz b <= max.
Proof. exact calm_held. Qed.
Print Assumptions C22_memory_partial.

(** The buffer of a session with limit 2 (each wave function has size 1). *)
Definition sess (max : Z) (l : list (op Z)) : outcome (buf Z) := play Z 1 (fun v => v) 0 (b_new Z max) l.

Example C22_data_ex : exists b, sess 2 [OInit Z; OSet Z 1 7; OSet Z 2 8; OGet Z 0; OGet Z 2; OSet Z 1 9; OGet Z 0] = Ok b /\
  exists b', b_get Z 1 (fun v => v) 0 b 1 = Ok (true, Some 9, b').
Proof. eexists. split; [vm_compute; reflexivity|]. eexists. vm_compute. reflexivity. Qed.
(** entry 1 went to disk and comes back *)
Example C22_disk_ex : exists b, sess 2 [OInit Z; OSet Z 1 7; OSet Z 2 8] = Ok b /\
  hist Z 1 (fun v => v) 0 2 b (fold_left (astep Z) [OInit Z; OSet Z 1 7; OSet Z 2 8] (fun _ => None)) /\ ~ resident Z b 2 /\ ~ oldest Z b 2 /\
  exists b', b_get Z 1 (fun v => v) 0 b 2 = Ok (true, Some 8, b') /\ ~ resident Z b' 1.
Proof.
  eexists. split; [vm_compute; reflexivity|]. split.
  - apply (play_hist Z 1 (fun v => v) 0 2 [OInit Z; OSet Z 1 7; OSet Z 2 8] (b_new Z 2) (fun _ => None)); [apply h_new|repeat (apply Forall_cons; [cbn; first [exact I|lia]|]); apply Forall_nil|]. vm_compute. reflexivity.
  - split; [intros (e & v & E & P); vm_compute in E; injection E as <-; discriminate P|]. split; [intros (_ & N & _); apply N; reflexivity|].
    eexists. split; [vm_compute; reflexivity|]. intros (e & v & E & P). vm_compute in E. injection E as <-. discriminate P.
Qed.
Example C22_memory_ex : exists b, calm Z 1 (fun v => v) 0 2 b /\ held Z 1 b = 2 /\ zlen (b_ent Z b) = 4.
Proof.
  eexists. split; [eapply (play_calm Z 1 (fun v => v) 0 2 [OInit Z; OSet Z 1 7; OSet Z 2 8; OSet Z 3 9; OGet Z 2]); [apply c_new|repeat (apply Forall_cons; [cbn; first [exact I|lia]|]); apply Forall_nil|]; vm_compute; reflexivity|].
  split; vm_compute; reflexivity.
Qed.

(** A second access to the oldest entry in the window takes its lock away, it may be moved to disk by the very call that
    loaded it, and the caller gets a null pointer. *)
Theorem C22_data_refuted : ~ C22_data_full.
Proof.
  intros H. assert (E : exists b b', sess 2 [OInit Z; OSet Z 1 7; OGet Z 1; OGet Z 1; OGet Z 1; OSet Z 1 8] = Ok b /\
    b_get Z 1 (fun v => v) 0 b 1 = Ok (true, None, b')) by (eexists; eexists; split; vm_compute; reflexivity).
  destruct E as (b & b' & E1 & E2).
  assert (K : None = Some 8); [|discriminate K].
  apply (H Z 1 (fun v => v) 0 2 b (fold_left (astep Z) [OInit Z; OSet Z 1 7; OGet Z 1; OGet Z 1; OGet Z 1; OSet Z 1 8] (fun _ => None)) 1 8 None b'); [reflexivity| |lia|reflexivity|exact E2].
  apply (play_hist Z 1 (fun v => v) 0 2 _ (b_new Z 2) (fun _ => None)); [apply h_new|repeat (apply Forall_cons; [cbn; first [exact I|lia]|]); apply Forall_nil|exact E1].
Qed.
Print Assumptions C22_data_refuted.

(** After an exception the limit is exceeded without any further exception: the entry that did not fit is kept. *)
Theorem C22_memory_refuted : ~ C22_memory_full.
Proof.
  intros H. assert (E : exists b b', sess 1 [OInit Z; OSet Z 1 7; OGet Z 1] = Ok b /\ step Z 1 (fun v => v) 0 b (OGet Z 1) = Ok (true, b') /\ held Z 1 b' = 2) by (eexists; eexists; split; [|split]; vm_compute; reflexivity).
  destruct E as (b & b' & E1 & E2 & E3).
  specialize (H Z 1 1 (fun v => v) 0 1 b (fold_left (astep Z) [OInit Z; OSet Z 1 7; OGet Z 1] (fun _ => None)) (OGet Z 1) b'). change (1 * 1) with 1 in H. rewrite E3 in H.
  assert (2 <= 1); [|lia]. apply H; try lia; [|cbn; lia|exact E2]. apply (play_hist Z 1 (fun v => v) 0 1 _ (b_new Z 1) (fun _ => None)); [apply h_new|repeat (apply Forall_cons; [cbn; first [exact I|lia]|]); apply Forall_nil|exact E1].
Qed.
Print Assumptions C22_memory_refuted.

(** Without any exception the limit is exceeded by multi state wave functions: WaveFunction::size_bytes() counts one state. *)
Theorem C22_memory_multistate_refuted : ~ (forall V sz strides reload fresh max b, 0 < sz -> 0 < max -> 1 <= strides -> calm V sz reload fresh max b -> held V (strides * sz) b <= max).
Proof.
  intros H. assert (2 <= 1); [|lia].
  assert (E : exists b, playc Z 1 (fun v => v) 0 (b_new Z 1) [OInit Z] = Ok b /\ held Z 2 b = 2) by (eexists; split; vm_compute; reflexivity). destruct E as (b & E1 & E2).
  rewrite <- E2 at 1. apply (H Z 1 2 (fun v => v) 0 1 b); try lia. apply (play_calm Z 1 (fun v => v) 0 1 [OInit Z] (b_new Z 1)); [apply c_new|repeat constructor|exact E1].
Qed.
Print Assumptions C22_memory_multistate_refuted.

(** A buffer that was never initialised: once all entries went to disk there is no instance to load into. *)
Theorem C22_uninitialised_refuted : ~ (forall V sz reload fresh max b a i, hist V sz reload fresh max b a -> 0 <= i -> b_get V sz reload fresh b i <> UB).
Proof.
  intros H. assert (E : exists b, sess 1 [OSet Z 5 7] = Ok b /\ b_get Z 1 (fun v => v) 0 b 5 = UB) by (eexists; split; vm_compute; reflexivity). destruct E as (b & E1 & E2).
  apply (H Z 1 (fun v => v) 0 1 b (fold_left (astep Z) [OSet Z 5 7] (fun _ => None)) 5); [|lia|exact E2].
  apply (play_hist Z 1 (fun v => v) 0 1 _ (b_new Z 1) (fun _ => None)); [apply h_new|repeat (apply Forall_cons; [cbn; first [exact I|lia]|]); apply Forall_nil|exact E1].
Qed.
Print Assumptions C22_uninitialised_refuted.

(** Shrinking a buffer to nothing runs over the beginning of the table. *)
Theorem C22_resize_zero_code : forall V b, b_ent V b <> [] -> b_resize V b 0 = UB.
Proof. exact resize_zero. Qed.
Print Assumptions C22_resize_zero_code.
Example C22_resize_zero_ex : exists b, sess 2 [OInit Z] = Ok b /\ b_ent Z b <> [].
Proof. eexists. split; [vm_compute; reflexivity|discriminate]. Qed.

(** * C23: pointers stay valid *)

(** The full property: the pointer is valid, and while fewer reads of other entries than the auto-lock depth are made it
    stays valid. *)
Definition C23_full : Prop := forall V sz reload fresh max b a i r b1 k b2, hist V sz reload fresh max b a -> 0 <= i -> 0 < b_depth V b ->
  b_get V sz reload fresh b i = Ok (true, r, b1) -> run V sz reload fresh k b1 b2 -> Z.of_nat k < b_depth V b -> r <> None /\ resident V b2 i.

(** It holds when every entry of the window is there only once, locked and in memory, and the entry read is not yet among
    them (missing: entries read again while still in the window). *)
Theorem C23_partial : forall V sz reload fresh max b a i r b1 k b2, hist V sz reload fresh max b a -> 0 <= i -> 0 < b_depth V b -> window_ok V b -> ~ In i (b_last V b) ->
  b_get V sz reload fresh b i = Ok (true, r, b1) -> run V sz reload fresh k b1 b2 -> Z.of_nat k < b_depth V b -> r <> None /\ resident V b2 i.
Proof. exact get_stays. Qed.
Print Assumptions C23_partial.
(** The state of the window that this needs is kept by such reads and by stores. *)
Theorem C23_window_partial : forall V sz reload fresh max b a i r b1 k b2, hist V sz reload fresh max b a -> 0 <= i -> 0 < b_depth V b -> window_ok V b -> ~ In i (b_last V b) ->
  b_get V sz reload fresh b i = Ok (true, r, b1) -> run V sz reload fresh k b1 b2 -> window_ok V b2.
Proof.
  intros V sz reload fresh max b a i r b1 k b2 H Hi D W NI G R. destruct (hist_good V sz reload fresh max b a H) as (B & F & _).
  destruct (get_window V sz reload fresh b i r b1 Hi B F D W NI G) as (_ & W1 & D1 & B1 & F1 & _). apply (run_window V sz reload fresh k b1 b2 R B1 F1); [lia|exact W1].
Qed.
Print Assumptions C23_window_partial.

Example C23_ex : exists b b1 b2 r, sess 3 [OInit Z; OSet Z 1 7; OSet Z 2 8; OSet Z 3 9] = Ok b /\ window_ok Z b /\ ~ In 1 (b_last Z b) /\ b_depth Z b = 2 /\
  b_get Z 1 (fun v => v) 0 b 1 = Ok (true, r, b1) /\ run Z 1 (fun v => v) 0 1 b1 b2 /\ resident Z b2 1.
Proof.
  eexists. eexists. eexists. eexists. split; [vm_compute; reflexivity|]. split; [split; [constructor|intros x []]|]. split; [intros []|]. split; [reflexivity|].
  split; [vm_compute; reflexivity|]. split.
  - eapply (r_get _ _ _ _ _ _ _ _ _ 3); [eapply (r_set _ _ _ _ _ _ _ _ _ 2 5); [apply r_nil|lia|vm_compute; reflexivity]|lia|vm_compute; intros [K|[]]; discriminate K|vm_compute; reflexivity].
  - eexists. eexists. split; vm_compute; reflexivity.
Qed.

(** An entry that is read again while it is in the window loses its protection: here after one other read, with depth 2. *)
Theorem C23_refuted : ~ C23_full.
Proof.
  intros H. assert (E : exists b b1 b2 r r2, sess 2 [OInit Z; OSet Z 1 7; OSet Z 2 8; OGet Z 1; OGet Z 1] = Ok b /\ b_depth Z b = 2 /\
    b_get Z 1 (fun v => v) 0 b 1 = Ok (true, r, b1) /\ b_get Z 1 (fun v => v) 0 b1 2 = Ok (true, r2, b2) /\ ~ In 2 (b_last Z b1) /\
    match rd (b_ent Z b2) 1 with Ok e => e_psi Z e | _ => None end = None).
  { eexists. eexists. eexists. eexists. eexists. split; [vm_compute; reflexivity|]. split; [reflexivity|]. split; [vm_compute; reflexivity|]. split; [vm_compute; reflexivity|].
    split; [|vm_compute; reflexivity]. cbn. intros [K|[K|[]]]; discriminate K. }
  destruct E as (b & b1 & b2 & r & r2 & E1 & E2 & E3 & E4 & E5 & E6).
  destruct (H Z 1 (fun v => v) 0 2 b (fold_left (astep Z) [OInit Z; OSet Z 1 7; OSet Z 2 8; OGet Z 1; OGet Z 1] (fun _ => None)) 1 r b1 1%nat b2) as (_ & e & v & Q1 & Q2); try lia; try exact E3.
  - apply (play_hist Z 1 (fun v => v) 0 2 _ (b_new Z 2) (fun _ => None)); [apply h_new|repeat (apply Forall_cons; [cbn; first [exact I|lia]|]); apply Forall_nil|exact E1].
  - eapply (r_get _ _ _ _ _ _ _ _ _ 2); [apply r_nil|lia|exact E5|exact E4].
  - rewrite Q1, Q2 in E6. discriminate.
Qed.
Print Assumptions C23_refuted.
