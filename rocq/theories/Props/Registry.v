(** Property C44: the operator registry. *)
From Coq Require Import Ascii String List NArith ZArith Lia Bool Arith.
From Verif Require Import Base Arrays Model.Registry Spec.Registry Proofs.Registry.
Import ListNotations.
Open Scope Z_scope.

(** * Initialisation *)
Definition C44_once_full : Prop := forall name s op, reached name s -> inits op 0 (r_log s) <= 1.
(** As long as no operator is added while it is registered and given keys do not start like generated ones: at most one
    initialisation in the life of an operator. *)
Theorem C44_once_partial : forall name s op, tidy name s -> 0 <= inits op 0 (r_log s) <= 1.
Proof. exact once. Qed.
Definition ex_name (o : nat) : str := lit "Pot".
Definition run1 (s : outcome reg) (f : reg -> outcome reg) : outcome reg := let* s := s in f s.
Definition ex_add (key : string) (op : nat) (p : bool) (s : reg) : outcome reg := let* r := r_add ex_name s (lit key) op p in Ok (snd r).
(** One call initialises an operator with two keys twice. *)
Example C44_once_witness : exists s1 s2 s3, ex_add "a" 1 false r_new = Ok s1 /\ ex_add "b" 1 false s1 = Ok s2 /\ r_init_op ex_name s2 1 9 = Ok s3 /\ r_log s3 = [Inited 1 9; Inited 1 9].
Proof. do 3 eexists. repeat split; vm_compute; reflexivity. Qed.
Lemma ex_step s s' key op p : ex_add key op p s = Ok s' -> rstep ex_name s (CAdd (lit key) op p) s'.
Proof. unfold ex_add. destruct (r_add ex_name s (lit key) op p) as [[k t]| |] eqn:E; try discriminate. intros Q. injection Q as <-. apply (st_add _ _ _ _ _ k). exact E. Qed.
Theorem C44_once_refuted : ~ C44_once_full.
Proof.
  intros Full. destruct C44_once_witness as (s1 & s2 & s3 & E1 & E2 & E3 & L). assert (H : inits 1 0 (r_log s3) <= 1).
  { apply (Full ex_name). eapply rc_step; [|apply st_init; exact E3]. eapply rc_step; [|apply ex_step; exact E2]. eapply rc_step; [|apply ex_step; exact E1]. constructor. }
  rewrite L in H. vm_compute in H. apply H. reflexivity.
Qed.
Print Assumptions C44_once_refuted.
(** A history with generated keys, labels, initialisations and clearing that is tidy. *)
Example C44_tidy_ex : exists s, tidy ex_name s /\ inits 3 0 (r_log s) = 1 /\ inits 4 0 (r_log s) = 0 /\ r_log s = [Inited 3 9; Inited 4 9; Deleted 4] /\ map fst (r_store s) = [lit "pot"].
Proof.
  destruct (ex_add "pot" 3 true r_new) as [s1| |] eqn:E1; [|vm_compute in E1; discriminate..].
  destruct (r_init_key s1 (lit "pot") 9) as [s2| |] eqn:E2; [|vm_compute in E1; injection E1 as <-; vm_compute in E2; discriminate..].
  destruct (r_init_op ex_name s2 4 9) as [s3| |] eqn:E3; [|vm_compute in E1; injection E1 as <-; vm_compute in E2; injection E2 as <-; vm_compute in E3; discriminate..].
  destruct (r_clear 20 s3) as [s4|] eqn:E4; [|vm_compute in E1; injection E1 as <-; vm_compute in E2; injection E2 as <-; vm_compute in E3; injection E3 as <-; vm_compute in E4; discriminate].
  exists s4. split.
  - eapply (td_step _ _ CClear); [|exact I|apply (st_clear _ _ 20); exact E4]. eapply (td_step _ _ (CInitOp 4 9)); [|exact I|apply st_init; exact E3]. eapply (td_step _ _ (CInitKey (lit "pot") 9)); [|exact I|apply st_key; exact E2]. eapply td_step; [constructor| |apply ex_step; exact E1].
    split; [intros t; discriminate|]. intros (k & e & G & _). discriminate.
  - vm_compute in E1; injection E1 as <-; vm_compute in E2; injection E2 as <-; vm_compute in E3; injection E3 as <-; vm_compute in E4; injection E4 as <-. repeat split; vm_compute; reflexivity.
Qed.

(** * Adding *)
Definition C44_add_full : Prop := forall name s key op p k s', reached name s -> r_add name s key op p = Ok (k, s') -> mget scmp (r_store s) k = None.
Theorem C44_add_partial : forall name s key op p k s', tidy name s -> r_add name s key op p = Ok (k, s') -> mget scmp (r_store s) k = None.
Proof. exact add_fresh. Qed.
(** A given key is never replaced; only a generated key can meet an existing one. *)
Theorem C44_add_named : forall name s key op p k s', no_key key = false -> r_add name s key op p = Ok (k, s') ->
  k = key /\ mget scmp (r_store s) key = None /\ forall key', key' <> key -> mget scmp (r_store s') key' = mget scmp (r_store s) key'.
Proof.
  intros name s key op p k s' N E. unfold r_add in E. destruct (mget scmp (r_store s) key) eqn:G; [discriminate|]. destruct (Nat.eqb op 0); [discriminate|]. rewrite N in E. injection E as <- <-.
  split; [reflexivity|]. split; [reflexivity|]. intros key' Hk. apply mget_set_other. exact Hk.
Qed.
Print Assumptions C44_add_named.
(** The key "__Pot#0" is replaced by the first operator "Pot" without a key. *)
Example C44_add_witness : exists s1 s2, ex_add "__Pot#0" 1 false r_new = Ok s1 /\ ex_add "" 2 false s1 = Ok s2 /\ r_get s1 (lit "__Pot#0") = Ok 1%nat /\ r_get s2 (lit "__Pot#0") = Ok 2%nat.
Proof. do 2 eexists. repeat split; vm_compute; reflexivity. Qed.
Theorem C44_add_refuted : ~ C44_add_full.
Proof.
  intros Full. destruct C44_add_witness as (s1 & s2 & E1 & E2 & _). assert (R : reached ex_name s1) by (eapply rc_step; [constructor|apply ex_step; exact E1]).
  unfold ex_add in E2. destruct (r_add ex_name s1 (lit "") 2 false) as [[k t]| |] eqn:E; try discriminate. pose proof (Full _ _ _ _ _ _ _ R E) as F.
  vm_compute in E1. injection E1 as <-. vm_compute in E. injection E as <- _. vm_compute in F. discriminate.
Qed.
Print Assumptions C44_add_refuted.

(** * Clearing *)
(** Clearing ends, keeps exactly the persistent entries and deletes exactly the others, once per entry. *)
Theorem C44_clear : forall name s, reached name s -> (exists f s', r_clear f s = Some s') /\ forall f s', r_clear f s = Some s' ->
  (forall key, mget scmp (r_store s') key = match mget scmp (r_store s) key with Some e => if e_persist e then Some e else None | None => None end) /\
  exists d, r_log s' = (r_log s ++ map Deleted d)%list /\ d = map (fun ke => e_op (snd ke)) (filter (fun ke => negb (e_persist (snd ke))) (r_store s)).
Proof.
  intros name s R. split; [apply clear_total|]. intros f s' E. apply clear_spec in E. destruct E as (Es & El & _). split.
  - intros key. rewrite Es, mget_filter by (apply sorted_nodup, (reached_sorted name); exact R). destruct (mget scmp (r_store s) key); reflexivity.
  - eexists. split; [|reflexivity]. rewrite El. unfold gone. rewrite map_map. reflexivity.
Qed.

(** * Labels *)
Definition labelled_ops (label : str) (s : reg) : list nat := map (fun ke => e_op (snd ke)) (filter (fun ke => str_eqb (e_label (snd ke)) label) (r_store s)).
(** Full statement: the first [max] operators with the label are stored at the front of the array, nothing else is written. *)
Definition C44_labels_full : Prop := forall s label arr max, 0 <= max <= zlen arr ->
  exists a n, r_get_labels s label arr max = Ok (a, n) /\ n = zlen (firstn (Z.to_nat max) (labelled_ops label s)) /\ zlen a = zlen arr /\
    forall i, rd a i = if (0 <=? i) && (i <? n) then rd (firstn (Z.to_nat max) (labelled_ops label s)) i else rd arr i.
Theorem C44_labels_partial : forall s label arr max, 0 < max <= zlen arr ->
  exists a n, r_get_labels s label arr max = Ok (a, n) /\ n = zlen (firstn (Z.to_nat max) (labelled_ops label s)) /\ zlen a = zlen arr /\
    forall i, rd a i = if (0 <=? i) && (i <? n) then rd (firstn (Z.to_nat max) (labelled_ops label s)) i else rd arr i.
Proof.
  intros s label arr max H. destruct (labels_ok label (r_store s) arr 0 max) as (a & E & L & R); [lia|lia|]. rewrite Z.sub_0_r in *. exists a. eexists. split; [exact E|]. split; [reflexivity|]. split; [exact L|].
  intros i. rewrite R, Z.sub_0_r. reflexivity.
Qed.
(** For an array of no elements the first entry is written if it has the label. *)
Theorem C44_labels_code : forall s label key e t, r_store s = (key, e) :: t -> e_label e = label -> r_get_labels s label [] 0 = UB.
Proof. intros s label key e t E L. rewrite labels_zero, E, L, str_eqb_refl. reflexivity. Qed.
Print Assumptions C44_labels_code.
Example C44_labels_ex : exists s1 s2 s3 s4, ex_add "a" 5 false r_new = Ok s1 /\ ex_add "b" 6 false s1 = Ok s2 /\ r_label s2 (lit "a") (lit "x") = Ok s3 /\ r_label s3 (lit "b") (lit "x") = Ok s4 /\
  r_get_labels s4 (lit "x") [0%nat; 0%nat; 0%nat] 3 = Ok ([5; 6; 0]%nat, 2) /\ r_get_labels s4 (lit "x") [0%nat] 1 = Ok ([5]%nat, 1) /\ r_get_labels s4 (lit "x") [] 0 = UB.
Proof. do 4 eexists. repeat split; vm_compute; reflexivity. Qed.
Theorem C44_labels_refuted : ~ C44_labels_full.
Proof.
  intros Full. destruct C44_labels_ex as (s1 & s2 & s3 & s4 & _ & _ & _ & _ & _ & _ & U). destruct (Full s4 (lit "x") [] 0) as (a & n & E & _); [unfold zlen; cbn; lia|]. congruence.
Qed.
Print Assumptions C44_labels_refuted.
(** A label test looks at the first entry of the operator in key order: exact for operators registered once. *)
Theorem C44_check : forall s op label,
  (r_check s op label = true <-> exists a key e b, r_store s = (a ++ (key, e) :: b)%list /\ e_op e = op /\ e_label e = label /\ forall k' e', In (k', e') a -> e_op e' <> op) /\
  (forall key e, mget scmp (r_store s) key = Some e -> e_op e = op -> (forall k' e', In (k', e') (r_store s) -> e_op e' = op -> e' = e) ->
     (r_check s op label = true <-> e_label e = label)).
Proof. exact check_spec. Qed.
Example C44_check_ex : exists s1 s2 s3 s4, ex_add "a" 5 false r_new = Ok s1 /\ ex_add "b" 6 false s1 = Ok s2 /\ ex_add "c" 5 false s2 = Ok s3 /\ r_label s3 (lit "c") (lit "x") = Ok s4 /\
  r_check s4 5 (lit "x") = false /\ r_check s4 5 [] = true /\ r_check s4 7 [] = false.
Proof. do 4 eexists. repeat split; vm_compute; reflexivity. Qed.
Print Assumptions C44_check.
Print Assumptions C44_once_partial.
Print Assumptions C44_add_partial.
Print Assumptions C44_clear.
Print Assumptions C44_labels_partial.
