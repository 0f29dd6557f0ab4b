(** C98: the global list of wave functions *)
From Coq Require Import Ascii String List NArith ZArith Lia Bool Arith.
From Verif Require Import Base Arrays Model.Registry Model.WFList Spec.WFList Proofs.WFList.
Import ListNotations.

(** [history nm good plain s own]: s and the references own of the program after any sequence of creating, deleting, Add, Set, GetCopy and
    Clear; [held]: the program has a reference of its own to what it hands over; [there]: it only exists; [any], [unlike]: the keys used, any or
    none that starts with "__"; [referred]: the program or an entry refers to it *)
Definition kind (v : nat) : str := lit "WF".
Definition run (o : outcome (wl nat)) : wl nat := match o with Ok s => s | _ => wl_new end.
Definition two : wl nat := snd (wl_make (snd (wl_make wl_new 7%nat)) 8%nat).
Definition one : wl nat := snd (wl_make wl_new 7%nat).
Definition kept : wl nat := run (wl_add kind one (lit "a") 1 false).
Definition listed : wl nat := run (wl_drop kept 1).

(** ** wave functions in the list or held by the program exist, and no call is undefined *)
Theorem C98_safe : forall V (nm : V -> str) s own, history nm held any s own ->
  (forall p, referred s own p -> alive s p) /\
  (forall key p b, (0 < own p)%nat -> wl_add nm s key p b <> UB) /\ (forall key p, (0 < own p)%nat -> wl_set nm s key p <> UB) /\
  (forall key, wl_copy s key <> UB) /\ (forall p, (0 < own p)%nat -> wl_drop s p <> UB) /\ (forall f, wl_clear f 0 s <> Some UB).
Proof. exact @safe. Qed.
Print Assumptions C98_safe.
(** also when the program hands over wave functions it only looked up *)
Definition C98_alive : Prop := forall V (nm : V -> str) s own, history nm there any s own -> forall p, referred s own p -> alive s p.
(** Set(key, Get(key)) destroys the wave function and lists it *)
Lemma listed_history (good : (nat -> nat) -> wl nat -> nat -> Prop) : (forall own, own 1%nat = 1%nat -> good own one 1%nat) -> history kind good any listed (less (more (fun _ => O) 1%nat) 1%nat).
Proof.
  intros G. apply (h_drop kind good any kept (more (fun _ => O) 1%nat) 1 listed); [|unfold more; cbn; lia|reflexivity].
  apply (h_add kind good any one _ (lit "a") 1 false kept); [exact (h_make kind good any wl_new _ 7%nat (h_start kind good any))|apply G; reflexivity|exact I|reflexivity].
Qed.
Theorem C98_alive_refuted : ~ C98_alive.
Proof.
  intros H. assert (P : history kind there any (run (wl_set kind listed (lit "a") 1)) (less (more (fun _ => O) 1%nat) 1%nat)).
  { apply (h_set kind there any listed _ (lit "a") 1); [apply listed_history; intros own _; discriminate|discriminate|exact I|reflexivity]. }
  apply (H nat kind _ _ P 1%nat); [|reflexivity]. right. exists (lit "a"), false. reflexivity.
Qed.
Print Assumptions C98_alive_refuted.
Example C98_safe_ex : history kind held any listed (less (more (fun _ => O) 1%nat) 1%nat) /\ stored listed (lit "a") 1 false /\ l_val listed 1%nat = Some 7%nat.
Proof. split; [apply listed_history; intros own O; unfold held; lia|]. split; reflexivity. Qed.

(** ** what nobody refers to is destroyed *)
Definition C98_no_leak : Prop := forall V (nm : V -> str) s own, history nm held any s own -> forall p, alive s p <-> referred s own p.
Theorem C98_no_leak_partial : forall V (nm : V -> str) s own, history nm held unlike s own -> forall p, alive s p <-> referred s own p.
Proof. exact @no_leak. Qed.
Print Assumptions C98_no_leak_partial.
(** a generated key can be one that was given, whose wave function is lost *)
Definition given : wl nat := run (wl_drop (run (wl_add kind two (lit "__WF#0") 1 true)) 1).
Definition lost : wl nat := run (wl_add kind given [] 2 true).
Definition owners : nat -> nat := less (more (more (fun _ => O) 1%nat) 2%nat) 1%nat.
Lemma given_history : history kind held any given owners.
Proof.
  apply (h_drop kind held any (run (wl_add kind two (lit "__WF#0") 1 true)) (more (more (fun _ => O) 1%nat) 2%nat) 1 given); [|unfold more; cbn; lia|reflexivity].
  apply (h_add kind held any two _ (lit "__WF#0") 1 true); [|unfold held, more; cbn; lia|exact I|reflexivity].
  exact (h_make kind held any one _ 8%nat (h_make kind held any wl_new _ 7%nat (h_start kind held any))).
Qed.
Lemma lost_history : history kind held any lost owners.
Proof. apply (h_add kind held any given _ [] 2 true); [exact given_history|unfold held; cbn; lia|exact I|reflexivity]. Qed.
Theorem C98_no_leak_refuted : ~ C98_no_leak.
Proof.
  intros H. pose proof (proj1 (H nat kind lost owners lost_history 1%nat)) as X. destruct X as [X|(key & b & X)]; [discriminate|cbn in X; lia|].
  unfold stored in X. assert (E : l_store lost = [(lit "__WF#0", (2%nat, true))]) by reflexivity. rewrite E in X. cbn [mget] in X. destruct (scmp key (lit "__WF#0")); discriminate X.
Qed.
Print Assumptions C98_no_leak_refuted.
Example C98_no_leak_ex : l_val lost 1%nat = Some 7%nat /\ l_store lost = [(lit "__WF#0", (2%nat, true))] /\ owners 1%nat = 0%nat.
Proof. repeat split. Qed.

(** ** what was added or set under a key is found there, other entries stay *)
Definition C98_find : Prop := forall V (nm : V -> str) s key p b s', wl_add nm s key p b = Ok s' -> stored s' key p b /\ forall k, k <> key -> wl_get s' k = wl_get s k.
Theorem C98_find_refuted : ~ C98_find.
Proof. intros H. destruct (H nat kind one [] 1%nat true (run (wl_add kind one [] 1 true)) eq_refl) as [X _]. discriminate X. Qed.
Print Assumptions C98_find_refuted.
Theorem C98_find_partial : forall V (nm : V -> str) s key p b s', no_key key = false -> wl_add nm s key p b = Ok s' ->
  stored s' key p b /\ (forall k, k <> key -> wl_get s' k = wl_get s k) /\ l_val s' = l_val s.
Proof. exact @add_named. Qed.
Print Assumptions C98_find_partial.
(** a new entry made by Set is persistent, an old one stays as it was *)
Theorem C98_set_partial : forall V (nm : V -> str) s key p s', no_key key = false -> wl_set nm s key p = Ok s' ->
  stored s' key p (match mget scmp (l_store s) key with Some e => snd e | None => true end) /\ (forall k, k <> key -> wl_get s' k = wl_get s k).
Proof. exact @set_named. Qed.
Print Assumptions C98_set_partial.
(** without a key a new one is made *)
Definition C98_unnamed : Prop := forall V (nm : V -> str) s own p b s', history nm held any s own -> (0 < own p)%nat -> wl_add nm s [] p b = Ok s' ->
  (forall k e, mget scmp (l_store s) k = Some e -> mget scmp (l_store s') k = Some e) /\ (exists k, mget scmp (l_store s) k = None /\ stored s' k p b).
Theorem C98_unnamed_refuted : ~ C98_unnamed.
Proof.
  intros H. destruct (H nat kind given owners 2%nat true lost given_history ltac:(cbn; lia) eq_refl) as [X _]. specialize (X (lit "__WF#0") _ eq_refl). discriminate X.
Qed.
Print Assumptions C98_unnamed_refuted.
Theorem C98_unnamed_partial : forall V (nm : V -> str) s own p b s', history nm held unlike s own -> (0 < own p)%nat -> wl_add nm s [] p b = Ok s' ->
  (forall k e, mget scmp (l_store s) k = Some e -> mget scmp (l_store s') k = Some e) /\ (exists k, mget scmp (l_store s) k = None /\ stored s' k p b).
Proof. exact @add_unnamed. Qed.
Print Assumptions C98_unnamed_partial.
(** keys in use and missing wave functions are refused *)
Theorem C98_refused : forall V (nm : V -> str) s key p b, wl_add nm s key p b = Throw <-> mget scmp (l_store s) key <> None \/ p = 0%nat.
Proof. exact @add_refused. Qed.
Print Assumptions C98_refused.
Example C98_find_ex : wl_get (run (wl_set kind kept (lit "a") 1)) (lit "a") = Ok 1%nat /\ stored (run (wl_set kind two (lit "b") 2)) (lit "b") 2 true /\ wl_get kept (lit "b") = Throw /\
  wl_add kind kept (lit "a") 1 true = Throw /\ no_key (lit "a") = false.
Proof. repeat split. Qed.

(** ** Clear ends, removes what is not persistent, and frees what only these entries referred to *)
Theorem C98_clear : forall V (nm : V -> str) s own f s', history nm held any s own -> wl_clear f 0 s = Some (Ok s') ->
  (forall key p b, stored s' key p b <-> stored s key p b /\ b = true) /\ (forall p, alive s' p -> l_val s' p = l_val s p).
Proof. exact @clear_law. Qed.
Print Assumptions C98_clear.
Theorem C98_clear_ends : forall V (nm : V -> str) s own, history nm held any s own -> exists f s', wl_clear f 0 s = Some (Ok s').
Proof. exact @clear_ends. Qed.
Print Assumptions C98_clear_ends.
Theorem C98_clear_frees_partial : forall V (nm : V -> str) s own f s', history nm held unlike s own -> wl_clear f 0 s = Some (Ok s') ->
  forall p, alive s' p <-> (0 < own p)%nat \/ exists key, stored s key p true.
Proof. exact @clear_free. Qed.
Print Assumptions C98_clear_frees_partial.
Example C98_clear_ex : exists s', wl_clear 5 0 listed = Some (Ok s') /\ l_store s' = [] /\ l_val s' 1%nat = None.
Proof. eexists. repeat split. Qed.

(** ** copies are new wave functions with the same content *)
Theorem C98_copy : forall V (nm : V -> str) s own key p s', history nm held any s own -> wl_copy s key = Ok (p, s') ->
  exists q, wl_get s key = Ok q /\ ~ alive s p /\ l_val s' p = l_val s q /\ l_val s q <> None /\ (forall r, r <> p -> l_val s' r = l_val s r) /\ l_store s' = l_store s.
Proof. exact @copy_law. Qed.
Print Assumptions C98_copy.
Example C98_copy_ex : exists s', wl_copy listed (lit "a") = Ok (2%nat, s') /\ l_val s' 2%nat = Some 7%nat.
Proof. eexists. split; reflexivity. Qed.
