(** C94: loading modules by name *)
From Coq Require Import Ascii String List ZArith Lia Bool.
From Verif Require Import Base Model.Modules Spec.Modules Proofs.Modules.
Import ListNotations.

(** [load sysdir v dyn k l n]: the module n asked of the loader l (k: of wave functions or operators) in the build without or with
    (dyn) dynamic modules and the environment v; [handbook]: the operators of the handbook; [designates n p]: n stands for p *)

(** ** the default build: the operators of the handbook and GridHOFD, each the class of its name; everything else is refused *)
Theorem C94_static : forall sysdir v l n,
  (forall p, snd (load sysdir v false Oper l n) = Ok p <-> (In n handbook \/ n = lit "GridHOFD") /\ designates n p) /\
  (~ (In n handbook \/ n = lit "GridHOFD") -> load sysdir v false Oper l n = (l, Throw)).
Proof.
  intros sysdir v l n.
  assert (L : In n (map op_name (ops false)) <-> In n handbook \/ n = lit "GridHOFD") by (cbv [map ops core_ops more_ops app op_name handbook In]; cbn; tauto || (cbn; intuition)).
  unfold load. destruct (internal false Oper n) as [q|] eqn:E.
  - pose proof (proj1 (internal_oper false n q) E) as [I D]. split.
    + intros p. cbn [snd]. rewrite <- L. split; [intros [= <-]; split; assumption|]. intros X. apply (internal_oper false n p) in X. congruence.
    + intros N. exfalso. exact (N (proj1 L I)).
  - pose proof (proj1 (internal_oper_none false n) E) as N. split; [|reflexivity]. intros p. cbn [snd]. split; [discriminate|]. intros [X _]. exfalso. exact (N (proj2 L X)).
Qed.
Print Assumptions C94_static.
Definition nowhere : env := mkEnv (fun s => Some [s]) (fun _ => []) (fun _ => None) None.
Example C94_static_ex : In (lit "GridKick") handbook /\ snd (load [] nowhere false Oper l_new (lit "GridKick")) = Ok (Built (lit "OGridKick")) /\
  snd (load [] nowhere false Oper l_new (lit "GridMomentum")) = Ok Momentum /\ snd (load [] nowhere false Oper l_new (lit "gridkick")) = Throw.
Proof. split; [vm_compute; tauto|]. repeat split; vm_compute; reflexivity. Qed.

(** ** wave functions: both classes, with and without WF before the name; a class can be asked for by the name it reports *)
Theorem C94_wave : forall sysdir v l n p, snd (load sysdir v false Wave l n) = Ok p <->
  exists c, (c = lit "GridCartesian" \/ c = lit "Level") /\ (n = c \/ n = lit "WF" ++ c) /\ p = Built (lit "WF" ++ c).
Proof.
  intros sysdir v l n p. rewrite <- (internal_wave false). unfold load. destruct (internal false Wave n) as [q|]; cbn [snd]; split; congruence.
Qed.
Print Assumptions C94_wave.
Theorem C94_wave_name : forall sysdir v l l' n c, snd (load sysdir v false Wave l n) = Ok (Built c) -> snd (load sysdir v false Wave l' c) = Ok (Built c).
Proof. intros sysdir v l l' n c H. apply C94_wave in H. destruct H as (x & X & _ & [= ->]). apply C94_wave. exists x. auto. Qed.
Print Assumptions C94_wave_name.
Example C94_wave_ex : snd (load [] nowhere false Wave l_new (lit "GridCartesian")) = Ok (Built (lit "WFGridCartesian")) /\
  snd (load [] nowhere false Wave l_new (lit "WFGridCartesian")) = Ok (Built (lit "WFGridCartesian")) /\
  snd (load [] nowhere false Wave l_new (lit "WFWFLevel")) = Throw.
Proof. repeat split; vm_compute; reflexivity. Qed.

(** ** an operator can be asked for by its class name, as the command that reads an operator does (CmdHandler.cpp:452) *)
Definition C94_oper_name : Prop :=
  forall sysdir v l l' n c, snd (load sysdir v false Oper l n) = Ok (Built c) -> snd (load sysdir v false Oper l' c) = Ok (Built c).
(** no operator can; the command that sends one takes off the O and can *)
Theorem C94_oper_name_code : forall sysdir v l l' n c, snd (load sysdir v false Oper l n) = Ok (Built c) ->
  snd (load sysdir v false Oper l' c) = Throw /\ exists m, send_name c = Ok m /\ snd (load sysdir v false Oper l' m) = Ok (Built c).
Proof.
  intros sysdir v l l' n c H. apply C94_static in H. destruct H as [L [[-> [=]]|[N [= ->]]]]. split.
  - change (snd (load sysdir v false Oper l' (lit "O" ++ n)) = Throw). destruct (C94_static sysdir v l' (lit "O" ++ n)) as [_ T]. rewrite T; [reflexivity|]. clear - L. intros H.
    assert (A : forallb (fun m => negb (existsb (str_eqb (lit "O" ++ m)) (lit "GridHOFD" :: handbook))) (lit "GridHOFD" :: handbook) = true) by (vm_compute; reflexivity).
    rewrite forallb_forall in A. specialize (A n). rewrite negb_true_iff in A.
    assert (I : In n (lit "GridHOFD" :: handbook)) by (destruct L as [L| ->]; [right; exact L|left; reflexivity]). specialize (A I).
    assert (B : existsb (str_eqb (lit "O" ++ n)) (lit "GridHOFD" :: handbook) = true).
    { apply existsb_exists. exists (lit "O" ++ n). split; [|apply str_eqb_refl]. destruct H as [H| ->]; [right; exact H|left; reflexivity]. }
    congruence.
  - exists n. split; [reflexivity|]. apply C94_static. split; [exact L|]. right. split; [exact N|reflexivity].
Qed.
Print Assumptions C94_oper_name_code.
Theorem C94_oper_name_refuted : ~ C94_oper_name.
Proof. intros H. specialize (H [] nowhere l_new l_new (lit "Sum") (lit "OSum") eq_refl). vm_compute in H. discriminate H. Qed.
Print Assumptions C94_oper_name_refuted.

(** ** over the life of a loader, in any environments: a name keeps its meaning, the loader knows exactly the names it handed out and
    how often *)
Theorem C94_history : forall sysdir dyn k acts l s, history sysdir dyn k l_new acts = Some (l, s) ->
  (forall n p q, In (n, p) s -> In (n, q) s -> p = q) /\
  (forall n, mget scmp (l_mods l) n = match of_name n s with [] => None | (_, p) :: _ => Some (p, Z.of_nat (length (of_name n s))) end).
Proof.
  intros sysdir dyn k acts l s H. destruct (history_new sysdir dyn k acts l s H) as (S & A & _). split; [exact A|]. intros n. rewrite (S n).
  destruct (of_name n s) as [|[m p] t]; [reflexivity|]. cbn [length]. do 2 f_equal. lia.
Qed.
Print Assumptions C94_history.
Definition with_lib (f : str) (i : nat) : env := mkEnv (fun s => Some [s]) (fun _ => []) (fun s => if str_eqb s f then Some (Good i) else None) None.
Example C94_history_ex : exists l, history [] true Oper l_new
  [ALoad nowhere (lit "Mine"); APath (lit "/m"); ALoad (with_lib (lit "/m/libqd-OMine.so") 7) (lit "Mine"); ALoad nowhere (lit "Sum"); ALoad (with_lib (lit "/m/libqd-OMine.so") 8) (lit "Mine")]
  = Some (l, [(lit "Mine", Plug 7); (lit "Sum", Built (lit "OSum")); (lit "Mine", Plug 7)]) /\ mget scmp (l_mods l) (lit "Mine") = Some (Plug 7, 2%Z).
Proof. eexists. split; vm_compute; reflexivity. Qed.

(** ** a name that is not found changes nothing *)
Theorem C94_failed : forall sysdir v dyn k l n l', load sysdir v dyn k l n = (l', Throw) -> l_mods l' = l_mods l /\ l_path l' = l_path l.
Proof. intros sysdir v dyn k l n l' H. pose proof (load_mods sysdir v dyn k l n) as M. rewrite H in M. exact M. Qed.
Print Assumptions C94_failed.
Example C94_failed_ex : snd (load [] nowhere true Oper l_new (lit "Mine")) = Throw.
Proof. vm_compute. reflexivity. Qed.

(** ** with dynamic modules: a name that is neither loaded nor compiled in is searched in the places of the documentation *)
Definition fresh (l : loader) (k : kind) (n : str) : Prop := mget scmp (l_mods l) n = None /\ internal true k n = None.
Definition file (k : kind) (n : str) : str := base_lib k ++ n ++ lit ".so".
Definition C94_search : Prop := forall sysdir v k l n, fresh l k n -> (forall f, simple v f) -> (forall f, e_open v f <> Some NullSym) ->
  snd (load sysdir v true k l n) = found v (places sysdir v l (file k n)).
Lemma load_fresh sysdir v k l n : fresh l k n -> (forall f, simple v f) -> (forall f, e_open v f <> Some NullSym) ->
  snd (load sysdir v true k l n) = found v (fulls sysdir v l k n) /\ l_ran (fst (load sysdir v true k l n)) = l_ran l.
Proof.
  intros [F1 F2] S N. unfold load. rewrite F1, F2. apply try_all_found; [apply Forall_forall; intros f _; apply S|intros f _; apply N].
Qed.
(** directories are put before the name as they are, and the system is asked for the name without .so *)
Theorem C94_search_code : forall sysdir v k l n, fresh l k n -> (forall f, simple v f) -> (forall f, e_open v f <> Some NullSym) ->
  snd (load sysdir v true k l n) = found v
    ((match l_path l with [] => [] | p => [p ++ file k n] end) ++ (match e_modpath v with None => [] | Some d => [d ++ file k n] end) ++ [sysdir ++ file k n; base_lib k ++ n]).
Proof. intros sysdir v k l n F S N. exact (proj1 (load_fresh sysdir v k l n F S N)). Qed.
Print Assumptions C94_search_code.
(** the documented search, if all directories end in a slash and the system finds neither file by itself *)
Lemma in_dir_slash d f : in_dir (d ++ lit "/") f = (d ++ lit "/") ++ f.
Proof. unfold in_dir. rewrite rev_app_distr. reflexivity. Qed.
Lemma user_in d f : (match d ++ lit "/" with [] => [] | p => [in_dir p f] end) = [(d ++ lit "/") ++ f].
Proof. rewrite <- (in_dir_slash d f). destruct d; reflexivity. Qed.
Lemma user_as d f : (match d ++ lit "/" with [] => [] | p => [p ++ f] end) = [(d ++ lit "/") ++ f].
Proof. destruct d; reflexivity. Qed.
Lemma found_end v a b c : e_open v b = None -> e_open v c = None -> found v (a ++ [b]) = found v (a ++ [c]).
Proof.
  intros B C. induction a as [|x a IH]; cbn [app found]; [rewrite B, C; reflexivity|]. destruct (e_open v x) as [[i| |]|]; [reflexivity|reflexivity|reflexivity|exact IH].
Qed.
Theorem C94_search_partial : forall sys v k l n d, fresh l k n -> (forall f, simple v f) -> (forall f, e_open v f <> Some NullSym) ->
  l_path l = d ++ lit "/" -> (e_modpath v = None \/ exists m, e_modpath v = Some (m ++ lit "/")) ->
  e_open v (file k n) = None -> e_open v (base_lib k ++ n) = None ->
  snd (load (sys ++ lit "/") v true k l n) = found v (places (sys ++ lit "/") v l (file k n)).
Proof.
  intros sys v k l n d F S N P M O1 O2. rewrite (C94_search_code _ v k l n F S N). unfold places. rewrite P, (user_in d), (user_as d), in_dir_slash.
  replace (match e_modpath v with Some m => [in_dir m (file k n)] | None => [] end) with (match e_modpath v with Some m => [m ++ file k n] | None => [] end)
    by (destruct M as [->|[m ->]]; [reflexivity|rewrite in_dir_slash; reflexivity]).
  set (b := match e_modpath v with Some m => [m ++ file k n] | None => [] end).
  change ([(sys ++ lit "/") ++ file k n; base_lib k ++ n]) with ([(sys ++ lit "/") ++ file k n] ++ [base_lib k ++ n]).
  change ([(sys ++ lit "/") ++ file k n; file k n]) with ([(sys ++ lit "/") ++ file k n] ++ [file k n]).
  rewrite !app_assoc. apply found_end; assumption.
Qed.
Print Assumptions C94_search_partial.
(** QD_MOD_PATH=/opt/mods searches /opt/modslibqd-OMine.so; libqd-OMine.so on the library search path is not found either *)
Definition opt_env : env := mkEnv (fun s => Some [s]) (fun _ => []) (fun s => if str_eqb s (lit "/opt/mods/libqd-OMine.so") then Some (Good 3) else None) (Some (lit "/opt/mods")).
Theorem C94_search_refuted : ~ C94_search.
Proof.
  intros H. specialize (H (lit "/usr/lib/qdng/") opt_env Oper l_new (lit "Mine")). 
  assert (X : fresh l_new Oper (lit "Mine")) by (split; vm_compute; reflexivity). specialize (H X).
  assert (Y : forall f, simple opt_env f) by (intros f; split; reflexivity). specialize (H Y).
  assert (Z : forall f, e_open opt_env f <> Some NullSym) by (intros f; unfold opt_env; cbn [e_open]; destruct (str_eqb f _); discriminate). specialize (H Z).
  vm_compute in H. discriminate H.
Qed.
Print Assumptions C94_search_refuted.
Example C94_search_ex : fresh l_new Oper (lit "Mine") /\ (forall f, simple (with_lib (lit "~/qdmods/libqd-OMine.so") 5) f) /\
  snd (load (lit "/usr/lib/qdng/") (with_lib (lit "~/qdmods/libqd-OMine.so") 5) true Oper l_new (lit "Mine")) = Ok (Plug 5) /\
  snd (load (lit "/usr/lib/qdng/") (with_lib (lit "libqd-OMine.so") 5) true Oper l_new (lit "Mine")) = Throw.
Proof. split; [split; vm_compute; reflexivity|]. split; [intros f; split; reflexivity|]. split; vm_compute; reflexivity. Qed.

(** ** loading runs no commands and has no undefined behaviour *)
Definition C94_safe : Prop := forall sysdir v k l n, let r := load sysdir v true k l n in l_ran (fst r) = l_ran l /\ snd r <> UB.
(** exactly the names that are neither loaded nor compiled in are given to the shell expansion of wordexp *)
Theorem C94_safe_partial : forall sysdir v k l n,
  (forall p c, mget scmp (l_mods l) n = Some (p, c) -> load sysdir v true k l n = (enter l n p, Ok p)) /\
  (forall p, mget scmp (l_mods l) n = None -> internal true k n = Some p -> load sysdir v true k l n = (enter l n p, Ok p)) /\
  (fresh l k n -> (forall f, simple v f) -> (forall f, e_open v f <> Some NullSym) -> l_ran (fst (load sysdir v true k l n)) = l_ran l /\ snd (load sysdir v true k l n) <> UB).
Proof.
  intros sysdir v k l n. split; [|split].
  - intros p c H. unfold load. rewrite H. reflexivity.
  - intros p H I. unfold load. rewrite H, I. reflexivity.
  - intros F S N. destruct (load_fresh sysdir v k l n F S N) as [A B]. split; [exact B|]. rewrite A. clear.
    induction (fulls sysdir v l k n) as [|f t IH]; cbn [found]; [discriminate|]. destruct (e_open v f) as [[i| |]|]; [discriminate|discriminate|discriminate|exact IH].
Qed.
Print Assumptions C94_safe_partial.
(** a shell: the name $(touch x) of an input file runs a command, the name a|b is no word (the words are not set) *)
Definition shell : env := mkEnv
  (fun s => if existsb (Ascii.eqb "|"%char) s then None else Some [s])
  (fun s => if str_eqb s (lit "~/qdmods/libqd-O$(touch x).so") then [lit "touch x"] else []) (fun _ => None) None.
Theorem C94_safe_refuted : ~ C94_safe /\ l_ran (fst (load [] shell true Oper l_new (lit "$(touch x)"))) = [lit "touch x"] /\
  snd (load [] shell true Oper l_new (lit "a|b")) = UB.
Proof.
  assert (A : l_ran (fst (load [] shell true Oper l_new (lit "$(touch x)"))) = [lit "touch x"]) by (vm_compute; reflexivity).
  split; [|split; [exact A|vm_compute; reflexivity]]. intros H. destruct (H [] shell Oper l_new (lit "$(touch x)")) as [R _]. rewrite A in R. discriminate R.
Qed.
Print Assumptions C94_safe_refuted.

(** ** the user directory is made to end in a slash *)
Definition C94_user : Prop := forall l p, exists l', user_path l p = Ok l'.
Theorem C94_user_code : forall l p, (user_path l p = UB <-> p = []) /\
  (forall l', user_path l p = Ok l' -> l_mods l' = l_mods l /\ exists d, l_path l' = d ++ lit "/" /\ (p = d \/ p = d ++ lit "/") /\ forall f, in_dir p f = l_path l' ++ f) /\
  (forall l', user_path l p = Ok l' -> user_path l' (l_path l') = Ok l') /\ user_path l p <> Throw.
Proof.
  intros l p. unfold user_path. destruct (rev p) as [|c r] eqn:E.
  - assert (p = []) by (rewrite <- (rev_involutive p), E; reflexivity). subst p. repeat split; discriminate.
  - assert (P : p = rev r ++ [c]) by (rewrite <- (rev_involutive p), E; reflexivity). destruct (Ascii.eqb c "/"%char) eqn:C.
    + apply Ascii.eqb_eq in C. subst c. split; [split; [discriminate|intros ->; discriminate E]|]. split; [|split; [|discriminate]].
      * intros l' [= <-]. split; [reflexivity|]. exists (rev r). split; [exact P|]. split; [right; exact P|]. intros f. unfold in_dir. rewrite E. reflexivity.
      * intros l' [= <-]. cbn [l_path l_mods l_ran]. rewrite E. reflexivity.
    + split; [split; [discriminate|intros ->; discriminate E]|]. split; [|split; [|discriminate]].
      * intros l' [= <-]. split; [reflexivity|]. exists p. split; [reflexivity|]. split; [left; reflexivity|]. intros f. unfold in_dir. rewrite E, C. cbn [l_path]. rewrite <- app_assoc. reflexivity.
      * intros l' [= <-]. cbn [l_path l_mods l_ran]. rewrite rev_app_distr. reflexivity.
Qed.
Print Assumptions C94_user_code.
(** an empty modpath is read out of bounds *)
Theorem C94_user_refuted : ~ C94_user.
Proof. intros H. destruct (H l_new []) as [l' E]. discriminate E. Qed.
Print Assumptions C94_user_refuted.
Example C94_user_ex : exists l, user_path l_new (lit "/opt/qd") = Ok l /\ l_path l = lit "/opt/qd/".
Proof. eexists. split; reflexivity. Qed.

(** ** with dynamic modules, installed as the build makes them, every operator of the handbook is available *)
Definition installed (sysdir : str) (v : env) : Prop :=
  (forall n, In n shipped -> exists i, e_open v (sysdir ++ lit "libqd-O" ++ n ++ lit ".so") = Some (Good i)) /\ (forall f, simple v f) /\ forall f, e_open v f <> Some NullSym.
Definition C94_handbook : Prop := forall sysdir v n, installed sysdir v -> In n handbook -> exists p, snd (load sysdir v true Oper l_new n) = Ok p.
(** all but Jump; modules in the directories searched before must not be broken *)
Theorem C94_handbook_partial : forall sysdir v n, installed sysdir v -> In n handbook -> n <> lit "Jump" -> (forall f, e_open v f <> Some NoSym) ->
  exists p, snd (load sysdir v true Oper l_new n) = Ok p.
Proof.
  intros sysdir v n (I & S & N) H J B. destruct (internal true Oper n) as [p|] eqn:E.
  - exists p. unfold load. cbn [l_new l_mods mget]. rewrite E. reflexivity.
  - assert (F : fresh l_new Oper n) by (split; [reflexivity|exact E]). rewrite (C94_search_code sysdir v Oper l_new n F S N).
    assert (A : forallb (fun m => existsb (str_eqb m) (lit "Jump" :: map op_name (ops true) ++ shipped)) handbook = true) by (vm_compute; reflexivity).
    rewrite forallb_forall in A. specialize (A n H). apply existsb_exists in A. destruct A as (m & Im & Em). apply str_eqb_true in Em. subst m.
    destruct Im as [Im|Im]; [congruence|]. apply in_app_or in Im. destruct Im as [Im|Im]; [exfalso; exact (proj1 (internal_oper_none true n) E Im)|].
    destruct (I n Im) as [i O].
    match goal with |- exists p, found v ?x = Ok p => assert (X : In (sysdir ++ lit "libqd-O" ++ n ++ lit ".so") x) by (apply in_or_app; right; apply in_or_app; right; left; reflexivity); induction x as [|f t IH]; [destruct X|] end.
    cbn [found]. destruct (e_open v f) as [[j| |]|] eqn:Of; [eexists; reflexivity|exfalso; exact (B f Of)|exfalso; exact (N f Of)|].
    destruct X as [->|X]; [congruence|exact (IH X)].
Qed.
Print Assumptions C94_handbook_partial.
Definition inst_env : env := mkEnv (fun s => Some [s]) (fun _ => [])
  (fun s => if existsb (fun n => str_eqb s (lit "/q/" ++ lit "libqd-O" ++ n ++ lit ".so")) shipped then Some (Good 1) else None) None.
Lemma inst_ok : installed (lit "/q/") inst_env.
Proof.
  split; [|split].
  - intros n I. exists 1. cbn [inst_env e_open]. match goal with |- (if ?b then _ else _) = _ => assert (X : b = true); [|rewrite X; reflexivity] end. apply existsb_exists. exists n. split; [exact I|apply str_eqb_refl].
  - intros f. split; reflexivity.
  - intros f. cbn [inst_env e_open]. match goal with |- (if ?b then _ else _) <> _ => destruct b end; discriminate.
Qed.
(** the module of Jump is not built *)
Theorem C94_handbook_refuted : ~ C94_handbook.
Proof.
  intros H. destruct (H (lit "/q/") inst_env (lit "Jump") inst_ok) as [p E]; [vm_compute; tauto|]. vm_compute in E. discriminate E.
Qed.
Print Assumptions C94_handbook_refuted.
Example C94_handbook_ex : installed (lit "/q/") inst_env /\ snd (load (lit "/q/") inst_env true Oper l_new (lit "Cheby")) = Ok (Plug 1).
Proof. split; [exact inst_ok|vm_compute; reflexivity]. Qed.

(** ** an operator that is sent is asked for by its name without a leading O; all other names stay as they are, the empty one is refused *)
Theorem C94_send : send_name [] = Throw /\ (forall s, send_name (lit "O" ++ s) = Ok s) /\ (forall s, s <> [] -> (forall t, s <> lit "O" ++ t) -> send_name s = Ok s).
Proof.
  split; [reflexivity|]. split; [reflexivity|]. intros [|c s] N H; [congruence|]. cbn. destruct (Ascii.eqb c "O") eqn:E; [|reflexivity].
  apply Ascii.eqb_eq in E. subst c. exfalso. exact (H s eq_refl).
Qed.
Print Assumptions C94_send.
Example C94_send_ex : send_name (lit "OGridPotential") = Ok (lit "GridPotential") /\ send_name (lit "Cheby") = Ok (lit "Cheby").
Proof. split; reflexivity. Qed.
