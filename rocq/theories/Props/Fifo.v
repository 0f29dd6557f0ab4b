(** C106: the FIFOs of the interactive mode. *)
From Coq Require Import Ascii String List ZArith Lia Bool Arith.
From Verif Require Import Base Arrays Model.Fifo Spec.Fifo Proofs.Fifo.
Import ListNotations.
Open Scope Z_scope.

(** [may], [opens]: what mkfifo and opening can do; [make s n]: the file system after the constructor, false if it throws; [exactly s0 live s]: s is s0 and
    the two FIFOs of every object of [live]; [clean s n]: the constructor succeeds or fails at its first step *)
Definition yes (_ : str) : bool := true.
Definition empty : fs := fun _ => None.
Definition busy : fs := fun m => if str_eq_dec m (lit "atx") then Some Other else None.

(** ** constructor *)
Theorem C106_make : forall may opens s n s', make may opens s n = (s', true) -> with_pair s n s'.
Proof. intros may opens s n s' E. destruct (make_true may opens s n s' E) as (-> & R & T). exact (pair_ok s n R T). Qed.
Print Assumptions C106_make.
Theorem C106_can : forall may opens s n, s (n ++ lit "rx") = None -> s (n ++ lit "tx") = None -> (forall m, may m = true) -> (forall m, opens m = true) -> exists s', make may opens s n = (s', true).
Proof. intros may opens s n R T M O. eexists. apply make_can; auto. Qed.
Print Assumptions C106_can.
Example C106_make_ex : snd (make yes yes empty (lit "a")) = true /\ fst (make yes yes empty (lit "a")) (lit "arx") = Some Pipe /\ fst (make yes yes empty (lit "a")) (lit "b") = None.
Proof. vm_compute. repeat split. Qed.
(** an exception leaves everything as it was *)
Definition C106_failed : Prop := forall may opens s n s', make may opens s n = (s', false) -> same s' s.
Theorem C106_failed_partial : forall may opens s n s', clean may opens s n -> make may opens s n = (s', false) -> same s' s.
Proof. intros may opens s n s' C E. destruct (make_clean may opens s n C) as [E'|(E' & _)]; rewrite E' in E; [injection E as <-; intros m; reflexivity|discriminate E]. Qed.
Print Assumptions C106_failed_partial.
Theorem C106_failed_refuted : ~ C106_failed.
Proof. intros H. specialize (H yes yes busy (lit "a") _ (surjective_pairing _)). specialize (H (lit "arx")). discriminate H. Qed.
Print Assumptions C106_failed_refuted.
(** the first FIFO stays if the second cannot be made, both stay if one cannot be opened *)
Theorem C106_failed_code : forall may opens s n, s (rx n) = None -> may (rx n) = true -> let s' := fst (make may opens s n) in
  s' (rx n) = Some Pipe /\ (s (tx n) = None -> may (tx n) = true -> s' (tx n) = Some Pipe) /\ (forall m, m <> rx n -> m <> tx n -> s' m = s m).
Proof.
  intros may opens s n R M. pose proof (make_cases may opens s n) as X. rewrite R, M in X. assert (TR : tx n <> rx n) by (intros Y; symmetry in Y; exact (rx_tx _ _ Y)). destruct (s (tx n)) eqn:T; [|destruct (may (tx n)) eqn:MT]; rewrite X; cbn [fst].
  - split; [apply set_eq|]. split; [discriminate|]. intros m A B. apply set_ne, A.
  - destruct (pair_ok s n R T) as (_ & _ & PR & PT & PO). repeat split; auto.
  - split; [apply set_eq|]. split; [discriminate|]. intros m A B. apply set_ne, A.
Qed.
Print Assumptions C106_failed_code.
Example C106_failed_ex : clean yes yes empty (lit "a") /\ ~ clean yes yes busy (lit "a").
Proof. split; [right; right; repeat split|]. intros [H|[H|[H _]]]; [apply H; reflexivity|discriminate H|discriminate H]. Qed.
(** so that it fails for ever *)
Theorem C106_again_code : forall may opens s n, s (rx n) <> None -> make may opens s n = (s, false).
Proof. intros may opens s n R. pose proof (make_cases may opens s n) as X. destruct (s (rx n)); [exact X|congruence]. Qed.
Print Assumptions C106_again_code.
Example C106_again_ex : fst (make yes yes busy (lit "a")) (rx (lit "a")) <> None. Proof. vm_compute. discriminate. Qed.

(** ** programs: what is there belongs to an object or was there before *)
Definition alone (a : act) : Prop := match a with Put _ | Take _ => False | _ => True end.
Definition C106_program : Prop := forall may opens acts s0, Forall alone acts -> exists s live, run may opens acts s0 [] = Alive s live /\ exactly s0 live s.
Theorem C106_program_partial : forall may opens acts s0, safe may opens acts s0 [] -> exists s live, run may opens acts s0 [] = Alive s live /\ exactly s0 live s /\ NoDup live.
Proof.
  intros may opens acts s0 S. destruct (run_inv may opens s0 acts s0 [] S) as (s & live & E & D & X).
  - split; [constructor|]. split; [intros m (n & [] & _)|reflexivity].
  - exists s, live. auto.
Qed.
(** without objects everything is as before *)
Theorem C106_end : forall may opens acts s0 s, safe may opens acts s0 [] -> run may opens acts s0 [] = Alive s [] -> same s s0.
Proof.
  intros may opens acts s0 s S E. destruct (C106_program_partial may opens acts s0 S) as (s' & live & E' & [_ X] & _). rewrite E in E'. injection E' as <- <-. intros m. apply X. intros (n & [] & _).
Qed.
Print Assumptions C106_end.
Definition acts0 : list act := [New (lit "a"); NewDefault (lit "/tmp"); New (lit "a"); Del (lit "a"); New (lit "a"); Del (default_name (lit "/tmp")); Del (lit "a")].
Example C106_program_ex : safe yes yes acts0 empty [] /\ exists s, run yes yes acts0 empty [] = Alive s [].
Proof.
  split; [|eexists; reflexivity]. cbn [safe acts0]. unfold clean, born. repeat split; try (right; right; repeat split; reflexivity); cbn.
  repeat split; try (right; right; repeat split; reflexivity); try (left; discriminate).
Qed.
Theorem C106_program_refuted : ~ C106_program.
Proof.
  intros H. destruct (H yes yes [New (lit "a")] busy ltac:(repeat constructor)) as (s & live & E & _ & X). cbn [run] in E. assert (B : born yes yes busy [] (lit "a") = (set busy (rx (lit "a")) (Some Pipe), [])) by reflexivity. rewrite B in E. injection E as <- <-.
  specialize (X (rx (lit "a"))). rewrite set_eq in X. assert (N : ~ owned [] (rx (lit "a"))) by (intros (n & [] & _)). specialize (X N). discriminate X.
Qed.
Print Assumptions C106_program_refuted.
Print Assumptions C106_program_partial.
(** a FIFO removed by someone else: the destructor terminates the program, the other FIFO stays *)
Theorem C106_taken_code : forall may opens s n acts, s (rx n) = None -> s (tx n) = None -> may (rx n) = true -> may (tx n) = true -> opens (rx n) = true -> opens (tx n) = true ->
  exists s', run may opens (New n :: Take (rx n) :: Del n :: acts) s [] = Dead s' /\ s' (tx n) = Some Pipe.
Proof.
  intros may opens s n acts R T A B C D. cbn [run]. unfold born. rewrite (make_can may opens s n R T A B C D). destruct (in_dec str_eq_dec n [n]) as [_|N]; [|exfalso; apply N; left; reflexivity].
  unfold delete, remove. rewrite set_eq. cbn [negb]. eexists. split; [reflexivity|]. rewrite set_ne by (intros Y; symmetry in Y; exact (rx_tx _ _ Y)). apply set_eq.
Qed.
Print Assumptions C106_taken_code.
Example C106_taken_ex : exists s, run yes yes [New (lit "a"); Take (lit "arx"); Del (lit "a")] empty [] = Dead s. Proof. eexists. reflexivity. Qed.

(** ** the name that should be unique *)
Definition C106_unique : Prop := forall tmp, exists s a b, run yes yes [NewDefault tmp; NewDefault tmp] empty [] = Alive s [a; b] /\ a <> b.
Theorem C106_unique_refuted : ~ C106_unique.
Proof. intros H. destruct (H []) as (s & a & b & E & _). vm_compute in E. discriminate E. Qed.
Print Assumptions C106_unique_refuted.
(** there is one such object at most, whatever the system allows, and its name is the template *)
Theorem C106_unique_code : forall may opens s tmp s', make_default may opens s tmp = (s', true) -> make_default may opens s' tmp = (s', false) /\ exists d, default_name tmp = d ++ lit "QDng_cmd_XXXXXX".
Proof.
  intros may opens s tmp s' E. unfold make_default in *. split.
  - apply C106_again_code. destruct (C106_make may opens s _ s' E) as (_ & _ & P & _). fold (rx (default_name tmp)) in P. rewrite P. discriminate.
  - destruct tmp as [|c t]; [exists []; reflexivity|]. exists ((c :: t) ++ lit "/"). unfold default_name. rewrite <- app_assoc. reflexivity.
Qed.
Print Assumptions C106_unique_code.
Example C106_unique_ex : snd (make_default yes yes empty (lit "/tmp")) = true. Proof. reflexivity. Qed.
