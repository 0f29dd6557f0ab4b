(** Proofs about the interactive mode. *)
From Coq Require Import Ascii String List NArith ZArith Lia Bool Arith.
From Verif Require Import Base Model.Params Spec.Params Proofs.Params Model.Serial Proofs.Serial Model.Cmd Spec.Cmd.
Import ListNotations.
Open Scope nat_scope.
Open Scope list_scope.
Set Implicit Arguments.

Section J.
  Variables (I O A B : Type).
  Notation cfg := (cfg I O A B).

  Lemma diamond (x y z : cfg) : step x y -> step x z -> y = z \/ exists u, step y u /\ step z u.
  Proof.
    intros H1 H2. destruct H1; inversion H2; subst; auto; right; eexists; split; try (constructor; fail).
    all: cbn; constructor.
  Qed.
  Lemma strip n (x y f : cfg) : steps n x f -> stuck f -> step x y -> exists n', n = S n' /\ steps n' y f.
  Proof.
    revert x y; induction n as [|n IH]; intros x y H Hf Hy; inversion H as [|n0 x0 x' z0 Hx Hr]; subst.
    - exfalso. eapply Hf; eassumption.
    - exists n; split; [reflexivity|].
      destruct (diamond Hx Hy) as [->|(u & Hu & Hu')]; [assumption|].
      destruct (IH _ _ Hr Hf Hu) as (n' & -> & Hs). econstructor; eassumption.
  Qed.
  Lemma settle n (x f : cfg) : steps n x f -> stuck f -> settles x f.
  Proof.
    intros H Hf. split; [assumption|]. exists n. intros m; revert n x H; induction m as [|m IH]; intros n x H y Hy; inversion Hy as [|n0 x0 x' z0 Hx Hr]; subst.
    - rewrite Nat.sub_0_r. split; [lia|assumption].
    - destruct (strip H Hf Hx) as (n' & -> & H'). destruct (IH _ _ H' _ Hr) as [L S']. split; [lia|exact S'].
  Qed.
  Lemma settles_unique (x f g : cfg) : settles x f -> settles x g -> f = g.
  Proof.
    intros [Sf (n & Hn)] [Sg (m & Hm)].
    destruct (Hn 0 x (here _)) as [_ A1]. rewrite Nat.sub_0_r in A1.
    destruct (Hm _ _ A1) as [_ B1]. destruct (m - n); inversion B1; subst; [reflexivity|].
    exfalso; eapply Sf; eassumption.
  Qed.

  (** one schedule *)
  Definition stepf (x : cfg) : option cfg :=
    let second := match p2 x, to2 x with
                  | Snd i k, _ => Some (mkCfg (p1 x) k (to1 x ++ [i]) (to2 x))
                  | Rcv k, o :: r => Some (mkCfg (p1 x) (k o) (to1 x) r)
                  | _, _ => None
                  end in
    match p1 x, to1 x with
    | Snd o k, _ => Some (mkCfg k (p2 x) (to1 x) (to2 x ++ [o]))
    | Rcv k, i :: q => Some (mkCfg (k i) (p2 x) q (to2 x))
    | _, _ => second
    end.
  Fixpoint runf (n : nat) (x : cfg) : cfg :=
    match n with 0 => x | S n => match stepf x with Some y => runf n y | None => x end end.
  Lemma stepf_step x y : stepf x = Some y -> step x y.
  Proof.
    destruct x as [s c q r]. unfold stepf; cbn.
    destruct s as [a|o k|k| | | |]; [|intros [= <-]; constructor|destruct q as [|i q]; [|intros [= <-]; constructor]| | | |].
    all: destruct c as [a'|o' k'|k'| | | |]; try discriminate.
    all: try (intros [= <-]; constructor).
    all: destruct r; [discriminate|intros [= <-]; constructor].
  Qed.
  Lemma stepf_stuck x : stepf x = None -> stuck x.
  Proof.
    intros H y Hy. destruct Hy; cbn in H; try discriminate.
    all: destruct s; try discriminate; destruct q; discriminate.
  Qed.
  Lemma runf_steps n x : exists m, steps m x (runf n x).
  Proof.
    revert x; induction n as [|n IH]; intros x; cbn; [exists 0; constructor|].
    destruct (stepf x) as [y|] eqn:Ey; [|exists 0; constructor].
    destruct (IH y) as (m & Hm). exists (S m). econstructor; [apply stepf_step; exact Ey|exact Hm].
  Qed.
  Lemma run_settles n x f : runf n x = f -> stepf f = None -> settles x f.
  Proof.
    intros <- Hf. destruct (runf_steps n x) as (m & Hm). eapply settle; [exact Hm|apply stepf_stuck; exact Hf].
  Qed.
  Lemma settles_step x y f : stepf x = Some y -> settles y f -> settles x f.
  Proof.
    intros H [Hf (n & Hn)]. destruct (Hn 0 y (here _)) as [_ A1]. eapply settle; [|exact Hf].
    eapply more; [apply stepf_step; exact H|exact A1].
  Qed.
  Lemma settles_done x : stepf x = None -> settles x x.
  Proof. intros H. eapply settle; [apply here|apply stepf_stuck; exact H]. Qed.
End J.

Section AfterSteps.
  Variables (I O A B A' B' : Type) (f : A -> prog I O A') (g : B -> prog O I B').
  Definition lift (x : cfg I O A B) : cfg I O A' B' := mkCfg (after (p1 x) f) (after (p2 x) g) (to1 x) (to2 x).
  Lemma step_lift x y : step x y -> step (lift x) (lift y).
  Proof. destruct 1; cbn; constructor. Qed.
  Lemma steps_lift n x y : steps n x y -> steps n (lift x) (lift y).
  Proof. induction 1; econstructor; eauto using step_lift. Qed.
End AfterSteps.
Lemma steps_lift2 I O A B B' (g : B -> prog O I B') n (x y : cfg I O A B) : steps n x y ->
  steps n (mkCfg (p1 x) (after (p2 x) g) (to1 x) (to2 x)) (mkCfg (p1 y) (after (p2 y) g) (to1 y) (to2 y)).
Proof. induction 1 as [x|k x y z Hxy _ IH]; [constructor|]. econstructor; [|exact IH]. destruct Hxy; cbn; constructor. Qed.
Lemma steps_trans I O A B n m (x y z : cfg I O A B) : steps n x y -> steps m y z -> steps (n + m) x z.
Proof. induction 1; cbn; [auto|]. intros; econstructor; eauto. Qed.
Lemma settles_steps I O A B (x f : cfg I O A B) : settles x f -> exists n, steps n x f.
Proof. intros [_ (n & H)]. destruct (H 0 x (here _)) as [_ H']. rewrite Nat.sub_0_r in H'. eauto. Qed.
Lemma settles_after I O A B n (x y f : cfg I O A B) : steps n x y -> settles y f -> settles x f.
Proof.
  intros H Hy. destruct (settles_steps Hy) as (m & Hm). eapply settle; [eapply steps_trans; eassumption|apply Hy].
Qed.

Section T.
  Variables (op wf data num rest : Type).
  Variable (E : env op wf data num rest) (dir : str).
  Notation command := (command num). Notation world := (world rest).
  Notation srv w := (serve E dir w).

  Ltac fin := cbn -[lit]; repeat (eapply settles_step; [reflexivity|cbn -[lit]]); unfold dispatch; cbn -[lit].
  Ltac feed := repeat (cbn -[lit];
    match goal with
    | H : ?x = _ |- context [match ?x with _ => _ end] => rewrite H
    | H : ?x = _ |- context [if ?x then _ else _] => rewrite H
    | H : ?x = _ |- context [try ?x _ _] => rewrite H
    | |- settles _ _ => eapply settles_step; [reflexivity|]
    end); cbn -[lit]; apply settles_done.
  Ltac halt := repeat (cbn -[lit]; eapply settles_step; [reflexivity|]); cbn -[lit]; apply settles_done; reflexivity.

  Lemma set_parse s pm : lines_fit s -> parses_to s None (Ok pm) -> exists st, parse (S (S (length s))) empty_c None (stream_of s) = Some (Ok (pm, st)).
  Proof.
    intros Hf Hp. destruct (parse_fit_terminates (length s) s empty_c (le_n _) Hf) as (r & Hr).
    replace (length s + 2) with (S (S (length s))) in Hr by lia. unfold parse. change (clear_c empty_c) with empty_c. rewrite Hr.
    assert (P : parses_to s None (match r with Ok (c, _) => Ok c | Throw => Throw | UB => UB end)).
    { exists (S (S (length s))), r. split; [exact Hr|]. destruct r as [[? ?]| |]; auto. }
    pose proof (parses_to_det _ _ _ _ P Hp) as Q. destruct r as [[c st]| |]; try discriminate. injection Q as ->. eauto.
  Qed.

  Lemma success w c ds a w' : succeeds E dir w c ds a w' ->
    settles (mkCfg (srv w) (talk c ds) [] []) (mkCfg (Ret (w', false)) (Ret a) [] []).
  Proof.
    intros H. destruct H as [x w' Hc Hx He|n f d w1 w' Hc Hn He1 He2|n d f w1 w' Hc Hn He1 He2|n m o w1 w2 d w' Hc Hn Hm He1 Hs He2 He3
      |n o w1 d w2 w' Hc Hn Hm He1 He2 He3|n m o w1 d w2 w' Hc Hn Hm Hl (nm & He1 & Hnm) Hs He2 He3|w' Hc He|x o w' Hc Hx He|x t n k u w1 w' Hc Hx Ht Hn Hk He1 He2
      |o w1 d f w2 w3 v w' Hc Hf Hd Ha He|o w1 d f w2 w3 g w4 r w' Hc Ht Hf Hd Ha He1 He2|o w1 t k n d f w2 w3 g w4 r w' Hc Ht Hf Hn Hk Hr Hd Ha He1 He2|Hc|s pm Hc Hs Hl Hp].
    - fin; rewrite Hc. unfold cmd_run_prog, report, try. feed. reflexivity.
    - fin; rewrite Hc. unfold cmd_read_wf, put_wf, report, try. feed. reflexivity.
    - fin; rewrite Hc. unfold cmd_write_wf, get_wf, report, try. unfold gzip in He2. feed. reflexivity.
    - fin; rewrite Hc. unfold cmd_read_op, call, report, try. feed. reflexivity.
    - fin; rewrite Hc. unfold cmd_write_op, call, report, try. unfold gzip in He3. rewrite Hn, Hm, str_eqb_refl. feed. reflexivity.
    - fin; rewrite Hc. unfold cmd_write_op, call, report, try. unfold gzip in He3. rewrite Hn, Hm.
      apply str_eqb_false in Hl. rewrite Hl. destruct Hnm as [(t & -> & ->)|(ch & t & -> & Hch & ->)].
      + feed. reflexivity.
      + apply Ascii.eqb_neq in Hch. rewrite Hch. feed. reflexivity.
    - fin; rewrite Hc. unfold cmd_clear_objects, call, try. feed. reflexivity.
    - fin; rewrite Hc. unfold cmd_load_op, get_operator, try. feed. reflexivity.
    - fin; rewrite Hc. unfold cmd_load_U, report, try. feed. reflexivity.
    - fin; rewrite Hc. unfold cmd_get_expec, get_operator, get_wf, call, try. destruct Hf as [x o w1 Hx Hf|s o w1 Hx Hs Hf]; destruct Ha as [wa wb Ha1 Ha2|wa wb wc Ha1 Ha2 Ha3]; feed; reflexivity.
    - fin; rewrite Hc. unfold cmd_apply_op, get_operator, get_wf, put_wf, report, try. destruct Hf as [x o w1 Hx Hf|s o w1 Hx Hs Hf]; destruct Ha as [wa wb Ha1 Ha2|wa wb wc Ha1 Ha2 Ha3]; feed; reflexivity.
    - assert (B : ((k <? 0) || (k >? n))%Z = false) by lia.
      fin; rewrite Hc. unfold cmd_apply_op, get_operator, get_wf, put_wf, report, try. destruct Hf as [x o w1 Hx Hf|s o w1 Hx Hs Hf]; destruct Ha as [wa wb Ha1 Ha2|wa wb wc Ha1 Ha2 Ha3]; feed; reflexivity.
    - fin; rewrite Hc. halt.
    - destruct (set_parse Hl Hp) as (st & Hst). fin; rewrite Hc. unfold cmd_set_global_params. rewrite Hs, Hst. halt.
  Qed.

  Lemma failure w c ds m k : fails E dir w c ds m k ->
    settles (mkCfg (srv w) (talk c ds) [] [])
            (mkCfg (match k with Some w' => Ret (w', false) | None => Raise end) (Ret (answer_err data num m)) [] []).
  Proof.
    intros H. destruct H as [Hc Hx|x m w' Hc Hx He|Hc Hn|n f m w1 w2 Hc Hn He1 He2|d Hc Hn|d n m w' Hc Hn He|d n f w1 m w' Hc Hn He1 He2|Hc Hn|n Hc Hn Hm|n m o w1 e w2 Hc Hn Hm He1 Hs He2
      |d Hc Hn|d n Hc Hn Hm|x t n m w' Hc Hx Ht Hn He|x t n w' Hc Hx Ht Hn He|o w1 t d Hc Ht Hf Hk|o w1 t k n d Hc Ht Hf Hn Hk Hr|o w1 d f w2 w3 Hc Ht Hf Hd Ha|o w1 d f w2 w3 m w4 Hc Ht Hf Hd Ha He|o w1 d f w2 w3 Hc Hf Hd Ha].
    all: fin; rewrite Hc.
    - unfold cmd_run_prog. feed. reflexivity.
    - unfold cmd_run_prog, report, try. feed. reflexivity.
    - unfold cmd_read_wf. feed. reflexivity.
    - unfold cmd_read_wf, put_wf, report, try. feed. reflexivity.
    - unfold cmd_write_wf. feed. reflexivity.
    - unfold cmd_write_wf, get_wf, try. feed. reflexivity.
    - unfold cmd_write_wf, get_wf, report, try. unfold gzip in He2. feed. reflexivity.
    - unfold cmd_read_op. feed. reflexivity.
    - unfold cmd_read_op. feed. reflexivity.
    - unfold cmd_read_op, call, report, try. feed. reflexivity.
    - unfold cmd_write_op. feed. reflexivity.
    - unfold cmd_write_op. feed. reflexivity.
    - unfold cmd_load_U, report, try. feed. reflexivity.
    - unfold cmd_load_U, report, try. feed. reflexivity.
    - unfold cmd_apply_op, get_operator, try. destruct Hf as [x o w1 Hx Hf|s o w1 Hx Hs Hf]; feed; reflexivity.
    - assert (B : ((k <? 0) || (k >? n))%Z = true) by lia.
      unfold cmd_apply_op, get_operator, try. destruct Hf as [x o w1 Hx Hf|s o w1 Hx Hs Hf]; feed; reflexivity.
    - unfold cmd_apply_op, get_operator, get_wf, report, try. destruct Hf as [x o w1 Hx Hf|s o w1 Hx Hs Hf]; destruct Ha as [wa wb Ha1 Ha2|wa wb wc Ha1 Ha2 Ha3]; feed; reflexivity.
    - unfold cmd_apply_op, get_operator, get_wf, report, try. destruct Hf as [x o w1 Hx Hf|s o w1 Hx Hs Hf]; destruct Ha as [wa wb Ha1 Ha2|wa wb wc Ha1 Ha2 Ha3]; feed; reflexivity.
    - unfold cmd_get_expec, get_operator, get_wf, try. destruct Hf as [x o w1 Hx Hf|s o w1 Hx Hs Hf]; destruct Ha as [wa wb Ha1 Ha2|wa wb wc Ha1 Ha2 Ha3]; feed; reflexivity.
  Qed.

  (** an operator that is read is sent without a response in front of it, a wave function is not *)
  Lemma streamed w c d w' : succeeds E dir w c [] (A_stream _ d) w' ->
    (c_code c = READ_WF -> settles (mkCfg (srv w) (blurt c [] 2) [] []) (mkCfg (Ret (w', false)) (Ret [A_resp _ (mkResp (Some R_OK) None [] (Some true)); A_stream num d]) [] [])) /\
    (c_code c = READ_OP -> settles (mkCfg (srv w) (blurt c [] 1) [] []) (mkCfg (Ret (w', false)) (Ret [A_stream num d]) [] [])).
  Proof.
    intros H. split; intros Hc; inversion H; subst; try congruence; fin; rewrite Hc.
    - unfold cmd_read_wf, put_wf, report, try. feed. reflexivity.
    - unfold cmd_read_op, call, report, try. feed. reflexivity.
  Qed.
  Lemma no_command w :
    settles (mkCfg (srv w) (Snd (MJunk data num) (Ret tt)) [] []) (mkCfg Raise (Ret tt) [] []) /\
    forall d, settles (mkCfg (srv w) (Snd (MData num d) (Ret tt)) [] []) (mkCfg Lost (Ret tt) [] []).
  Proof. split; [|intros d]; halt. Qed.

  Lemma found c w o w1 k : finds E c w o w1 -> get_operator E c w k = k (Some o) w1.
  Proof. unfold get_operator, try. intros [x o' w1' Hx Hf|s o' w1' Hx Hs Hf]; rewrite ?Hx, ?Hs, Hf; reflexivity. Qed.
  Lemma try_good A (x : res rest A) a w (k : A -> world -> server data num rest) h : x = Good a w -> try x k h = k a w.
  Proof. intros ->; reflexivity. Qed.

  (** *** sessions *)
  Lemma succeeds_not_quit w c ds a w' : succeeds E dir w c ds a w' -> c_code c <> QUIT.
  Proof. destruct 1; congruence. Qed.
  Lemma session_runs w l al w' n : all_succeed E dir w l al w' -> length l < n ->
    settles (mkCfg (interactive E n dir w) (session l) [] []) (mkCfg (Ret (w', true)) (Ret al) [] []).
  Proof.
    intros H; revert n; induction H as [w|w c ds a w1 l al w' Hs Hl IH]; intros n Hn.
    - destruct n as [|n]; [cbn in Hn; lia|]. halt.
    - destruct n as [|n]; [cbn in Hn; lia|]. cbn [interactive session].
      destruct (settles_steps (success Hs)) as (k & Hk).
      pose proof (steps_lift (fun r : world * bool => if snd r then Ret r else interactive E n dir (fst r))
                    (fun a => after (session l) (fun al => Ret (a :: al))) Hk) as Hk'.
      unfold lift in Hk'. cbn -[interactive session serve] in Hk'.
      eapply settles_after; [exact Hk'|].
      assert (Ln : length l < n) by (cbn in Hn; lia).
      destruct (settles_steps (IH n Ln)) as (k2 & Hk2).
      apply (steps_lift2 (fun al => Ret (a :: al))) in Hk2. cbn -[interactive session] in Hk2.
      eapply settle; [exact Hk2|]. intros y Hy. inversion Hy.
  Qed.

  (** *** violations *)
  Ltac miss H := destruct H as [x m w' Hx Hm|x w' Hx Hm|s m w' Hx Hs Hm|s w' Hx Hs Hm|Hx Hs].

  (** LOAD_OP: the error is followed by an OK *)
  Lemma load_op_failed w c m w' : c_code c = LOAD_OP -> c_xml c <> None -> misses E c w m w' ->
    settles (mkCfg (srv w) (talk c []) [] []) (mkCfg (Ret (w', false)) (Ret (answer_err data num m)) [] [MResp _ (ok_resp false)]).
  Proof.
    intros Hc Hn H. fin; rewrite Hc. unfold cmd_load_op, get_operator, try. miss H; try congruence; feed; reflexivity.
  Qed.
  (** any answer left over from before is taken for the answer to the next command without data *)
  Lemma stale_answer w c r : is_error r = true \/ r_follows r <> Some true -> exists k n, steps n (mkCfg (srv w) (talk c []) [] [MResp _ r])
    (mkCfg k (Ret (A_resp data r)) [] []).
  Proof.
    intros Hr. exists (after (dispatch E dir c w) (fun w => Ret (w, match c_code c with QUIT => true | _ => false end))), 3.
    eapply more; [apply snd2|]. eapply more; [apply rcv1|]. eapply more; [apply rcv2|]. cbn.
    destruct (is_error r) eqn:Er; [constructor|]. destruct Hr as [Hr|Hr]; [congruence|].
    destruct (r_follows r) as [[|]|]; try congruence; constructor.
  Qed.
  (** an operator that is not found: the client stops after the error, the server waits for data that will not come *)
  Lemma expec_missing w c d m w' : c_code c = GET_EXPEC -> misses E c w m w' ->
    exists k, settles (mkCfg (srv w) (talk c [d]) [] []) (mkCfg (Rcv k) (Ret (answer_err data num m)) [] [MResp _ (ok_resp false)]).
  Proof.
    intros Hc H. eexists. fin; rewrite Hc. unfold cmd_get_expec, get_operator, get_wf, try. miss H; feed; reflexivity.
  Qed.
  Lemma apply_missing w c d m w' : c_code c = APPLY_OP -> c_d1 c = None -> misses E c w m w' ->
    exists k, settles (mkCfg (srv w) (talk c [d]) [] []) (mkCfg (Rcv k) (Ret (answer_err data num m)) [] [MResp _ (ok_resp true)]).
  Proof.
    intros Hc Hd H. eexists. fin; rewrite Hc. unfold cmd_apply_op, get_operator, get_wf, try. miss H; feed; reflexivity.
  Qed.
  (** and when data does come, the null pointer is used *)
  Lemma expec_null w c d m w' : c_code c = GET_EXPEC -> misses E c w m w' -> e_decode E d w' <> Bad ->
    exists q, settles (mkCfg (srv w) (blurt c [d] 0) [] []) (mkCfg Crash (Ret []) [] q).
  Proof.
    intros Hc H Hd.
    destruct (e_decode E d w') as [f w2|em w2|] eqn:Ed; [| |congruence]; eexists; fin; rewrite Hc; unfold cmd_get_expec, get_operator, get_wf, try; miss H; feed; reflexivity.
  Qed.
  Lemma apply_null w c d m w' : c_code c = APPLY_OP -> misses E c w m w' -> e_decode E d w' <> Bad ->
    exists i q, settles (mkCfg (srv w) (blurt c [d] 0) [] []) (mkCfg Crash (Ret []) i q).
  Proof.
    intros Hc H Hd.
    destruct (c_d1 c) eqn:Ec.
    - eexists _, _; fin; rewrite Hc; unfold cmd_apply_op, get_operator, get_wf, try; miss H; feed; reflexivity.
    - destruct (e_decode E d w') as [f w2|em w2|] eqn:Ed; [| |congruence]; eexists _, _; fin; rewrite Hc; unfold cmd_apply_op, get_operator, get_wf, try; miss H; feed; reflexivity.
  Qed.
  (** a wave function file that can not be read *)
  Lemma read_wf_crash w c n m w' : c_code c = READ_WF -> c_s1 c = Some n -> e_load E n w = Err m w' ->
    settles (mkCfg (srv w) (talk c []) [] []) (mkCfg Crash (Ret (answer_err data num m)) [] []).
  Proof. intros Hc Hn He. fin; rewrite Hc. unfold cmd_read_wf, put_wf, try. feed. reflexivity. Qed.
  (** commands that end the server without any answer *)
  Lemma read_op_silent w c n m e w' : c_code c = READ_OP -> c_s1 c = Some n -> c_s2 c = Some m -> e_module E m w = Err e w' ->
    exists k, settles (mkCfg (srv w) (talk c []) [] []) (mkCfg Raise (Rcv k) [] []).
  Proof. intros Hc Hn Hm He. eexists. fin; rewrite Hc. unfold cmd_read_op, call, try. feed. reflexivity. Qed.
  Lemma write_op_silent w c d n m : c_code c = WRITE_OP -> c_s1 c = Some n -> c_s2 c = Some m -> m <> lit "Laser" ->
    (forall nm, exists e w', e_module E nm w = Err e w') ->
    exists k, settles (mkCfg (srv w) (talk c [d]) [] []) (mkCfg Raise (Rcv k) [] []).
  Proof.
    intros Hc Hn Hm Hl He. apply str_eqb_false in Hl. eexists. fin; rewrite Hc. unfold cmd_write_op, call, try. rewrite Hn, Hm, Hl.
    destruct m as [|ch t]; [halt|].
    destruct (He (if (ch =? "O")%char then t else ch :: t)) as (e & w' & He'). rewrite He'. halt.
  Qed.
  Lemma delete_silent w c ds : c_code c = DELETE_OP ->
    exists k, settles (mkCfg (srv w) (talk c ds) [] []) (mkCfg Raise (Rcv k) [] []).
  Proof. intros Hc. eexists. fin; rewrite Hc. halt. Qed.
  Lemma set_silent w c s : c_code c = SET_GLOBAL_PARAMS -> c_s1 c = Some s -> parses_to s None Throw -> lines_fit s ->
    exists k, settles (mkCfg (srv w) (talk c []) [] []) (mkCfg Raise (Rcv k) [] []).
  Proof.
    intros Hc Hs Hp Hf. destruct (parse_fit_terminates (length s) s empty_c (le_n _) Hf) as (r & Hr).
    replace (length s + 2) with (S (S (length s))) in Hr by lia.
    assert (P : parses_to s None (match r with Ok (c, _) => Ok c | Throw => Throw | UB => UB end)).
    { exists (S (S (length s))), r. split; [exact Hr|]. destruct r as [[? ?]| |]; auto. }
    pose proof (parses_to_det _ _ _ _ P Hp) as Q. destruct r as [[? ?]| |]; try discriminate.
    eexists. fin; rewrite Hc. unfold cmd_set_global_params, parse. change (clear_c empty_c) with empty_c. rewrite Hs, Hr. halt.
  Qed.
  (** a line that is too long *)
  Lemma set_hangs w c s : c_code c = SET_GLOBAL_PARAMS -> c_s1 c = Some s -> ~ parse_terminates s ->
    exists k, settles (mkCfg (srv w) (talk c []) [] []) (mkCfg Hang (Rcv k) [] []).
  Proof.
    intros Hc Hs Hp. eexists. fin; rewrite Hc. unfold cmd_set_global_params. rewrite Hs.
    destruct (parse (S (S (length s))) empty_c None (stream_of s)) as [o|] eqn:Ep; [|halt].
    exfalso. apply Hp. eapply parses_of_loop; exact Ep.
  Qed.
  (** SET_GLOBAL_PARAMS without parameters: error, then OK *)
  Lemma set_missing w c : c_code c = SET_GLOBAL_PARAMS -> c_s1 c = None ->
    settles (mkCfg (srv w) (talk c []) [] [])
      (mkCfg (Ret (w, false)) (Ret (answer_err data num (lit "SET_GLOBAL_PARAMS is missing key/values"))) [] [MResp _ (ok_resp false)]).
  Proof.
    intros Hc Hs. fin; rewrite Hc. unfold cmd_set_global_params. rewrite Hs. cbn -[lit].
    destruct w as [[pa ty] re]. halt.
  Qed.
  (** GET_MATEL: both sides wait for each other *)
  Lemma matel_deadlock w c d d' o w' : c_code c = GET_MATEL -> finds E c w o w' ->
    exists k k', settles (mkCfg (srv w) (talk c [d; d']) [] []) (mkCfg (Rcv k) (Rcv k') [] []).
  Proof.
    intros Hc Hf. eexists _, _. fin; rewrite Hc. unfold cmd_get_matel, get_operator, get_wf, try.
    destruct Hf as [x o w1 Hx Hf|s o w1 Hx Hs Hf]; feed; reflexivity.
  Qed.
  (** it works for a client that sends the data at once *)
  Lemma matel_blurt w c d d' o w1 f w2 g w3 w4 w5 a b w' : c_code c = GET_MATEL -> finds E c w o w1 ->
    e_decode E d w1 = Good f w2 -> e_decode E d' w2 = Good g w3 -> accepts E o f w3 w4 -> e_valid E o (Some g) w4 = Good true w5 ->
    e_matel E o (Some f) (Some g) w5 = Good (a, b) w' ->
    settles (mkCfg (srv w) (blurt c [d; d'] 1) [] [])
      (mkCfg (Ret (w', false)) (Ret [A_resp _ (mkResp (Some R_OK) None [a; b] None)]) [] []).
  Proof.
    intros Hc Hf Hd Hd' Ha Hv He.
    eapply (@settle _ _ _ _ (3 + (3 + 2))); [|intros y Hy; inversion Hy].
    apply steps_trans with (y := mkCfg (srv w) (collect data num 1) [MCmd data c; MData num d; MData num d'] []).
    { repeat (eapply more; [apply snd2|]). apply here. }
    apply steps_trans with (y := mkCfg (Snd (MResp data (mkResp (Some R_OK) None [a; b] None)) (Ret (w', false))) (collect data num 1) [] []).
    - eapply more; [apply rcv1|]. unfold dispatch. rewrite Hc. unfold cmd_get_matel. rewrite (found _ Hf).
      unfold get_wf at 1. cbn [after]. eapply more; [apply rcv1|]. unfold try at 1. rewrite Hd.
      unfold get_wf at 1. cbn [after]. eapply more; [apply rcv1|]. unfold try at 1. rewrite Hd'.
      unfold report, try at 1.
      destruct Ha as [wa wb Ha1 Ha2|wa wb wc Ha1 Ha2 Ha3]; rewrite Ha1; [|rewrite (try_good _ _ Ha2)].
      + rewrite (try_good _ _ Ha2), (try_good _ _ Hv). unfold call. rewrite (try_good _ _ He). apply here.
      + rewrite (try_good _ _ Ha3), (try_good _ _ Hv). unfold call. rewrite (try_good _ _ He). apply here.
    - eapply more; [apply snd1|]. eapply more; [apply rcv2|]. apply here.
  Qed.

  (** *** required fields *)
  Definition wf_msg (m : s2c data num) : Prop := match m with MResp _ r => well_formed r | MStream _ _ => True end.
  Fixpoint all_wf {A} (p : prog (c2s data num) (s2c data num) A) : Prop :=
    match p with Snd o k => wf_msg o /\ all_wf k | Rcv k => forall i, all_wf (k i) | _ => True end.
  Lemma all_wf_sends A (p : prog (c2s data num) (s2c data num) A) m : all_wf p -> sends p m -> wf_msg m.
  Proof. intros H Hs; induction Hs; cbn in H; intuition. Qed.
  Lemma wf_ok b k : all_wf k -> all_wf (ok b k : server data num rest).
  Proof. cbn; intros; repeat split; auto; discriminate. Qed.
  Lemma wf_err m k : all_wf k -> all_wf (err m k : server data num rest).
  Proof. cbn; intros; repeat split; auto; discriminate. Qed.
  Lemma wf_try A (x : res rest A) k h : (forall a w, all_wf (k a w)) -> (forall m w, all_wf (h m w)) -> all_wf (try x k h : server data num rest).
  Proof. intros; destruct x; cbn; auto. Qed.
  Lemma wf_report A (x : res rest A) k : (forall a w, all_wf (k a w)) -> all_wf (report x k : server data num rest).
  Proof. intros; apply wf_try; [assumption|]. intros; apply wf_err; exact Logic.I. Qed.
  Lemma wf_call A (x : res rest A) k : (forall a w, all_wf (k a w)) -> all_wf (call x k : server data num rest).
  Proof. intros; apply wf_try; [assumption|]. intros; exact Logic.I. Qed.
  Lemma wf_get_operator c w k : (forall o w, all_wf (k o w)) -> all_wf (get_operator E c w k).
  Proof.
    intros H. unfold get_operator. destruct (c_xml c); [|destruct (c_s1 c)]; try apply wf_try; try (intros [o|] w'; [apply H|]); intros; apply wf_err; apply H.
  Qed.
  Lemma wf_get_wf w k : (forall f w, all_wf (k f w)) -> all_wf (get_wf E w k).
  Proof. intros H [c|d|]; try exact Logic.I. apply wf_try; intros; [apply H|apply wf_err, H]. Qed.
  Lemma wf_put_wf f w k : (forall w, all_wf (k w)) -> all_wf (put_wf E f w k).
  Proof. intros H. destruct f; [|exact Logic.I]. apply wf_report. intros d w'. split; [exact Logic.I|apply H]. Qed.

  Ltac wfm := repeat first
    [ progress intros | progress (cbv beta zeta)
    | match goal with
      | |- all_wf (match ?x with _ => _ end) => destruct x
      | |- all_wf (if ?x then _ else _) => destruct x
      | |- all_wf (ok _ _) => apply wf_ok
      | |- all_wf (err _ _) => apply wf_err
      | |- all_wf (report _ _) => apply wf_report
      | |- all_wf (call _ _) => apply wf_call
      | |- all_wf (get_operator _ _ _ _) => apply wf_get_operator
      | |- all_wf (get_wf _ _ _) => apply wf_get_wf
      | |- all_wf (put_wf _ _ _ _) => apply wf_put_wf
      | |- all_wf (Ret _) => exact Logic.I
      | |- all_wf Raise => exact Logic.I
      | |- all_wf Crash => exact Logic.I
      | |- all_wf Lost => exact Logic.I
      | |- all_wf Hang => exact Logic.I
      | |- all_wf (Snd _ _) => split
      | |- all_wf (Rcv _) => intro
      | |- wf_msg (MStream _ _) => exact Logic.I
      end ].
  Lemma required c w m : ~ In (c_code c) [GET_GLOBAL_PARAMS; GET_EXPEC; GET_MATEL] -> sends (dispatch E dir c w) (MResp _ m) -> well_formed m.
  Proof.
    intros Hc Hs. apply (all_wf_sends (p := dispatch E dir c w)) in Hs; [exact Hs|]. clear Hs.
    unfold dispatch. destruct (c_code c); try (exfalso; apply Hc; cbn; tauto); clear Hc.
    - exact Logic.I.
    - unfold cmd_set_global_params. wfm.
    - unfold cmd_clear_objects. wfm.
    - unfold cmd_run_prog. wfm.
    - unfold cmd_read_wf. destruct (c_s1 c); [|wfm]. apply wf_ok. apply wf_try; wfm.
    - unfold cmd_write_wf. wfm.
    - unfold cmd_read_op. wfm.
    - unfold cmd_write_op. wfm.
    - unfold cmd_load_op. wfm.
    - unfold cmd_load_U. wfm.
    - exact Logic.I.
    - unfold cmd_apply_op. wfm.
  Qed.

  (** *** the scripts *)
  Lemma m_xml_ok w x w' : e_run E x dir w = Good tt w' ->
    settles (mkCfg (srv w) (qd_cmd_xml data num x) [] []) (mkCfg (Ret (w', false)) (Ret tt) [] []).
  Proof. intros He. fin. unfold cmd_run_prog, report, try. feed. reflexivity. Qed.
  Lemma m_xml_err w x m w' : e_run E x dir w = Err m w' ->
    settles (mkCfg (srv w) (qd_cmd_xml data num x) [] []) (mkCfg Raise Raise [] []).
  Proof. intros He. fin. unfold cmd_run_prog, report, try. feed. reflexivity. Qed.
  Lemma m_load_ok w x o w' : e_chain E x w = Good (Some o) w' ->
    settles (mkCfg (srv w) (qd_cmd_load_op data num x) [] []) (mkCfg (Ret (w', false)) (Ret tt) [] []).
  Proof. intros He. fin. unfold cmd_load_op, get_operator, try. feed. reflexivity. Qed.
  Lemma m_clear_ok w w' : e_clear E w = Good tt w' ->
    settles (mkCfg (srv w) (qd_cmd_clear_objects data num) [] []) (mkCfg (Ret (w', false)) (Ret tt) [] []).
  Proof. intros He. fin. unfold cmd_clear_objects, call, try. feed. reflexivity. Qed.
  Lemma m_expec_ok w x d o w1 f w2 w3 v w' : (if is_xml x then e_chain E x w else e_ref E x w) = Good (Some o) w1 ->
    e_decode E d w1 = Good f w2 -> accepts E o f w2 w3 -> e_expec E o (Some f) w3 = Good v w' ->
    settles (mkCfg (srv w) (qd_cmd_expec num x d) [] []) (mkCfg (Ret (w', false)) (Ret [v]) [] []).
  Proof.
    intros Ho Hd Ha He. unfold qd_cmd_expec. destruct (is_xml x); fin; unfold cmd_get_expec, get_operator, get_wf, call, try;
      destruct Ha as [wa wb Ha1 Ha2|wa wb wc Ha1 Ha2 Ha3]; feed; reflexivity.
  Qed.
  Lemma m_quit w : exists k, settles (mkCfg (srv w) (qd_cmd_quit data num) [] []) (mkCfg (Ret (w, true)) (Rcv k) [] []).
  Proof. eexists. fin. halt. Qed.
  Lemma m_get w : exists k, settles (mkCfg (srv w) (qd_get_global_params data num) [] []) (mkCfg (Ret (w, false)) (Rcv k) [] []).
  Proof. eexists. fin. halt. Qed.
  Lemma m_set w kv : settles (mkCfg (srv w) (qd_set_global_params data num kv) [] []) (mkCfg (Ret (w, false)) Raise [] [MResp _ (ok_resp false)]).
  Proof. fin. destruct w as [[pa ty] re]. halt. Qed.
  Lemma m_matel_xml w x d d' o w' : is_xml x = true -> e_chain E x w = Good (Some o) w' ->
    exists k k', settles (mkCfg (srv w) (qd_cmd_matel num x d d') [] []) (mkCfg (Rcv k) (Rcv k') [] []).
  Proof. intros Hx He. unfold qd_cmd_matel. rewrite Hx. eexists _, _. fin. unfold cmd_get_matel, get_operator, get_wf, try. feed. reflexivity. Qed.
  Lemma m_matel_ref w x d d' : is_xml x = false ->
    exists k, settles (mkCfg (srv w) (qd_cmd_matel num x d d') [] []) (mkCfg (Rcv k) Raise [] []).
  Proof. intros Hx. unfold qd_cmd_matel. rewrite Hx. eexists. fin. unfold cmd_get_matel, get_operator, get_wf, try. feed. reflexivity. Qed.
  Lemma m_apply w x d : (is_xml x = true -> e_chain E x w <> Bad) ->
    exists k q, settles (mkCfg (srv w) (qd_cmd_apply_op num x d) [] []) (mkCfg (Rcv k) Raise [] q).
  Proof.
    intros Hx. unfold qd_cmd_apply_op. destruct (is_xml x).
    - destruct (e_chain E x w) as [[o|] w1|m w1|] eqn:He; [| | |exfalso; apply Hx; reflexivity];
        eexists _, _; fin; unfold cmd_apply_op, get_operator, get_wf, try; feed; reflexivity.
    - eexists _, _; fin; unfold cmd_apply_op, get_operator, get_wf, try; feed; reflexivity.
  Qed.
End T.

(** *** frames *)
Lemma frame_head n (l : list byte) : (0 <= n < 2 ^ 32)%Z -> firstn 4 (le 4 n ++ l) = le 4 n /\ skipn 4 (le 4 n ++ l) = l.
Proof. intros _. split; reflexivity. Qed.
Lemma frame_roundtrip C (dec : list byte -> option C) body c rest : (Z.of_nat (length body) < 2 ^ 32)%Z -> dec body = Some c ->
  read_frame dec (write_frame body ++ rest) = Ok (c, rest).
Proof.
  intros Hl Hd. unfold read_frame, write_frame. rewrite Z.mod_small by lia. rewrite <- app_assoc.
  destruct (@frame_head (Z.of_nat (length body)) (body ++ rest)) as [-> ->]; [lia|].
  rewrite !app_length, le_length. destruct (Nat.ltb_spec (4 + (length body + length rest)) 4); [lia|].
  rewrite unle_le by (cbn; lia). rewrite Nat2Z.id. destruct (Nat.ltb_spec (length body + length rest) (length body)); [lia|].
  rewrite firstn_app, Nat.sub_diag, firstn_all. cbn [firstn]. rewrite app_nil_r, Hd.
  rewrite skipn_app, Nat.sub_diag, skipn_all. reflexivity.
Qed.
Lemma frame_truncated C (dec : list byte -> option C) body k : (Z.of_nat (length body) < 2 ^ 32)%Z -> k < 4 + length body ->
  read_frame dec (firstn k (write_frame body)) = UB.
Proof.
  intros Hl Hk. unfold read_frame, write_frame. rewrite Z.mod_small by lia.
  rewrite firstn_length, app_length, le_length. destruct (Nat.ltb_spec (Nat.min k (4 + length body)) 4); [reflexivity|].
  rewrite firstn_firstn, Nat.min_l by lia.
  destruct (@frame_head (Z.of_nat (length body)) body) as [-> _]; [lia|].
  rewrite unle_le by (cbn; lia). rewrite Nat2Z.id. rewrite skipn_length, firstn_length, app_length, le_length.
  destruct (Nat.ltb_spec (Nat.min k (4 + length body) - 4) (length body)); [reflexivity|lia].
Qed.
