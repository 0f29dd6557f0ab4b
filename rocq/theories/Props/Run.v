(** Property C67: running an input document. *)
From Coq Require Import Ascii String List NArith ZArith Lia Bool Arith.
From Verif Require Import Base Model.Params Spec.Params Proofs.Params Model.Run Spec.Run Proofs.Run.
Import ListNotations.

(** * What is run, in which order, with which parameters *)
(** The plan of a document says what its elements ask for, in their order, up to the first element that asks for nothing.  Running the document carries
    out the plan: each action once, stopping at the first that fails, with an exception at the end if the plan is not complete; the actions see the global
    parameters with the attributes of the root and the directory. *)
Theorem C67_order : forall W act dir0 root attrs l after s dir acts ok,
  document root attrs l -> NoDup (map fst attrs) -> elements after = [] -> l <> [] -> directory (asked dir0 attrs (s_gp s)) dir -> plan dir l acts ok ->
  exists gp', params_with attrs (s_gp s) (asked dir0 attrs (s_gp s)) dir gp' /\ run_xml W act dir0 root after s = carry_out W act acts ok (mkS gp' (s_world s)).
Proof. exact run_doc. Qed.
Print Assumptions C67_order.
(** Each list of elements has a plan, only one, and each document is covered. *)
Theorem C67_plan_total : forall dir l, exists acts ok, plan dir l acts ok.
Proof. exact plan_total. Qed.
Print Assumptions C67_plan_total.
Theorem C67_plan_unique : forall dir l acts acts' ok ok', Forall (fun e => is_element e = true) l -> l <> [] -> plan dir l acts ok -> plan dir l acts' ok' -> acts = acts' /\ ok = ok'.
Proof. exact plan_unique. Qed.
Print Assumptions C67_plan_unique.
Theorem C67_document_total : forall n a c, exists l at', document (Element n a c) at' l /\ (NoDup (map fst a) -> NoDup (map fst at')).
Proof. exact document_total. Qed.
Print Assumptions C67_document_total.
Theorem C67_directory_total : forall o, o <> Some [] -> exists dir, directory o dir.
Proof. exact directory_total. Qed.
Print Assumptions C67_directory_total.

(** a state that records the actions; programs of the name "eigen" fail *)
Definition ex_act (a : action) (s : state (list action)) : res (list action) :=
  match a with Run Eigen _ _ => Failed s | _ => Done (mkS (s_gp s) (s_world s ++ [a])) end.
Definition e (n : string) (c : list xml) : xml := Element (lit n) [] c.
Definition ex_doc (progs : list xml) : xml :=
  Element (lit "qdng") [(lit "dir", lit "/out"); (lit "units", lit "eV")] ([Other; e "opdefs" [Other; e "opdef" []; e "udef" []]; Other; e "wfdefs" [e "wfdef" []]] ++ progs).
(** A complete document, one with a failing program and one with an unknown program. *)
Example C67_order_ex : exists gp gp2 gp3,
  run_xml _ ex_act [] (ex_doc [e "propa" []; Other; e "filter" []]) [Other] (mkS empty_c []) =
    Done (mkS gp [LoadOperator (e "opdef" []); LoadPropagator (e "udef" []); LoadWave (e "wfdef" []); Run Propa (lit "/out/") (e "propa" []); Run Filter (lit "/out/") (e "filter" [])]) /\
  get_value gp (lit "dir") = Some (lit "/out/") /\ get_value gp (lit "units") = Some (lit "eV") /\
  run_xml _ ex_act (lit "/cmd/") (ex_doc [e "propa" []; e "eigen" []; e "filter" []]) [Other] (mkS empty_c []) =
    Failed (mkS gp2 [LoadOperator (e "opdef" []); LoadPropagator (e "udef" []); LoadWave (e "wfdef" []); Run Propa (lit "/cmd/") (e "propa" [])]) /\
  run_xml _ ex_act [] (ex_doc [e "propa" []; e "densmat" []; e "filter" []]) [Other] (mkS empty_c []) =
    Failed (mkS gp3 [LoadOperator (e "opdef" []); LoadPropagator (e "udef" []); LoadWave (e "wfdef" []); Run Propa (lit "/out/") (e "propa" [])]).
Proof. do 3 eexists. repeat split; vm_compute; reflexivity. Qed.
(** a single program as root, and its plan *)
Example C67_single_ex : run_xml _ ex_act (lit "d") (e "propa" [Other]) [Other] (mkS empty_c []) = Done (mkS (set_value empty_c (lit "dir") (lit "d/") t_string) [Run Propa (lit "d/") (e "propa" [Other])]) /\
  document (e "propa" [Other]) [] [e "propa" [Other]] /\ directory (asked (lit "d") [] empty_c) (lit "d/") /\ plan (lit "d/") [e "propa" [Other]] [Run Propa (lit "d/") (e "propa" [Other])] true.
Proof.
  split; [vm_compute; reflexivity|]. split; [apply doc_single; discriminate|]. split; [apply dir_add; [discriminate|]|].
  - intros [|a [|b p]]; discriminate.
  - apply (plan_doc (lit "d/") [] [] [] [] [e "propa" [Other]] [Run Propa (lit "d/") (e "propa" [Other])]); [constructor|constructor|constructor; [|constructor]]. apply p_propa. do 2 eexists. reflexivity.
Qed.
(** Definitions behind the first program are not accepted. *)
Theorem C67_late_defs_code : forall dir p lp q r s, Forall2 (program dir) p lp -> p <> [] -> s = "opdefs"%string \/ s = "wfdefs"%string -> named s q -> plan dir (p ++ q :: r) lp false.
Proof.
  intros dir p lp q r s F N S Q. apply (plan_bad_prog dir [] [] [] [] p lp q r); [constructor|constructor|exact F| |intros _; exact N|intros _; exact N].
  intros a P. revert Q. apply (program_not dir q a s P). destruct S as [->| ->]; cbn; intuition discriminate.
Qed.
Print Assumptions C67_late_defs_code.
Example C67_late_ex : exists gp, run_xml _ ex_act [] (ex_doc [e "propa" []; e "opdefs" []]) [] (mkS empty_c []) = Failed (mkS gp [LoadOperator (e "opdef" []); LoadPropagator (e "udef" []); LoadWave (e "wfdef" []); Run Propa (lit "/out/") (e "propa" [])]).
Proof. eexists. vm_compute. reflexivity. Qed.
(** The directory of one document is that of the next in the interactive mode. *)
Example C67_dir_stays_code : exists s1 s2,
  run_xml _ ex_act [] (ex_doc [e "propa" []]) [] (mkS empty_c []) = Done s1 /\ run_xml _ ex_act [] (e "propa" []) [] s1 = Done s2 /\
  skipn 4 (s_world s2) = [Run Propa (lit "/out/") (e "propa" [])].
Proof. do 2 eexists. repeat split; vm_compute; reflexivity. Qed.

(** * No document is undefined *)
Definition C67_defined_full : Prop := forall W act dir0 n a c after s, (forall x s, act x s <> Broken) -> NoDup (map fst a) -> elements after = [] ->
  run_xml W act dir0 (Element n a c) after s <> Broken.
Theorem C67_defined_partial : forall W act dir0 root attrs l after s, (forall a s, act a s <> Broken) -> document root attrs l -> NoDup (map fst attrs) -> elements after = [] -> l <> [] ->
  asked dir0 attrs (s_gp s) <> Some [] -> run_xml W act dir0 root after s <> Broken.
Proof. exact run_defined. Qed.
Print Assumptions C67_defined_partial.
(** Without any children the document is refused; with comments or white space only the name of a missing node is read. *)
Theorem C67_empty : forall W act dir0 n a after s, n = lit "multi" \/ n = lit "qdng" -> exists gp', run_xml W act dir0 (Element n a []) after s = Failed (mkS gp' (s_world s)).
Proof. exact run_empty. Qed.
Print Assumptions C67_empty.
Theorem C67_comment_code : forall W act dir0 n a c after s, n = lit "multi" \/ n = lit "qdng" -> c <> [] -> elements c = [] -> run_xml W act dir0 (Element n a c) after s = Broken.
Proof. exact run_comments. Qed.
Print Assumptions C67_comment_code.
(** With an empty directory the character in front of the string is read. *)
Theorem C67_dir_empty_code : forall W act dir0 root attrs l after s, document root attrs l -> NoDup (map fst attrs) -> elements after = [] -> l <> [] ->
  asked dir0 attrs (s_gp s) = Some [] -> run_xml W act dir0 root after s = Broken.
Proof. exact run_no_dir. Qed.
Print Assumptions C67_dir_empty_code.
Example C67_broken_ex : run_xml _ ex_act [] (e "qdng" [Other]) [] (mkS empty_c []) = Broken /\
  run_xml _ ex_act [] (Element (lit "qdng") [(lit "dir", [])] [e "propa" []]) [] (mkS empty_c []) = Broken.
Proof. split; vm_compute; reflexivity. Qed.
Lemma ex_defined : forall a s, ex_act a s <> Broken.
Proof. intros [| | |[]] s; discriminate. Qed.
Theorem C67_comment_refuted : ~ C67_defined_full.
Proof. intros F. apply (F _ ex_act [] (lit "qdng") [] [Other] [] (mkS empty_c []) ex_defined); [constructor|reflexivity|]. vm_compute. reflexivity. Qed.
Print Assumptions C67_comment_refuted.
Theorem C67_dir_empty_refuted : ~ C67_defined_full.
Proof.
  intros F. apply (F _ ex_act [] (lit "qdng") [(lit "dir", [])] [e "propa" []] [] (mkS empty_c []) ex_defined); [constructor; [intros []|constructor]|reflexivity|].
  vm_compute. reflexivity.
Qed.
Print Assumptions C67_dir_empty_refuted.

(** * The command line *)
(** The document is read with the variables set on the command line, the last setting of a name counting; the directory comes from -d or QD_DIR; the exit
    status is 0 exactly if everything has succeeded. *)
Theorem C67_main : forall W act load env opt f defs kv s, Forall2 (fun d p => setting d (fst p) (snd p)) defs kv ->
  exists vars dir0,
    (forall k, mget scmp vars k = match find (fun p => if str_eq_dec (fst p) k then true else false) (rev kv) with Some p => Some (snd p) | None => None end) /\
    (forall d, opt = Some d -> dir0 = d) /\ (opt = None -> forall d, env = Some d -> dir0 = d) /\ (opt = None -> env = None -> dir0 = []) /\
    main W act load env opt (f :: defs) s =
      (let* doc := match load f vars with Throw => Ok None | Ok d => Ok (Some d) | UB => UB end in
       match doc with
       | None => Ok (1%Z, s)
       | Some (root, after) => match run_xml W act dir0 root after s with Done s => Ok (0%Z, s) | Failed s => Ok (1%Z, s) | Broken => UB end
       end).
Proof. exact main_spec. Qed.
Print Assumptions C67_main.
Definition ex_load (f : str) (v : list (str * str)) : outcome (xml * list xml) :=
  match mget scmp v (lit "x") with Some n => Ok (Element n [] [], []) | None => Throw end.
Example C67_main_ex :
  main _ ex_act ex_load (Some (lit "env")) (Some (lit "opt")) [lit "f"; lit "x=eigen"; lit "y=1"; lit "x=propa"] (mkS empty_c []) =
    Ok (0%Z, mkS (set_value empty_c (lit "dir") (lit "opt/") t_string) [Run Propa (lit "opt/") (e "propa" [])]) /\
  main _ ex_act ex_load (Some (lit "env")) None [lit "f"; lit "x=eigen"] (mkS empty_c []) = Ok (1%Z, mkS (set_value empty_c (lit "dir") (lit "env/") t_string) []) /\
  main _ ex_act ex_load None None [lit "f"; lit "y=eigen"] (mkS empty_c []) = Ok (1%Z, mkS empty_c []).
Proof. repeat split; vm_compute; reflexivity. Qed.
Definition C67_status_full : Prop := forall W act load env opt args s s', main W act load env opt args s = Ok (0%Z, s') ->
  exists f vars root after dir0, load f vars = Ok (root, after) /\ run_xml W act dir0 root after s = Done s'.
(** A missing file name and a setting without "=" end with the status of success and nothing done. *)
Theorem C67_status_code : forall W act load env opt f defs s,
  main W act load env opt [] s = Ok (0%Z, s) /\ ((exists d, In d defs /\ ~ In "="%char d) -> main W act load env opt (f :: defs) s = Ok (0%Z, s)).
Proof. intros. split; [reflexivity|]. intros H. unfold main. rewrite var_defs_bad by exact H. reflexivity. Qed.
Print Assumptions C67_status_code.
Example C67_status_ex : main _ ex_act ex_load None None [lit "f"; lit "x=propa"; lit "oops"] (mkS empty_c []) = Ok (0%Z, mkS empty_c []).
Proof. vm_compute. reflexivity. Qed.
Theorem C67_status_refuted : ~ C67_status_full.
Proof.
  intros F. destruct (F (list action) ex_act (fun _ _ => Throw) None None [] (mkS empty_c []) (mkS empty_c []) eq_refl) as (f & v & r & a & d & E & _). discriminate.
Qed.
Print Assumptions C67_status_refuted.
(** Apart from these the status tells whether the document has been run to its end. *)
Theorem C67_status_partial : forall W act load env opt f defs kv s s', Forall2 (fun d p => setting d (fst p) (snd p)) defs kv -> main W act load env opt (f :: defs) s = Ok (0%Z, s') ->
  exists f vars root after dir0, load f vars = Ok (root, after) /\ run_xml W act dir0 root after s = Done s'.
Proof.
  intros W act load env opt f defs kv s s' F H. destruct (main_spec W act load env opt f defs kv s F) as (vars & dir0 & _ & _ & _ & _ & E). rewrite E in H.
  destruct (load f vars) as [[root after]| |] eqn:El; cbn [bind] in H; [|discriminate|discriminate].
  destruct (run_xml W act dir0 root after s) as [s1|s1|] eqn:Er; inversion H; subst. exists f, vars, root, after, dir0. split; assumption.
Qed.
Print Assumptions C67_status_partial.
