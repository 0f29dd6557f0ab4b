(** Proofs about the translation of the simplified input. *)
From Coq Require Import Ascii String List NArith ZArith Lia Bool Arith.
From Verif Require Import Base Proofs.Registry Model.Simple Spec.Simple.
Import ListNotations.
Open Scope Z_scope.

(** * The reader *)
Notation rdx := (fold_left step).
Lemma rdx_app r a b : rdx (a ++ b)%list r = rdx b (rdx a r).
Proof. apply fold_left_app. Qed.
Lemma rd_indent d st top : rdx (indentation d) (mkReader Text st top) = mkReader Text st top.
Proof. induction d as [|d IH]; [reflexivity|]. cbn [indentation]. rewrite rdx_app. exact IH. Qed.
Lemma eqb_false c x : Ascii.eqb c x = false <-> c <> x.
Proof. rewrite <- not_true_iff_false. rewrite Ascii.eqb_eq. reflexivity. Qed.
Lemma name_start_char c : name_start c = true -> name_char c = true.
Proof. intros H. unfold name_char. rewrite H. reflexivity. Qed.
Lemma not_name c : In c [" "; "="; "/"; ">"; "!"]%char -> name_char c = false.
Proof. intros H. cbn in H. intuition; subst; reflexivity. Qed.
Lemma rd_name t a st top : Forall (fun c => name_char c = true) t -> rdx t (mkReader (Name a) st top) = mkReader (Name (a ++ t)) st top.
Proof.
  intros F. revert a. induction F as [|c t Hc F IH]; intros a; [rewrite app_nil_r; reflexivity|]. cbn [fold_left]. unfold step at 2. cbn [r_mode r_stack r_done]. rewrite Hc. rewrite IH, <- app_assoc. reflexivity.
Qed.
Lemma rd_open_name n st top : is_name n -> rdx (lit "<" ++ n) (mkReader Text st top) = mkReader (Name n) st top.
Proof.
  destruct n as [|c t]; [intros []|]. intros [Hc F]. rewrite rdx_app. change (rdx (lit "<") (mkReader Text st top)) with (mkReader Lt st top). cbn [fold_left]. unfold step at 2. cbn [r_mode r_stack r_done].
  assert (N1 : Ascii.eqb c "/" = false) by (apply eqb_false; intros ->; discriminate Hc). assert (N2 : Ascii.eqb c "!" = false) by (apply eqb_false; intros ->; discriminate Hc). rewrite N1, N2, Hc. apply (rd_name t [c]). exact F.
Qed.
Lemma rd_close_name t a st top : Forall (fun c => name_char c = true) t -> rdx t (mkReader (Close a) st top) = mkReader (Close (a ++ t)) st top.
Proof.
  intros F. revert a. induction F as [|c t Hc F IH]; intros a; [rewrite app_nil_r; reflexivity|]. cbn [fold_left]. unfold step at 2. cbn [r_mode r_stack r_done]. rewrite Hc. rewrite IH, <- app_assoc. reflexivity.
Qed.
Lemma name_chars n : is_name n -> Forall (fun c => name_char c = true) n.
Proof. destruct n as [|c t]; [intros []|]. intros [Hc F]. constructor; [apply name_start_char; exact Hc|exact F]. Qed.
Lemma rd_attr_name t n l a st top : Forall (fun c => name_char c = true) t -> rdx t (mkReader (Attr n l a) st top) = mkReader (Attr n l (a ++ t)) st top.
Proof.
  intros F. revert a. induction F as [|c t Hc F IH]; intros a; [rewrite app_nil_r; reflexivity|]. cbn [fold_left]. unfold step at 2. cbn [r_mode r_stack r_done]. rewrite Hc. rewrite IH, <- app_assoc. reflexivity.
Qed.
(** values *)
Lemma clean_inv c : clean_char c = true -> c <> "<"%char /\ c <> "&"%char /\ c <> "034"%char /\ c <> "009"%char /\ c <> "010"%char /\ c <> "013"%char.
Proof. unfold clean_char. rewrite negb_true_iff, !orb_false_iff. intros (((((A & B) & C) & D) & E) & F). rewrite !eqb_false in *. repeat split; assumption. Qed.
Lemma rd_clean_char c n l a v st top : clean_char c = true -> step (mkReader (Val n l a v) st top) c = mkReader (Val n l a (v ++ [c])) st top.
Proof.
  intros H. apply clean_inv in H. destruct H as (A & B & C & D & E & F). unfold step. cbn [r_mode r_stack r_done]. apply eqb_false in C. rewrite C. apply eqb_false in A, B. rewrite A, B. unfold space. apply eqb_false in D, E, F. rewrite D, E, F, !orb_false_r. destruct (Ascii.eqb_spec c " ") as [->|]; reflexivity.
Qed.
Lemma rd_clean s n l a v st top : clean s -> rdx s (mkReader (Val n l a v) st top) = mkReader (Val n l a (v ++ s)) st top.
Proof.
  intros F. revert v. induction F as [|c t Hc F IH]; intros v; [rewrite app_nil_r; reflexivity|]. cbn [fold_left]. rewrite rd_clean_char by exact Hc. rewrite IH, <- app_assoc. reflexivity.
Qed.
Lemma rd_escape s n l a v st top : quotable s -> rdx (escape s) (mkReader (Val n l a v) st top) = mkReader (Val n l a (v ++ s)) st top.
Proof.
  intros F. revert v. induction F as [|c t Hc F IH]; intros v; [cbn; rewrite app_nil_r; reflexivity|]. cbn [escape flat_map]. rewrite rdx_app.
  assert (E : rdx (escape_char c) (mkReader (Val n l a v) st top) = mkReader (Val n l a (v ++ [c])) st top).
  { unfold escape_char. destruct (Ascii.eqb_spec c "<") as [->|N1]; [reflexivity|]. destruct (Ascii.eqb_spec c ">") as [->|N2]; [reflexivity|]. destruct (Ascii.eqb_spec c "&") as [->|N3]; [reflexivity|]. destruct Hc as [Hc|[Hc|Hc]]; try contradiction. cbn [fold_left]. apply rd_clean_char. exact Hc. }
  rewrite E. fold (escape t). rewrite IH, <- app_assoc. reflexivity.
Qed.
(** comments *)
Lemma rd_com s st top : no_dashes s -> (rdx s (mkReader (Com 0) st top) = mkReader (Com 0) st top \/ rdx s (mkReader (Com 0) st top) = mkReader (Com 1) st top) /\
  (hd_error s <> Some "-"%char -> s <> [] -> rdx s (mkReader (Com 1) st top) = rdx s (mkReader (Com 0) st top)).
Proof.
  induction s as [|c s IH]; intros N; [split; [left; reflexivity|congruence]|]. assert (N' : no_dashes s) by (intros a b E; apply (N (c :: a) b); rewrite E; reflexivity). destruct (IH N') as [I1 I2]. split.
  - cbn [fold_left]. unfold step at 2 4. cbn [r_mode r_stack r_done]. destruct (Ascii.eqb_spec c "-") as [->|Nc]; [|exact I1]. destruct s as [|c' s]; [right; reflexivity|]. rewrite I2; [exact I1| |discriminate]. intros E. injection E as ->. apply (N [] s). reflexivity.
  - intros Hh _. cbn [fold_left]. unfold step at 2 4. cbn [r_mode r_stack r_done]. destruct (Ascii.eqb_spec c "-") as [->|Nc]; [exfalso; apply Hh; reflexivity|reflexivity].
Qed.
Lemma rd_com_sp s st top : no_dashes s -> rdx (s ++ lit " ") (mkReader (Com 0) st top) = mkReader (Com 0) st top.
Proof. intros N. rewrite rdx_app. destruct (proj1 (rd_com s st top N)) as [E|E]; rewrite E; reflexivity. Qed.

(** * Executing a tree *)
Definition push (es : list elem) (r : reader) : reader :=
  match r_stack r with
  | [] => mkReader Text [] (r_done r ++ es)
  | (n, l, c) :: st => mkReader Text ((n, l, c ++ es)%list :: st) (r_done r)
  end.
Lemma push_nil st top : push [] (mkReader Text st top) = mkReader Text st top.
Proof. unfold push. cbn. destruct st as [|[[n l] c] st]; rewrite app_nil_r; reflexivity. Qed.
Lemma push_app a b st top : push b (push a (mkReader Text st top)) = push (a ++ b) (mkReader Text st top).
Proof. unfold push. cbn. destruct st as [|[[n l] c] st]; cbn; rewrite app_assoc; reflexivity. Qed.
Lemma push_form es st top : exists st' top', push es (mkReader Text st top) = mkReader Text st' top'.
Proof. unfold push. cbn. destruct st as [|[[n l] c] st]; eexists; eexists; reflexivity. Qed.
Definition piece_part (p : piece) : part := match p with EId s => PText s | EStr s => PText (escape s) | EVar v => PVar v (lit "%s") | EFmt v f => PVar v f end.
Definition parts (e : list piece) : varstring := map piece_part e.
Definition attrs_of (l : list stmt) : list (str * varstring) := flat_map (fun s => match s with SAttr a e => [(a, parts e)] | _ => [] end) l.
Lemma cut_fits s : fits s -> cut s = s.
Proof. intros H. unfold fits in H. apply firstn_all2. lia. Qed.
Lemma str_eqb_spec a b : str_eqb a b = true <-> a = b.
Proof. split; [apply str_eqb_true|intros ->; apply str_eqb_refl]. Qed.
Lemma value_set env v x w : value (mset scmp env v x) w = if str_eqb w v then x else value env w.
Proof.
  unfold value. destruct (str_eqb w v) eqn:E; [apply str_eqb_true in E; subst; rewrite mget_set_same; reflexivity|]. rewrite mget_set_other; [reflexivity|]. intros ->. rewrite str_eqb_refl in E. discriminate.
Qed.
Lemma good_env_set env v x : good_env env -> clean x -> fits x -> good_env (mset scmp env v x).
Proof. intros G C F w. rewrite value_set. destruct (str_eqb w v); [split; assumption|apply G]. Qed.
Section Ex.
  Variable R : Type.
  Variable parse : str -> option R.
  Variable show : R -> str.
  Variable one : R.
  Variable add : R -> R -> R.
  Variable count : R -> R -> R -> outcome Z.
  Variable format : str -> str -> outcome str.
  Hypothesis oracles : good_oracles R show format.
  Notation execute := (execute R show add count format).
  Notation execute_all := (execute_all R show add count format).
  Notation mean := (mean R parse show one add count format).
  Notation mean_all := (mean_all R parse show one add count format).
  Notation eval := (eval format).
  Notation print_parts := (print_parts format).
  Notation print_attrs := (print_attrs format).
  Lemma rd_parts e env x n l a : good_env env -> Forall good_piece e -> eval env e = Ok x -> exists s, print_parts env (parts e) = Ok s /\ forall v st top, rdx s (mkReader (Val n l a v) st top) = mkReader (Val n l a (v ++ x)) st top.
  Proof.
    intros G F. revert x. induction F as [|p e Hp F IH]; intros x E.
    - injection E as <-. exists []. split; [reflexivity|]. intros. rewrite app_nil_r. reflexivity.
    - cbn [Spec.Simple.eval] in E. destruct (eval_piece format env p) as [y| |] eqn:Ep; try discriminate. cbn [bind] in E. destruct (eval env e) as [z| |] eqn:Ee; try discriminate. cbn [bind] in E. injection E as <-. destruct (IH z eq_refl) as (s & Ps & Rs).
      assert (H : exists t, print_part format env (piece_part p) = Ok t /\ forall v st top, rdx t (mkReader (Val n l a v) st top) = mkReader (Val n l a (v ++ y)) st top).
      { destruct p as [i|q|v|v f]; cbn [eval_piece piece_part print_part good_piece] in *.
        - injection Ep as <-. destruct Hp as [C Ft]. rewrite cut_fits by exact Ft. eexists; split; [reflexivity|]. intros. apply rd_clean. exact C.
        - injection Ep as <-. destruct Hp as [C Ft]. rewrite cut_fits by exact Ft. eexists; split; [reflexivity|]. intros. apply rd_escape. exact C.
        - injection Ep as <-. destruct (G v) as [C Ft]. rewrite str_eqb_refl, cut_fits by exact Ft. eexists; split; [reflexivity|]. intros. apply rd_clean. exact C.
        - destruct (str_eqb f (lit "%s")) eqn:Ef.
          + injection Ep as <-. destruct (G v) as [C Ft]. rewrite cut_fits by exact Ft. eexists; split; [reflexivity|]. intros. apply rd_clean. exact C.
          + rewrite Ep. cbn [bind]. destruct oracles as [_ O]. destruct (G v) as [C _]. destruct (O f _ y C Ep) as [Cy Fy]. rewrite cut_fits by exact Fy. eexists; split; [reflexivity|]. intros. apply rd_clean. exact Cy. }
      destruct H as (t & Pt & Rt). exists (t ++ s)%list. cbn [parts map Model.Simple.print_parts]. rewrite Pt. cbn [bind]. fold (parts e). rewrite Ps. cbn [bind]. split; [reflexivity|]. intros. rewrite rdx_app, Rt, Rs, <- app_assoc. reflexivity.
  Qed.
  Definition is_attr (s : stmt) : Prop := match s with SAttr _ _ | SComment => True | _ => False end.
  Lemma mean_all_app a b env : mean_all (a ++ b)%list env = let* x := mean_all a env in let* y := mean_all b (m_env x) in Ok (mkM (m_attrs x ++ m_attrs y) (m_elems x ++ m_elems y) (m_env y)).
  Proof.
    revert env. induction a as [|s a IH]; intros env; cbn [app Spec.Simple.mean_all].
    - cbn [bind m_env m_attrs m_elems app]. destruct (mean_all b env) as [[p q r]| |]; reflexivity.
    - destruct (mean s env) as [x| |]; try reflexivity. cbn [bind]. rewrite IH. destruct (mean_all a (m_env x)) as [y| |]; try reflexivity. cbn [bind m_env m_attrs m_elems]. destruct (mean_all b (m_env y)) as [z| |]; try reflexivity. cbn [bind m_env m_attrs m_elems]. rewrite !app_assoc. reflexivity.
  Qed.
  Definition tag_mode (m : mode) (n : str) (l : list (str * str)) : Prop := m = Name n /\ l = [] \/ exists sp, m = Tag n l sp.
  Lemma rd_attrs l env m n : good_env env -> Forall is_attr l -> Forall good l -> mean_all l env = Ok m ->
    m_elems m = [] /\ m_env m = env /\ exists s, print_attrs env (attrs_of l) = Ok s /\
    forall done md st top, tag_mode md n done -> NoDup (map fst done ++ attr_names l) -> exists md', rdx s (mkReader md st top) = mkReader md' st top /\ tag_mode md' n (done ++ m_attrs m).
  Proof.
    intros G. revert m. induction l as [|x l IH]; intros m Ia Gd E.
    - injection E as <-. cbn. repeat split. exists []. split; [reflexivity|]. intros done md st top T _. exists md. rewrite app_nil_r. split; [reflexivity|exact T].
    - pose proof (Forall_inv Ia) as Ix. pose proof (Forall_inv Gd) as Gx. apply Forall_inv_tail in Ia. apply Forall_inv_tail in Gd. cbn [Spec.Simple.mean_all] in E. destruct x as [| |a e| |]; try contradiction.
      + cbn [Spec.Simple.mean bind m_env] in E. destruct (mean_all l env) as [y| |] eqn:Ey; try discriminate. injection E as <-. cbn [m_elems m_env m_attrs app]. destruct (IH y Ia Gd eq_refl) as (E1 & E2 & s & Ps & Rs). repeat split; [exact E1|exact E2|]. exists s. split; [exact Ps|exact Rs].
      + cbn [Spec.Simple.mean] in E. destruct (eval env e) as [v| |] eqn:Ev; try discriminate. cbn [bind m_env] in E. destruct (mean_all l env) as [y| |] eqn:Ey; try discriminate. injection E as <-. cbn [m_elems m_env m_attrs app]. destruct (IH y Ia Gd eq_refl) as (E1 & E2 & s & Ps & Rs). repeat split; [exact E1|exact E2|]. destruct Gx as (Na & Fa & _ & Gp).
        assert (Hp : exists t, print_parts env (parts e) = Ok t /\ forall n l a v0 st top, rdx t (mkReader (Val n l a v0) st top) = mkReader (Val n l a (v0 ++ v)) st top).
        { destruct (rd_parts e env v [] [] [] G Gp Ev) as (t & Pt & _). exists t. split; [exact Pt|]. intros. destruct (rd_parts e env v n0 l0 a0 G Gp Ev) as (t' & Pt' & Rt). rewrite Pt in Pt'. injection Pt' as <-. apply Rt. }
        destruct Hp as (t & Pt & Rt). cbn [attrs_of flat_map app Model.Simple.print_attrs]. rewrite Pt. cbn [bind]. fold (attrs_of l). rewrite Ps. cbn [bind]. eexists. split; [reflexivity|]. intros done md st top T ND. rewrite cut_fits by exact Fa. cbn [attr_names flat_map app] in ND. fold (attr_names l) in ND.
        assert (S1 : rdx (lit " ") (mkReader md st top) = mkReader (Tag n done true) st top).
        { destruct T as [[-> ->]|[sp ->]]; reflexivity. }
        rewrite rdx_app, S1. rewrite rdx_app. destruct a as [|c a]; [destruct Na|]. destruct Na as [Nc Na].
        assert (N1 : space c = false) by (unfold space; rewrite !orb_false_iff, !eqb_false; repeat split; intros ->; discriminate Nc). assert (N2 : Ascii.eqb c "/" = false) by (apply eqb_false; intros ->; discriminate Nc). assert (N3 : Ascii.eqb c ">" = false) by (apply eqb_false; intros ->; discriminate Nc). assert (Sc : step (mkReader (Tag n done true) st top) c = mkReader (Attr n done [c]) st top) by (unfold step; cbn [r_mode r_stack r_done]; rewrite N1, N2, N3, Nc; reflexivity). cbn [fold_left]. rewrite Sc. rewrite rd_attr_name by exact Na. cbn [app].
        rewrite rdx_app. change (rdx (lit "=") (mkReader (Attr n done (c :: a)) st top)) with (mkReader (Eq n done (c :: a)) st top). rewrite rdx_app. change (rdx quote (mkReader (Eq n done (c :: a)) st top)) with (mkReader (Val n done (c :: a) []) st top). rewrite rdx_app, Rt. cbn [app]. rewrite rdx_app.
        assert (X : existsb (fun x => str_eqb (fst x) (c :: a)) done = false).
        { apply not_true_iff_false. intros X. apply existsb_exists in X. destruct X as ([k w] & Hin & Hk). apply str_eqb_true in Hk. cbn in Hk. subst k. apply NoDup_remove_2 in ND. apply ND. apply in_or_app. left. apply (in_map fst) in Hin. exact Hin. }
        assert (Q : rdx quote (mkReader (Val n done (c :: a) v) st top) = mkReader (Tag n (done ++ [(c :: a, v)]) false) st top).
        { cbn [quote fold_left]. unfold step. cbn [r_mode r_stack r_done]. change (Ascii.eqb "034" "034") with true. cbv iota. rewrite X. reflexivity. }
        rewrite Q. destruct (Rs (done ++ [(c :: a, v)])%list (Tag n (done ++ [(c :: a, v)]) false) st top) as (md' & Hr & Ht); [right; eexists; reflexivity|rewrite map_app, <- app_assoc; exact ND|]. exists md'. split; [exact Hr|]. rewrite <- app_assoc in Ht. exact Ht.
  Qed.

  (** the tree of a statement *)
  Definition num (s : str) (d : R) : R := match parse s with Some x => x | None => d end.
  Fixpoint tr (s : stmt) : list (tree R) :=
    let all := fix all (l : list stmt) : list (tree R) := match l with [] => [] | x :: l => (tr x ++ all l)%list end in
    match s with
    | SNode n body => [Node R (Xml R n (attrs_of body)) (all body)]
    | SFor v b e p body => [Node R (Loop R v (num b one) (num e one) (match p with Some p => num p one | None => one end)) (all body)]
    | _ => []
    end.
  Fixpoint tr_all (l : list stmt) : list (tree R) := match l with [] => [] | x :: l => (tr x ++ tr_all l)%list end.
  Lemma tr_node n body : tr (SNode n body) = [Node R (Xml R n (attrs_of body)) (tr_all body)].
  Proof. reflexivity. Qed.
  Lemma tr_for v b e p body : tr (SFor v b e p body) = [Node R (Loop R v (num b one) (num e one) (match p with Some p => num p one | None => one end)) (tr_all body)].
  Proof. reflexivity. Qed.
  Lemma tr_all_app a b : tr_all (a ++ b) = (tr_all a ++ tr_all b)%list.
  Proof. induction a as [|x a IH]; [reflexivity|]. cbn [app tr_all]. rewrite IH, app_assoc. reflexivity. Qed.
  Lemma tr_attrs a : Forall is_attr a -> tr_all a = [].
  Proof. induction 1 as [|x a H _ IH]; [reflexivity|]. cbn [tr_all]. rewrite IH. destruct x; try contradiction; reflexivity. Qed.
  Lemma attrs_of_app a b : attrs_of (a ++ b) = (attrs_of a ++ attrs_of b)%list.
  Proof. unfold attrs_of. apply flat_map_app. Qed.
  Lemma attrs_of_none b : Forall no_attr b -> attrs_of b = [] /\ attr_names b = [].
  Proof. induction 1 as [|x b H _ [I1 I2]]; [split; reflexivity|]. unfold attrs_of, attr_names in *. cbn [flat_map]. rewrite I1, I2. destruct x; try contradiction; split; reflexivity. Qed.
  Definition good_all := fix all (l : list stmt) : Prop := match l with [] => True | x :: l => good x /\ all l end.
  Lemma good_all_forall l : good_all l <-> Forall good l.
  Proof. induction l as [|x l IH]; split; intros H; [constructor|exact I|destruct H; constructor; [assumption|apply IH; assumption]|inversion H; subst; split; [assumption|apply IH; assumption]]. Qed.
  Lemma stmt_ind2 (P : stmt -> Prop) : P SComment -> (forall v e, P (SSet v e)) -> (forall a e, P (SAttr a e)) -> (forall n b, Forall P b -> P (SNode n b)) -> (forall v b e p body, Forall P body -> P (SFor v b e p body)) -> forall s, P s.
  Proof.
    intros H1 H2 H3 H4 H5. fix IH 1. intros [| | |n b|v b e p body]; [exact H1|apply H2|apply H3|apply H4|apply H5].
    - induction b as [|x b IHb]; constructor; [apply IH|exact IHb].
    - induction body as [|x body IHb]; constructor; [apply IH|exact IHb].
  Qed.
  Lemma mean_node n body env : mean (SNode n body) env = let* m := mean_all body env in Ok (mkM [] [Elem n (m_attrs m) (m_elems m)] (m_env m)).
  Proof. reflexivity. Qed.
  Definition loop_mean (v : str) (body : list stmt) := fix loop (l : list R) (env : vars) : outcome meaning :=
              match l with
              | [] => Ok (mkM [] [] env)
              | d :: l => let* a := mean_all body (mset scmp env v (show d)) in let* r := loop l (m_env a) in Ok (mkM [] (m_elems a ++ m_elems r) (m_env r))%list
              end.
  Lemma mean_for v b e p body env : mean (SFor v b e p body) env = match parse b, parse e, match p with Some p => parse p | None => Some one end with
        | Some b, Some e, Some p => let* n := count b e p in loop_mean v body (values R add (S (Z.to_nat n)) b p) env
        | _, _, _ => Throw end.
  Proof. reflexivity. Qed.
  Lemma execute_nil depth env : execute_all [] depth env = Ok ([], env).
  Proof. reflexivity. Qed.
  Lemma execute_cons x l depth env : execute_all (x :: l) depth env = let* r := execute x depth env in let* r2 := execute_all l depth (snd r) in Ok (fst r ++ fst r2, snd r2)%list.
  Proof. reflexivity. Qed.
  Lemma execute_xml n attrs l depth env : execute (Node R (Xml R n attrs) l) depth env = let* a := print_attrs env attrs in
        match l with
        | [] => Ok (indentation depth ++ lit "<" ++ n ++ a ++ lit "/>" ++ nl, env)%list
        | _ => let* r := execute_all l (S depth) env in
            Ok (indentation depth ++ lit "<" ++ n ++ a ++ lit ">" ++ nl ++ fst r ++ indentation depth ++ lit "</" ++ n ++ lit ">" ++ nl, snd r)%list
        end.
  Proof. destruct l; reflexivity. Qed.
  Lemma execute_loop v b e p l depth env : execute (Node R (Loop R v b e p) l) depth env = let* n := count b e p in
        let* r := iterate R show add (S (Z.to_nat n)) v b p (execute_all l (S depth)) env in
        Ok (indentation depth ++ lit "<!-- for " ++ v ++ lit " = " ++ show b ++ lit " " ++ show e ++ lit " " ++ show p ++ lit " -->" ++ nl ++ fst r, snd r)%list.
  Proof. reflexivity. Qed.
  Lemma execute_app a b depth env : execute_all (a ++ b) depth env = let* r := execute_all a depth env in let* r2 := execute_all b depth (snd r) in Ok (fst r ++ fst r2, snd r2)%list.
  Proof.
    revert env. induction a as [|x a IH]; intros env; cbn [app]; rewrite ?execute_nil, ?execute_cons.
    - cbn [bind snd fst app]. destruct (execute_all b depth env) as [[p q]| |]; reflexivity.
    - destruct (execute x depth env) as [[p q]| |]; try reflexivity. cbn [bind snd fst]. rewrite IH. destruct (execute_all a depth q) as [[p2 q2]| |]; try reflexivity. cbn [bind snd fst]. destruct (execute_all b depth q2) as [[p3 q3]| |]; try reflexivity. cbn [bind snd fst]. rewrite app_assoc. reflexivity.
  Qed.
  Definition written (l : list (tree R)) (depth : nat) (env : vars) (m : meaning) : Prop := good_env (m_env m) /\
    exists out, execute_all l depth env = Ok (out, m_env m) /\ forall st top, rdx out (mkReader Text st top) = push (m_elems m) (mkReader Text st top).
  Lemma written_nil depth env m : good_env (m_env m) -> m_env m = env -> m_elems m = [] -> written [] depth env m.
  Proof. intros G <- E. split; [exact G|]. exists []. split; [reflexivity|]. intros. rewrite E, push_nil. reflexivity. Qed.
  Lemma written_all l : Forall (fun s => good s -> forall depth env m, good_env env -> mean s env = Ok m -> written (tr s) depth env m) l -> Forall good l ->
    forall depth env m, good_env env -> mean_all l env = Ok m -> written (tr_all l) depth env m.
  Proof.
    induction 1 as [|x l Hx _ IH]; intros Gl depth env m G E; [injection E as <-; apply written_nil; [exact G|reflexivity|reflexivity]|]. pose proof (Forall_inv Gl) as Gx. apply Forall_inv_tail in Gl. cbn [Spec.Simple.mean_all] in E. destruct (mean x env) as [a| |] eqn:Ea; try discriminate. cbn [bind] in E. destruct (mean_all l (m_env a)) as [b| |] eqn:Eb; try discriminate. injection E as <-.
    destruct (Hx Gx depth env a G Ea) as (Ga & o1 & E1 & R1). destruct (IH Gl depth (m_env a) b Ga Eb) as (Gb & o2 & E2 & R2). split; [exact Gb|]. exists (o1 ++ o2)%list. cbn [tr_all m_env m_elems]. rewrite execute_app, E1. cbn [bind snd fst]. rewrite E2. split; [reflexivity|]. intros st top. rewrite rdx_app, R1. destruct (push_form (m_elems a) st top) as (st' & top' & P). rewrite P, R2, <- P. apply push_app.
  Qed.
  Lemma written_stmt s : good s -> forall depth env m, good_env env -> mean s env = Ok m -> written (tr s) depth env m.
  Proof.
    induction s as [|v e|a e|n body IH|v b e p body IH] using stmt_ind2; intros Gs depth env m G E.
    - injection E as <-. apply written_nil; [exact G|reflexivity|reflexivity].
    - contradiction.
    - cbn [Spec.Simple.mean] in E. destruct (eval env e) as [x| |]; try discriminate. injection E as <-. apply written_nil; [exact G|reflexivity|reflexivity].
    - destruct Gs as (Nn & (a & b & Eb & Fa & Fb) & ND & Gb). change (good_all body) in Gb. apply good_all_forall in Gb. rewrite mean_node in E. destruct (mean_all body env) as [mb| |] eqn:Emb; try discriminate. injection E as <-. cbn [m_env m_elems].
      assert (Emb' := Emb). rewrite Eb, mean_all_app in Emb'. destruct (mean_all a env) as [ma| |] eqn:Ema; try discriminate. cbn [bind] in Emb'. destruct (mean_all b (m_env ma)) as [mc| |] eqn:Emc; try discriminate. injection Emb' as <-.
      rewrite Eb in Gb. apply Forall_app in Gb. destruct Gb as [Gba Gbb]. destruct (rd_attrs a env ma n G Fa Gba Ema) as (A1 & A2 & s & Ps & Rs). destruct (attrs_of_none b Fb) as [B1 B2].
      assert (Mb : m_attrs mc = []).
      { clear - Fb Emc. revert Emc. generalize (m_env ma) as en. revert mc. induction Fb as [|x b Hx _ IHb]; intros mc en E; [injection E as <-; reflexivity|]. cbn [Spec.Simple.mean_all] in E. destruct (mean x en) as [y| |] eqn:Ey; try discriminate. cbn [bind] in E. destruct (mean_all b (m_env y)) as [z| |] eqn:Ez; try discriminate. injection E as <-. cbn [m_attrs]. rewrite (IHb _ _ Ez), app_nil_r.
        destruct x as [|w e|a e|n body|w b0 e p body]; try contradiction.
        - injection Ey as <-. reflexivity.
        - cbn [Spec.Simple.mean] in Ey. destruct (eval en e); try discriminate. injection Ey as <-. reflexivity.
        - rewrite mean_node in Ey. destruct (mean_all body en); try discriminate. injection Ey as <-. reflexivity.
        - rewrite mean_for in Ey. destruct (parse b0); try discriminate. destruct (parse e); try discriminate. destruct (match p with Some p => parse p | None => Some one end); try discriminate. destruct (count r r0 r1); try discriminate. cbn [bind values] in Ey. cbn [loop_mean] in Ey. destruct (mean_all body _); try discriminate. cbn [bind] in Ey. fold (loop_mean w body) in Ey. destruct (loop_mean w body _ _); try discriminate. injection Ey as <-. reflexivity. }
      assert (Hb : Forall (fun s => good s -> forall depth env m, good_env env -> mean s env = Ok m -> written (tr s) depth env m) b) by (rewrite Eb in IH; apply Forall_app in IH; apply IH). rewrite A2 in Emc. destruct (written_all b Hb Gbb (S depth) env mc G Emc) as (Gc & o & Eo & Ro). split; [exact Gc|]. cbn [m_env m_elems m_attrs]. rewrite A1, Mb, app_nil_r. cbn [app].
      rewrite tr_node, Eb, attrs_of_app, B1, app_nil_r, tr_all_app, (tr_attrs a Fa). cbn [app]. rewrite execute_cons, execute_xml, Ps. cbn [bind].
      assert (ND' : NoDup (map fst (@nil (str * str)) ++ attr_names a)).
      { cbn [map app]. rewrite Eb in ND. unfold attr_names in *. rewrite flat_map_app in ND. unfold attr_names in B2. rewrite B2, app_nil_r in ND. exact ND. }
      destruct (tr_all b) as [|t0 ts] eqn:Et.
      + injection Eo as E1 E2. cbn [bind snd fst]. rewrite execute_nil. cbn [bind snd fst]. eexists. split; [rewrite E2; reflexivity|]. intros st top. rewrite app_nil_r. rewrite rdx_app, rd_indent. rewrite app_assoc, rdx_app, rd_open_name by exact Nn. rewrite rdx_app. destruct (Rs [] (Name n) st top (or_introl (conj eq_refl eq_refl)) ND') as (md & Hr & Ht). rewrite Hr. cbn [app] in Ht.
        assert (Em : m_elems mc = []). { specialize (Ro [] []). rewrite <- E1 in Ro. cbn in Ro. unfold push in Ro. cbn in Ro. injection Ro as <-. reflexivity. }
        rewrite Em. destruct Ht as [[-> ->]|[sp ->]]; cbn; unfold emit, push; cbn; destruct st as [|[[n0 l0] c0] st]; reflexivity.
      + rewrite Eo. cbn [bind snd fst]. rewrite execute_nil. cbn [bind snd fst]. eexists. split; [reflexivity|]. intros st top. rewrite app_nil_r. rewrite rdx_app, rd_indent. rewrite app_assoc, rdx_app, rd_open_name by exact Nn. rewrite rdx_app. destruct (Rs [] (Name n) st top (or_introl (conj eq_refl eq_refl)) ND') as (md & Hr & Ht). rewrite Hr. cbn [app] in Ht. rewrite rdx_app.
        assert (O : rdx (lit ">") (mkReader md st top) = mkReader Text ((n, m_attrs ma, []) :: st) top) by (destruct Ht as [[-> ->]|[sp ->]]; reflexivity). rewrite O, rdx_app. change (rdx nl (mkReader Text ((n, m_attrs ma, []) :: st) top)) with (mkReader Text ((n, m_attrs ma, []) :: st) top). rewrite rdx_app, Ro. unfold push at 1. cbn [r_stack r_done app]. rewrite rdx_app, rd_indent. rewrite rdx_app. change (rdx (lit "</") (mkReader Text ((n, m_attrs ma, m_elems mc) :: st) top)) with (mkReader (Close []) ((n, m_attrs ma, m_elems mc) :: st) top). rewrite rdx_app, rd_close_name by (apply name_chars; exact Nn). cbn [app].
        change (rdx (lit ">" ++ nl) (mkReader (Close n) ((n, m_attrs ma, m_elems mc) :: st) top)) with (rdx nl (close n ((n, m_attrs ma, m_elems mc) :: st) top)). unfold close. rewrite str_eqb_refl. unfold emit, push. cbn. destruct st as [|[[n0 l0] c0] st]; reflexivity.
    - destruct Gs as (Nv & Fn & Gb). change (good_all body) in Gb. apply good_all_forall in Gb. rewrite mean_for in E. rewrite tr_for. unfold num. destruct (parse b) as [b'|]; try discriminate. destruct (parse e) as [e'|]; try discriminate.
      assert (X : exists p', match p with Some p => parse p | None => Some one end = Some p' /\ match p with Some p => match parse p with Some x => x | None => one end | None => one end = p').
      { destruct p as [p|]; [destruct (parse p) as [p'|]; [exists p'; split; reflexivity|discriminate]|exists one; split; reflexivity]. }
      destruct X as (p' & Xp & ->). rewrite Xp in E. destruct (count b' e' p') as [k| |] eqn:Ck; try discriminate. cbn [bind] in E.
      assert (It : forall n d env m, good_env env -> loop_mean v body (values R add n d p') env = Ok m -> good_env (m_env m) /\ exists out, iterate R show add n v d p' (execute_all (tr_all body) (S depth)) env = Ok (out, m_env m) /\ forall st top, rdx out (mkReader Text st top) = push (m_elems m) (mkReader Text st top)).
      { clear - IH Gb oracles. induction n as [|n IHn]; intros d env m G E.
        - injection E as <-. split; [exact G|]. exists []. split; [reflexivity|]. intros. rewrite push_nil. reflexivity.
        - cbn [values loop_mean] in E. destruct (mean_all body (mset scmp env v (show d))) as [a| |] eqn:Ea; try discriminate. cbn [bind] in E. fold (loop_mean v body) in E. destruct (loop_mean v body (values R add n (add d p') p') (m_env a)) as [r| |] eqn:Er; try discriminate. injection E as <-. cbn [m_env m_elems].
          destruct oracles as [O _]. destruct (O d) as (Cd & Fd & _). destruct (written_all body IH Gb (S depth) _ a (good_env_set env v (show d) G Cd Fd) Ea) as (Ga & o1 & E1 & R1). destruct (IHn (add d p') (m_env a) r Ga Er) as (Gr & o2 & E2 & R2). split; [exact Gr|]. exists (o1 ++ o2)%list. cbn [iterate]. rewrite E1. cbn [bind snd fst]. rewrite E2. split; [reflexivity|]. intros st top. rewrite rdx_app, R1. destruct (push_form (m_elems a) st top) as (st' & top' & P). rewrite P, R2, <- P. apply push_app. }
      destruct (It _ _ _ _ G E) as (Gm & out & Ei & Ri). split; [exact Gm|]. rewrite execute_cons, execute_loop, Ck. cbn [bind]. rewrite Ei. cbn [bind snd fst]. rewrite execute_nil. cbn [bind snd fst]. eexists. split; [reflexivity|]. intros st top. rewrite app_nil_r. rewrite rdx_app, rd_indent. rewrite rdx_app. change (rdx (lit "<!-- for ") (mkReader Text st top)) with (mkReader (Com 0) st top). destruct oracles as [O _].
      destruct (O b') as (_ & _ & D1). destruct (O e') as (_ & _ & D2). destruct (O p') as (_ & _ & D3).
      change (lit " = ") with (lit " " ++ lit "= ")%list. change (lit " -->") with (lit " " ++ lit "-->")%list. rewrite <- !app_assoc. rewrite app_assoc, rdx_app, rd_com_sp by exact Nv. rewrite rdx_app. change (rdx (lit "= ") (mkReader (Com 0) st top)) with (mkReader (Com 0) st top). rewrite app_assoc, rdx_app, rd_com_sp by exact D1. rewrite app_assoc, rdx_app, rd_com_sp by exact D2. rewrite app_assoc, rdx_app, rd_com_sp by exact D3. rewrite rdx_app. change (rdx (lit "-->") (mkReader (Com 0) st top)) with (mkReader Text st top). rewrite rdx_app. change (rdx nl (mkReader Text st top)) with (mkReader Text st top). apply Ri.
  Qed.
End Ex.

(** * The parser *)
Section Pa.
  Variable R : Type.
  Variable parse : str -> option R.
  Variable show : R -> str.
  Variable one : R.
  Variable add : R -> R -> R.
  Variable count : R -> R -> R -> outcome Z.
  Variable format : str -> str -> outcome str.
  Notation line := (line R parse show one add count format).
  Notation lines := (lines R parse show one add count format).
  Notation translate := (translate R parse show one add count format).
  Notation state := (state R).
  Notation tr := (tr R parse one).
  Notation tr_all := (tr_all R parse one).
  Lemma strexp_len k : forall l ps v r, (length l <= k)%nat -> strexp l = Some (ps, v, r) -> (length r < length l)%nat.
  Proof.
    induction k as [|k IH]; intros l ps v r Hl H; [destruct l; [discriminate|cbn in Hl; lia]|].
    destruct l as [|t l]; [discriminate|]. cbn [length] in Hl.
    assert (More : forall p w l0, (length l0 <= k)%nat -> match l0 with Concat :: r => match strexp r with Some (ps, _, r) => Some (p :: ps, w, r) | None => None end | _ => Some ([p], w, l0) end = Some (ps, v, r) -> (length r <= length l0)%nat).
    { intros p w l0 Hl0 M. destruct l0 as [|t0 l0]; [injection M as _ _ <-; cbn; lia|]. destruct t0; try (injection M as _ _ <-; cbn; lia). destruct (strexp l0) as [[[ps' v'] r']|] eqn:E; [|discriminate]. apply IH in E; [|cbn in Hl0; lia]. injection M as _ _ <-. cbn [length]. lia. }
    destruct t; try discriminate; cbn [strexp] in H.
    - apply More in H; [cbn [length]; lia|lia].
    - apply More in H; [cbn [length]; lia|lia].
    - destruct l as [|t2 l]; [injection H as _ _ <-; cbn; lia|]. destruct t2; try (injection H as _ _ <-; cbn [length]; lia).
      + destruct l as [|t3 l]; [injection H as _ _ <-; cbn; lia|]. destruct t3; try (injection H as _ _ <-; cbn [length]; lia). destruct (strexp l) as [[[ps' v'] r']|] eqn:E; [|discriminate]. apply IH in E; [|cbn [length] in Hl; lia]. injection H as _ _ <-. cbn [length]. lia.
      + destruct (strexp l) as [[[ps' v'] r']|] eqn:E; [|discriminate]. apply IH in E; [|cbn [length] in Hl; lia]. injection H as _ _ <-. cbn [length]. lia.
  Qed.
  Lemma line_len l s s' r : line l s = Ok (s', r) -> (length r < length l)%nat.
  Proof.
    intros H. unfold Model.Simple.line in H. destruct l as [|t l]; [discriminate|].
    destruct t; try discriminate.
    - destruct l as [|t2 l]; [discriminate|]. destruct t2; try discriminate.
      + destruct (enter R _ s) as [x| |]; try discriminate. injection H as _ <-. cbn [length]. lia.
      + destruct (strexp l) as [[[ps v] r']|] eqn:E; [|discriminate]. apply (strexp_len (length l)) in E; [|lia]. destruct (attribute R _ _ s) as [x| |]; try discriminate. injection H as _ <-. cbn [length]. lia.
    - destruct l as [|t2 l]; [discriminate|]. destruct t2; try discriminate. destruct (strexp l) as [[[ps v] r']|] eqn:E; [|discriminate]. apply (strexp_len (length l)) in E; [|lia]. injection H as _ <-. cbn [length]. lia.
    - do 4 (destruct l as [|[] l]; try discriminate). destruct l as [|[] l]; try discriminate.
      + destruct l as [|[] l]; try discriminate. destruct (parse _); try discriminate. destruct (parse _); try discriminate. destruct (parse _); try discriminate. destruct (enter R _ s) as [x| |]; try discriminate. injection H as _ <-. cbn [length]. lia.
      + destruct (parse _); try discriminate. destruct (parse _); try discriminate. destruct (enter R _ s) as [x| |]; try discriminate. injection H as _ <-. cbn [length]. lia.
    - destruct (leave _ _ _ _ _ s) as [x| |]; try discriminate. injection H as _ <-. cbn [length]. lia.
    - injection H as _ <-. cbn [length]. lia.
  Qed.
  Inductive steps : list token -> state -> list token -> state -> Prop :=
  | steps_refl l s : steps l s l s
  | steps_step l s l1 s1 l2 s2 : line l s = Ok (s1, l1) -> steps l1 s1 l2 s2 -> steps l s l2 s2.
  Lemma steps_trans l s l1 s1 l2 s2 : steps l s l1 s1 -> steps l1 s1 l2 s2 -> steps l s l2 s2.
  Proof. induction 1; intros H2; [exact H2|]. econstructor; [eassumption|]. apply IHsteps. exact H2. Qed.
  Lemma line_nonempty l s s1 l1 : line l s = Ok (s1, l1) -> l <> [].
  Proof. intros H ->. discriminate H. Qed.
  Lemma lines_cons n l s : l <> [] -> lines (S n) l s = let* r := line l s in lines n (snd r) (fst r).
  Proof. destruct l; [congruence|]. reflexivity. Qed.
  Lemma lines_steps l s s' : steps l s [] s' -> forall n, (length l <= n)%nat -> lines n l s = Ok s'.
  Proof.
    intros H. remember [] as e eqn:Ee in H. induction H as [l s|l s l1 s1 l2 s2 Hl _ IH]; intros n Hn; [subst l; destruct n; reflexivity|]. pose proof (line_len _ _ _ _ Hl). destruct n as [|n]; [lia|]. rewrite lines_cons by (eapply line_nonempty; eassumption). rewrite Hl. cbn [bind snd fst]. apply IH; [exact Ee|lia].
  Qed.
  Lemma lines_fail l s l1 s1 (o : outcome state) : steps l s l1 s1 -> l1 <> [] -> line l1 s1 = UB -> forall n, (length l <= n)%nat -> lines n l s = UB.
  Proof.
    induction 1 as [l s|l s l1 s1 l2 s2 Hl _ IH]; intros N U n Hn.
    - destruct l; [congruence|]. destruct n as [|n]; [cbn in Hn; lia|]. rewrite lines_cons by exact N. rewrite U. reflexivity.
    - pose proof (line_len _ _ _ _ Hl). destruct n as [|n]; [lia|]. rewrite lines_cons by (eapply line_nonempty; eassumption). rewrite Hl. cbn [bind snd fst]. apply IH; [exact N|exact U|lia].
  Qed.
  (** expressions *)
  Definition ends (r : list token) : Prop := match r with Concat :: _ | Fmt _ :: _ => False | _ => True end.
  Definition first_text (e : list piece) : str := match e with [] => [] | p :: _ => match p with EId s | EStr s | EVar s | EFmt s _ => s end end.
  Lemma strexp_toks e r : e <> [] -> ends r -> strexp (exp_toks e ++ r) = Some (parts e, first_text e, r).
  Proof.
    intros N E. induction e as [|p e IH]; [congruence|]. destruct e as [|p2 e].
    - cbn [exp_toks parts map first_text]. destruct p; cbn [piece_toks app piece_part strexp]; destruct r as [|t r]; try reflexivity; destruct t; try reflexivity; contradiction.
    - change (exp_toks (p :: p2 :: e)) with (piece_toks p ++ Concat :: exp_toks (p2 :: e))%list. rewrite <- app_assoc. cbn [app]. assert (H : strexp (exp_toks (p2 :: e) ++ r) = Some (parts (p2 :: e), first_text (p2 :: e), r)) by (apply IH; discriminate). clear IH. generalize dependent (exp_toks (p2 :: e) ++ r)%list. intros x H. transitivity (match strexp x with Some (ps, _, r0) => Some (piece_part p :: ps, first_text (p :: p2 :: e), r0) | None => None end); [destruct p; reflexivity|rewrite H; reflexivity].
  Qed.
  Lemma ends_toks s r : ends (toks s ++ r).
  Proof. destruct s; exact I. Qed.
  Lemma ends_all l r : ends r -> ends (toks_all l ++ r).
  Proof. intros H. destruct l as [|s l]; [exact H|]. unfold toks_all. cbn [flat_map]. rewrite <- app_assoc. apply ends_toks. Qed.
  Lemma toks_node n body : toks (SNode n body) = (TokId n :: BeginSec :: toks_all body ++ [EndSec])%list.
  Proof. reflexivity. Qed.
  Lemma toks_for v b e p body : toks (SFor v b e p body) = (For :: VarDef v :: Equal :: TokId b :: TokId e :: match p with Some p => [TokId p] | None => [] end ++ BeginSec :: toks_all body ++ [EndSec])%list.
  Proof. reflexivity. Qed.
  (** statements inside a block *)
  Definition grow_kind (k : kind R) (l : list (str * varstring)) : kind R := match k with Xml _ n a => Xml R n (a ++ l) | Loop _ _ _ _ _ => k end.
  Definition grow (f : frame R) (l : list stmt) : frame R := mkFrame R (grow_kind (f_kind R f) (attrs_of l)) (f_children R f ++ tr_all l).
  Definition takes (f : frame R) (s : stmt) : Prop := match f_kind R f with Xml _ _ _ => True | Loop _ _ _ _ _ => no_attr s end.
  (** the shape needed by the parser: numbers that can be read, no definitions *)
  Fixpoint shaped (s : stmt) : Prop :=
    let all := fix all (l : list stmt) : Prop := match l with [] => True | x :: l => shaped x /\ all l end in
    match s with
    | SComment => True
    | SSet _ _ => False
    | SAttr a e => e <> []
    | SNode n body => all body
    | SFor v b e p body => parse b <> None /\ parse e <> None /\ match p with Some p => parse p <> None | None => True end /\ Forall no_attr body /\ all body
    end.
  Definition shaped_all := fix all (l : list stmt) : Prop := match l with [] => True | x :: l => shaped x /\ all l end.
  Lemma shaped_all_forall l : shaped_all l <-> Forall shaped l.
  Proof. induction l as [|x l IH]; split; intros H; [constructor|exact I|destruct H; constructor; [assumption|apply IH; assumption]|inversion H; subst; split; [assumption|apply IH; assumption]]. Qed.
  Notation st0 f st top vs out := (mkState R (Open R (f :: st) top) vs out).
  Definition inner (s : stmt) : Prop := shaped s -> forall f st top vs out r, takes f s -> ends r -> steps (toks s ++ r) (st0 f st top vs out) r (st0 (grow f [s]) st top vs out).
  Lemma grow_app f a b : grow (grow f a) b = grow f (a ++ b).
  Proof. unfold grow. cbn [f_kind f_children]. rewrite attrs_of_app, tr_all_app, app_assoc. f_equal. destruct (f_kind R f); cbn [grow_kind]; [rewrite app_assoc|]; reflexivity. Qed.
  Lemma grow_nil f : grow f [] = f.
  Proof. destruct f as [k c]. unfold grow. cbn [f_kind f_children attrs_of flat_map tr_all]. rewrite app_nil_r. f_equal. destruct k; cbn [grow_kind]; [rewrite app_nil_r|]; reflexivity. Qed.
  Lemma takes_grow f a s : takes f s -> takes (grow f a) s.
  Proof. unfold takes, grow. cbn [f_kind]. destruct (f_kind R f); cbn [grow_kind]; auto. Qed.
  Lemma inner_all l : Forall inner l -> Forall shaped l -> forall f st top vs out r, Forall (takes f) l -> ends r -> steps (toks_all l ++ r) (st0 f st top vs out) r (st0 (grow f l) st top vs out).
  Proof.
    induction 1 as [|x l Hx _ IH]; intros Sl f st top vs out r Tl E; [cbn; rewrite grow_nil; apply steps_refl|]. cbn [toks_all flat_map]. fold (toks_all l). rewrite <- app_assoc. eapply steps_trans; [apply Hx; [inversion Sl; assumption|inversion Tl; assumption|apply ends_all; exact E]|]. replace (grow f (x :: l)) with (grow (grow f [x]) l) by (rewrite grow_app; reflexivity). apply IH; [inversion Sl; assumption| |exact E]. inversion Tl; subst. eapply Forall_impl; [|eassumption]. intros s. apply takes_grow.
  Qed.
  Lemma inner_stmt s : inner s.
  Proof.
    induction s as [|v e|a e|n body IH|v b e p body IH] using stmt_ind2; intros Sh f st top vs out r T E.
    - cbn [toks app]. eapply steps_step; [reflexivity|]. assert (G : grow f [SComment] = f) by (rewrite <- (grow_nil f) at 2; unfold grow; cbn; reflexivity). rewrite G. apply steps_refl.
    - contradiction.
    - cbn [toks app shaped] in *. eapply steps_step; [|apply steps_refl]. cbn [Model.Simple.line]. rewrite strexp_toks by assumption. unfold attribute. cbn [s_place]. unfold takes in T. unfold grow. destruct f as [[fn fa|] fc]; [|contradiction]. cbn [f_kind f_children bind grow_kind attrs_of flat_map app tr_all Proofs.Simple.tr]. rewrite app_nil_r. reflexivity.
    - change (shaped_all body) in Sh. apply shaped_all_forall in Sh. rewrite toks_node. cbn [app]. rewrite <- app_assoc. cbn [app]. eapply steps_step; [reflexivity|]. eapply steps_trans; [apply (inner_all body IH Sh); [|exact I]|].
      + apply Forall_forall. intros. exact I.
      + eapply steps_step; [|apply steps_refl]. cbn [Model.Simple.line]. unfold leave. cbn [s_place bind]. unfold grow. cbn [f_kind f_children grow_kind app]. destruct f as [fk fc]. cbn [f_kind f_children]. cbn [attrs_of flat_map app tr_all]. rewrite tr_node, app_nil_r. destruct fk; cbn [grow_kind]; rewrite ?app_nil_r; reflexivity.
    - destruct Sh as (Pb & Pe & Pp & Fn & Sh). change (shaped_all body) in Sh. apply shaped_all_forall in Sh. destruct (parse b) as [b'|] eqn:Eb; [|congruence]. destruct (parse e) as [e'|] eqn:Ee; [|congruence].
      assert (X : exists p', match p with Some p => parse p | None => Some one end = Some p' /\ match p with Some p => num R parse p one | None => one end = p').
      { unfold num. destruct p as [p|]; [destruct (parse p) as [p'|]; [exists p'; split; reflexivity|congruence]|exists one; split; reflexivity]. }
      destruct X as (p' & X1 & X2).
      assert (L : line (toks (SFor v b e p body) ++ r) (st0 f st top vs out) = Ok (st0 (mkFrame R (Loop R v b' e' p') []) (f :: st) top vs out, (toks_all body ++ EndSec :: r)%list)).
      { rewrite toks_for. destruct p as [p|]; cbn [app Model.Simple.line]; rewrite <- app_assoc; rewrite Eb, Ee; [rewrite X1|injection X1 as <-]; reflexivity. }
      eapply steps_step; [exact L|]. eapply steps_trans; [apply (inner_all body IH Sh); [|exact I]|].
      + exact Fn.
      + eapply steps_step; [|apply steps_refl]. cbn [Model.Simple.line]. unfold leave. cbn [s_place bind]. unfold grow. cbn [f_kind f_children grow_kind app]. destruct f as [fk fc]. cbn [f_kind f_children]. cbn [attrs_of flat_map app Proofs.Simple.tr_all]. rewrite tr_for, X2, app_nil_r. unfold num. rewrite Eb, Ee. destruct fk; cbn [grow_kind]; rewrite ?app_nil_r; reflexivity.
  Qed.
  (** definitions and comments outside of the block *)
  Definition is_def (s : stmt) : Prop := match s with SComment => True | SSet _ e => e <> [] | _ => False end.
  Definition define (vs : vars) (s : stmt) : vars := match s with SSet v e => mset scmp vs v (first_text e) | _ => vs end.
  Lemma defs_steps l : Forall is_def l -> forall pl vs out r, ends r -> steps (toks_all l ++ r) (mkState R pl vs out) r (mkState R pl (fold_left define l vs) out).
  Proof.
    induction 1 as [|x l Hx _ IH]; intros pl vs out r E; [apply steps_refl|]. cbn [toks_all flat_map]. fold (toks_all l). rewrite <- app_assoc. cbn [fold_left]. destruct x as [|v e| | |]; try contradiction.
    - cbn [toks app]. eapply steps_step; [reflexivity|]. apply IH. exact E.
    - cbn [toks app]. eapply steps_step; [cbn [Model.Simple.line]; rewrite strexp_toks by (try exact Hx; apply ends_all; exact E); reflexivity|]. apply IH. exact E.
  Qed.
  Lemma block_steps s vs out0 env' r : is_block s -> shaped s -> ends r -> execute_all R show add count format (tr s) 0 vs = Ok (out0, env') ->
    forall out, steps (toks s ++ r) (mkState R (NoRoot R) vs out) r (mkState R (Freed R) env' (out ++ out0)).
  Proof.
    intros B Sh E X out. destruct s as [| | |n body|v b e p body]; try contradiction.
    - change (shaped_all body) in Sh. apply shaped_all_forall in Sh. rewrite toks_node. cbn [app]. rewrite <- app_assoc. cbn [app]. eapply steps_step; [reflexivity|]. eapply steps_trans; [apply (inner_all body); [apply Forall_forall; intros; apply inner_stmt|exact Sh|apply Forall_forall; intros; exact I|exact I]|].
      eapply steps_step; [|apply steps_refl]. cbn [Model.Simple.line]. unfold leave. cbn [s_place s_vars s_out]. unfold grow. cbn [f_kind f_children grow_kind app]. rewrite tr_node in X. rewrite X. reflexivity.
    - destruct Sh as (Pb & Pe & Pp & Fn & Sh). change (shaped_all body) in Sh. apply shaped_all_forall in Sh. destruct (parse b) as [b'|] eqn:Eb; [|congruence]. destruct (parse e) as [e'|] eqn:Ee; [|congruence].
      assert (Y : exists p', match p with Some p => parse p | None => Some one end = Some p' /\ match p with Some p => num R parse p one | None => one end = p').
      { unfold num. destruct p as [p|]; [destruct (parse p) as [p'|]; [exists p'; split; reflexivity|congruence]|exists one; split; reflexivity]. }
      destruct Y as (p' & X1 & X2).
      assert (L : line (toks (SFor v b e p body) ++ r) (mkState R (NoRoot R) vs out) = Ok (mkState R (Open R [mkFrame R (Loop R v b' e' p') []] []) vs out, (toks_all body ++ EndSec :: r)%list)).
      { rewrite toks_for. destruct p as [p|]; cbn [app Model.Simple.line]; rewrite <- app_assoc; rewrite Eb, Ee; [rewrite X1|injection X1 as <-]; reflexivity. }
      eapply steps_step; [exact L|]. eapply steps_trans; [apply (inner_all body); [apply Forall_forall; intros; apply inner_stmt|exact Sh|exact Fn|exact I]|].
      eapply steps_step; [|apply steps_refl]. cbn [Model.Simple.line]. unfold leave. cbn [s_place s_vars s_out]. unfold grow. cbn [f_kind f_children grow_kind app]. rewrite tr_for, X2 in X. unfold num in X. rewrite Eb, Ee in X. rewrite X. reflexivity.
  Qed.
  Lemma translate_ok pre blk post out env' : Forall is_def pre -> is_block blk -> shaped blk -> Forall is_def post ->
    execute_all R show add count format (tr blk) 0 (fold_left define pre []) = Ok (out, env') -> translate (toks_all (pre ++ blk :: post)) = Ok out.
  Proof.
    intros Hp Hb Sh Hq X. unfold Model.Simple.translate. assert (S : steps (toks_all (pre ++ blk :: post)) (mkState R (NoRoot R) [] []) [] (mkState R (Freed R) (fold_left define post env') out)).
    { unfold toks_all. rewrite flat_map_app. cbn [flat_map]. fold (toks_all pre). fold (toks_all post). eapply steps_trans; [apply defs_steps; [exact Hp|apply ends_toks]|]. eapply steps_trans; [eapply block_steps; [exact Hb|exact Sh|rewrite <- (app_nil_r (toks_all post)); apply ends_all; exact I|exact X]|]. rewrite <- (app_nil_r (toks_all post)). apply defs_steps; [exact Hq|exact I]. }
    rewrite (lines_steps _ _ _ S) by lia. reflexivity.
  Qed.
  (** after the block *)
  Lemma translate_second pre blk post out env' next : Forall is_def pre -> is_block blk -> shaped blk -> Forall is_def post ->
    execute_all R show add count format (tr blk) 0 (fold_left define pre []) = Ok (out, env') -> next <> [] -> ends next ->
    line next (mkState R (Freed R) (fold_left define post env') out) = UB -> translate (toks_all (pre ++ blk :: post) ++ next) = UB.
  Proof.
    intros Hp Hb Sh Hq X N E U. unfold Model.Simple.translate. assert (S : steps (toks_all (pre ++ blk :: post) ++ next) (mkState R (NoRoot R) [] []) next (mkState R (Freed R) (fold_left define post env') out)).
    { unfold toks_all. rewrite flat_map_app. cbn [flat_map]. fold (toks_all pre). fold (toks_all post). rewrite <- !app_assoc. eapply steps_trans; [apply defs_steps; [exact Hp|apply ends_toks]|]. eapply steps_trans; [eapply block_steps; [exact Hb|exact Sh|apply ends_all; exact E|exact X]|]. apply defs_steps; [exact Hq|exact E]. }
    rewrite (lines_fail _ _ _ _ UB S N U) by lia. reflexivity.
  Qed.
  (** a block that is not closed *)
  Lemma translate_open pre n body : Forall is_def pre -> shaped_all body -> translate (toks_all pre ++ TokId n :: BeginSec :: toks_all body) = Ok [].
  Proof.
    intros Hp Sh. apply shaped_all_forall in Sh. unfold Model.Simple.translate. assert (S : exists s', steps (toks_all pre ++ TokId n :: BeginSec :: toks_all body) (mkState R (NoRoot R) [] []) [] s' /\ s_out R s' = []).
    { eexists. split; [eapply steps_trans; [apply defs_steps; [exact Hp|exact I]|]; eapply steps_step; [reflexivity|]; rewrite <- (app_nil_r (toks_all body)); apply (inner_all body); [apply Forall_forall; intros; apply inner_stmt|exact Sh|apply Forall_forall; intros; exact I|exact I]|]. reflexivity. }
    destruct S as (s' & S & O). rewrite (lines_steps _ _ _ S) by lia. cbn [bind]. rewrite O. reflexivity.
  Qed.
  (** * Together *)
  Hypothesis oracles : good_oracles R show format.
  Notation mean := (mean R parse show one add count format).
  Notation mean_all := (mean_all R parse show one add count format).
  Lemma loop_first v body l env m : l <> [] -> loop_mean R parse show one add count format v body l env = Ok m -> exists env1 a, mean_all body env1 = Ok a.
  Proof. destruct l as [|d l]; [congruence|]. intros _ E. cbn [loop_mean] in E. destruct (mean_all body _) as [a| |] eqn:Ea; try discriminate. eexists; eexists; exact Ea. Qed.
  Lemma mean_shaped s : good s -> forall env m, mean s env = Ok m -> shaped s.
  Proof.
    induction s as [|v e|a e|n body IH|v b e p body IH] using stmt_ind2; intros Gs env m E.
    - exact I.
    - contradiction.
    - destruct Gs as (_ & _ & N & _). exact N.
    - destruct Gs as (_ & _ & _ & Gb). change (good_all body) in Gb. apply good_all_forall in Gb. change (shaped_all body). apply shaped_all_forall. rewrite mean_node in E. destruct (mean_all body env) as [mb| |] eqn:Em; try discriminate. clear E. revert env mb Em. induction IH as [|x body Hx _ IHb]; intros env mb Em; [constructor|]. cbn [Spec.Simple.mean_all] in Em. destruct (mean x env) as [y| |] eqn:Ey; try discriminate. cbn [bind] in Em. destruct (mean_all body (m_env y)) as [z| |] eqn:Ez; try discriminate. constructor; [eapply Hx; [inversion Gb; assumption|exact Ey]|eapply IHb; [inversion Gb; assumption|exact Ez]].
    - destruct Gs as (_ & Fn & Gb). change (good_all body) in Gb. apply good_all_forall in Gb. rewrite mean_for in E. cbn [shaped]. destruct (parse b) as [b'|]; try discriminate. destruct (parse e) as [e'|]; try discriminate. destruct (match p with Some p => parse p | None => Some one end) as [p'|] eqn:Ep; try discriminate. destruct (count b' e' p') as [k| |]; try discriminate. cbn [bind] in E. apply loop_first in E; [|discriminate]. destruct E as (env1 & a & Em). split; [discriminate|]. split; [discriminate|]. split; [destruct p; [congruence|exact I]|]. split; [exact Fn|]. change (shaped_all body). apply shaped_all_forall. clear Fn. revert env1 a Em. induction IH as [|x body Hx _ IHb]; intros env1 mb Em; [constructor|]. cbn [Spec.Simple.mean_all] in Em. destruct (mean x env1) as [y| |] eqn:Ey; try discriminate. cbn [bind] in Em. destruct (mean_all body (m_env y)) as [z| |] eqn:Ez; try discriminate. constructor; [eapply Hx; [inversion Gb; assumption|exact Ey]|eapply IHb; [inversion Gb; assumption|exact Ez]].
  Qed.
  Lemma good_is_def l : Forall good_def l -> Forall is_def l.
  Proof. intros H. eapply Forall_impl; [|exact H]. intros [|v e| | |]; cbn; try tauto. destruct e as [|[] []]; try tauto; intros; discriminate. Qed.
  Lemma good_defs l : Forall good_def l -> forall env, good_env env -> mean_all l env = Ok (mkM [] [] (fold_left define l env)) /\ good_env (fold_left define l env).
  Proof.
    induction 1 as [|x l Hx _ IH]; intros env G; [split; [reflexivity|exact G]|]. cbn [Spec.Simple.mean_all fold_left].
    assert (Hd : mean x env = Ok (mkM [] [] (define env x)) /\ good_env (define env x)).
    { destruct x as [|v e| | |]; try contradiction; [split; [reflexivity|exact G]|]. destruct e as [|[t|t|t|t f] []]; try contradiction; cbn [Spec.Simple.mean Spec.Simple.eval eval_piece bind define first_text]; rewrite app_nil_r; (split; [reflexivity|apply good_env_set; [exact G|apply Hx|apply Hx]]). }
    destruct Hd as [Hm Hg]. rewrite Hm. cbn [bind m_env m_attrs m_elems]. destruct (IH _ Hg) as [I1 I2]. rewrite I1. split; [reflexivity|exact I2].
  Qed.
  Lemma good_env_nil : good_env [].
  Proof. intros v. split; [constructor|]. unfold fits. cbn. lia. Qed.
  Lemma translation pre blk post m : Forall good_def pre -> is_block blk -> good blk -> Forall good_def post -> mean_all (pre ++ blk :: post) [] = Ok m ->
    exists out, translate (toks_all (pre ++ blk :: post)) = Ok out /\ read_xml out = Some (m_elems m).
  Proof.
    intros Hp Hb Gb Hq E. rewrite mean_all_app in E. destruct (good_defs pre Hp [] good_env_nil) as [Ep Gp]. rewrite Ep in E. cbn [bind m_env m_attrs m_elems app Spec.Simple.mean_all] in E. destruct (mean blk (fold_left define pre [])) as [b| |] eqn:Em; try discriminate. cbn [bind] in E.
    destruct (written_stmt R parse show one add count format oracles blk Gb 0 _ b Gp Em) as (Gm & out & X & Rx). destruct (good_defs post Hq (m_env b) Gm) as [Eq _]. rewrite Eq in E. cbn [bind m_env m_attrs m_elems] in E. injection E as <-. cbn [m_elems]. rewrite app_nil_r. exists out. split.
    - apply (translate_ok pre blk post out (m_env b)); [apply good_is_def; exact Hp|exact Hb|eapply mean_shaped; eassumption|apply good_is_def; exact Hq|exact X].
    - unfold read_xml, start. rewrite Rx. unfold push. cbn. reflexivity.
  Qed.
End Pa.

(** * Loops *)
From Coq Require Import QArith Qabs Qround Lqa.
Lemma values_in n b s d : (exists x, In x (values Q Qplus n b s) /\ d == x) <-> exists k, (0 <= k < Z.of_nat n)%Z /\ d == b + inject_Z k * s.
Proof.
  revert b. induction n as [|n IH]; intros b; cbn [values].
  - split; [intros (x & [] & _)|intros (k & H & _); lia].
  - split.
    + intros (x & [<-|H] & E); [exists 0%Z; split; [lia|]; rewrite E; change (inject_Z 0) with (0 # 1); ring|]. destruct (proj1 (IH (b + s))) as (k & Hk & Ek); [exists x; split; assumption|]. exists (k + 1)%Z. split; [lia|]. rewrite Ek, inject_Z_plus. change (inject_Z 1) with 1. ring.
    + intros (k & Hk & Ek). destruct (Z.eq_dec k 0) as [->|N]; [exists b; split; [left; reflexivity|]; rewrite Ek; change (inject_Z 0) with (0 # 1); ring|]. destruct (proj2 (IH (b + s))) as (x & Hx & Ex); [exists (k - 1)%Z; split; [lia|]; rewrite Ek; replace (inject_Z k) with (inject_Z ((k - 1) + 1)) by (f_equal; lia); rewrite inject_Z_plus; change (inject_Z 1) with 1; ring|]. exists x. split; [right; exact Hx|exact Ex].
Qed.
Lemma count_values b e s n d : count_q b e s = Ok n -> 0 <= (e - b) / s -> (exists x, In x (values Q Qplus (S (Z.to_nat n)) b s) /\ d == x) <-> loop_value b e s d.
Proof.
  unfold count_q. destruct (Qeq_bool s 0) eqn:S0; [discriminate|]. apply Qeq_bool_neq in S0. set (m := Qfloor (Qabs ((b - e) / s))). destruct (Z.ltb_spec 2147483647 m) as [|_]; [discriminate|]. intros E D. injection E as <-.
  assert (Sn : 0 < s \/ s < 0) by (destruct (Qlt_le_dec 0 s) as [L|L]; [left; exact L|right; destruct (Qle_lt_or_eq _ _ L) as [L2|L2]; [exact L2|contradiction]]).
  assert (A : Qabs ((b - e) / s) == (e - b) / s).
  { rewrite Qabs_neg; [field; exact S0|]. assert (H : (b - e) / s == - ((e - b) / s)) by (field; exact S0). rewrite H. lra. }
  assert (M0 : (0 <= m)%Z) by (unfold m; change 0%Z with (Qfloor 0); apply Qfloor_resp_le; rewrite A; exact D).
  assert (M : forall k, (k <= m)%Z <-> inject_Z k <= (e - b) / s).
  { intros k. unfold m. split; intros H.
    - apply Qle_trans with (inject_Z (Qfloor (Qabs ((b - e) / s)))); [rewrite <- Zle_Qle; exact H|]. rewrite <- A. apply Qfloor_le.
    - rewrite <- A in H. rewrite <- (Qfloor_Z k). apply Qfloor_resp_le. exact H. }
  assert (B : forall k, (0 <= k)%Z -> inject_Z k <= (e - b) / s <-> (b <= b + inject_Z k * s <= e \/ e <= b + inject_Z k * s <= b)).
  { intros k Hk. assert (K0 : 0 <= inject_Z k) by (change 0 with (inject_Z 0); rewrite <- Zle_Qle; exact Hk). assert (Es : (e - b) / s * s == e - b) by (field; exact S0). set (q := (e - b) / s) in *. clearbody q. clear - K0 Es Sn D.
    generalize dependent (inject_Z k). intros x K0. destruct Sn as [L|L]; split.
    - intros H. left. split; [nra|]. assert (x * s <= q * s) by nra. lra.
    - intros [H|H].
      + assert (x * s <= q * s) by lra. nra.
      + assert (x * s <= 0) by lra. assert (0 <= q * s) by nra. destruct (Qlt_le_dec q x) as [G|G]; [|exact G]. exfalso. assert (q * s < x * s) by nra. lra.
    - intros H. right. split; [|nra]. assert (q * s <= x * s) by nra. lra.
    - intros [H|H].
      + assert (0 <= x * s) by lra. destruct (Qlt_le_dec q x) as [G|G]; [|exact G]. exfalso. assert (x * s < q * s) by nra. assert (q * s <= 0) by nra. lra.
      + assert (q * s <= x * s) by lra. destruct (Qlt_le_dec q x) as [G|G]; [|exact G]. exfalso. assert (x * s < q * s) by nra. lra. }
  rewrite values_in. unfold loop_value. split.
  - intros (k & Hk & Ek). exists k. split; [lia|]. split; [exact Ek|]. rewrite Ek. apply B; [lia|]. apply M. lia.
  - intros (k & Hk & Ek & H). exists k. split; [|exact Ek]. rewrite Ek in H. apply B in H; [|exact Hk]. apply M in H. lia.
Qed.
