(** Proofs about the file system helpers. *)
From Coq Require Import Ascii String List Lia Bool Arith.
From Verif Require Import Base Model.FSTools Spec.FSTools.
Import ListNotations.

Definition noslash (x : str) : Prop := forall c, In c x -> c <> slash.
Lemma sl_eq c : Ascii.eqb c slash = true <-> c = slash. Proof. apply Ascii.eqb_eq. Qed.
Lemma sl_ne c : Ascii.eqb c slash = false <-> c <> slash. Proof. apply Ascii.eqb_neq. Qed.

(** ** paths and their components *)
Lemma comps_ne s : comps s <> [].
Proof. destruct s as [|c t]; cbn [comps]; [discriminate|]. destruct (Ascii.eqb c slash); [discriminate|]. destruct (comps t); discriminate. Qed.
Lemma comps_app u v : comps (u ++ slash :: v) = comps u ++ comps v.
Proof.
  induction u as [|c u IH]; cbn [comps app]; [rewrite Ascii.eqb_refl; reflexivity|].
  rewrite IH. destruct (Ascii.eqb c slash); [reflexivity|]. pose proof (comps_ne u). destruct (comps u) as [|h r]; [congruence|reflexivity].
Qed.
Lemma comps_slashes k : comps (repeat slash k) = repeat [] (S k).
Proof. induction k as [|k IH]; [reflexivity|]. cbn [repeat comps]. rewrite Ascii.eqb_refl, IH. reflexivity. Qed.
Lemma comps_name x k : noslash x -> comps (x ++ repeat slash k) = x :: repeat [] k.
Proof.
  induction x as [|c x IH]; intros H; cbn [app]; [apply comps_slashes|]. cbn [comps]. rewrite (proj2 (sl_ne c)) by (apply H; left; reflexivity).
  rewrite IH by (intros d Hd; apply H; right; exact Hd). reflexivity.
Qed.
Lemma dropw_split {A} (b : A -> bool) l : exists a, l = a ++ dropw b l /\ forallb b a = true /\ match dropw b l with [] => True | x :: _ => b x = false end.
Proof.
  induction l as [|x l IH]; cbn [dropw]; [exists []; repeat split; reflexivity|]. destruct (b x) eqn:E.
  - destruct IH as (a & H1 & H2 & H3). exists (x :: a). cbn [app forallb]. rewrite E, <- H1. auto.
  - exists []. cbn. auto.
Qed.
Lemma all_slash l : forallb (fun c => Ascii.eqb c slash) l = true -> l = repeat slash (length l).
Proof. induction l as [|c l IH]; intros H; [reflexivity|]. cbn in H. apply andb_true_iff in H. destruct H as [H1 H2]. apply sl_eq in H1. cbn. rewrite <- IH by exact H2. congruence. Qed.
Lemma rev_repeat {A} (x : A) k : rev (repeat x k) = repeat x k.
Proof. induction k as [|k IH]; [reflexivity|]. cbn [repeat rev]. rewrite IH. clear IH. induction k as [|k IH]; [reflexivity|]. cbn [repeat app]. rewrite IH. reflexivity. Qed.
(** what is left of a path when its last component is taken away *)
Lemma strip_shape s : (exists k, s = repeat slash k) /\ strip_last s = UB \/
  exists u x k, strip_last s = Ok u /\ x <> [] /\ noslash x /\ (s = u ++ slash :: x ++ repeat slash k \/ u = [] /\ s = x ++ repeat slash k).
Proof.
  unfold strip_last. destruct (dropw_split (fun c => Ascii.eqb c slash) (rev s)) as (a & E & Ha & Hd). apply all_slash in Ha. remember (length a) as k eqn:Hk. clear Hk. subst a.
  destruct (dropw (fun c => Ascii.eqb c slash) (rev s)) as [|y r] eqn:D.
  - left. split; [|reflexivity]. exists k. rewrite app_nil_r in E. rewrite <- (rev_involutive s), E. apply rev_repeat.
  - right. unfold before_last. destruct (dropw_split (fun c => negb (Ascii.eqb c slash)) (y :: r)) as (b & E2 & Hb & Hd2).
    assert (NB : b <> []). { intros ->. cbn [app] in E2. rewrite <- E2 in Hd2. cbv beta in Hd2. rewrite Hd in Hd2. discriminate Hd2. }
    assert (NS : noslash (rev b)). { intros c Hc. apply in_rev in Hc. rewrite forallb_forall in Hb. specialize (Hb c Hc). apply negb_true_iff, sl_ne in Hb. exact Hb. }
    assert (S1 : s = rev (y :: r) ++ repeat slash k). { rewrite <- (rev_involutive s), E, rev_app_distr, rev_repeat. reflexivity. }
    destruct (dropw (fun c => negb (Ascii.eqb c slash)) (y :: r)) as [|z t].
    + exists [], (rev b), k. split; [reflexivity|]. split; [intros X; apply NB; rewrite <- (rev_involutive b), X; reflexivity|]. split; [exact NS|]. right. split; [reflexivity|]. rewrite S1, E2, app_nil_r. reflexivity.
    + exists (rev t), (rev b), k. split; [reflexivity|]. split; [intros X; apply NB; rewrite <- (rev_involutive b), X; reflexivity|]. split; [exact NS|]. left.
      cbv beta in Hd2. apply negb_false_iff, sl_eq in Hd2. subst z. rewrite S1, E2, rev_app_distr. cbn [rev]. rewrite <- !app_assoc. reflexivity.
Qed.
Lemma drop_empties k (r : list str) : match r with [] => True | x :: _ => x <> [] end -> dropw (fun c => str_eqb c []) (repeat [] k ++ r) = r.
Proof.
  intros H. induction k as [|k IH]; cbn [repeat app dropw]; [|rewrite str_eqb_refl; exact IH]. destruct r as [|x r]; [reflexivity|]. cbn [dropw]. rewrite (proj2 (str_eqb_false x [])) by exact H. reflexivity.
Qed.
Lemma split_shape (s : str) (l : list str) (x : str) k : comps s = l ++ x :: repeat [] k -> x <> [] -> split_last s = Some (l, x).
Proof.
  intros E N. unfold split_last. rewrite E, rev_app_distr. cbn [rev]. rewrite rev_repeat, <- app_assoc. cbn [app]. rewrite drop_empties by exact N. rewrite rev_involutive. reflexivity.
Qed.
Lemma split_slashes k : split_last (repeat slash k) = None.
Proof. unfold split_last. rewrite comps_slashes, rev_repeat. pose proof (drop_empties (S k) [] I) as H. rewrite app_nil_r in H. unfold str in *. rewrite H. reflexivity. Qed.

(** ** the file system *)
Lemma look_cons f p k q : p <> [] -> look ((p, k) :: f) q = if node_dec q p then Some k else look f q.
Proof. intros N. destruct q as [|y q]; cbn [look assoc]; [destruct (node_dec [] p); congruence|]. reflexivity. Qed.
Lemma walk_app f a b : forall cur, walk f cur (a ++ b) = match walk f cur a with Found p => walk f p b | Missing => Missing | NotDir => NotDir end.
Proof.
  induction a as [|c a IH]; intros cur; cbn [app walk]; [reflexivity|]. destruct (look f cur) as [[|]|]; try reflexivity.
  destruct (str_eqb c [] || str_eqb c (lit ".")); [apply IH|]. destruct (str_eqb c (lit "..")); [apply IH|]. destruct (look f (c :: cur)); [apply IH|reflexivity].
Qed.
Lemma walk_empties f p k : look f p = Some Dir -> walk f p (repeat [] k) = Found p.
Proof. intros D. induction k as [|k IH]; cbn [repeat walk]; [reflexivity|]. rewrite D. cbn. exact IH. Qed.
Lemma walk_grown f g l : grown f g -> forall cur p, walk f cur l = Found p -> walk g cur l = Found p.
Proof.
  intros G. induction l as [|c l IH]; intros cur p; cbn [walk]; [auto|]. intros W. destruct (look f cur) as [[|]|] eqn:D; try discriminate W.
  assert (X : forall q k, look f q = Some k -> look g q = Some k). { intros q k Hq. destruct (G q) as [->|[Y _]]; [exact Hq|congruence]. }
  rewrite (X _ _ D). destruct (str_eqb c [] || str_eqb c (lit ".")); [apply IH, W|]. destruct (str_eqb c (lit "..")); [apply IH, W|].
  destruct (look f (c :: cur)) as [k|] eqn:E; [|discriminate W]. rewrite (X _ _ E). apply IH, W.
Qed.
Lemma grown_refl f : grown f f. Proof. intros p. left. reflexivity. Qed.
Lemma grown_tr f g h : grown f g -> grown g h -> grown f h.
Proof. intros A B p. destruct (A p) as [A1|[A1 A2]], (B p) as [B1|[B1 B2]]; try (left; congruence); right; split; congruence. Qed.
Lemma tree_root f p : tree f -> forall l, look f (l ++ p) <> None -> look f p <> None.
Proof. intros T. induction l as [|x l IH]; cbn [app]; intros H; [exact H|]. apply IH. destruct (look f (x :: l ++ p)) as [k|] eqn:E; [|congruence]. rewrite (T _ _ _ E). discriminate. Qed.
Lemma tree_above f p : tree f -> forall x l, look f (x :: l ++ p) <> None -> look f p = Some Dir.
Proof.
  intros T x l. revert x. induction l as [|y l IH]; cbn [app]; intros x H; destruct (look f _) as [k|] eqn:E in H; try congruence.
  - exact (T _ _ _ E).
  - apply (IH y). rewrite (T _ _ _ E). discriminate.
Qed.

Section Proofs.
  Variable cwd : node.
  Variable perm : node -> bool.
  Notation stat := (stat cwd). Notation start := (start cwd). Notation mkdir := (mkdir cwd perm). Notation create := (create cwd perm).
  Notation create_dir := (create_dir cwd perm). Notation rm := (rm cwd perm). Notation remove := (remove cwd perm).

  (** base directory and components above the last name of a path *)
  Definition upper (s u : str) (l : list str) : Prop := u <> [] /\ start u = start s /\ l = comps u \/ u = [] /\ (l = [] \/ l = [[]]) .
  Lemma shape (s : str) : s <> [] -> (exists k, s = repeat slash (S k)) \/
    exists (u x : str) k (l : list str), strip_last s = Ok u /\ x <> [] /\ comps s = l ++ x :: repeat [] k /\ split_last s = Some (l, x) /\ upper s u l /\
      (length u < length s)%nat /\ (k = 0%nat <-> last s slash <> slash).
  Proof.
    intros N. destruct (strip_shape s) as [[[k ->] _]|(u & x & k & E & Nx & Ns & C)].
    - left. destruct k as [|k]; [cbn in N; congruence|exists k; reflexivity].
    - right.
      assert (LK : forall w, (k = 0 <-> last (w ++ x ++ repeat slash k) slash <> slash)%nat).
      { intros w. destruct k as [|k].
        - cbn [repeat]. rewrite app_nil_r. split; [intros _|reflexivity]. destruct (exists_last Nx) as (x' & c & ->). rewrite app_assoc, last_last. apply Ns. apply in_or_app. right. left. reflexivity.
        - split; [discriminate|]. intros H. exfalso. apply H. change (repeat slash (S k)) with (slash :: repeat slash k).
          assert (R : slash :: repeat slash k = repeat slash k ++ [slash]). { clear. induction k as [|k IH]; [reflexivity|]. cbn [repeat app]. rewrite <- IH. reflexivity. }
          rewrite R, !app_assoc, last_last. reflexivity. }
      destruct C as [C|[U C]].
      + exists u, x, k, (comps u). assert (CS : comps s = comps u ++ x :: repeat [] k) by (rewrite C, comps_app, (comps_name x k Ns); reflexivity).
        split; [exact E|]. split; [exact Nx|]. split; [exact CS|]. split; [apply (split_shape s _ x k CS Nx)|]. split.
        * destruct u as [|c u]; [right; split; [reflexivity|right; reflexivity]|left]. split; [discriminate|]. split; [rewrite C; reflexivity|reflexivity].
        * split; [rewrite C, app_length; cbn; lia|]. rewrite C. specialize (LK (u ++ [slash])). rewrite <- app_assoc in LK. exact LK.
      + subst u. exists [], x, k, []. assert (CS : comps s = [] ++ x :: repeat [] k) by (rewrite C; apply comps_name, Ns).
        split; [exact E|]. split; [exact Nx|]. split; [exact CS|]. split; [apply (split_shape s _ x k CS Nx)|]. split; [right; split; [reflexivity|left; reflexivity]|].
        split; [destruct s; [congruence|cbn; lia]|]. specialize (LK []). rewrite C. exact LK.
  Qed.
  Lemma stat_ne f s : s <> [] -> stat f s = walk f (start s) (comps s). Proof. destruct s; [congruence|reflexivity]. Qed.
  Lemma stat_slashes f k : stat f (repeat slash (S k)) = Found [].
  Proof. rewrite stat_ne by discriminate. rewrite comps_slashes. apply (walk_empties f [] (S (S k))). reflexivity. Qed.
  Lemma start_dir f s : look f cwd = Some Dir -> look f (start s) = Some Dir.
  Proof. intros D. unfold FSTools.start. destruct s as [|c s]; [exact D|]. destruct (Ascii.eqb c slash); [reflexivity|exact D]. Qed.
  Lemma dir_grown f g p : grown f g -> look f p = Some Dir -> look g p = Some Dir.
  Proof. intros G D. destruct (G p) as [E|[E _]]; congruence. Qed.

  Lemma mkdir_ok f s g b : tree f -> mkdir f s = (g, b) -> grown f g /\ tree g /\ (b = false -> g = f).
  Proof.
    intros T. unfold FSTools.mkdir. intros H.
    assert (K : g = f \/ exists x p, g = (x :: p, Dir) :: f /\ look f p = Some Dir /\ look f (x :: p) = None /\ b = true).
    { destruct s as [|c s]; [injection H as <- _; left; reflexivity|]. destruct (split_last (c :: s)) as [[l x]|]; [|injection H as <- _; left; reflexivity].
      destruct (walk f _ l) as [p| |]; try (injection H as <- _; left; reflexivity). destruct (look f p) as [[|]|] eqn:D; try (injection H as <- _; left; reflexivity).
      destruct (dots x); [injection H as <- _; left; reflexivity|]. destruct (look f (x :: p)) eqn:E; [injection H as <- _; left; reflexivity|].
      destruct (perm p); [|injection H as <- _; left; reflexivity]. injection H as <- <-. right. exists x, p. auto. }
    destruct K as [->|(x & p & -> & D & E & ->)]; [split; [apply grown_refl|]; split; [exact T|reflexivity]|].
    split; [|split; [|discriminate]].
    - intros q. rewrite look_cons by discriminate. destruct (node_dec q (x :: p)) as [->|]; [right; auto|left; reflexivity].
    - intros y q k. rewrite !look_cons by discriminate. destruct (node_dec (y :: q) (x :: p)) as [X|].
      + injection X as -> ->. intros _. destruct (node_dec p (x :: p)) as [X|]; [apply (f_equal (@length _)) in X; cbn in X; lia|exact D].
      + intros L. apply T in L. destruct (node_dec q (x :: p)) as [->|]; [reflexivity|exact L].
  Qed.
  (** after the directory above exists, a successful mkdir leads to the new directory *)
  Lemma mkdir_leads f (s : str) g (x : str) k (l : list str) : s <> [] -> comps s = l ++ x :: repeat [] k -> x <> [] -> split_last s = Some (l, x) -> tree f ->
    mkdir f s = (g, true) -> leads cwd g s Dir.
  Proof.
    intros N C Nx Sp T H. pose proof (mkdir_ok f s g true T H) as (G & _). unfold FSTools.mkdir in H. destruct s as [|c s]; [congruence|]. rewrite Sp in H.
    destruct (walk f (start (c :: s)) l) as [p| |] eqn:W; try discriminate H. destruct (look f p) as [[|]|] eqn:D; try discriminate H.
    destruct (dots x) eqn:Do; [discriminate H|]. destruct (look f (x :: p)) eqn:E; [discriminate H|]. destruct (perm p); [|discriminate H]. injection H as <-.
    exists (x :: p). assert (L : look ((x :: p, Dir) :: f) (x :: p) = Some Dir) by (rewrite look_cons by discriminate; destruct (node_dec (x :: p) (x :: p)); congruence).
    split; [|exact L]. rewrite stat_ne by discriminate. rewrite C, walk_app, (walk_grown f _ l G _ _ W). cbn [walk]. rewrite (dir_grown f _ p G D), L.
    apply orb_false_iff in Do. destruct Do as [D1 D2]. rewrite D1, D2, (proj2 (str_eqb_false x [])) by exact Nx. cbn [orb]. apply walk_empties, L.
  Qed.

  Lemma create_ok n : forall f s g r, (length s <= n)%nat -> tree f -> look f cwd = Some Dir -> create n f s = (g, r) ->
    grown f g /\ tree g /\ r <> UB /\ (r = Ok tt -> s <> [] -> leads cwd g s Dir).
  Proof.
    assert (Z : forall f, look f cwd = Some Dir -> leads cwd f (lit "./") Dir). { intros f D. exists cwd. split; [|exact D]. change (walk f cwd [lit "."; []] = Found cwd). cbn [walk]. rewrite D. reflexivity. }
    induction n as [|n IH]; intros f s g r L T D; cbn [FSTools.create]; (destruct (str_eqb s [] || str_eqb s (lit "./")) eqn:Q;
      [intros H; injection H as <- <-; split; [apply grown_refl|]; split; [exact T|]; split; [discriminate|]; intros _ N;
       apply orb_true_iff in Q; destruct Q as [Q|Q]; apply str_eqb_true in Q; subst s; [congruence|apply Z, D]|]);
      apply orb_false_iff in Q; destruct Q as [N Q]; apply str_eqb_false in N.
    - destruct s; [congruence|cbn in L; lia].
    - destruct (stat f s) as [p| |] eqn:St; intros H.
      + injection H as <- <-. split; [apply grown_refl|]. split; [exact T|]. destruct (look f p) as [[|]|] eqn:E; (split; [discriminate|]); try discriminate. intros _ _. exists p. auto.
      + destruct (shape s N) as [[k ->]|(u & x & k & l & E & Nx & C & Sp & U & Lu & _)]; [rewrite stat_slashes in St; discriminate St|]. rewrite E in H.
        destruct (create n f u) as [g1 r1] eqn:Cr. destruct (IH f u g1 r1 ltac:(lia) T D Cr) as (G1 & T1 & U1 & L1).
        destruct r1 as [[]| |]; [|injection H as <- <-; auto using grown_refl; split; [exact G1|]; split; [exact T1|]; split; [discriminate|discriminate]|congruence].
        destruct (mkdir g1 s) as [g2 b] eqn:Mk. injection H as <- <-. destruct (mkdir_ok _ _ _ _ T1 Mk) as (G2 & T2 & _).
        split; [exact (grown_tr _ _ _ G1 G2)|]. split; [exact T2|]. destruct b; (split; [discriminate|]); [|discriminate]. intros _ _. exact (mkdir_leads g1 s g2 x k l N C Nx Sp T1 Mk).
      + injection H as <- <-. split; [apply grown_refl|]. split; [exact T|]. split; discriminate.
  Qed.
  Lemma create_again f s p : s <> [] -> stat f s = Found p -> create_dir f s = (f, if str_eqb s (lit "./") then Ok tt else match look f p with Some Dir => Ok tt | _ => Throw end).
  Proof.
    intros N E. unfold FSTools.create_dir. destruct s as [|c s]; [congruence|]. cbn [length FSTools.create]. rewrite E. rewrite (proj2 (str_eqb_false (c :: s) [])) by discriminate. cbn [orb].
    destruct (str_eqb (c :: s) (lit "./")); reflexivity.
  Qed.

  (** ** plain paths *)
  Definition lplain (l : list str) : Prop := forall c, In c l -> c <> lit "." /\ c <> lit "..".
  Definition names (l : list str) : list str := filter (fun c => negb (str_eqb c [])) l.
  Lemma walk_plain f l : lplain l -> forall cur p, walk f cur l = Found p -> p = rev (names l) ++ cur.
  Proof.
    induction l as [|c l IH]; intros P cur p; cbn [walk]; [intros H; injection H as ->; reflexivity|]. assert (Pl : lplain l) by (intros d Hd; apply P; right; exact Hd).
    destruct (look f cur) as [[|]|]; try discriminate. destruct (P c (or_introl eq_refl)) as [P1 P2]. rewrite (proj2 (str_eqb_false c _) P1), (proj2 (str_eqb_false c _) P2), orb_false_r.
    unfold names. cbn [filter]. destruct (str_eqb c []) eqn:E; cbn [negb].
    - apply IH, Pl.
    - destruct (look f (c :: cur)); [|discriminate]. intros H. rewrite (IH Pl _ _ H). cbn [rev]. rewrite <- app_assoc. reflexivity.
  Qed.
  Lemma walk_missing f l : tree f -> lplain l -> forall cur, walk f cur l = Missing -> look f (rev (names l) ++ cur) = None.
  Proof.
    intros T. induction l as [|c l IH]; intros P cur; cbn [walk]; [discriminate|]. assert (Pl : lplain l) by (intros d Hd; apply P; right; exact Hd).
    destruct (look f cur) as [[|]|]; try discriminate. destruct (P c (or_introl eq_refl)) as [P1 P2]. rewrite (proj2 (str_eqb_false c _) P1), (proj2 (str_eqb_false c _) P2), orb_false_r.
    unfold names. cbn [filter]. destruct (str_eqb c []) eqn:E; cbn [negb].
    - apply IH, Pl.
    - cbn [rev]. rewrite <- app_assoc. cbn [app]. destruct (look f (c :: cur)) eqn:X; [intros H; exact (IH Pl _ H)|]. intros _.
      destruct (look f (rev (filter (fun c0 => negb (str_eqb c0 [])) l) ++ c :: cur)) eqn:Y; [|reflexivity]. exfalso. apply (tree_root f (c :: cur) T (rev (filter (fun c0 => negb (str_eqb c0 [])) l))); [rewrite Y; discriminate|exact X].
  Qed.
  Lemma names_end (l : list str) (x : str) k : x <> [] -> rev (names (l ++ x :: repeat [] k)) = x :: rev (names l).
  Proof.
    intros N. unfold names. rewrite filter_app. cbn [filter]. rewrite (proj2 (str_eqb_false x []) N). cbn [negb].
    assert (E : filter (fun c => negb (str_eqb c [])) (repeat [] k) = []) by (induction k; [reflexivity|cbn; assumption]). rewrite E, rev_app_distr. reflexivity.
  Qed.
  Lemma named_def s : named cwd s = rev (names (comps s)) ++ start s. Proof. reflexivity. Qed.

  Lemma create_plain n : forall f s, (length s <= n)%nat -> tree f -> look f cwd = Some Dir -> plain s -> stat f s = Missing -> s <> [] ->
    (forall q, above q (named cwd s) -> perm q = true) ->
    exists g, create n f s = (g, Ok tt) /\ stat g s = Found (named cwd s) /\
      (forall q, above q (named cwd s) -> look f q = None -> look g q = Some Dir) /\
      (forall q, ~ (above q (named cwd s) /\ look f q = None) -> look g q = look f q).
  Proof.
    induction n as [|n IH]; intros f s L T D P St N Pe; [destruct s; [congruence|cbn in L; lia]|].
    cbn [FSTools.create]. rewrite (proj2 (str_eqb_false s []) N).
    assert (Q : str_eqb s (lit "./") = false). { apply str_eqb_false. intros ->. destruct (P (lit ".")) as [X _]; [left; reflexivity|congruence]. } rewrite Q. cbn [orb]. rewrite St.
    destruct (shape s N) as [[k ->]|(u & x & k & l & E & Nx & C & Sp & U & Lu & _)]; [rewrite stat_slashes in St; discriminate St|]. rewrite E.
    set (b := start s) in *. assert (Db : look f b = Some Dir) by apply start_dir, D.
    assert (Pc : lplain (comps s)) by exact P. assert (Pl : lplain l) by (intros c Hc; apply Pc; rewrite C; apply in_or_app; left; exact Hc).
    assert (Pd : dots x = false). { destruct (Pc x) as [A B]; [rewrite C; apply in_or_app; right; left; reflexivity|]. unfold dots. rewrite (proj2 (str_eqb_false x _) A), (proj2 (str_eqb_false x _) B). reflexivity. }
    set (B := rev (names l) ++ b).
    assert (Nm : named cwd s = x :: B) by (rewrite named_def, C, names_end by exact Nx; reflexivity).
    assert (None_x : look f (x :: B) = None). { rewrite <- Nm, named_def. apply walk_missing; [exact T|exact Pc|]. rewrite (stat_ne f s N) in St. exact St. }
    (* the directory above *)
    assert (H : exists g, create n f u = (g, Ok tt) /\ walk g b l = Found B /\ look g B = Some Dir /\ tree g /\ grown f g /\
      (forall q, above q B -> look f q = None -> look g q = Some Dir) /\ (forall q, ~ (above q B /\ look f q = None) -> look g q = look f q)).
    { destruct U as [(Nu & Su & ->)|[-> Ul]].
      - assert (W : walk f b (comps s) = Missing) by (rewrite (stat_ne f s N) in St; exact St). rewrite C, walk_app in W. fold b in Su.
        assert (NB : named cwd u = B) by (unfold B; rewrite <- Su; reflexivity).
        assert (Au : forall q, above q (named cwd u) -> above q (named cwd s)). { rewrite Nm, NB. intros q [w ->]. exists (x :: w). reflexivity. }
        destruct (walk f b (comps u)) as [p| |] eqn:Wu; try discriminate W.
        + assert (EB : p = B) by exact (walk_plain f _ Pl _ _ Wu). subst p. cbn [walk] in W. destruct (look f B) as [[|]|] eqn:LB; try discriminate W.
          assert (Cu : create n f u = (f, Ok tt)). { destruct n; cbn [FSTools.create]; (destruct (str_eqb u [] || str_eqb u (lit "./")); [reflexivity|]); rewrite (stat_ne f u Nu), Su, Wu, LB; reflexivity. }
          exists f. split; [exact Cu|]. split; [exact Wu|]. split; [exact LB|]. split; [exact T|]. split; [apply grown_refl|]. split; [|reflexivity].
          intros q [w ->] Hq. exfalso. apply (tree_root f q T w); [rewrite LB; discriminate|exact Hq].
        + destruct (IH f u ltac:(lia) T D ltac:(exact Pl) ltac:(rewrite (stat_ne f u Nu), Su; exact Wu) Nu ltac:(intros q Hq; apply Pe, Au, Hq)) as (g & Cu & Sg & G1 & G2).
          destruct (create_ok n f u g (Ok tt) ltac:(lia) T D Cu) as (Gr & Tg & _ & Ld). destruct (Ld eq_refl Nu) as (p & Sp2 & Dp). rewrite Sg in Sp2. injection Sp2 as <-.
          exists g. rewrite <- NB. split; [exact Cu|]. split; [rewrite <- Sg, (stat_ne g u Nu), Su; reflexivity|]. auto.
      - exists f. assert (Cu : create n f [] = (f, Ok tt)) by (destruct n; reflexivity). assert (EB : B = b) by (unfold B; destruct Ul as [->| ->]; reflexivity). rewrite EB.
        split; [exact Cu|]. split; [destruct Ul as [->| ->]; cbn [walk]; [reflexivity|rewrite Db; reflexivity]|]. split; [exact Db|]. split; [exact T|]. split; [apply grown_refl|]. split; [|reflexivity].
        intros q [w Hw] Hq. exfalso. apply (tree_root f q T w); [rewrite <- Hw, Db; discriminate|exact Hq]. }
    destruct H as (g & Cu & Wg & LB & Tg & Gr & G1 & G2). rewrite Cu.
    assert (Xg : look g (x :: B) = None). { rewrite G2; [exact None_x|]. intros [[w X] _]. apply (f_equal (@length _)) in X. rewrite app_length in X. cbn in X. lia. }
    assert (Mk : mkdir g s = ((x :: B, Dir) :: g, true)). { unfold FSTools.mkdir. destruct s as [|c s']; [congruence|]. rewrite Sp. fold b. rewrite Wg, LB, Pd, Xg, Pe by (rewrite Nm; exists [x]; reflexivity). reflexivity. }
    rewrite Mk. eexists. split; [reflexivity|]. destruct (mkdir_leads g s _ x k l N C Nx Sp Tg Mk) as (p & Sg & Dp).
    split; [rewrite Sg; f_equal; rewrite (stat_ne _ s N) in Sg; rewrite named_def; exact (walk_plain _ _ Pc _ _ Sg)|].
    rewrite Nm. split.
    - intros q [w Hw] Hq. rewrite look_cons by discriminate. destruct (node_dec q (x :: B)); [reflexivity|]. destruct w as [|y w]; [cbn in Hw; congruence|]. injection Hw as -> Hw. apply G1; [exists w; exact Hw|exact Hq].
    - intros q Hq. rewrite look_cons by discriminate. destruct (node_dec q (x :: B)) as [->|]; [exfalso; apply Hq; split; [exists []; reflexivity|exact None_x]|]. apply G2. intros [[w Hw] Hn]. apply Hq. split; [exists (x :: w); rewrite Hw; reflexivity|exact Hn].
  Qed.

  (** paths ending in a dot component can not be made *)
  Lemma create_dots f (s : str) (l : list str) (x : str) : s <> [] -> s <> lit "./" -> split_last s = Some (l, x) -> dots x = true -> stat f s = Missing -> tree f -> look f cwd = Some Dir -> snd (create_dir f s) = Throw.
  Proof.
    intros N N2 Sp Do St T D. unfold FSTools.create_dir. destruct s as [|c s]; [congruence|]. cbn [length FSTools.create].
    rewrite (proj2 (str_eqb_false (c :: s) []) N), (proj2 (str_eqb_false (c :: s) _) N2), St. cbn [orb].
    destruct (shape (c :: s) N) as [[k E]|(u & y & k & m & E & _ & _ & Sp2 & _ & Lu & _)]; [rewrite E, stat_slashes in St; discriminate St|]. rewrite E.
    rewrite Sp in Sp2. injection Sp2 as <- <-. destruct (create (length s) f u) as [g r] eqn:Cr. destruct (create_ok (length s) f u g r ltac:(cbn in Lu; lia) T D Cr) as (_ & _ & U & _).
    destruct r as [a| |]; [|reflexivity|congruence]. destruct (mkdir g (c :: s)) as [g2 b] eqn:M. unfold FSTools.mkdir in M. rewrite Sp in M.
    destruct (walk g _ l) as [p| |]; try (injection M as <- <-; reflexivity). destruct (look g p) as [[|]|]; try (injection M as <- <-; reflexivity). rewrite Do in M. injection M as <- <-. reflexivity.
  Qed.

  (** ** Remove *)
  Lemma assoc_del f p q : assoc (del f p) q = if node_dec q p then None else assoc f q.
  Proof.
    induction f as [|[r k] f IH]; cbn [del filter assoc fst]; [destruct (node_dec q p); reflexivity|]. unfold del in IH.
    destruct (node_dec r p) as [->|Nr]; cbn [assoc]; rewrite IH; destruct (node_dec q p) as [->|Nq]; try reflexivity.
    destruct (node_dec p r); congruence.
  Qed.
  Lemma look_del f p q : p <> [] -> look (del f p) q = if node_dec q p then None else look f q.
  Proof. intros N. destruct q as [|y q]; cbn [look]; [destruct (node_dec [] p); congruence|]. apply assoc_del. Qed.
  Lemma assoc_in f p k : assoc f p = Some k -> exists k', In (p, k') f.
  Proof. induction f as [|[q j] f IH]; cbn [assoc]; [discriminate|]. destruct (node_dec p q) as [->|]; [exists j; left; reflexivity|]. intros H. destruct (IH H) as [k' I]. exists k'. right. exact I. Qed.
  Lemma in_assoc f p k : In (p, k) f -> assoc f p <> None.
  Proof. induction f as [|[q j] f IH]; cbn [assoc]; [intros []|]. intros [X|X]; [injection X as -> ->; destruct (node_dec p p); congruence|]. destruct (node_dec p q); [discriminate|apply IH, X]. Qed.
  Lemma children f p : existsb (up_dec p) f = false <-> forall x, look f (x :: p) = None.
  Proof.
    split.
    - intros H x. cbn [look]. destruct (assoc f (x :: p)) as [k|] eqn:E; [|reflexivity]. destruct (assoc_in _ _ _ E) as [k' I].
      assert (X : existsb (up_dec p) f = true). { apply existsb_exists. exists (x :: p, k'). split; [exact I|]. unfold up_dec. cbn [fst]. destruct (node_dec p p); congruence. } congruence.
    - intros H. destruct (existsb (up_dec p) f) eqn:E; [|reflexivity]. apply existsb_exists in E. destruct E as ([q k] & I & U). unfold up_dec in U. cbn [fst] in U. destruct q as [|y q]; [discriminate U|]. destruct (node_dec q p) as [->|]; [|discriminate U].
      exfalso. apply (in_assoc _ _ _ I). apply (H y).
  Qed.
  Definition removable (f : fsys) (p : node) : Prop := look f p = Some File \/ look f p = Some Dir /\ forall x, look f (x :: p) = None.
  Lemma remove_ok f s g r : tree f -> remove f s = (g, r) ->
    (r = Throw /\ g = f) \/
    (r = Ok tt /\ tree g /\ exists p, p <> [] /\ stat f s = Found p /\ removable f p /\ forall q, look g q = if node_dec q p then None else look f q).
  Proof.
    intros T. unfold FSTools.remove, FSTools.rm. intros H. destruct s as [|c s]; [injection H as <- <-; left; auto|].
    destruct (shape (c :: s) ltac:(discriminate)) as [[k E]|(u & y & k & m & E & Ny & C & Sp & _ & _ & K)]; [rewrite E, split_slashes in H; cbn in H; injection H as <- <-; left; auto|].
    rewrite Sp in H. destruct (walk f (start (c :: s)) m) as [p| |] eqn:W; try (injection H as <- <-; left; auto; fail).
    destruct (look f p) as [[|]|] eqn:D; try (injection H as <- <-; left; auto; fail). destruct (dots y) eqn:Do; [injection H as <- <-; left; auto|].
    assert (KEY : forall k0, look f (y :: p) = Some k0 -> (k0 = File -> k = 0%nat) -> stat f (c :: s) = Found (y :: p)).
    { intros k0 Hk Hz. rewrite stat_ne by discriminate. rewrite C, walk_app, W. cbn [walk]. rewrite D, Hk. unfold dots in Do. apply orb_false_iff in Do. destruct Do as [D1 D2]. rewrite D1, D2, (proj2 (str_eqb_false y []) Ny). cbn [orb].
      destruct k0; [apply walk_empties, Hk|rewrite Hz by reflexivity; reflexivity]. }
    assert (TR : (forall x, look f (x :: y :: p) = None) -> tree (del f (y :: p))).
    { intros Hc x q k0. rewrite !look_del by discriminate. destruct (node_dec (x :: q) (y :: p)); [discriminate|]. intros L. pose proof (T _ _ _ L) as L2. destruct (node_dec q (y :: p)) as [->|]; [rewrite Hc in L; discriminate L|exact L2]. }
    destruct (look f (y :: p)) as [[|]|] eqn:L; [| |injection H as <- <-; left; auto].
    - destruct (existsb (up_dec (y :: p)) f) eqn:X; [injection H as <- <-; left; auto|]. destruct (perm p); [|injection H as <- <-; left; auto]. injection H as <- <-. pose proof (proj1 (children _ _) X) as Hc.
      right. split; [reflexivity|]. split; [apply TR, Hc|]. exists (y :: p). split; [discriminate|]. split; [apply (KEY Dir eq_refl); discriminate|]. split; [right; auto|]. intros q. apply look_del. discriminate.
    - destruct (Ascii.eqb (last (c :: s) slash) slash) eqn:Sl; [injection H as <- <-; left; auto|]. destruct (perm p); [|injection H as <- <-; left; auto]. injection H as <- <-.
      apply sl_ne in Sl. apply K in Sl. right. split; [reflexivity|]. split.
      + apply TR. intros x. destruct (look f (x :: y :: p)) eqn:Z; [|reflexivity]. apply T in Z. congruence.
      + exists (y :: p). split; [discriminate|]. split; [apply (KEY File eq_refl); auto|]. split; [left; exact L|]. intros q. apply look_del. discriminate.
  Qed.
  Lemma remove_plain f s p : tree f -> plain s -> stat f s = Found p -> p <> start s -> removable f p -> (forall q, perm q = true) -> snd (remove f s) = Ok tt.
  Proof.
    intros T P St Np R Pe. assert (N : s <> []) by (intros ->; discriminate St). pose proof St as W. rewrite (stat_ne f s N) in W.
    destruct (shape s N) as [[k E]|(u & y & k & m & E & Ny & C & Sp & _ & _ & K)].
    { exfalso. apply Np. rewrite E in *. rewrite stat_slashes in St. injection St as <-. reflexivity. }
    assert (Pd : dots y = false). { destruct (P y) as [A B]; [rewrite C; apply in_or_app; right; left; reflexivity|]. unfold dots. rewrite (proj2 (str_eqb_false y _) A), (proj2 (str_eqb_false y _) B). reflexivity. }
    rewrite C, walk_app in W. unfold FSTools.remove, FSTools.rm. destruct s as [|c s]; [congruence|]. rewrite Sp.
    destruct (walk f (start (c :: s)) m) as [b| |]; try discriminate W. cbn [walk] in W. destruct (look f b) as [[|]|] eqn:D; try discriminate W.
    unfold dots in Pd. pose proof Pd as Pd2. apply orb_false_iff in Pd2. destruct Pd2 as [D1 D2]. rewrite D1, D2, (proj2 (str_eqb_false y []) Ny) in W. cbn [orb] in W. unfold dots. rewrite Pd.
    destruct (look f (y :: b)) as [kd|] eqn:L; [|discriminate W].
    assert (EP : p = y :: b /\ (kd = File -> k = 0%nat)). { destruct kd; [rewrite (walk_empties f _ k L) in W; injection W as <-; split; [reflexivity|discriminate]|]. destruct k; cbn [repeat walk] in W; [injection W as <-; auto|rewrite L in W; discriminate W]. }
    destruct EP as [-> Kz]. destruct kd.
    - destruct R as [R|[_ R]]; [congruence|]. rewrite (proj2 (children f (y :: b)) R), Pe. reflexivity.
    - rewrite (proj2 (sl_ne _) (proj1 K (Kz eq_refl))), Pe. reflexivity.
  Qed.
End Proofs.
