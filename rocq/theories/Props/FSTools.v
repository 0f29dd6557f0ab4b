(** C92: creating, removing and testing files and directories *)
From Coq Require Import Ascii String List Lia Bool Arith.
From Verif Require Import Base Model.FSTools Spec.FSTools Proofs.FSTools.
Import ListNotations.

(** [tree f]: every node of the file system f lies in a directory; [cwd]: the working directory; [perm p]: entries of p may be made
    and removed; [grown f g]: g is f with some more directories; [leads cwd f s k]: the path s leads to a node of kind k;
    [plain s]: s has no "." and ".."; [named cwd s]: the node a plain path stands for; [above q p]: q is p or above p *)

(** ** StripLast takes away the last name and the slashes behind it *)
Definition C92_strip : Prop := forall s, strip_last s <> UB.
Theorem C92_strip_code : forall s, (strip_last s = UB <-> exists k, s = repeat slash k) /\
  forall u, strip_last s = Ok u -> exists x k, x <> [] /\ ~ In slash x /\ (s = u ++ slash :: x ++ repeat slash k \/ u = [] /\ s = x ++ repeat slash k).
Proof.
  intros s. destruct (strip_shape s) as [[[k E] U]|(u & x & k & E & Nx & Ns & C)].
  - split; [split; [exists k; exact E|intros _; exact U]|]. intros u X. congruence.
  - split.
    + split; [congruence|]. intros [j J]. exfalso. assert (A : forall c, In c s -> c = slash) by (intros c; rewrite J; apply repeat_spec).
      destruct x as [|c x]; [congruence|]. apply (Ns c); [left; reflexivity|]. apply A. destruct C as [->|[_ ->]]; [apply in_or_app; right; right; left; reflexivity|left; reflexivity].
    + intros u' X. rewrite E in X. injection X as <-. exists x, k. split; [exact Nx|]. split; [|exact C]. intros I. exact (Ns slash I eq_refl).
Qed.
Print Assumptions C92_strip_code.
(** an empty path and paths with nothing but slashes are read out of bounds *)
Theorem C92_strip_refuted : ~ C92_strip.
Proof. intros H. exact (H (lit "/") eq_refl). Qed.
Print Assumptions C92_strip_refuted.
Example C92_strip_ex : strip_last (lit "out/run//") = Ok (lit "out") /\ strip_last (lit "run") = Ok [] /\ strip_last (lit "//") = UB.
Proof. repeat split. Qed.

(** ** CreateDir never runs into undefined behaviour, never removes or changes anything, and if it returns the directory is there *)
Theorem C92_create_sound : forall cwd perm f s g r, tree f -> look f cwd = Some Dir -> create_dir cwd perm f s = (g, r) ->
  r <> UB /\ grown f g /\ tree g /\ (r = Ok tt -> s <> [] -> leads cwd g s Dir).
Proof. intros cwd perm f s g r T D E. destruct (create_ok cwd perm (length s) f s g r (le_n _) T D E) as (A & B & C & K). auto. Qed.
Print Assumptions C92_create_sound.
Definition disk : fsys := [([lit "f"], File); ([lit "a"; lit "home"], Dir); ([lit "home"], Dir)].
Definition home : node := [lit "home"].
Definition anyone (_ : node) : bool := true.
Lemma disk_tree : tree disk.
Proof.
  intros x p k H. unfold disk in *. destruct p as [|y p]; [reflexivity|]. cbn [look assoc] in H.
  destruct (node_dec (x :: y :: p) [lit "f"]) as [X|]; [discriminate X|]. destruct (node_dec (x :: y :: p) [lit "a"; lit "home"]) as [X|]; [|destruct (node_dec (x :: y :: p) [lit "home"]) as [X|]; [discriminate X|discriminate H]].
  injection X as -> -> ->. reflexivity.
Qed.
Example C92_create_sound_ex : tree disk /\ look disk home = Some Dir /\ snd (create_dir home anyone disk (lit "a/b//c/")) = Ok tt /\
  leads home (fst (create_dir home anyone disk (lit "a/b//c/"))) (lit "/home/a/b/c") Dir.
Proof. split; [apply disk_tree|]. split; [reflexivity|]. split; [vm_compute; reflexivity|]. eexists. split; vm_compute; reflexivity. Qed.

(** ** what exists already stays as it is; anything but a directory is refused *)
Theorem C92_exists : forall cwd perm f s, s <> [] ->
  (leads cwd f s Dir -> create_dir cwd perm f s = (f, Ok tt)) /\
  (look f cwd = Some Dir -> leads cwd f s File -> create_dir cwd perm f s = (f, Throw)) /\
  (look f cwd = Some Dir -> stat cwd f s = NotDir -> create_dir cwd perm f s = (f, Throw)).
Proof.
  intros cwd perm f s N. split; [|split].
  - intros (p & St & D). rewrite (create_again cwd perm f s p N St), D. destruct (str_eqb s (lit "./")); reflexivity.
  - intros W (p & St & D). rewrite (create_again cwd perm f s p N St), D. destruct (str_eqb s (lit "./")) eqn:E; [|reflexivity]. apply str_eqb_true in E. subst s.
    exfalso. change (walk f cwd [lit "."; []] = Found p) in St. cbn [walk] in St. rewrite W in St. cbn in St. injection St as <-. congruence.
  - intros W St. unfold create_dir. destruct s as [|c s]; [congruence|]. cbn [length create]. rewrite St. rewrite (proj2 (str_eqb_false (c :: s) [])) by discriminate. cbn [orb].
    destruct (str_eqb (c :: s) (lit "./")) eqn:E; [|reflexivity]. apply str_eqb_true in E. rewrite E in St. exfalso.
    change (walk f cwd [lit "."; []] = NotDir) in St. cbn [walk] in St. rewrite W in St. discriminate St.
Qed.
Print Assumptions C92_exists.
Example C92_exists_ex : leads home disk (lit "a/") Dir /\ leads home disk (lit "/f") File /\ stat home disk (lit "/f/x") = NotDir.
Proof. split; [eexists; split; vm_compute; reflexivity|]. split; [eexists; split; vm_compute; reflexivity|]. vm_compute. reflexivity. Qed.

(** ** a missing path is made, with all directories above that are missing *)
Definition C92_create : Prop := forall cwd perm f s, tree f -> look f cwd = Some Dir -> s <> [] -> (forall p, perm p = true) ->
  (forall c, In c (comps s) -> c <> lit "..") -> stat cwd f s = Missing -> exists g, create_dir cwd perm f s = (g, Ok tt).
(** for plain paths this holds, and exactly these directories are new *)
Theorem C92_create_partial : forall cwd perm f s, tree f -> look f cwd = Some Dir -> s <> [] -> plain s -> stat cwd f s = Missing ->
  (forall q, above q (named cwd s) -> perm q = true) ->
  exists g, create_dir cwd perm f s = (g, Ok tt) /\ stat cwd g s = Found (named cwd s) /\
    (forall q, above q (named cwd s) -> look f q = None -> look g q = Some Dir) /\
    (forall q, ~ (above q (named cwd s) /\ look f q = None) -> look g q = look f q).
Proof. intros cwd perm f s T D N P St Pe. exact (create_plain cwd perm (length s) f s (le_n _) T D P St N Pe). Qed.
Print Assumptions C92_create_partial.
Example C92_create_ex : plain (lit "a/b//c/") /\ stat home disk (lit "a/b//c/") = Missing /\ named home (lit "a/b//c/") = [lit "c"; lit "b"; lit "a"; lit "home"].
Proof.
  split; [|split; vm_compute; reflexivity]. intros c H. vm_compute in H. repeat (destruct H as [<-|H]; [split; discriminate|]). destruct H.
Qed.
(** a component "." below a missing directory makes it fail: mkdir "a/." is refused because the directory exists by then *)
Theorem C92_create_refuted : ~ C92_create.
Proof.
  intros H. destruct (H home anyone disk (lit "b/./c")) as [g E]; [apply disk_tree|reflexivity|discriminate|reflexivity| |vm_compute; reflexivity|apply (f_equal snd) in E; vm_compute in E; discriminate E].
  intros c I. vm_compute in I. repeat (destruct I as [<-|I]; [discriminate|]). destruct I.
Qed.
Print Assumptions C92_create_refuted.
(** every missing path that ends in "." or ".." is refused *)
Theorem C92_dots_code : forall cwd perm f s l x, tree f -> look f cwd = Some Dir -> s <> [] -> s <> lit "./" ->
  split_last s = Some (l, x) -> x = lit "." \/ x = lit ".." -> stat cwd f s = Missing -> snd (create_dir cwd perm f s) = Throw.
Proof.
  intros cwd perm f s l x T D N N2 Sp X St. apply (create_dots cwd perm f s l x N N2 Sp); [|exact St|exact T|exact D]. destruct X as [-> | ->]; reflexivity.
Qed.
Print Assumptions C92_dots_code.
Example C92_dots_ex : split_last (lit "b/./") = Some ([lit "b"], lit ".") /\ stat home disk (lit "b/./") = Missing /\ snd (create_dir home anyone disk (lit "b/./")) = Throw.
Proof. repeat split; vm_compute; reflexivity. Qed.

(** ** Remove takes away one file or one empty directory, or throws and changes nothing *)
Theorem C92_remove : forall cwd perm f s g r, tree f -> remove cwd perm f s = (g, r) ->
  (r = Throw /\ g = f) \/
  (r = Ok tt /\ tree g /\ exists p, p <> [] /\ stat cwd f s = Found p /\ (look f p = Some File \/ look f p = Some Dir /\ forall x, look f (x :: p) = None) /\
    forall q, look g q = if node_dec q p then None else look f q).
Proof. exact remove_ok. Qed.
Print Assumptions C92_remove.
(** for plain paths it succeeds whenever that is possible *)
Theorem C92_remove_done : forall cwd perm f s p, tree f -> plain s -> stat cwd f s = Found p -> p <> start cwd s ->
  (look f p = Some File \/ look f p = Some Dir /\ forall x, look f (x :: p) = None) -> (forall q, perm q = true) -> snd (remove cwd perm f s) = Ok tt.
Proof. exact remove_plain. Qed.
Print Assumptions C92_remove_done.
Example C92_remove_ex : stat home disk (lit "/f") = Found [lit "f"] /\ look disk [lit "f"] = Some File /\ snd (remove home anyone disk (lit "a")) = Ok tt /\ snd (remove home anyone disk (lit "/home")) = Throw.
Proof. repeat split; vm_compute; reflexivity. Qed.
(** a directory made and removed again leaves the file system as it was *)
Theorem C92_undo : forall cwd perm f s, tree f -> look f cwd = Some Dir -> s <> [] -> plain s -> stat cwd f s = Missing -> (forall q, perm q = true) ->
  look f (tl (named cwd s)) = Some Dir ->
  exists g h, create_dir cwd perm f s = (g, Ok tt) /\ remove cwd perm g s = (h, Ok tt) /\ forall q, look h q = look f q.
Proof.
  intros cwd perm f s T D N P St Pe Up.
  destruct (C92_create_partial cwd perm f s T D N P St ltac:(intros; apply Pe)) as (g & E & Sg & G1 & G2).
  destruct (C92_create_sound cwd perm f s g (Ok tt) T D E) as (_ & Gr & Tg & Ld). destruct (Ld eq_refl N) as (p & Sp & Dp). rewrite Sg in Sp. injection Sp as <-.
  assert (Nf : look f (named cwd s) = None). { apply (walk_missing f (comps s) T P (start cwd s)). rewrite (stat_ne cwd f s N) in St. exact St. }
  assert (Ch : forall x, look g (x :: named cwd s) = None).
  { intros x. rewrite G2; [|intros [[w X] _]; apply (f_equal (@length _)) in X; rewrite app_length in X; cbn in X; lia].
    destruct (look f (x :: named cwd s)) as [k|] eqn:X; [|reflexivity]. apply T in X. congruence. }
  assert (Ns : named cwd s <> start cwd s). { intros X. rewrite X, (start_dir cwd f s D) in Nf. discriminate Nf. }
  destruct (remove cwd perm g s) as [h r] eqn:R. pose proof (C92_remove_done cwd perm g s _ Tg P Sg Ns (or_intror (conj Dp Ch)) Pe) as Rk. rewrite R in Rk. cbn in Rk. subst r.
  exists g, h. split; [exact E|]. split; [exact R|]. destruct (C92_remove cwd perm g s h _ Tg R) as [[X _]|(_ & _ & p & _ & Sp & _ & Hq)]; [discriminate X|].
  rewrite Sg in Sp. injection Sp as <-. intros q. rewrite Hq. destruct (node_dec q (named cwd s)) as [->|Nq]; [symmetry; exact Nf|].
  apply G2. intros [[w W] Hn]. destruct w as [|y w]; [apply Nq; symmetry; exact W|]. rewrite W in Up. cbn [app tl] in Up.
  apply (tree_root f q T w); [rewrite Up; discriminate|exact Hn].
Qed.
Print Assumptions C92_undo.
Example C92_undo_ex : stat home disk (lit "b") = Missing /\ look disk (tl (named home (lit "b"))) = Some Dir.
Proof. split; vm_compute; reflexivity. Qed.

(** ** IsDir and IsFile tell what a path leads to *)
Definition C92_is_dir : Prop := forall cwd f s, exists b, is_dir cwd f s = Ok b /\ (b = true <-> leads cwd f s Dir).
Theorem C92_is_file : forall cwd f s, (forall b, is_file cwd f s = Ok b -> (b = true <-> leads cwd f s File)) /\ (is_file cwd f s = Throw <-> stat cwd f s = NotDir) /\ is_file cwd f s <> UB.
Proof.
  intros cwd f s. unfold is_file, leads. destruct (stat cwd f s) as [p| |].
  - split; [|split; [split; discriminate|discriminate]]. intros b E. injection E as <-. destruct (look f p) as [[|]|] eqn:L; split; try discriminate; try reflexivity;
      try (intros (q & X & Y); injection X as <-; congruence). intros _. exists p. auto.
  - split; [|split; [split; discriminate|discriminate]]. intros b E. injection E as <-. split; [discriminate|]. intros (q & X & _). discriminate X.
  - split; [intros b E; discriminate E|]. split; [split; reflexivity|discriminate].
Qed.
Print Assumptions C92_is_file.
(** IsDir throws for a path that does not exist *)
Theorem C92_is_dir_code : forall cwd f s, (forall b, is_dir cwd f s = Ok b -> (b = true <-> leads cwd f s Dir)) /\
  (is_dir cwd f s = Throw <-> forall p, stat cwd f s <> Found p) /\ is_dir cwd f s <> UB.
Proof.
  intros cwd f s. unfold is_dir, leads. destruct (stat cwd f s) as [p| |].
  - split; [|split; [split; [discriminate|intros H; exfalso; exact (H p eq_refl)]|discriminate]]. intros b E. injection E as <-. destruct (look f p) as [[|]|] eqn:L; split; try discriminate; try reflexivity;
      try (intros (q & X & Y); injection X as <-; congruence). intros _. exists p. auto.
  - split; [intros b E; discriminate E|]. split; [split; [discriminate|reflexivity]|discriminate].
  - split; [intros b E; discriminate E|]. split; [split; [discriminate|reflexivity]|discriminate].
Qed.
Print Assumptions C92_is_dir_code.
Theorem C92_is_dir_refuted : ~ C92_is_dir.
Proof. intros H. destruct (H home disk (lit "b")) as (b & E & _). vm_compute in E. discriminate E. Qed.
Print Assumptions C92_is_dir_refuted.
Example C92_is_ex : is_file home disk (lit "/f") = Ok true /\ is_file home disk (lit "b") = Ok false /\ is_file home disk (lit "/f/x") = Throw /\ is_dir home disk (lit "..") = Ok true.
Proof. repeat split; vm_compute; reflexivity. Qed.

(** ** ".." behind a directory leads to the directory it lies in; the root is its own parent *)
Theorem C92_parent : forall cwd f s p, stat cwd f s = Found p -> look f p = Some Dir -> stat cwd f (s ++ lit "/..") = Found (tl p) /\ stat cwd f (s ++ lit "/.") = Found p.
Proof.
  intros cwd f s p St D. assert (N : s <> []) by (intros ->; discriminate St). rewrite (stat_ne cwd f s N) in St.
  assert (S : forall v, start cwd (s ++ v) = start cwd s) by (intros v; destruct s; [congruence|reflexivity]).
  assert (M : forall v, s ++ v <> []) by (intros v X; apply app_eq_nil in X; destruct X as [X _]; exact (N X)).
  split; rewrite (stat_ne cwd f _ (M _)), S; change (lit "/..") with (slash :: lit "..") || change (lit "/.") with (slash :: lit "."); rewrite comps_app, walk_app, St; cbn; rewrite D; reflexivity.
Qed.
Print Assumptions C92_parent.
Example C92_parent_ex : stat home disk (lit "a") = Found [lit "a"; lit "home"] /\ look disk [lit "a"; lit "home"] = Some Dir /\ stat home disk (lit "a/..") = Found [lit "home"].
Proof. repeat split; vm_compute; reflexivity. Qed.
