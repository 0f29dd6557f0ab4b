(** C79, C80: the search for operators of a type in the tree of operators, and the choice of the lasers to optimise. *)
From Coq Require Import Ascii String List ZArith Lia Bool Permutation.
From Verif Require Import Base Arrays Model.Find Spec.Find Proofs.Find.
Import ListNotations.
Open Scope Z_scope.

(** ** C79 *)
(** Full statement: with room for them, exactly the operators asked for are found and packed, each at its place; *)
Definition C79_full : Prop := forall lab label o n found, zlen found = n -> zlen (asked lab label o) <= n ->
  exists r f' m, find lab label o found n 0 = Ok (r, (f', m)) /\ m = zlen (asked lab label o) /\ Permutation (taken f' m) (vals (asked lab label o)) /\
    match r with None => asked lab label o = [] | Some p => Permutation (pterms p) (asked lab label o) end.
(** with less room the array is not left. *)
Definition C79_limit_full : Prop := forall lab label o n found, zlen found = n -> find lab label o found n 0 <> UB.

(** Operators on the diagonal of a multistate operator are overlooked; *)
Theorem C79_diagonal_refuted : ~ C79_full.
Proof.
  intros H. destruct (H (fun _ _ => true) None (MS 0 [[Some (Wanted 1)]]) 1 [None] eq_refl) as (r & f' & m & E & Em & _); [vm_compute; discriminate|].
  vm_compute in E. injection E as _ _ <-. vm_compute in Em. discriminate.
Qed.
Print Assumptions C79_diagonal_refuted.
(** so are those above it alone. *)
Theorem C79_upper_refuted : ~ C79_full.
Proof.
  intros H. destruct (H (fun _ _ => true) None (MS 0 [[None; Some (Wanted 1)]; [None; None]]) 1 [None] eq_refl) as (r & f' & m & E & Em & _); [vm_compute; discriminate|].
  vm_compute in E. injection E as _ _ <-. vm_compute in Em. discriminate.
Qed.
Print Assumptions C79_upper_refuted.
(** Without a label two operators opposite to each other are undefined: the missing label is printed. *)
Theorem C79_label_refuted : ~ C79_full.
Proof.
  intros H. destruct (H (fun _ _ => true) None (MS 0 [[None; Some (Wanted 1)]; [Some (Wanted 2); None]]) 2 [None; None] eq_refl) as (r & f' & m & E & _); [vm_compute; discriminate|].
  vm_compute in E. discriminate.
Qed.
Print Assumptions C79_label_refuted.
(** A single operator without the label leaves the number of operators found at the size of the array. *)
Theorem C79_single_refuted : ~ C79_full.
Proof.
  intros H. destruct (H (fun _ _ => false) (Some (lit "a")) (Wanted 1) 2 [None; None] eq_refl) as (r & f' & m & E & Em & _); [vm_compute; discriminate|].
  vm_compute in E. injection E as _ _ <-. vm_compute in Em. discriminate.
Qed.
Print Assumptions C79_single_refuted.
Theorem C79_limit_refuted : ~ C79_limit_full.
Proof. intros H. apply (H (fun _ _ => true) None (OL 0 [Wanted 1; Wanted 2]) 1 [None] eq_refl). vm_compute. reflexivity. Qed.
Print Assumptions C79_limit_refuted.

(** In trees where all that is asked for is below the diagonals, or opposite to such an element, the statement holds. *)
Theorem C79_partial : forall lab label o n found, zlen found = n -> zlen (asked lab label o) <= n -> lower lab label o ->
  (label = None -> prints lab label o = false) -> (forall i, o = Wanted i -> asked lab label o <> []) ->
  exists r f' m, find lab label o found n 0 = Ok (r, (f', m)) /\ m = zlen (asked lab label o) /\ Permutation (taken f' m) (vals (asked lab label o)) /\
    match r with None => asked lab label o = [] | Some p => Permutation (pterms p) (asked lab label o) end.
Proof.
  intros lab label o n found L Hn Lo Hp Hs. pose proof (searched_asked lab label o Lo) as P. assert (zlen (searched lab label o) = zlen (asked lab label o)) as Ez by (unfold zlen; rewrite (Permutation_length P); reflexivity).
  assert (0 <= n) as H0 by (rewrite <- L; apply zlen_nonneg). pose proof (find_exact lab label o n found H0 L) as F. cbv zeta in F.
  rewrite (proj2 (Z.ltb_ge _ _)) in F by lia. rewrite orb_false_r in F. assert (match label with None => prints lab label o | Some _ => false end = false) as Hb by (destruct label; auto). rewrite Hb in F.
  destruct F as (r & f' & m & E & _ & Q). exists r, f', m. split; [exact E|]. destruct r as [p|].
  - destruct Q as (Q1 & Q2 & Q3 & Q4). split; [lia|]. rewrite Q4, Q2. split; [apply Permutation_map; exact P|exact P].
  - destruct Q as (Q1 & Q2). rewrite Q1 in P. apply Permutation_nil in P. rewrite P. assert (m = 0) as -> by (destruct o; try exact Q2; exfalso; apply (Hs id eq_refl); exact P).
    split; [reflexivity|]. split; [constructor|reflexivity].
Qed.
Print Assumptions C79_partial.
(** What the code does in every case: the operators of [searched] in order, or undefined behaviour if they do not fit
    or if a missing label is printed. *)
Theorem C79_code : forall lab label o n found, zlen found = n ->
  let ts := searched lab label o in
  if (match label with None => prints lab label o | Some _ => false end) || (n <? zlen ts) then find lab label o found n 0 = UB
  else exists r f' m, find lab label o found n 0 = Ok (r, (f', m)) /\
    match r with
    | None => ts = [] /\ m = match o with Wanted _ => n | _ => 0 end
    | Some p => ts <> [] /\ pterms p = ts /\ m = zlen ts /\ taken f' m = vals ts
    end.
Proof.
  intros lab label o n found L ts. assert (0 <= n) as H0 by (rewrite <- L; apply zlen_nonneg). pose proof (find_exact lab label o n found H0 L) as F. cbv zeta in F. fold ts in F.
  destruct (_ || _); [exact F|]. destruct F as (r & f' & m & E & _ & Q). exists r, f', m. split; [exact E|exact Q].
Qed.
Print Assumptions C79_code.

(** ** C80 *)
Definition opt : option str := Some (lit "OptLaser").
(** Full statement: the lasers with the label OptLaser are optimised, if there are none all lasers, and no laser is an error. *)
Definition C80_full : Prop := forall lab H, zlen (asked lab opt H) <= 16 -> zlen (asked lab None H) <= 16 ->
  if negb (zlen (asked lab opt H) =? 0) then exists ls, choose lab H = Ok ls /\ Permutation ls (map snd (asked lab opt H))
  else if negb (zlen (asked lab None H) =? 0) then exists ls, choose lab H = Ok ls /\ Permutation ls (map snd (asked lab None H))
  else choose lab H = Throw.
(** A permanent dipole moment (a laser on the diagonal) next to a transition is not optimised along with it. *)
Definition two_states : op := MS 0 [[Some (Wanted 1); Some (Wanted 2)]; [Some (Wanted 2); Some (Wanted 3)]].
Theorem C80_refuted : ~ C80_full.
Proof.
  intros F. specialize (F (fun _ _ => false) two_states). destruct F as (ls & E & P); [vm_compute; discriminate..|]. vm_compute in E. injection E as <-. apply Permutation_length in P. vm_compute in P. discriminate.
Qed.
Print Assumptions C80_refuted.
Theorem C80_partial : forall lab H, zlen (asked lab opt H) <= 16 -> zlen (asked lab None H) <= 16 -> lower lab opt H ->
  (asked lab opt H = [] -> lower lab None H /\ prints lab None H = false /\ forall i, H <> Wanted i) ->
  if negb (zlen (asked lab opt H) =? 0) then exists ls, choose lab H = Ok ls /\ Permutation ls (map snd (asked lab opt H))
  else if negb (zlen (asked lab None H) =? 0) then exists ls, choose lab H = Ok ls /\ Permutation ls (map snd (asked lab None H))
  else choose lab H = Throw.
Proof.
  intros lab H L1 L2 Lo Hn. pose proof (searched_asked lab opt H Lo) as P. assert (zlen (searched lab opt H) = zlen (asked lab opt H)) as Ez by (unfold zlen; rewrite (Permutation_length P); reflexivity).
  rewrite choose_exact. fold opt. rewrite (proj2 (Z.ltb_ge _ _)) by (unfold max_lasers; lia). rewrite Ez. destruct (Z.eqb_spec (zlen (asked lab opt H)) 0) as [E0|E0]; cbn [negb].
  - apply zlen_nil in E0. destruct (Hn E0) as (Lo2 & Hp & Hw). pose proof (searched_asked lab None H Lo2) as P2. assert (zlen (searched lab None H) = zlen (asked lab None H)) as Ez2 by (unfold zlen; rewrite (Permutation_length P2); reflexivity).
    rewrite Hp, Ez2. cbn [orb]. rewrite (proj2 (Z.ltb_ge max_lasers _)) by (unfold max_lasers; lia).
    destruct (Z.eqb_spec (zlen (asked lab None H)) 0) as [E1|E1]; cbn [negb]; destruct H; try (exfalso; eapply Hw; reflexivity); try reflexivity; (eexists; split; [reflexivity|]); apply Permutation_map; exact P2.
  - eexists. split; [reflexivity|]. apply Permutation_map. exact P.
Qed.
Print Assumptions C80_partial.
(** What the code does in every case. *)
Theorem C80_code : forall lab H, let ts1 := searched lab opt H in let ts2 := searched lab None H in
  choose lab H =
    if 16 <? zlen ts1 then UB else
    if negb (zlen ts1 =? 0) then Ok (map snd ts1) else
    match H with
    | Wanted _ => UB
    | _ => if prints lab None H || (16 <? zlen ts2) then UB else if zlen ts2 =? 0 then Throw else Ok (map snd ts2)
    end.
Proof. intros lab H. exact (choose_exact lab H). Qed.
Print Assumptions C80_code.

(** ** Examples *)
(** a Hamiltonian: kinetic energy and a three state operator with transitions 1-0 (laser 11), 2-0 (a sum with laser 12 and
    another operator) and 2-1 (13, another laser 14 in the opposite element); 12 and 14 have the label *)
Definition labels (id : Z) (l : str) : bool := ((id =? 12) || (id =? 14)) && str_eqb l (lit "OptLaser").
Definition tree (nh : op) : op := OL 0 [Plain 1; MS 2
  [[Some (Plain 3); Some (Wanted 11); Some (OL 5 [Wanted 12; Plain 4])];
   [Some (Wanted 11); Some (Plain 6); Some nh];
   [Some (OL 5 [Wanted 12; Plain 4]); Some (Wanted 13); None]]].
Example ex_tree_hyps : zlen (asked labels opt (tree (Wanted 13))) = 1 /\ lower labels opt (tree (Wanted 13)) /\
  zlen (asked labels None (tree (Wanted 13))) = 3 /\ lower labels None (tree (Wanted 13)) /\ prints labels None (tree (Wanted 13)) = false.
Proof.
  split; [vm_compute; reflexivity|]. assert (forall i j n, 0 <= j < i -> i < n -> n <= 3 -> (i = 1 /\ j = 0) \/ (i = 2 /\ j = 0) \/ (i = 2 /\ j = 1)) as C by lia.
  assert (forall lb, lower labels lb (tree (Wanted 13))) as L.
  { intros lb. cbn [lower tree fold_right]. split; [exact I|]. split; [|exact I]. split; [repeat split|]. split.
    - intros i o Hi E. assert (i = 0 \/ i = 1 \/ i = 2) as [->|[->| ->]] by (unfold zlen in Hi; cbn in Hi; lia); cbn in E; try discriminate; injection E as <-; destruct lb; reflexivity.
    - intros i j o Hj Hi E Ne. destruct (C i j 3 Hj) as [[-> ->]|[[-> ->]|[-> ->]]]; [unfold zlen in Hi; cbn in Hi; lia|lia| | |]; cbn in E; injection E as <-; eexists; (split; [reflexivity|exact Ne]). }
  split; [apply L|]. split; [vm_compute; reflexivity|]. split; [apply L|vm_compute; reflexivity].
Qed.
Example ex_tree : choose labels (tree (Wanted 13)) = Ok [12] /\ choose (fun _ _ => false) (tree (Wanted 13)) = Ok [11; 12; 13] /\
  choose (fun _ _ => false) (tree (Wanted 14)) = UB /\ choose (fun _ _ => true) (tree (Wanted 14)) = Ok [11; 12; 13; 14] /\ choose labels (OL 0 [Plain 1]) = Throw.
Proof. repeat split; vm_compute; reflexivity. Qed.
Example ex_package : exists f, find labels opt (tree (Wanted 13)) (fresh 3) 3 0 = Ok (Some (PList [PMS 3 [(2, 0, PList [PLeaf 12])]]), (f, 1)) /\ taken f 1 = [Some 12].
Proof. eexists. split; vm_compute; reflexivity. Qed.
Example ex_limit : find labels None (tree (Wanted 13)) (fresh 2) 2 0 = UB.
Proof. vm_compute. reflexivity. Qed.
