(** Properties C30, C31 and C33: sums, products and lists of operators. *)
From Coq Require Import Ascii String List NArith ZArith Lia Bool.
From Verif Require Import Base Arrays Algebra Model.Operators Spec.Operators Proofs.Operators.
Import ListNotations.
Open Scope Z_scope.

(** * C30 *)
(** A non empty sum of any correct operators, nested to any depth, is in all three forms of application the sum of its parts:
    whatever the destination and the buffers contained before. *)
Theorem C30_sum : forall R M junk l, l <> [] -> Forall (sound R M) l ->
  let a := act R M junk (Sum R M l) in let total x := msum R M (map (fun o => den R M o x) l) in
  (forall n dest src, exists n', cp R M a n dest src = Ok (total src, n')) /\
  (forall n psi, exists n', ip R M a n psi = Ok (total psi, n')) /\
  (forall n dest src, exists n', ad R M a n dest src = Ok (madd dest (total src), n')).
Proof. exact (fun R M junk l N F => act_ok R M junk (Sum R M l) (s_sum R M l N F)). Qed.
Print Assumptions C30_sum.
(** An empty sum is refused. *)
(** The inherited in place and accumulating forms are correct for every operator with a correct copying form. *)
Theorem C30_inherited : forall R M junk c f, (forall n d s, exists n', c n d s = Ok (f s, n')) -> implements R M (mkActs R M c (default_ip R M c) (default_ad R M junk c)) f.
Proof. exact inherited_ok. Qed.
Print Assumptions C30_inherited.
Theorem C30_empty : forall R M n dest src psi, sum_cp R M [] n dest src = Throw /\ sum_ip R M [] n psi = Throw.
Proof. exact sum_empty. Qed.
Print Assumptions C30_empty.

(** integers as wave functions *)
Definition ZM : cmodule Zr := mkMod Zr Z 0 Z.add Z.opp Z.mul Z.add_comm Z.add_assoc Z.add_0_l Z.add_opp_diag_r
  (fun a b x => Z.mul_add_distr_r a b x) (fun a x y => Z.mul_add_distr_l a x y) (fun a b x => eq_sym (Z.mul_assoc a b x)) Z.mul_1_l.
Definition leaf (f : Z -> Z) : oper Zr ZM := Leaf Zr ZM f (mkActs Zr ZM (fun n d s => Ok (f s, n)) (fun n p => Ok (f p, n)) (fun n d s => Ok (d + f s, n))).
Lemma leaf_sound f : sound Zr ZM (leaf f).
Proof. apply s_leaf. split; [|split]; intros; eexists; reflexivity. Qed.
(** (x+1) + 3 * ((2x) + (x*x)): the buffers contain 77 *)
Definition ex30 : oper Zr ZM := Sum Zr ZM [leaf (fun x => x + 1); Prod Zr ZM [leaf (Z.mul 3); Sum Zr ZM [leaf (Z.mul 2); leaf (fun x => x * x)]]].
Example C30_ex : sound Zr ZM ex30 /\ cp Zr ZM (act Zr ZM (fun _ => 77) ex30) 0 55 5 = Ok (111, 1%nat) /\
  ip Zr ZM (act Zr ZM (fun _ => 77) ex30) 0 5 = Ok (111, 2%nat) /\ ad Zr ZM (act Zr ZM (fun _ => 77) ex30) 0 1000 5 = Ok (1111, 2%nat).
Proof.
  split; [|vm_compute; auto].
  repeat first [apply leaf_sound|apply s_sum; [discriminate|]|apply s_prod; [discriminate|]|apply Forall_cons|apply Forall_nil].
Qed.

(** * C31 *)
(** The full property: any number of factors. *)
Definition C31_full : Prop := forall R M junk l, Forall (sound R M) l ->
  let a := act R M junk (Prod R M l) in let total x := fold_right (fun o y => den R M o y) x l in
  (forall n dest src, exists n', cp R M a n dest src = Ok (total src, n')) /\
  (forall n psi, exists n', ip R M a n psi = Ok (total psi, n')) /\
  (forall n dest src, exists n', ad R M a n dest src = Ok (madd dest (total src), n')).
(** A non empty product applies the last factor first, in all three forms (missing: the empty product). *)
Theorem C31_partial : forall R M junk l, l <> [] -> Forall (sound R M) l ->
  let a := act R M junk (Prod R M l) in let total x := fold_right (fun o y => den R M o y) x l in
  (forall n dest src, exists n', cp R M a n dest src = Ok (total src, n')) /\
  (forall n psi, exists n', ip R M a n psi = Ok (total psi, n')) /\
  (forall n dest src, exists n', ad R M a n dest src = Ok (madd dest (total src), n')).
Proof. exact (fun R M junk l N F => act_ok R M junk (Prod R M l) (s_prod R M l N F)). Qed.
Print Assumptions C31_partial.
(** The in place form is right for the empty product too. *)
Theorem C31_in_place : forall R M junk l, Forall (sound R M) l -> forall n psi, exists n',
  ip R M (act R M junk (Prod R M l)) n psi = Ok (fold_right (fun o y => den R M o y) psi l, n').
Proof.
  intros R M junk l F n psi. destruct l as [|o t]; [exists n; reflexivity|]. apply (C31_partial R M junk (o :: t)); [discriminate|exact F].
Qed.
Print Assumptions C31_in_place.
(** The copying form reads in front of the table of operators when the product is empty. *)
Theorem C31_empty_code : forall R M n dest src psi, prod_cp R M [] n dest src = UB /\ prod_ip R M [] n psi = Ok (psi, n).
Proof. exact prod_empty. Qed.
Print Assumptions C31_empty_code.
Theorem C31_refuted : ~ C31_full.
Proof. intros H. destruct (H Zr ZM (fun _ => 0) [] (Forall_nil _)) as (A & _). destruct (A 0%nat 0 0) as [n E]. discriminate E. Qed.
Print Assumptions C31_refuted.
(** 2 * (x + 1) * x^2, the rightmost first: 2 * (5*5 + 1) *)
Example C31_ex : let o := Prod Zr ZM [leaf (Z.mul 2); leaf (fun x => x + 1); leaf (fun x => x * x)] in
  sound Zr ZM o /\ cp Zr ZM (act Zr ZM (fun _ => 77) o) 0 55 5 = Ok (52, 0%nat).
Proof.
  split; [|vm_compute; auto]. repeat first [apply leaf_sound|apply s_prod; [discriminate|]|apply Forall_cons|apply Forall_nil].
Qed.

(** * C33 *)
(** The full property: a copy, made by NewInstance and assignment, answers like the original. *)
Definition C33_full : Prop := forall O (dup : O -> O) r l, made O r -> o_copy O dup (o_new O) r = Ok l ->
  (forall i, 0 <= i -> o_get O l i = match o_get O r i with Ok (Some o) => Ok (Some (dup o)) | x => x end) /\
  (forall n, o_find O l n = match o_find O r n with Ok (Some o) => Ok (Some (dup o)) | x => x end).
(** Copying never leaves the tables, and look-ups by position agree, also when the target had entries before. *)
Theorem C33_position_partial : forall O (dup : O -> O) this r, made O this -> made O r -> exists l, o_copy O dup this r = Ok l /\ o_size O l = o_size O r /\
  forall i, 0 <= i -> o_get O l i = match o_get O r i with Ok (Some o) => Ok (Some (dup o)) | x => x end.
Proof.
  intros O dup this r T W. destruct (copy_ok O dup this r (made_wf O this T) (made_wf O r W)) as (l & E & S & _). exists l. split; [exact E|]. split; [exact S|].
  intros i Hi. apply (copy_position O dup this r l i (made_wf O this T) (made_wf O r W) E Hi).
Qed.
Print Assumptions C33_position_partial.
(** What the code does with names: the copy knows those of the target before, none of the original. *)
Theorem C33_names_code : forall O (dup : O -> O) this r l, made O this -> made O r -> o_copy O dup this r = Ok l -> forall n, o_exists O l n = o_exists O this n.
Proof. exact (fun O dup this r l T W => copy_names O dup this r l (made_wf O this T) (made_wf O r W)). Qed.
Print Assumptions C33_names_code.
(** Look-ups with non negative positions and any name in a list made by the interface never leave the table. *)
Theorem C33_get : forall O l i, made O l -> 0 <= i -> (o_size O l <= i /\ o_get O l i = Throw) \/ (i < o_size O l /\ exists o, o_get O l i = Ok (Some o)).
Proof. exact (fun O l i H => get_safe O l i (made_wf O l H)). Qed.
Print Assumptions C33_get.
Theorem C33_find : forall O l n, made O l -> (o_exists O l n = false /\ o_find O l n = Throw) \/
  (o_exists O l n = true /\ exists i o, 0 <= i < o_size O l /\ o_find O l n = Ok (Some o) /\ o_get O l i = Ok (Some o)).
Proof. exact (fun O l n H => find_safe O l n (made_wf O l H)). Qed.
Print Assumptions C33_find.

(** Adding: refused for a null pointer, the 129th operator and a name in use; otherwise the operator becomes the last one, found
    under its name, and all other look-ups answer as before. *)
Theorem C33_add : forall O l, made O l ->
  o_add O l None = Throw /\
  (forall n o, o_exists O l n = true -> o_add_named O l n o = Throw) /\
  (forall o, o_size O l = 128 -> o_add O l o = Throw) /\
  (forall o, o_size O l < 128 -> exists l', o_add O l (Some o) = Ok l' /\ o_size O l' = o_size O l + 1 /\ o_get O l' (o_size O l) = Ok (Some o) /\
     (forall i, 0 <= i < o_size O l -> o_get O l' i = o_get O l i) /\ (forall n, o_exists O l' n = o_exists O l n /\ o_find O l' n = o_find O l n)) /\
  (forall n o, o_size O l < 128 -> o_exists O l n = false -> exists l', o_add_named O l n (Some o) = Ok l' /\ o_size O l' = o_size O l + 1 /\ o_get O l' (o_size O l) = Ok (Some o) /\
     (forall i, 0 <= i < o_size O l -> o_get O l' i = o_get O l i) /\ o_find O l' n = Ok (Some o) /\ (forall m, m <> n -> o_find O l' m = o_find O l m)).
Proof. exact (fun O l H => add_spec O l (made_wf O l H)). Qed.
Print Assumptions C33_add.

Definition ex33 (calls : list (lop Z)) : outcome (olist Z) := foldM (lstep Z) calls (o_new Z).
Lemma ex33_made calls l : Forall (llegal Z) calls -> ex33 calls = Ok l -> made Z l.
Proof.
  unfold ex33. intros F. assert (K : forall l0, made Z l0 -> foldM (lstep Z) calls l0 = Ok l -> made Z l).
  { induction F as [|c cs Hc F IH]; intros l0 H0 E; cbn [foldM] in E; [injection E as <-; exact H0|]. destruct (lstep Z l0 c) as [l1| |] eqn:E1; cbn [bind] in E; try discriminate. apply (IH l1); [eapply m_step; eassumption|exact E]. }
  apply K. apply m_new.
Qed.
Example C33_ex : exists r, made Z r /\ o_size Z r = 2 /\ o_find Z r (lit "T") = Ok (Some 20) /\ exists l, o_copy Z Z.succ (o_new Z) r = Ok l /\
  o_get Z l 1 = Ok (Some 21) /\ o_find Z l (lit "T") = Throw /\ o_add Z r None = Throw /\ o_add_named Z r (lit "T") (Some 5) = Throw.
Proof.
  destruct (ex33 [LAdd Z (Some 10); LAddNamed Z (lit "T") (Some 20)]) as [r| |] eqn:E; [|vm_compute in E; discriminate E|vm_compute in E; discriminate E].
  exists r. split; [apply (ex33_made _ r) in E; [exact E|repeat constructor]|]. vm_compute in E. injection E as <-. split; [reflexivity|]. split; [vm_compute; reflexivity|]. eexists. split; [vm_compute; reflexivity|]. repeat split; vm_compute; reflexivity.
Qed.
Theorem C33_refuted : ~ C33_full.
Proof.
  intros H. destruct C33_ex as (r & M & _ & F & l & E & _ & N & _). destruct (H Z Z.succ r l M E) as [_ B]. specialize (B (lit "T")). rewrite F, N in B. discriminate B.
Qed.
Print Assumptions C33_refuted.
