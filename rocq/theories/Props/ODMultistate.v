(** C93: the exponential of a matrix of operators in the split operator propagator. *)
From Coq Require Import QArith Qcanon.
From Coq Require Import List ZArith Lia Bool Reals.
From Verif Require Import Base Arrays Algebra Complex Ordered RealField Model.ODMultistate Spec.ODMultistate Proofs.ODMultistate Proofs.ODMultistateEx.
Import ListNotations.
Open Scope Z_scope.

(** Which matrices are refused: exactly those with an element that is not diagonal in some representation, or with a coupling that needs a
    transformation.  Otherwise: the transformations of the diagonal elements are collected. *)
Theorem C93_init : forall (F : ofld) n (m : Z -> Z -> option (elem F)) sizes, 1 <= n -> zlen sizes = n ->
  (exists i j, 0 <= i < n /\ 0 <= j < n /\ bad F m i j) /\ od_init F n m sizes = Throw \/
  (forall i j, 0 <= i < n -> 0 <= j < n -> ~ bad F m i j) /\ exists s, od_init F n m sizes = Ok s /\ od_n F s = n /\ rd sizes 0 = Ok (od_size F s) /\ od_d F s = None /\
    (od_full F s = true <-> forall i j e, 0 <= i < n -> 0 <= j < n -> m i j = Some e -> i = j /\ el_t F e = None) /\
    match od_t F s with
    | None => forall i, 0 <= i < n -> t_at F m i = None
    | Some T => zlen T = n /\ (exists i, 0 <= i < n /\ t_at F m i <> None) /\
                forall i, 0 <= i < n -> rd T i = Ok (match t_at F m i with Some t => Ptr F t | None => Unset F end)
    end.
Proof. exact init_exact. Qed.
Print Assumptions C93_init.
(** States of different size should be refused, as the message in the code says.  They are not, and the first step then leaves the arrays. *)
Definition C93_sizes : Prop := forall (F : ofld) n (m : Z -> Z -> option (elem F)) sizes i a b, 1 <= n -> zlen sizes = n ->
  rd sizes 0 = Ok a -> rd sizes i = Ok b -> a <> b -> od_init F n m sizes = Throw.
Theorem C93_sizes_refuted : ~ C93_sizes.
Proof.
  intros H. destruct sizes_accepted as (s & E & _). rewrite (H Qco 2 m_tri [2; 1] 1 2 1) in E; try reflexivity; try discriminate; lia.
Qed.
Print Assumptions C93_sizes_refuted.
Theorem C93_sizes_code : let m := m22 (Some (pot (q 1) [q 1; q 2])) (Some (pot (q 1) [q 1; q 2])) None (Some (pot (q 1) [q 1; q 2])) in
  exists s, od_init Qco 2 m [2; 1] = Ok s /\ od_step Qco one_more qeig (q 0) s m q1 [[q1; q1]; [q1]] = UB.
Proof. intros m. eexists. split; [reflexivity|]. destruct sizes_accepted as (s & _ & H). apply H. reflexivity. Qed.
Print Assumptions C93_sizes_code.

(** The main claim.  On a grid, a step multiplies each eigenvector of the matrix that the operator stands for at a point by the exponential of
    its eigenvalue ([follows]); [asked]: the matrix handed to LAPACK, for which its answer is right. *)
Definition C93_step (P : forall F : ofld, Z -> Z -> (Z -> Z -> option (elem F)) -> bool -> Prop) : Prop :=
  forall (F : ofld) cexp eig junk n size (m : Z -> Z -> option (elem F)) u, 1 <= n -> 0 <= size ->
  on_grid F n m -> couples F n m -> covered F n size m -> (forall i, 0 <= i < size -> lapack F eig n (asked m i)) ->
  P F n size m u -> follows F cexp eig junk n size m u.
Definition symmetric_all (F : ofld) (n size : Z) (m : Z -> Z -> option (elem F)) (u : bool) : Prop := forall i, 0 <= i < size -> symmetric F n (op_matrix F u (els F m) i).
(** It fails for operators with a field: the present field of a dipole coupling is left out. *)
Theorem C93_field_refuted : ~ C93_step (fun F n size m u => diagonal_given F n m /\ symmetric_all F n size m u).
Proof.
  intros H. destruct field_ok as (_ & A & B & D & E & G & K). apply field_bad. apply H; try assumption; try lia.
  - intros i Hi. replace i with 0 by lia. exact K.
  - split; [exact A|]. intros i Hi. replace i with 0 by lia. exact G.
Qed.
Print Assumptions C93_field_refuted.
(** It fails for matrices that are not symmetric: the lower triangle is left out. *)
Theorem C93_triangle_refuted : ~ C93_step (fun F n size m u => diagonal_given F n m /\ unscaled F n m).
Proof.
  intros H. destruct tri_ok as (U & A & B & D & E & K). apply tri_bad. apply H; try assumption; try lia; [|split; assumption].
  intros i Hi. replace i with 0 by lia. exact K.
Qed.
Print Assumptions C93_triangle_refuted.
(** It fails for a missing diagonal element that stands for the identity: it counts as zero. *)
Theorem C93_unity_refuted : ~ C93_step (fun F n size m u => unscaled F n m /\ symmetric_all F n size m u).
Proof.
  intros H. destruct unity_ok as (U & A & B & D & E & K). apply unity_bad. apply H; try assumption; try lia.
  - intros i Hi. replace i with 0 by lia. exact K.
  - split; [exact U|]. intros i Hi. replace i with 0 by lia. exact E.
Qed.
Print Assumptions C93_unity_refuted.
(** It holds everywhere else. *)
Theorem C93_step_partial : forall (F : ofld) cexp eig junk n size (m : Z -> Z -> option (elem F)) sizes s, 1 <= n -> 0 <= size -> zlen sizes = n ->
  od_init F n m sizes = Ok s -> rd sizes 0 = Ok size -> on_grid F n m -> couples F n m -> covered F n size m ->
  forall u, unscaled F n m -> u = false \/ diagonal_given F n m ->
  (forall i, 0 <= i < size -> symmetric F n (op_matrix F u (els F m) i)) -> (forall i, 0 <= i < size -> lapack F eig n (op_matrix F u (els F m) i)) ->
  forall c g, exists s' h, od_step F cexp eig junk s m c (table n size g) = Ok (s', table n size h) /\
    forall i lam, 0 <= i < size -> eigvec F n (op_matrix F u (els F m) i) lam (fun k => g k i) ->
      forall k, 0 <= k < n -> h k i = cmul (cexp (cmul (cx_of lam) c)) (g k i).
Proof. intros F cexp eig junk n size m sizes s. exact (main_eigen F cexp eig junk n size m sizes s). Qed.
Print Assumptions C93_step_partial.
(** Under the same conditions: the sum of the squares at each point is kept for exponentials of modulus one, steps add up, and can be undone. *)
Theorem C93_norm_partial : forall (F : ofld) cexp eig junk n size (m : Z -> Z -> option (elem F)) sizes s, 1 <= n -> 0 <= size -> zlen sizes = n ->
  od_init F n m sizes = Ok s -> rd sizes 0 = Ok size -> on_grid F n m -> couples F n m -> covered F n size m ->
  forall u, unscaled F n m -> u = false \/ diagonal_given F n m ->
  (forall i, 0 <= i < size -> symmetric F n (op_matrix F u (els F m) i)) -> (forall i, 0 <= i < size -> lapack F eig n (op_matrix F u (els F m) i)) ->
  forall c g, (forall x : F, cmul (cx_conj (cexp (cmul (cx_of x) c))) (cexp (cmul (cx_of x) c)) = (c1 : Cx F)) ->
  exists s' h, od_step F cexp eig junk s m c (table n size g) = Ok (s', table n size h) /\ forall i, 0 <= i < size -> weight F n h i = weight F n g i.
Proof. intros F cexp eig junk n size m sizes s. exact (main_norm F cexp eig junk n size m sizes s). Qed.
Print Assumptions C93_norm_partial.
Theorem C93_add_partial : forall (F : ofld) cexp eig junk n size (m : Z -> Z -> option (elem F)) sizes s, 1 <= n -> 0 <= size -> zlen sizes = n ->
  od_init F n m sizes = Ok s -> rd sizes 0 = Ok size -> on_grid F n m -> couples F n m -> covered F n size m ->
  forall u, unscaled F n m -> u = false \/ diagonal_given F n m ->
  (forall i, 0 <= i < size -> symmetric F n (op_matrix F u (els F m) i)) -> (forall i, 0 <= i < size -> lapack F eig n (op_matrix F u (els F m) i)) ->
  forall c c' g, (forall x y, cexp (cadd x y) = cmul (cexp x) (cexp y)) ->
  exists s' h h', od_step F cexp eig junk s m c (table n size g) = Ok (s', table n size h) /\ od_step F cexp eig junk s' m c' (table n size h) = Ok (s', table n size h') /\
    od_step F cexp eig junk s m (cadd c c') (table n size g) = Ok (s', table n size h').
Proof. intros F cexp eig junk n size m sizes s. exact (main_add F cexp eig junk n size m sizes s). Qed.
Print Assumptions C93_add_partial.
Theorem C93_undo_partial : forall (F : ofld) cexp eig junk n size (m : Z -> Z -> option (elem F)) sizes s, 1 <= n -> 0 <= size -> zlen sizes = n ->
  od_init F n m sizes = Ok s -> rd sizes 0 = Ok size -> on_grid F n m -> couples F n m -> covered F n size m ->
  forall u, unscaled F n m -> u = false \/ diagonal_given F n m ->
  (forall i, 0 <= i < size -> symmetric F n (op_matrix F u (els F m) i)) -> (forall i, 0 <= i < size -> lapack F eig n (op_matrix F u (els F m) i)) ->
  forall c g, (forall x, cmul (cexp x) (cexp (copp x)) = c1) ->
  exists s' h, od_step F cexp eig junk s m c (table n size g) = Ok (s', table n size h) /\ od_step F cexp eig junk s' m (copp c) (table n size h) = Ok (s', table n size g).
Proof. intros F cexp eig junk n size m sizes s. exact (main_undo F cexp eig junk n size m sizes s). Qed.
Print Assumptions C93_undo_partial.
(** Without conditions on the elements: a step is linear in the wave function ... *)
Theorem C93_linear : forall (F : ofld) cexp eig junk n size (m : Z -> Z -> option (elem F)) sizes s, 1 <= n -> 0 <= size -> zlen sizes = n ->
  od_init F n m sizes = Ok s -> rd sizes 0 = Ok size -> on_grid F n m -> couples F n m -> covered F n size m ->
  forall c (a b : Cx F) g g', exists s' h h',
    od_step F cexp eig junk s m c (table n size g) = Ok (s', table n size h) /\ od_step F cexp eig junk s m c (table n size g') = Ok (s', table n size h') /\
    od_step F cexp eig junk s m c (table n size (fun k i => cadd (cmul a (g k i)) (cmul b (g' k i)))) = Ok (s', table n size (fun k i => cadd (cmul a (h k i)) (cmul b (h' k i)))).
Proof. intros F cexp eig junk n size m sizes s. exact (main_linear F cexp eig junk n size m sizes s). Qed.
Print Assumptions C93_linear.
(** ... and the elements are read once: whatever they have become later ([m']), the steps are those of the first time. *)
Theorem C93_cached_code : forall (F : ofld) cexp eig junk n size (m : Z -> Z -> option (elem F)) sizes s, 1 <= n -> 0 <= size -> zlen sizes = n ->
  od_init F n m sizes = Ok s -> rd sizes 0 = Ok size -> on_grid F n m -> couples F n m -> covered F n size m ->
  forall m' c c' g g', exists s' h h', od_step F cexp eig junk s m c (table n size g) = Ok (s', table n size h) /\
    od_step F cexp eig junk s' m' c' (table n size g') = Ok (s', table n size h') /\ od_step F cexp eig junk s m c' (table n size g') = Ok (s', table n size h').
Proof. intros F cexp eig junk n size m sizes s. exact (main_cached F cexp eig junk n size m sizes s). Qed.
Print Assumptions C93_cached_code.

(** Diagonal matrices: each state is multiplied by the exponential of its element.  A missing element is accessed through a null pointer. *)
Definition C93_diag : Prop := forall (F : ofld) cexp eig junk n size (m : Z -> Z -> option (elem F)) sizes s c g, 1 <= n -> 0 <= size -> zlen sizes = n ->
  od_init F n m sizes = Ok s -> rd sizes 0 = Ok size -> diagonal F n m -> covered F n size m ->
  exists r, od_step F cexp eig junk s m c (table n size g) = Ok r.
Theorem C93_diag_refuted : ~ C93_diag.
Proof.
  intros H. destruct (H Qco one_more qeig (q 0) 2 1 (m22 (Some (pot (q 1) [q 1])) None None None) [1; 1] (mkOdm Qco 2 1 true None None) q1 e11) as [r E]; try reflexivity; try lia.
  - entries. split; reflexivity.
  - entries. vm_compute. discriminate.
  - discriminate E.
Qed.
Print Assumptions C93_diag_refuted.
Theorem C93_diag_partial : forall (F : ofld) cexp eig junk n size (m : Z -> Z -> option (elem F)) sizes s (es : Z -> elem F) c g, 1 <= n -> 0 <= size -> zlen sizes = n ->
  od_init F n m sizes = Ok s -> rd sizes 0 = Ok size -> diagonal F n m ->
  (forall k, 0 <= k < n -> m k k = Some (es k) /\ zlen (el_d F (es k)) = size) ->
  exists s', od_step F cexp eig junk s m c (table n size g) = Ok (s', table n size (fun k i => cmul (g k i) (cexp (cmul (cx_of (nth (Z.to_nat i) (el_d F (es k)) c0)) c)))).
Proof. exact diag_step. Qed.
Print Assumptions C93_diag_partial.
Theorem C93_missing_code : forall (F : ofld) cexp eig junk n size (m : Z -> Z -> option (elem F)) sizes s k c wf, 1 <= n -> 0 <= size -> zlen sizes = n ->
  od_init F n m sizes = Ok s -> rd sizes 0 = Ok size -> diagonal F n m -> 0 <= k < n -> m k k = None -> od_step F cexp eig junk s m c wf = UB.
Proof. exact diag_missing. Qed.
Print Assumptions C93_missing_code.

(** Elements with transformations, as the kinetic energy.  Couplings next to them should be refused or used: they are accepted and left out. *)
Definition C93_coupling : Prop := forall (F : ofld) n (m : Z -> Z -> option (elem F)) sizes, 1 <= n -> zlen sizes = n ->
  (exists i, 0 <= i < n /\ t_at F m i <> None) -> couples F n m -> od_init F n m sizes = Throw.
Theorem C93_coupling_refuted : ~ C93_coupling.
Proof.
  intros H. destruct cpl_accepted as [s E]. rewrite (H Qco 2 m_cpl [1; 1]) in E; [discriminate E|lia|reflexivity| |].
  - exists 0. split; [lia|discriminate].
  - exists 0, 1. eexists. split; [lia|]. split; [lia|]. split; [lia|reflexivity].
Qed.
Print Assumptions C93_coupling_refuted.
Theorem C93_dropped_code : forall (F : ofld) cexp eig junk n (m m' : Z -> Z -> option (elem F)) sizes size s c wf, 1 <= n -> zlen sizes = n ->
  od_init F n m sizes = Ok s -> rd sizes 0 = Ok size -> (exists i, 0 <= i < n /\ t_at F m i <> None) -> (forall k, 0 <= k < n -> m k k = m' k k) ->
  od_step F cexp eig junk s m c wf = od_step F cexp eig junk s m' c wf.
Proof.
  intros F cexp eig junk n m m' sizes size s c wf Hn Hs E E0 Ht. exact (ext_dropped F cexp eig junk s n size m m' c wf (init_ext F n m sizes size s Hn Hs E E0 Ht)).
Qed.
Print Assumptions C93_dropped_code.
(** With a transformation for each state: there, exponentials of the elements with their factors, and back; all with the normalisation of the
    first state. *)
Theorem C93_external_code : forall (F : ofld) cexp eig junk n size (m : Z -> Z -> option (elem F)) sizes s (es : Z -> elem F) (ts : Z -> trafo F) c wf, 1 <= n -> 0 <= size ->
  zlen sizes = n -> od_init F n m sizes = Ok s -> rd sizes 0 = Ok size -> zlen wf = n ->
  (forall k, 0 <= k < n -> m k k = Some (es k) /\ size <= zlen (el_d F (es k)) /\ el_t F (es k) = Some (ts k)) ->
  exists wf', od_step F cexp eig junk s m c wf = Ok (s, wf') /\ zlen wf' = n /\
    forall k st, rd wf k = Ok st -> rd wf' k = Ok (ext_result F cexp size (t_norm F (ts 0)) (ts k) (es k) c st).
Proof.
  intros F cexp eig junk n size m sizes s es ts c wf Hn Hz Hs E E0 Hw He. apply (ext_step F cexp eig junk s n size m es ts c wf Hn); try assumption.
  apply (init_ext F n m sizes size s Hn Hs E E0). exists 0. split; [lia|]. unfold t_at. destruct (He 0 ltac:(lia)) as (-> & _ & ->). discriminate.
Qed.
Print Assumptions C93_external_code.
(** Without an exponent nothing should change.  That needs one normalisation for all states. *)
Definition C93_identity (same : bool) : Prop := forall (F : ofld) cexp eig junk n size (m : Z -> Z -> option (elem F)) sizes s (es : Z -> elem F) (ts : Z -> trafo F) wf, 1 <= n -> 0 <= size ->
  zlen sizes = n -> od_init F n m sizes = Ok s -> rd sizes 0 = Ok size -> zlen wf = n -> cexp c0 = c1 ->
  (forall k, 0 <= k < n -> m k k = Some (es k) /\ size <= zlen (el_d F (es k)) /\ el_t F (es k) = Some (ts k)) ->
  (same = true -> forall k, 0 <= k < n -> t_norm F (ts k) = t_norm F (ts 0)) ->
  (forall k st, 0 <= k < n -> rd wf k = Ok st -> zlen (t_fwd F (ts k) st) = size /\ t_bwd F (ts k) (map (cmul (cx_of (t_norm F (ts k)))) (t_fwd F (ts k) st)) = st) ->
  od_step F cexp eig junk s m c0 wf = Ok (s, wf).
Theorem C93_identity_refuted : ~ C93_identity false.
Proof.
  intros H. assert (exists s, od_init Qco 2 m_norm [1; 1] = Ok s) as [s E] by (eexists; reflexivity).
  refine (norm_bad s E (H Qco one_more qeig (q 0) 2 1 m_norm [1; 1] s (fun k => if k =? 0 then tr (q 1) t_one else tr (q 1) t_two)
    (fun k => if k =? 0 then t_one else t_two) [[q1]; [q1]] _ _ _ E _ _ _ _ _ _)); try lia; try reflexivity; try discriminate.
  - intros k Hk. two k Hk; (split; [reflexivity|split; [vm_compute; discriminate|reflexivity]]).
  - intros k st Hk E1. two k Hk; injection E1 as <-; (split; [reflexivity|]); unfold t_one, t_two; cbn [Z.eqb t_fwd t_bwd t_norm map]; f_equal; apply cx_qc; vm_compute; reflexivity.
Qed.
Print Assumptions C93_identity_refuted.
Theorem C93_identity_partial : C93_identity true.
Proof.
  intros F cexp eig junk n size m sizes s es ts wf Hn Hz Hs E E0 Hw Hc He Hno Hinv. apply (ext_identity F cexp eig junk s n size m es ts wf Hn); auto.
  apply (init_ext F n m sizes size s Hn Hs E E0). exists 0. split; [lia|]. unfold t_at. destruct (He 0 ltac:(lia)) as (-> & _ & ->). discriminate.
Qed.
Print Assumptions C93_identity_partial.
(** A state without a transformation next to others with one: its pointer was never set. *)
Theorem C93_unset_code : forall (F : ofld) cexp eig junk n size (m : Z -> Z -> option (elem F)) sizes s (es : Z -> elem F) c wf k, 1 <= n -> 0 <= size ->
  zlen sizes = n -> od_init F n m sizes = Ok s -> rd sizes 0 = Ok size -> zlen wf = n ->
  (forall k, 0 <= k < n -> m k k = Some (es k) /\ size <= zlen (el_d F (es k))) -> (exists i, 0 <= i < n /\ t_at F m i <> None) ->
  0 <= k < n -> el_t F (es k) = None -> od_step F cexp eig junk s m c wf = UB.
Proof.
  intros F cexp eig junk n size m sizes s es c wf k Hn Hz Hs E E0 Hw He Ht Hk Hk0. apply (ext_unset F cexp eig junk s n size m es c wf k Hn); try assumption.
  exact (init_ext F n m sizes size s Hn Hs E E0 Ht).
Qed.
Print Assumptions C93_unset_code.

(** Examples: the matrix (16 -12; -12 9) at the only grid point meets all conditions of the main theorem, with the vector (3, 4) of eigenvalue
    0 and (4, -3) of eigenvalue 25. *)
Definition m_ex : Z -> Z -> option (elem Qco) :=
  m22 (Some (pot (q 1) [q 16])) (Some (pot (q 1) [q (-12)])) (Some (pot (q 1) [q (-12)])) (Some (pot (q 1) [q 9])).
Example C93_ex : (exists s, od_init Qco 2 m_ex [1; 1] = Ok s) /\ on_grid Qco 2 m_ex /\ couples Qco 2 m_ex /\ covered Qco 2 1 m_ex /\ unscaled Qco 2 m_ex /\
  diagonal_given Qco 2 m_ex /\ symmetric Qco 2 (op_matrix Qco true (els Qco m_ex) 0) /\ lapack Qco qeig 2 (op_matrix Qco true (els Qco m_ex) 0) /\
  eigvec Qco 2 (op_matrix Qco true (els Qco m_ex) 0) (q 25) (fun k => cx_of ((if k =? 0 then q 4 else q (-3)) : Qco)).
Proof.
  split; [eexists; reflexivity|]. split; [entries; reflexivity|]. split; [exists 0, 1; eexists; split; [lia|]; split; [lia|]; split; [lia|reflexivity]|].
  split; [entries; vm_compute; discriminate|]. split; [entries; reflexivity|]. split; [intros k Hk; two k Hk; discriminate|].
  split; [intros k l Hk Hl; two k Hk; two l Hl; reflexivity|].
  split; [apply (q_lapack _ (q 16) (q 9) (q (-12))); apply qc_eq; vm_compute; reflexivity|].
  intros k Hk. two k Hk; rewrite upto2; apply cx_qc; vm_compute; reflexivity.
Qed.
Example C93_ex_diag : diagonal Qco 2 (m22 (Some (pot (q 1) [q 3])) None None (Some (pot (q 1) [q 4]))) /\
  exists s, od_init Qco 2 (m22 (Some (pot (q 1) [q 3])) None None (Some (pot (q 1) [q 4]))) [1; 1] = Ok s /\ od_full Qco s = true.
Proof. split; [entries; split; reflexivity|]. eexists. split; reflexivity. Qed.
(** two transformed states with one normalisation, and one with a missing transformation *)
Example C93_ex_external : (exists s, od_init Qco 2 m_cpl [1; 1] = Ok s /\ od_t Qco s = Some [Ptr Qco t_one; Ptr Qco t_one]) /\
  exists s, od_init Qco 2 (m22 (Some (tr (q 1) t_one)) None None (Some (pot (q 1) [q 3]))) [1; 1] = Ok s /\ od_t Qco s = Some [Ptr Qco t_one; Unset Qco].
Proof. split; eexists; split; reflexivity. Qed.
(** the real exponential function has the properties used *)
Example C93_laws_ex : (forall x y : Cx Ro, Rcexp (cadd x y) = cmul (Rcexp x) (Rcexp y)) /\ (forall x : Cx Ro, cmul (Rcexp x) (Rcexp (copp x)) = c1) /\ Rcexp c0 = c1.
Proof.
  split; [exact Rcexp_add|]. split; [|exact Rcexp_0]. intros x. rewrite <- Rcexp_add. rewrite <- Rcexp_0. f_equal. exact (Ring_theory.Ropp_def (cr_th (Cx Ro)) x).
Qed.
