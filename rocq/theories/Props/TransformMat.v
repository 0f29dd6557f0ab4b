(** C109: matrix operators in the split operator, the change into their eigenbasis. *)
From Coq Require Import QArith Qcanon.
From Coq Require Import List ZArith Lia Bool.
From Verif Require Import Base Arrays Algebra Complex Ordered Spec.ODMultistate Proofs.ODMultistateEx Model.TransformMat Spec.TransformMat Proofs.TransformMat.
Import ListNotations.
Open Scope Z_scope.

(** The product of matrix and vector should be that of all matrices, transposed or not.  It is that of square ones only. *)
Definition C109_product : Prop := forall (F : ofld) junk r c (X : Z -> Z -> F) b (g : Z -> Cx F) (tr : bool), 0 <= r -> 0 <= c ->
  let (m, n) := if tr then (c, r) else (r, c) in
  mat_vec F junk b (mkMat r c (columns r c X)) (vec n g) tr = Ok (vec m (times n (if tr then transpose X else X) g)).
Theorem C109_product_refuted : ~ C109_product.
Proof.
  intros H. pose proof (H Qco c0 2 1 qX [] (fun _ => c0) false ltac:(lia) ltac:(lia)) as E. cbn beta iota in E.
  pose proof (mat_vec_high Qco c0 2 1 qX [] (fun _ => c0) ltac:(lia)) as E2. unfold of_fun in E2. rewrite E2 in E. discriminate.
Qed.
Print Assumptions C109_product_refuted.
(** Missing for the full statement: matrices that are not square. *)
Theorem C109_product_partial : forall (F : ofld) junk n (X : Z -> Z -> F) b (g : Z -> Cx F) (tr : bool), 0 <= n ->
  mat_vec F junk b (mkMat n n (columns n n X)) (vec n g) tr = Ok (vec n (times n (if tr then transpose X else X) g)).
Proof. exact mat_vec_square. Qed.
Print Assumptions C109_product_partial.
(** More columns than rows: the result keeps the length of the vector, its rest is what was there before. *)
Theorem C109_flat_code : forall (F : ofld) junk r c (X : Z -> Z -> F) b (g : Z -> Cx F), 0 <= r <= c -> zlen b = c ->
  mat_vec F junk b (mkMat r c (columns r c X)) (vec c g) false = Ok (vec c (fun i => if i <? r then times c X g i else nth (Z.to_nat i) b c0)).
Proof. exact mat_vec_flat. Qed.
Print Assumptions C109_flat_code.
(** More rows than columns: memory behind the result is written. *)
Theorem C109_high_code : forall (F : ofld) junk r c (X : Z -> Z -> F) b (g : Z -> Cx F), 0 <= c < r ->
  mat_vec F junk b (mkMat r c (columns r c X)) (vec c g) false = UB.
Proof. exact mat_vec_high. Qed.
Print Assumptions C109_high_code.
(** Transposed and not square: memory outside is used in both cases. *)
Theorem C109_turned_code : forall (F : ofld) junk r c (X : Z -> Z -> F) b (g : Z -> Cx F), 0 < r -> 0 < c -> r <> c ->
  mat_vec F junk b (mkMat r c (columns r c X)) (vec r g) true = UB.
Proof. exact mat_vec_turned. Qed.
Print Assumptions C109_turned_code.
(** Vectors of another size are left out without a word. *)
Theorem C109_other_code : forall (F : ofld) junk b (M : mat F) (a : list (Cx F)) (tr : bool), (if tr then m_rows M else m_cols M) <> zlen a ->
  mat_vec F junk b M a tr = Ok b.
Proof. exact mat_vec_other. Qed.
Print Assumptions C109_other_code.

(** Any sequence of changes, also of repeated ones, keeps the state; the representation is that of the last call. *)
Theorem C109_calls : forall (F : ofld) junk n (X : Z -> Z -> F), 0 <= n -> orthonormal F n X -> forall (f : Z -> Cx F) (ds : list bool) (w : wave F),
  holds n X (w_k w) f (w_v w) ->
  exists w', foldM (fun w (d : bool) => if d then forward F junk (Some (mkMat n n (columns n n X))) w else backward F junk (Some (mkMat n n (columns n n X))) w) ds w = Ok w' /\
    w_k w' = last ds (w_k w) /\ holds n X (w_k w') f (w_v w').
Proof. exact calls_keep. Qed.
Print Assumptions C109_calls.

(** One factor multiplies each component in the eigenbasis by its exponential and comes back. *)
Theorem C109_components : forall (F : ofld) cexp junk n (X : Z -> Z -> F), 0 <= n -> orthonormal F n X -> forall (f : Z -> Cx F) b ev c,
  exists b' h, factor F cexp junk (Some (mkMat n n (columns n n X))) (vec n ev) c (mkWave (vec n f) b false) = Ok (mkWave (vec n h) b' false) /\
    forall j, 0 <= j < n -> times n (transpose X) h j = cmul (times n (transpose X) f j) (cexp (cmul (cx_of (ev j)) c)).
Proof. exact factor_comp. Qed.
Print Assumptions C109_components.
(** An eigenstate of the matrix is multiplied by the exponential of its eigenvalue, whichever basis LAPACK returned. *)
Theorem C109_eigen : forall (F : ofld) cexp junk n (X : Z -> Z -> F), 0 <= n -> forall (H : Z -> Z -> F) (f : Z -> Cx F) b ev c lam,
  symmetric F n H -> eigenbasis F n H X ev -> eigvec F n H lam f ->
  exists b', factor F cexp junk (Some (mkMat n n (columns n n X))) (vec n ev) c (mkWave (vec n f) b false) =
    Ok (mkWave (vec n (fun k => cmul (cexp (cmul (cx_of lam) c)) (f k))) b' false).
Proof. intros F cexp junk n X Hn H f b ev c lam HS HE. exact (factor_eigen F cexp junk n X Hn H f b ev c lam HS HE). Qed.
Print Assumptions C109_eigen.
(** Exponentials of absolute value one conserve the norm. *)
Theorem C109_norm : forall (F : ofld) cexp junk n (X : Z -> Z -> F), 0 <= n -> orthonormal F n X -> forall (f : Z -> Cx F) b ev c,
  (forall j, 0 <= j < n -> cmul (cx_conj (cexp (cmul (cx_of (ev j)) c))) (cexp (cmul (cx_of (ev j)) c)) = c1) ->
  exists b' h, factor F cexp junk (Some (mkMat n n (columns n n X))) (vec n ev) c (mkWave (vec n f) b false) = Ok (mkWave (vec n h) b' false) /\ square n h = square n f.
Proof. exact factor_square. Qed.
Print Assumptions C109_norm.
(** Two factors are one with the sum of the exponents. *)
Theorem C109_sum : forall (F : ofld) cexp junk n (X : Z -> Z -> F), 0 <= n -> orthonormal F n X -> forall (f : Z -> Cx F) b b1 ev c d,
  (forall j, 0 <= j < n -> cexp (cmul (cx_of (ev j)) (cadd c d)) = cmul (cexp (cmul (cx_of (ev j)) c)) (cexp (cmul (cx_of (ev j)) d))) ->
  exists w1 w2 w3, factor F cexp junk (Some (mkMat n n (columns n n X))) (vec n ev) c (mkWave (vec n f) b false) = Ok w1 /\
    factor F cexp junk (Some (mkMat n n (columns n n X))) (vec n ev) d w1 = Ok w2 /\
    factor F cexp junk (Some (mkMat n n (columns n n X))) (vec n ev) (cadd c d) (mkWave (vec n f) b1 false) = Ok w3 /\ w_v w2 = w_v w3.
Proof. exact factor_sum. Qed.
Print Assumptions C109_sum.
(** Sums of states become sums of the results. *)
Theorem C109_linear : forall (F : ofld) cexp junk n (X : Z -> Z -> F), 0 <= n -> forall (f g : Z -> Cx F) b b1 b2 ev c (x y : Cx F),
  exists w1 w2 h k, factor F cexp junk (Some (mkMat n n (columns n n X))) (vec n ev) c (mkWave (vec n f) b false) = Ok w1 /\ w_v w1 = vec n h /\
    factor F cexp junk (Some (mkMat n n (columns n n X))) (vec n ev) c (mkWave (vec n g) b1 false) = Ok w2 /\ w_v w2 = vec n k /\
    exists w3, factor F cexp junk (Some (mkMat n n (columns n n X))) (vec n ev) c (mkWave (vec n (fun i => cadd (cmul x (f i)) (cmul y (g i)))) b2 false) = Ok w3 /\
      w_v w3 = vec n (fun i => cadd (cmul x (h i)) (cmul y (k i))).
Proof. exact factor_linear. Qed.
Print Assumptions C109_linear.

(** Bases that are not orthonormal are refused. *)
Theorem C109_inverse : forall (F : ofld) (X : mat F), set_matrix F X false = Throw /\ set_matrix F X true = Ok (Some X).
Proof. intros F X. split; reflexivity. Qed.
Print Assumptions C109_inverse.
(** Without a matrix (no diagonalisation yet, or "qdiag" with a matrix from another object) a null pointer is followed. *)
Theorem C109_null_code : forall (F : ofld) cexp junk ev c (w : wave F), forward F junk None w = UB /\ backward F junk None w = UB /\ factor F cexp junk None ev c w = UB.
Proof. intros F cexp junk ev c w. repeat split; reflexivity. Qed.
Print Assumptions C109_null_code.

(** Examples *)
Fixpoint upow (u : Cx Qco) (n : nat) : Cx Qco := match n with O => c1 | S m => cmul u (upow u m) end.
(** an exponential for imaginary whole numbers: powers of (3+4i)/5 *)
Definition turn (x : Cx Qco) : Cx Qco := upow (fr 3 5, fr 4 5) (Z.to_nat (Qnum (this (snd x)))).
Definition h2 (i j : Z) : Qco := if i =? j then (if i =? 0 then fr 41 25 else fr 34 25) else fr (-12) 25.
Definition ev2 (j : Z) : Qco := q (j + 1).
Definition st2 (i : Z) : Cx Qco := if i =? 0 then (q 3, q 1) else (q 0, q 2).
Definition im : Cx Qco := (q 0, q 1).
Example C109_ex_eigen : symmetric Qco 2 h2 /\ eigenbasis Qco 2 h2 qX ev2 /\ eigvec Qco 2 h2 (q 1) (fun i => if i =? 0 then (q 3, q 6) else (q 4, q 8)).
Proof.
  split; [intros k l Hk Hl; two k Hk; two l Hl; reflexivity|]. split.
  - split; [exact q_orth|]. intros k j Hk Hj. two k Hk; two j Hj; rewrite upto2; apply qc_eq; vm_compute; reflexivity.
  - intros k Hk. two k Hk; rewrite upto2; apply cx_qc; vm_compute; reflexivity.
Qed.
Example C109_ex_laws : (forall j, 0 <= j < 2 -> cmul (cx_conj (turn (cmul (cx_of (ev2 j)) im))) (turn (cmul (cx_of (ev2 j)) im)) = c1) /\
  (forall j, 0 <= j < 2 -> turn (cmul (cx_of (ev2 j)) (cadd im im)) = cmul (turn (cmul (cx_of (ev2 j)) im)) (turn (cmul (cx_of (ev2 j)) im))).
Proof. split; intros j Hj; two j Hj; apply cx_qc; vm_compute; reflexivity. Qed.
Example C109_ex_calls : orthonormal Qco 2 qX /\ holds 2 qX false st2 (w_v (mkWave (vec 2 st2) None false)) /\
  holds 2 qX true st2 (w_v (mkWave (vec 2 (times 2 (transpose qX) st2)) None true)).
Proof. split; [exact q_orth|]. split; reflexivity. Qed.
Example C109_ex_run : exists w, factor Qco turn c0 (Some (mkMat 2 2 (columns 2 2 qX))) (vec 2 ev2) im (mkWave (vec 2 st2) None false) = Ok w /\ w_v w <> vec 2 st2.
Proof.
  destruct (factor_vec Qco turn c0 2 qX ltac:(lia) st2 None ev2 im) as (b & E). eexists. split; [exact E|]. clear E. cbn [w_v]. intros E.
  assert (D : Qeq_bool (this (fst (out Qco turn 2 qX ev2 im st2 0))) (this (fst (st2 0))) = false) by (vm_compute; reflexivity).
  unfold vec in E. rewrite upto2 in E. apply (f_equal (fun l => nth 0 l (c0 : Cx Qco))) in E. cbn [map nth] in E.
  rewrite E in D. vm_compute in D. discriminate.
Qed.
Example C109_ex_sizes : zlen (vec 2 st2) = 2 /\ 0 <= 1 <= 2 /\ 0 <= 1 < 2 /\ m_cols (mkMat 2 2 (columns 2 2 qX)) <> zlen (vec 3 st2).
Proof. split; [reflexivity|]. split; [lia|]. split; [lia|]. discriminate. Qed.
