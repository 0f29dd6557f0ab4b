(** Properties C26, C27 and C62: the binary formats. *)
From Coq Require Import List ZArith Lia Bool.
From Verif Require Import Base Arrays Model.Serial Spec.Serial Proofs.Serial.
Import ListNotations.
Open Scope Z_scope.

(** Level wave functions of any size. *)
Theorem C26_level : forall fresh, (forall n, 0 <= n -> zlen (fresh n) = n) -> forall v, vec_ok 16 v -> round_trip ser_level (des_level fresh) v.
Proof. exact level_trip. Qed.
Print Assumptions C26_level.
(** Matrix operators: square, with a number of elements that is an int. *)
Theorem C26_matrix : forall fresh, (forall n, 0 <= n -> zlen (fresh n) = n) -> forall m, x_cols m = x_rows m -> 0 <= x_rows m ->
  x_rows m * x_rows m < 2147483648 -> zlen (x_bytes m) = x_rows m * x_rows m * 8 -> round_trip ser_matrix (des_matrix fresh) m.
Proof. exact matrix_trip. Qed.
Print Assumptions C26_matrix.
(** The number of columns is not written: a wider matrix is read back as its first elements in square form. *)
Theorem C26_matrix_code : forall fresh, (forall n, 0 <= n -> zlen (fresh n) = n) -> forall m rest, 0 <= x_rows m <= x_cols m -> x_rows m * x_rows m < 2147483648 -> zlen (x_bytes m) = x_rows m * x_cols m * 8 ->
  exists bs, ser_matrix m = Ok bs /\ let k := Z.to_nat (x_rows m * x_rows m * 8) in
    des_matrix fresh (bs ++ rest) = Ok (mkMat (x_rows m) (x_rows m) (firstn k (x_bytes m)), skipn k (x_bytes m) ++ rest).
Proof. exact matrix_wide. Qed.
Print Assumptions C26_matrix_code.
(** Laser fields: the full property. *)
Definition C26_laser_full : Prop := forall fresh, (forall n, 0 <= n -> zlen (fresh n) = n) -> forall f, vec_ok 8 (f_vec f) -> 0 <= f_dt f < two64 ->
  round_trip ser_laser (des_laser fresh) f.
(** It holds for a field that is not empty and has a positive time step. *)
Theorem C26_laser_partial : forall fresh, (forall n, 0 <= n -> zlen (fresh n) = n) -> forall f, vec_ok 8 (f_vec f) -> v_size (f_vec f) <> 0 ->
  0 <= f_dt f < two64 -> le_zero (f_dt f) = false -> round_trip ser_laser (des_laser fresh) f.
Proof. exact laser_trip. Qed.
Print Assumptions C26_laser_partial.
(** Nothing is written for an empty field, and a field with another time step is written but refused by the reader. *)
Theorem C26_laser_empty_code : forall f, v_size (f_vec f) = 0 -> ser_laser f = Ok [].
Proof. exact laser_empty. Qed.
Print Assumptions C26_laser_empty_code.
Theorem C26_laser_dt_code : forall fresh f bs rest, v_size (f_vec f) <> 0 -> vec_ok 8 (f_vec f) -> 0 <= f_dt f < two64 -> le_zero (f_dt f) = true ->
  ser_laser f = Ok bs -> des_laser fresh (bs ++ rest) = Throw.
Proof. exact laser_dt. Qed.
Print Assumptions C26_laser_dt_code.
Definition zeros (n : Z) : list byte := repeat 0 (Z.to_nat n).
Lemma zeros_len n : 0 <= n -> zlen (zeros n) = n.
Proof. intros H. unfold zlen, zeros. rewrite repeat_length. lia. Qed.
Theorem C26_laser_refuted : ~ C26_laser_full.
Proof.
  intros H. destruct (H zeros zeros_len (mkLaser 1 (mkVec 0 []))) as (bs & E & R).
  - split; [cbn; lia|reflexivity].
  - cbn. unfold two64. lia.
  - assert (E2 : bs = []) by (rewrite laser_empty in E by reflexivity; injection E; intros; symmetry; assumption). specialize (R (repeat 0 8)). rewrite E2 in R. vm_compute in R. discriminate R.
Qed.
Print Assumptions C26_laser_refuted.
(** Outside the property: a file cut short is accepted without an exception; the missing bytes are whatever was in memory. *)
Theorem C26_short_code : forall fresh v k, vec_ok 16 v -> 0 <= k < v_size v * 16 -> exists bs, ser_level v = Ok bs /\
  des_level fresh (firstn (Z.to_nat (16 + k)) bs) = Ok (mkVec (v_size v) (firstn (Z.to_nat k) (v_bytes v) ++ skipn (Z.to_nat k) (fresh (v_size v * 16))), []).
Proof. exact level_short. Qed.
Print Assumptions C26_short_code.

(** 4607182418800017408: the bits of 1.0 *)
Example C26_example : let v := mkVec 1 (upto 100 116) in let f := mkLaser 4607182418800017408 (mkVec 2 (upto 10 26)) in
  vec_ok 16 v /\ (exists bs, ser_level v = Ok bs /\ length bs = 32%nat /\ des_level zeros (bs ++ [7; 8]) = Ok (v, [7; 8])) /\
  le_zero (f_dt f) = false /\ (exists bs, ser_laser f = Ok bs /\ des_laser zeros (bs ++ [9]) = Ok (f, [9])) /\
  (exists bs, ser_matrix (mkMat 2 2 (upto 0 32)) = Ok bs /\ firstn 9 bs = [2; 0; 0; 0; 2; 0; 0; 0; 0]).
Proof.
  cbv zeta. split; [split; [cbn; lia|reflexivity]|]. split; [eexists; split; [vm_compute; reflexivity|split; vm_compute; reflexivity]|].
  split; [reflexivity|]. split; eexists; (split; [vm_compute; reflexivity|]); vm_compute; reflexivity.
Qed.
(** 13830554455654793216: the bits of -1.0 *)
Example C26_dt_example : le_zero 13830554455654793216 = true /\ le_zero 0 = true /\ le_zero 9223372036854775808 = true /\ le_zero 1 = false /\
  le_zero 9221120237041090560 = false.
Proof. repeat split. Qed.

(** Swapping a wave function to disk and back. Level wave functions: *)
Theorem C27_level_partial : forall fresh, (forall n, 0 <= n -> zlen (fresh n) = n) -> forall v, vec_ok 16 v -> round_trip ser_level (des_level fresh) v.
Proof. exact level_trip. Qed.
Print Assumptions C27_level_partial.
(** Grid wave functions, given that the protocol buffers library reads what it has written: *)
Theorem C27_grid_partial : forall fresh, (forall n, 0 <= n -> zlen (fresh n) = n) ->
  forall H (encode : H -> list byte) decode grid_size set_size, (forall h, decode (encode h) = Some h) ->
  (forall n h, grid_size (set_size n h) = grid_size h) -> (forall n m h, set_size n (set_size m h) = set_size n h) ->
  forall w, vec_ok 16 (g_vec H w) -> v_size (g_vec H w) = grid_size (g_head H w) ->
  zlen (encode (set_size (v_size (g_vec H w) * 16) (g_head H w))) < two32 ->
  exists bs, ser_grid H encode set_size w = Ok bs /\ forall rest, des_grid fresh H decode grid_size set_size (bs ++ rest) =
    Ok (mkGwf H (set_size (v_size (g_vec H w) * 16) (g_head H w)) (g_vec H w), rest).
Proof. exact grid_trip. Qed.
Print Assumptions C27_grid_partial.
(** Multi state wave functions: the full property, for whatever could be done with the bytes written. *)
Definition C27_multi_full : Prop := exists restore : list byte -> list vec, forall l bs, ser_multi l = Ok bs -> restore bs = l.
(** What the code does: the bytes depend on the number of states only, and reading leaves the target as it is. *)
Theorem C27_multi_code : forall l1 l2, length l1 = length l2 -> ser_multi l1 = ser_multi l2.
Proof. exact multi_blind. Qed.
Print Assumptions C27_multi_code.
Theorem C27_multi_read_code : forall l s rest, des_multi l (s ++ rest) = Ok (l, skipn 4 (s ++ rest)).
Proof. exact multi_kept. Qed.
Print Assumptions C27_multi_read_code.
Theorem C27_multi_refuted : ~ C27_multi_full.
Proof.
  intros [restore H]. pose proof (H [mkVec 0 []; mkVec 0 []] _ eq_refl) as A. pose proof (H [mkVec 0 []; mkVec 1 (upto 0 16)] _ eq_refl) as B.
  change (le 4 (zlen [mkVec 0 []; mkVec 0 []])) with (le 4 (zlen [mkVec 0 []; mkVec 1 (upto 0 16)])) in A. rewrite B in A. discriminate A.
Qed.
Print Assumptions C27_multi_refuted.

(** a header with one dimension, written as four bytes, as an example of a codec *)
Definition ex_enc (h : Z * Z) : list byte := [fst h; snd h].
Definition ex_dec (l : list byte) : option (Z * Z) := match l with [a; b] => Some (a, b) | _ => None end.
Example C27_grid_example : (forall h, ex_dec (ex_enc h) = Some h) /\
  let w := mkGwf (Z * Z) (2, 5) (mkVec 2 (upto 0 32)) in
  vec_ok 16 (g_vec _ w) /\ v_size (g_vec _ w) = fst (g_head _ w) /\
  exists bs, ser_grid (Z * Z) ex_enc (fun n h => (fst h, n)) w = Ok bs /\ firstn 8 bs = [2; 0; 0; 0; 2; 32; 0; 1] /\
    des_grid zeros (Z * Z) ex_dec fst (fun n h => (fst h, n)) bs = Ok (mkGwf _ (2, 32) (mkVec 2 (upto 0 32)), []).
Proof.
  split; [intros [a b]; reflexivity|]. cbv zeta. split; [split; [cbn; lia|reflexivity]|]. split; [reflexivity|].
  eexists. split; [vm_compute; reflexivity|]. split; vm_compute; reflexivity.
Qed.

(** Reading arbitrary bytes: the full property (for streams that at least contain the header). *)
Definition C62_full : Prop := forall fresh, (forall n, 0 <= n -> zlen (fresh n) = n) -> forall s, (16 <= length s)%nat -> Forall is_byte s ->
  safe (des_level fresh) s /\ safe (des_laser fresh) s /\ safe (des_matrix fresh) s.
(** Laser fields are read safely. *)
Theorem C62_laser : forall fresh s, (16 <= length s)%nat -> safe (des_laser fresh) s.
Proof. exact laser_safe. Qed.
Print Assumptions C62_laser.
(** A grid wave function whose header cannot be decoded is refused. *)
Theorem C62_grid_header : forall fresh, (forall n, 0 <= n -> zlen (fresh n) = n) -> forall H (decode : list byte -> option H) grid_size set_size n body rest,
  0 <= n < two32 -> zlen body = n -> decode body = None -> des_grid fresh H decode grid_size set_size (le 4 n ++ body ++ rest) = Throw.
Proof. exact grid_undecodable. Qed.
Print Assumptions C62_grid_header.
(** A negative size is refused. *)
Theorem C62_negative_size : forall fresh n rest, 2147483648 <= n < two32 -> des_level fresh (le 8 n ++ le 8 (n * 16) ++ rest) = Throw.
Proof. exact level_negative. Qed.
Print Assumptions C62_negative_size.
Example C62_refused_ex : des_grid zeros (Z * Z) ex_dec fst (fun n h => (fst h, n)) [3; 0; 0; 0; 1; 2; 3; 4] = Throw /\
  des_level zeros ([255; 255; 255; 255; 0; 0; 0; 0] ++ [240; 255; 255; 255; 15; 0; 0; 0] ++ [1; 2; 3]) = Throw /\
  des_matrix zeros (le 4 1 ++ le 4 1 ++ upto 0 16) = Ok (mkMat 1 1 (upto 0 8), upto 8 16) /\ ser_matrix (mkMat 1 2 (upto 0 16)) = Ok (le 4 1 ++ le 4 1 ++ upto 0 16).
Proof. repeat split; vm_compute; reflexivity. Qed.
(** Level wave functions and matrices are when the size in the header is moderate. *)
Theorem C62_level_partial : forall fresh s, (16 <= length s)%nat -> 0 <= unle (firstn 8 s) < 2147483648 -> safe (des_level fresh) s.
Proof. exact level_safe. Qed.
Print Assumptions C62_level_partial.
Theorem C62_matrix_partial : forall fresh s, (8 <= length s)%nat -> Z.abs (to_int (unle (firstn 4 (skipn 4 s)))) <= 46340 -> safe (des_matrix fresh) s.
Proof. exact matrix_safe. Qed.
Print Assumptions C62_matrix_partial.
(** What the code does otherwise: the vector is allocated with the size cut to an int, the number of bytes read is not cut. *)
Theorem C62_level_code : forall fresh n rest, 2147483648 <= n < two64 / 16 -> 0 <= to_int n -> 16 * to_int n < zlen rest -> 16 * to_int n < n * 16 ->
  des_level fresh (le 8 n ++ le 8 (n * 16) ++ rest) = UB.
Proof. exact level_overflow. Qed.
Print Assumptions C62_level_code.
(** 17 bytes that write outside the vector *)
Theorem C62_full_refuted : ~ C62_full.
Proof.
  intros H. destruct (H zeros zeros_len (le 8 4294967296 ++ le 8 68719476736 ++ [1])) as [A _].
  - vm_compute. lia.
  - vm_compute. repeat constructor; discriminate.
  - apply A. apply (C62_level_code zeros 4294967296 [1]); vm_compute; try split; congruence.
Qed.
Print Assumptions C62_full_refuted.
Example C62_example : let s := [1; 0; 0; 0; 0; 0; 0; 0] ++ [16; 0; 0; 0; 0; 0; 0; 0] ++ upto 0 20 in
  (16 <= length s)%nat /\ 0 <= unle (firstn 8 s) < 2147483648 /\ des_level zeros s = Ok (mkVec 1 (upto 0 16), [16; 17; 18; 19]) /\
  to_int 4294967297 = 1 /\ des_level zeros (le 8 4294967297 ++ le 8 68719476752 ++ upto 0 16) = Ok (mkVec 1 (upto 0 16), []).
Proof. cbv zeta. split; [vm_compute; lia|]. split; [vm_compute; split; congruence|]. split; [vm_compute; reflexivity|]. split; vm_compute; reflexivity. Qed.
