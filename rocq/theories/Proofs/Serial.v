From Coq Require Import List ZArith Lia Bool.
From Verif Require Import Base Arrays Model.Serial Spec.Serial.
Import ListNotations.
Open Scope Z_scope.

Lemma le_length n x : length (le n x) = n.
Proof. revert x. induction n as [|n IH]; intros x; cbn; [reflexivity|]. rewrite IH. reflexivity. Qed.
Lemma unle_le n x : 0 <= x < 256 ^ Z.of_nat n -> unle (le n x) = x.
Proof.
  revert x. induction n as [|n IH]; intros x Hx; cbn [le unle]; [cbn in Hx; lia|].
  rewrite IH; [rewrite (Z.div_mod x 256) at 3; lia|]. rewrite Nat2Z.inj_succ, Z.pow_succ_r in Hx by lia.
  split; [apply Z.div_pos; lia|apply Z.div_lt_upper_bound; lia].
Qed.
Lemma to_int_id x : 0 <= x < 2147483648 -> to_int x = x.
Proof. intros H. unfold to_int. rewrite Z.mod_small; lia. Qed.
Lemma get_num_ok n x s : 0 <= x < 256 ^ Z.of_nat n -> get_num n (le n x ++ s) = Ok (x, s).
Proof.
  intros H. unfold get_num. rewrite app_length, le_length, (proj2 (Nat.leb_le n _)) by lia.
  rewrite firstn_app, skipn_app, le_length, Nat.sub_diag, firstn_all2, skipn_all2, firstn_O, app_nil_r by (rewrite le_length; lia).
  rewrite unle_le by exact H. reflexivity.
Qed.
Lemma put_all mem n : n = zlen mem -> put_mem mem n = Ok mem.
Proof. intros ->. unfold put_mem. rewrite Z.leb_refl. unfold zlen. rewrite Nat2Z.id, firstn_all. reflexivity. Qed.

Section S.
  Variable fresh : Z -> list byte.
  Hypothesis fresh_len : forall n, 0 <= n -> zlen (fresh n) = n.

  Lemma get_all cap data rest : cap = zlen data -> get_mem fresh cap cap (data ++ rest) = Ok (data, rest).
  Proof.
    intros ->. unfold get_mem. assert (L : zlen (data ++ rest) = zlen data + zlen rest) by (unfold zlen; rewrite app_length; lia).
    rewrite L, Z.min_l by (unfold zlen; lia). rewrite Z.ltb_irrefl. unfold zlen at 1 2 4. rewrite Nat2Z.id.
    rewrite firstn_app, skipn_app, Nat.sub_diag, firstn_all, skipn_all, firstn_O, app_nil_r. cbn [app].
    rewrite (skipn_all2 (fresh _)); [rewrite app_nil_r; reflexivity|]. assert (P : 0 <= zlen data) by (unfold zlen; lia).
    pose proof (fresh_len (zlen data) P) as F. unfold zlen in *. lia.
  Qed.

  Lemma level_trip v : vec_ok 16 v -> round_trip ser_level (des_level fresh) v.
  Proof.
    intros [Hs Hl]. unfold round_trip, ser_level. rewrite put_all by lia. cbn [bind]. eexists. split; [reflexivity|]. intros rest.
    unfold des_level. rewrite <- !app_assoc. rewrite get_num_ok by (change (256 ^ Z.of_nat 8) with two64; unfold two64; lia). cbn [bind fst snd].
    rewrite get_num_ok by (change (256 ^ Z.of_nat 8) with two64; unfold two64; lia). cbn [bind fst snd].
    rewrite Z.mod_small by (unfold two64; lia). rewrite Z.eqb_refl. cbn [negb]. rewrite to_int_id by lia. unfold newsize.
    rewrite (proj2 (Z.ltb_ge _ _)) by lia. cbn [bind]. replace (16 * v_size v) with (v_size v * 16) by lia. rewrite get_all by lia. cbn [bind fst snd].
    destruct v. reflexivity.
  Qed.
  Lemma laser_trip f : vec_ok 8 (f_vec f) -> v_size (f_vec f) <> 0 -> 0 <= f_dt f < two64 -> le_zero (f_dt f) = false ->
    round_trip ser_laser (des_laser fresh) f.
  Proof.
    intros [Hs Hl] H0 Hd Hz. unfold round_trip, ser_laser. rewrite (proj2 (Z.eqb_neq _ _)) by exact H0. rewrite put_all by lia. cbn [bind]. eexists. split; [reflexivity|]. intros rest.
    unfold des_laser. rewrite <- !app_assoc. rewrite get_num_ok by (change (256 ^ Z.of_nat 8) with two64; unfold two64; lia). cbn [bind fst snd].
    rewrite (proj2 (Z.eqb_neq _ _)) by exact H0. rewrite get_num_ok by exact Hd. cbn [bind fst snd]. rewrite Hz, to_int_id by lia. unfold newsize.
    rewrite (proj2 (Z.ltb_ge _ _)) by lia. cbn [bind]. rewrite get_all by lia. destruct f as [dt [n b]]. reflexivity.
  Qed.
  (** what happens otherwise *)
  Lemma laser_empty f : v_size (f_vec f) = 0 -> ser_laser f = Ok [].
  Proof. clear fresh_len. intros E. unfold ser_laser. rewrite E. reflexivity. Qed.
  Lemma laser_dt f bs rest : v_size (f_vec f) <> 0 -> vec_ok 8 (f_vec f) -> 0 <= f_dt f < two64 -> le_zero (f_dt f) = true ->
    ser_laser f = Ok bs -> des_laser fresh (bs ++ rest) = Throw.
  Proof. clear fresh_len.
    intros H0 [Hs Hl] Hd Hz. unfold ser_laser. rewrite (proj2 (Z.eqb_neq _ _)) by exact H0. rewrite put_all by lia. cbn [bind]. intros E.
    assert (E2 : bs = le 8 (v_size (f_vec f)) ++ le 8 (f_dt f) ++ v_bytes (f_vec f)) by congruence. rewrite E2. unfold des_laser. rewrite <- !app_assoc. rewrite get_num_ok by (change (256 ^ Z.of_nat 8) with two64; unfold two64; lia). cbn [bind fst snd].
    rewrite (proj2 (Z.eqb_neq _ _)) by exact H0. rewrite get_num_ok by exact Hd. cbn [bind fst snd]. rewrite Hz. reflexivity.
  Qed.
  Lemma matrix_trip m : x_cols m = x_rows m -> 0 <= x_rows m -> x_rows m * x_rows m < 2147483648 -> zlen (x_bytes m) = x_rows m * x_rows m * 8 ->
    round_trip ser_matrix (des_matrix fresh) m.
  Proof.
    intros Hc H0 Hs Hl. unfold round_trip, ser_matrix. rewrite Hc, put_all by lia. cbn [bind]. eexists. split; [reflexivity|]. intros rest.
    assert (B : x_rows m < 2147483648) by nia. unfold des_matrix. rewrite <- !app_assoc.
    rewrite get_num_ok by (change (256 ^ Z.of_nat 4) with two32; unfold two32; lia). cbn [bind fst snd].
    rewrite get_num_ok by (change (256 ^ Z.of_nat 4) with two32; unfold two32; lia). cbn [bind fst snd]. rewrite to_int_id by lia.
    unfold mat_newsize. rewrite (proj2 (Z.leb_gt _ _)), (proj2 (Z.ltb_ge _ _)) by lia. cbn [bind]. rewrite get_all by lia. cbn [bind fst snd].
    destruct m as [r c b]. cbn in *. subst c. reflexivity.
  Qed.

  (** only the number of rows is written *)
  Lemma matrix_wide m rest : 0 <= x_rows m <= x_cols m -> x_rows m * x_rows m < 2147483648 -> zlen (x_bytes m) = x_rows m * x_cols m * 8 ->
    exists bs, ser_matrix m = Ok bs /\ let k := Z.to_nat (x_rows m * x_rows m * 8) in
      des_matrix fresh (bs ++ rest) = Ok (mkMat (x_rows m) (x_rows m) (firstn k (x_bytes m)), skipn k (x_bytes m) ++ rest).
  Proof.
    intros H0 Hs Hl. unfold ser_matrix. rewrite put_all by lia. cbn [bind]. eexists. split; [reflexivity|]. cbv zeta.
    assert (B : x_rows m < 2147483648) by nia. unfold des_matrix. rewrite <- !app_assoc.
    rewrite get_num_ok by (change (256 ^ Z.of_nat 4) with two32; unfold two32; lia). cbn [bind fst snd].
    rewrite get_num_ok by (change (256 ^ Z.of_nat 4) with two32; unfold two32; lia). cbn [bind fst snd]. rewrite to_int_id by lia.
    unfold mat_newsize. rewrite (proj2 (Z.leb_gt _ _)), (proj2 (Z.ltb_ge _ _)) by lia. cbn [bind].
    set (k := Z.to_nat (x_rows m * x_rows m * 8)). rewrite <- (firstn_skipn k (x_bytes m)) at 1. rewrite <- app_assoc.
    rewrite get_all; [reflexivity|]. unfold zlen in *. rewrite firstn_length. subst k. rewrite Nat.min_l by nia. nia.
  Qed.
  (** a header that cannot be decoded *)
  Lemma grid_undecodable H (decode : list byte -> option H) grid_size set_size n body rest : 0 <= n < two32 -> zlen body = n -> decode body = None ->
    des_grid fresh H decode grid_size set_size (le 4 n ++ body ++ rest) = Throw.
  Proof.
    intros Hn Hb D. unfold des_grid. rewrite get_num_ok by (change (256 ^ Z.of_nat 4) with two32; exact Hn). cbn [bind fst snd]. rewrite get_all by lia. cbn [bind fst snd]. rewrite D. reflexivity.
  Qed.

  (** a file shorter than its header says is read without complaint *)
  Lemma level_short v k : vec_ok 16 v -> 0 <= k < v_size v * 16 -> exists bs, ser_level v = Ok bs /\
    des_level fresh (firstn (Z.to_nat (16 + k)) bs) = Ok (mkVec (v_size v) (firstn (Z.to_nat k) (v_bytes v) ++ skipn (Z.to_nat k) (fresh (v_size v * 16))), []).
  Proof. clear fresh_len.
    intros [Hs Hl] Hk. unfold ser_level. rewrite put_all by lia. cbn [bind]. eexists. split; [reflexivity|]. unfold des_level.
    rewrite app_assoc, firstn_app, firstn_all2 by (rewrite app_length, !le_length; lia). rewrite app_length, !le_length.
    replace (Z.to_nat (16 + k) - (8 + 8))%nat with (Z.to_nat k) by lia. rewrite <- !app_assoc.
    rewrite get_num_ok by (change (256 ^ Z.of_nat 8) with two64; unfold two64; lia). cbn [bind fst snd].
    rewrite get_num_ok by (change (256 ^ Z.of_nat 8) with two64; unfold two64; lia). cbn [bind fst snd].
    rewrite Z.mod_small by (unfold two64; lia). rewrite Z.eqb_refl. cbn [negb]. rewrite to_int_id by lia. unfold newsize.
    rewrite (proj2 (Z.ltb_ge _ _)) by lia. cbn [bind]. unfold get_mem.
    assert (L : zlen (firstn (Z.to_nat k) (v_bytes v)) = k) by (unfold zlen in *; rewrite firstn_length; lia).
    rewrite L, (Z.min_r (v_size v * 16) k) by lia. rewrite (proj2 (Z.ltb_ge (16 * v_size v) k)) by lia. cbn [bind fst snd].
    rewrite firstn_firstn, Nat.min_id, (skipn_all2 (firstn (Z.to_nat k) (v_bytes v))) by (unfold zlen in L; lia). replace (16 * v_size v) with (v_size v * 16) by lia. reflexivity.
  Qed.

  (** arbitrary bytes *)
  Lemma get_num_some n s : (n <= length s)%nat -> get_num n s = Ok (unle (firstn n s), skipn n s).
  Proof. clear fresh_len. intros H. unfold get_num. rewrite (proj2 (Nat.leb_le _ _) H). reflexivity. Qed.
  Lemma get_fit cap s : exists d, get_mem fresh cap cap s = Ok d.
  Proof. clear fresh_len. unfold get_mem. rewrite (proj2 (Z.ltb_ge _ _)) by lia. eauto. Qed.
  Lemma level_safe s : (16 <= length s)%nat -> 0 <= unle (firstn 8 s) < 2147483648 -> safe (des_level fresh) s.
  Proof. clear fresh_len.
    intros L B. unfold safe, des_level. rewrite get_num_some by lia. cbn [bind fst snd]. rewrite get_num_some by (rewrite skipn_length; lia). cbn [bind fst snd].
    rewrite Z.mod_small by (unfold two64; lia). destruct (Z.eqb_spec (unle (firstn 8 s) * 16) (unle (firstn 8 (skipn 8 s)))) as [E|E]; cbn [negb]; [|discriminate].
    rewrite to_int_id by lia. unfold newsize. rewrite (proj2 (Z.ltb_ge _ _)) by lia. cbn [bind]. rewrite <- E.
    replace (16 * unle (firstn 8 s)) with (unle (firstn 8 s) * 16) by lia. destruct (get_fit (unle (firstn 8 s) * 16) (skipn 8 (skipn 8 s))) as [d ->]. discriminate.
  Qed.
  (** the size is cut to an int, the number of bytes to read is not *)
  Lemma level_overflow n rest : 2147483648 <= n < two64 / 16 -> 0 <= to_int n -> 16 * to_int n < zlen rest -> 16 * to_int n < n * 16 ->
    des_level fresh (le 8 n ++ le 8 (n * 16) ++ rest) = UB.
  Proof. clear fresh_len.
    intros Hn Ht Hr Hlt. change (two64 / 16) with 1152921504606846976 in Hn. unfold des_level.
    rewrite get_num_ok by (change (256 ^ Z.of_nat 8) with two64; unfold two64; lia). cbn [bind fst snd].
    rewrite get_num_ok by (change (256 ^ Z.of_nat 8) with two64; unfold two64; lia). cbn [bind fst snd].
    rewrite Z.mod_small by (unfold two64; lia). rewrite Z.eqb_refl. cbn [negb]. unfold newsize. rewrite (proj2 (Z.ltb_ge _ _)) by lia. cbn [bind].
    unfold get_mem. rewrite (proj2 (Z.ltb_lt _ _)) by lia. reflexivity.
  Qed.
  Lemma level_negative n rest : 2147483648 <= n < two32 -> des_level fresh (le 8 n ++ le 8 (n * 16) ++ rest) = Throw.
  Proof. clear fresh_len.
    intros Hn. unfold two32 in Hn. unfold des_level.
    rewrite get_num_ok by (change (256 ^ Z.of_nat 8) with two64; unfold two64; lia). cbn [bind fst snd].
    rewrite get_num_ok by (change (256 ^ Z.of_nat 8) with two64; unfold two64; lia). cbn [bind fst snd].
    rewrite Z.mod_small by (unfold two64; lia). rewrite Z.eqb_refl. cbn [negb]. unfold newsize, to_int.
    replace (n + 2147483648) with ((n - 2147483648) + 1 * 4294967296) by lia. rewrite Z.mod_add, Z.mod_small by lia. rewrite (proj2 (Z.ltb_lt _ _)) by lia. reflexivity.
  Qed.
  Lemma laser_safe s : (16 <= length s)%nat -> safe (des_laser fresh) s.
  Proof. clear fresh_len.
    intros L. unfold safe, des_laser. rewrite get_num_some by lia. cbn [bind fst snd]. destruct (_ =? 0); [discriminate|].
    rewrite get_num_some by (rewrite skipn_length; lia). cbn [bind fst snd]. destruct (le_zero _); [discriminate|]. unfold newsize.
    destruct (_ <? 0); [discriminate|]. cbn [bind]. match goal with |- context [get_mem fresh ?c ?c ?s] => destruct (get_fit c s) as [d ->] end. discriminate.
  Qed.
  Lemma matrix_safe s : (8 <= length s)%nat -> Z.abs (to_int (unle (firstn 4 (skipn 4 s)))) <= 46340 -> safe (des_matrix fresh) s.
  Proof. clear fresh_len.
    intros L B. unfold safe, des_matrix. rewrite get_num_some by lia. cbn [bind fst snd]. rewrite get_num_some by (rewrite skipn_length; lia). cbn [bind fst snd].
    set (n := to_int _) in *. unfold mat_newsize. rewrite (proj2 (Z.leb_gt _ _)) by nia. destruct (n <? 0); [discriminate|]. cbn [bind].
    destruct (get_fit (n * n * 8) (skipn 4 (skipn 4 s))) as [d ->]. discriminate.
  Qed.

  Section Grid.
    Variable H : Type.
    Variable encode : H -> list byte.
    Variable decode : list byte -> option H.
    Variable grid_size : H -> Z.
    Variable set_size : Z -> H -> H.
    Hypothesis codec : forall h, decode (encode h) = Some h.
    Hypothesis size_set : forall n h, grid_size (set_size n h) = grid_size h.
    Hypothesis set_set : forall n m h, set_size n (set_size m h) = set_size n h.
    Lemma grid_trip w : vec_ok 16 (g_vec H w) -> v_size (g_vec H w) = grid_size (g_head H w) ->
      zlen (encode (set_size (v_size (g_vec H w) * 16) (g_head H w))) < two32 ->
      exists bs, ser_grid H encode set_size w = Ok bs /\ forall rest, des_grid fresh H decode grid_size set_size (bs ++ rest) =
        Ok (mkGwf H (set_size (v_size (g_vec H w) * 16) (g_head H w)) (g_vec H w), rest).
    Proof.
      intros [Hs Hl] Hg Hb. unfold ser_grid. rewrite put_all by lia. cbn [bind]. eexists. split; [reflexivity|]. intros rest.
      set (h := encode _) in *. unfold des_grid. rewrite <- !app_assoc. rewrite get_num_ok by (change (256 ^ Z.of_nat 4) with two32; unfold zlen in *; lia). cbn [bind fst snd].
      rewrite get_all by reflexivity. cbn [bind fst snd]. unfold h. rewrite codec, size_set, set_set, <- Hg. unfold newsize.
      rewrite (proj2 (Z.ltb_ge _ _)) by lia. cbn [bind]. rewrite get_all by lia. cbn [bind fst snd]. destruct w as [hd [n b]]. reflexivity.
    Qed.
  End Grid.
End S.

(** wave functions with several states *)
Lemma multi_blind l1 l2 : length l1 = length l2 -> ser_multi l1 = ser_multi l2.
Proof. intros E. unfold ser_multi, zlen. rewrite E. reflexivity. Qed.
Lemma multi_kept l s rest : des_multi l (s ++ rest) = Ok (l, skipn 4 (s ++ rest)).
Proof. reflexivity. Qed.
