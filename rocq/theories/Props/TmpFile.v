(** C104: temporary files. *)
From Coq Require Import Ascii String List ZArith Lia Bool Arith.
From Verif Require Import Base Arrays Model.TmpFile Spec.TmpFile Proofs.TmpFile.
Import ListNotations.
Open Scope Z_scope.

(** [w]: the bytes of an element; [fresh], [room], [place]: what mkstemp, the disk and mmap give; [honest]: new descriptors, names and
    addresses; [holds s t c]: t is open in the system s and its file has the bytes c; [byte c j]: byte j of c, 0 behind the end;
    [position x]: lseek to x is not taken for an error; [steps l s t]: the calls l up to the first exception *)

(** a small system: one name, one descriptor and one address are given *)
Definition nm0 : str := lit "QDng_tmp_abcdef".
Definition fresh0 (s : os unit) : option (Z * str) := match fds s 3, files s nm0 with None, None => Some (3, nm0) | _, _ => None end.
Definition place0 (s : os unit) (p : Z) : option Z := match maps s 8192 with None => Some 8192 | _ => None end.
Definition room0 (n : Z) : bool := n <? 100000.
Definition s00 : os unit := mkOs (fun _ => None) (fun _ => None) (fun _ => None).
Lemma honest0 : honest fresh0 place0.
Proof.
  split.
  - intros s d n. unfold fresh0. destruct (fds s 3) eqn:D; [discriminate|]. destruct (files s nm0) eqn:E; [discriminate|]. intros H. injection H as <- <-. split; [lia|auto].
  - intros s p a. unfold place0. destruct (maps s 8192) eqn:E; [discriminate|]. intros H. injection H as <-. exact E.
Qed.

(** ** opening: a new file of n elements 0, nothing else changes *)
Definition C104_open : Prop := forall B (zero : B) w fresh room place s t n d nm, honest fresh place -> t_open t = false -> fresh s = Some (d, nm) ->
  0 < n -> 0 < w -> n * w < 2 ^ 63 -> room (n * w) = true ->
  exists s' t' c, open B zero w fresh room place s t n false = (s', t', Ok PNull) /\ holds s' t' c /\ t_name t' = nm /\ t_size t' = n /\ zlen c = n * w /\ (forall j, byte zero c j = zero) /\
    forall f, f <> nm -> files s' f = files s f.
(** unless the number of bytes is a multiple of 4 GiB; the position is at the end *)
Theorem C104_open_partial : forall B (zero : B) w fresh room place s t n d nm, honest fresh place -> t_open t = false -> fresh s = Some (d, nm) ->
  0 < n -> 0 < w -> n * w < 2 ^ 63 -> n * w mod 2 ^ 32 <> 0 -> room (n * w) = true ->
  exists s' t' c, open B zero w fresh room place s t n false = (s', t', Ok PNull) /\ holds s' t' c /\ t_name t' = nm /\ t_size t' = n /\ zlen c = n * w /\ (forall j, byte zero c j = zero) /\
    (forall f, f <> nm -> files s' f = files s f) /\ fds s' (t_fd t') = Some (nm, n * w).
Proof.
  intros B zero w fresh room place s t n d nm H O E N W L M R. destruct (open_new B zero w fresh room place s t n d nm H O E N W L M R) as [-> _].
  eexists _, _, _. split; [reflexivity|]. assert (X : 0 < n * w) by nia. split; [|split; [reflexivity|split; [reflexivity|split; [|split; [|split]]]]].
  - split; [reflexivity|]. cbn. rewrite fset_eq. split; [reflexivity|]. exists (n * w - 1 + 1). rewrite fset_eq. split; [lia|reflexivity].
  - unfold zlen. rewrite app_length, repeat_length. cbn. lia.
  - intros j. unfold byte. destruct (Nat.lt_ge_cases (Z.to_nat j) (length (repeat zero (Z.to_nat (n * w - 1))))) as [I|I]; [rewrite app_nth1 by exact I; apply nth_rep|].
    rewrite app_nth2 by exact I. destruct (Z.to_nat j - _)%nat as [|[|k]]; reflexivity.
  - intros f Hf. cbn. rewrite !fset_ne by exact Hf. reflexivity.
  - cbn. rewrite fset_eq. do 2 f_equal. lia.
Qed.
Print Assumptions C104_open_partial.
(** then there is an exception and the empty file stays *)
Theorem C104_open_code : forall B (zero : B) w fresh room place s t n d nm mm, honest fresh place -> t_open t = false -> fresh s = Some (d, nm) -> 0 < n -> 0 < w -> n * w < 2 ^ 63 -> n * w mod 2 ^ 32 = 0 ->
  exists s' t', open B zero w fresh room place s t n mm = (s', t', Throw) /\ files s' nm = Some [] /\ destroy B w s' t' = (s', t', Ok tt).
Proof.
  intros B zero w fresh room place s t n d nm mm H O E N W L M. destruct (open_4g B zero w fresh room place s t n d nm mm H O E N W L M) as (s' & t' & X & F & C).
  exists s', t'. split; [exact X|]. split; [exact F|]. apply closed_stays, C.
Qed.
Print Assumptions C104_open_code.
(** without room on the disk there is an exception, and files, descriptors and mappings are as before *)
Theorem C104_full : forall B (zero : B) w fresh room place s t n d nm mm, honest fresh place -> t_open t = false -> fresh s = Some (d, nm) -> 0 < n -> 0 < w -> n * w < 2 ^ 63 -> n * w mod 2 ^ 32 <> 0 -> room (n * w) = false ->
  exists s' t', open B zero w fresh room place s t n mm = (s', t', Throw) /\ same s s' /\ t_open t' = false.
Proof. exact open_full. Qed.
Print Assumptions C104_full.
Example C104_full_ex : fresh0 s00 = Some (3, nm0) /\ room0 (50000 * 16) = false /\ exists s' t', open unit tt 16 fresh0 room0 place0 s00 new_tmp 50000 false = (s', t', Throw) /\ files s' nm0 = None.
Proof. split; [reflexivity|]. split; [reflexivity|]. destruct (C104_full unit tt 16 fresh0 room0 place0 s00 new_tmp 50000 3 nm0 false honest0 eq_refl eq_refl) as (s' & t' & E & (F & _) & _); try reflexivity; [discriminate|]. exists s', t'. split; [exact E|]. rewrite F. reflexivity. Qed.
Theorem C104_open_refuted : ~ C104_open.
Proof.
  intros H. destruct (H unit tt 16 fresh0 (fun _ => true) place0 s00 new_tmp (2 ^ 28) 3 nm0 honest0 eq_refl eq_refl ltac:(lia) ltac:(lia) ltac:(lia) eq_refl) as (s' & t' & c & E & _).
  destruct (C104_open_code unit tt 16 fresh0 (fun _ => true) place0 s00 new_tmp (2 ^ 28) 3 nm0 false honest0 eq_refl eq_refl ltac:(lia) ltac:(lia) ltac:(lia) eq_refl) as (s2 & t2 & E2 & _).
  rewrite E in E2. discriminate E2.
Qed.
Print Assumptions C104_open_refuted.
Example C104_open_ex : fresh0 s00 = Some (3, nm0) /\ room0 (2 * 4) = true /\ 2 * 4 mod 2 ^ 32 <> 0 /\ fst (fst (open unit tt 4 fresh0 room0 place0 s00 new_tmp 2 false)) <> s00.
Proof. split; [reflexivity|]. split; [reflexivity|]. split; [discriminate|]. intros X. apply (f_equal (fun s => files s nm0)) in X. vm_compute in X. discriminate X. Qed.

(** ** reading gives what was written *)
Definition C104_array : Prop := forall B (zero : B) w room s t c p l q m, 0 < w -> holds s t c -> l <> [] -> 0 <= p -> 0 <= q -> 0 <= m -> p * w + zlen l < 2 ^ 63 -> q * w + m * w < 2 ^ 63 ->
  (forall n, room n = true) ->
  exists s1 s2 c', seek B w s t p = (s1, t, Ok tt) /\ write_el B zero room s1 t l = (s2, t, Ok tt) /\ holds s2 t c' /\
    (q * w + m * w <= zlen c' -> exists s3 s4 r, seek B w s2 t q = (s3, t, Ok tt) /\ read_el B w s3 t m = (s4, t, Ok r) /\ holds s4 t c' /\ zlen r = m * w /\
      forall j, 0 <= j < m * w -> byte zero r j = if (p * w <=? q * w + j) && (q * w + j <? p * w + zlen l) then byte zero l (q * w + j - p * w) else byte zero c (q * w + j)).
(** for positions that are not taken for errors and up to 2147479552 bytes in one call *)
Theorem C104_array_partial : forall B (zero : B) w room s t c p l q m, 0 < w -> holds s t c -> l <> [] -> position (p * w) -> position (q * w) -> 0 <= m -> zlen l <= cap -> m * w <= cap ->
  room (Z.max (zlen c) (p * w + zlen l)) = true ->
  exists s1 s2 c', seek B w s t p = (s1, t, Ok tt) /\ write_el B zero room s1 t l = (s2, t, Ok tt) /\ holds s2 t c' /\ zlen c' = Z.max (zlen c) (p * w + zlen l) /\
    (forall f, f <> t_name t -> files s2 f = files s f) /\
    (q * w + m * w <= zlen c' -> exists s3 s4 r, seek B w s2 t q = (s3, t, Ok tt) /\ read_el B w s3 t m = (s4, t, Ok r) /\ holds s4 t c' /\ zlen r = m * w /\
      forall j, 0 <= j < m * w -> byte zero r j = if (p * w <=? q * w + j) && (q * w + j <? p * w + zlen l) then byte zero l (q * w + j - p * w) else byte zero c (q * w + j)).
Proof.
  intros B zero w room s t c p l q m W H N P Q M L1 L2 R. destruct (seek_ok B w s t c p H W P) as (s1 & E1 & F1 & D1 & H1).
  destruct H1 as (O1 & C1 & _). destruct P as [P _]. destruct (write_at B zero room s1 t c (p * w) l O1 C1 D1 ltac:(lia) L1 R N) as (s2 & E2 & H2 & F2).
  exists s1, s2, (overlay B zero c (p * w) l). split; [exact E1|]. split; [exact E2|]. split; [exact H2|].
  split; [rewrite overlay_len by lia; destruct (zlen l =? 0) eqn:Z; [apply Z.eqb_eq in Z; destruct l; [congruence|unfold zlen in Z; cbn in Z; lia]|reflexivity]|].
  split; [intros f Hf; rewrite (F2 f Hf); apply F1|]. intros B1.
  destruct (seek_ok B w s2 t _ q H2 W Q) as (s3 & E3 & F3 & D3 & (O3 & C3 & _)). destruct Q as [Q _].
  destruct (read_at B w s3 t _ (q * w) m O3 C3 D3 ltac:(lia) ltac:(nia) B1) as (s4 & E4 & H4 & _).
  exists s3, s4, (firstn (Z.to_nat (m * w)) (skipn (Z.to_nat (q * w)) (overlay B zero c (p * w) l))). split; [exact E3|]. split; [exact E4|]. split; [exact H4|]. split; [apply part_len; nia|].
  intros j J. rewrite part_byte by lia. apply overlay_byte; lia.
Qed.
Print Assumptions C104_array_partial.
(** a longer read, or one behind the end, is an exception that closes the file *)
Theorem C104_read_code : forall B w s t c o n, files s (t_name t) = Some c -> fds s (t_fd t) = Some (t_name t, o) -> 0 <= o -> 0 < n * w < 2 ^ 64 -> (cap < n * w \/ zlen c < o + n * w) ->
  exists s' t', read_el B w s t n = (s', t', Throw) /\ t_open t' = false /\ files s' (t_name t) = Some c /\ destroy B w s' t' = (s', t', Ok tt).
Proof.
  intros B w s t c o n F D O N L. assert (N2 : 0 <= n * w < 2 ^ 64) by (split; [apply Z.lt_le_incl|]; apply N).
  destruct (read_fails B w s t c o n F D O N2 L (proj1 N)) as (s' & E & F' & _). exists s', (shut t). split; [exact E|]. split; [reflexivity|].
  split; [rewrite F'; exact F|]. apply closed_stays. reflexivity.
Qed.
Print Assumptions C104_read_code.
Lemma far n : cap < n < 2 ^ 62 -> ~ C104_array.
Proof.
  intros Hn H. unfold cap in Hn. set (c := repeat tt (Z.to_nat n)). assert (Lc : zlen c = n) by (unfold c, zlen; rewrite repeat_length; lia).
  set (s := mkOs (fun _ => Some c) (fun _ => Some (nm0, 0)) (fun _ => None) : os unit). set (t := mkTmp nm0 3 1 true false PNull).
  assert (Hc : holds s t c) by (split; [reflexivity|split; [reflexivity|exists 0; split; [lia|reflexivity]]]).
  destruct (H unit tt 1 (fun _ => true) s t c 0 [tt] 0 n ltac:(lia) Hc ltac:(discriminate) ltac:(lia) ltac:(lia) ltac:(lia) ltac:(cbn; lia) ltac:(lia) ltac:(reflexivity)) as (s1 & s2 & c' & E1 & E2 & H2 & K).
  assert (P0 : position (0 * 1)) by (split; [lia|discriminate]).
  destruct (seek_ok unit 1 s t c 0 Hc ltac:(lia) P0) as (s1' & E1' & F1 & D1 & (O1 & C1 & _)). rewrite E1 in E1'. injection E1' as <-.
  destruct (write_at unit tt (fun _ => true) s1 t c (0 * 1) [tt] O1 C1 D1 ltac:(lia) ltac:(cbn; unfold cap; lia) eq_refl ltac:(discriminate)) as (s2' & E2' & H2' & _). rewrite E2 in E2'. injection E2' as <-.
  assert (Ec : c' = overlay unit tt c (0 * 1) [tt]) by (destruct H2 as (_ & A & _), H2' as (_ & A' & _); congruence).
  assert (Lc' : zlen c' = n) by (rewrite Ec, overlay_len by lia; change (zlen [tt]) with 1; cbn [Z.eqb]; lia).
  destruct K as (s3 & s4 & r & E3 & E4 & _); [lia|].
  destruct (seek_ok unit 1 s2 t c' 0 H2 ltac:(lia) P0) as (s3' & E3' & F3 & D3 & (O3 & C3 & _)). rewrite E3 in E3'. injection E3' as <-.
  destruct (C104_read_code unit 1 s3 t c' (0 * 1) n C3 D3 ltac:(lia) ltac:(lia) ltac:(left; unfold cap; lia)) as (s5 & t5 & E5 & _). rewrite E4 in E5. discriminate E5.
Qed.
Theorem C104_array_refuted : ~ C104_array.
Proof. apply (far (cap + 1)). unfold cap. lia. Qed.
Print Assumptions C104_array_refuted.
Definition s_two : os unit := fst (fst (open unit tt 4 fresh0 room0 place0 s00 new_tmp 2 false)).
Definition t_two : tmp := snd (fst (open unit tt 4 fresh0 room0 place0 s00 new_tmp 2 false)).
Example C104_array_ex : holds s_two t_two (repeat tt 8) /\ position (1 * 4).
Proof. split; [split; [reflexivity|split; [reflexivity|exists 8; split; [lia|reflexivity]]]|split; [lia|discriminate]]. Qed.

(** ** mapped files: an element of the memory is an element of the file *)
Definition C104_map : Prop := forall B (zero : B) w fresh room place s t n s' t' p, honest fresh place -> t_open t = false -> 0 <= n -> open B zero w fresh room place s t n true = (s', t', Ok p) -> exists a, p = PAt a.
Theorem C104_map_partial : forall B (zero : B) w fresh room place s t n s' t' a, honest fresh place -> t_open t = false -> 0 < n -> 0 < w -> n * w < 2 ^ 63 -> n * w mod 2 ^ 32 <> 0 -> room (n * w) = true ->
  open B zero w fresh room place s t n true = (s', t', Ok (PAt a)) ->
  t_base t' = PAt a /\ (forall i, 0 <= i < n -> load B w s' (PAt a) i = Ok (repeat zero (Z.to_nat w))) /\
  forall i x, 0 <= i < n -> zlen x = w -> exists s2, store B zero w s' (PAt a) i x = Ok s2 /\ forall j, 0 <= j < n -> load B w s2 (PAt a) j = if j =? i then Ok x else load B w s' (PAt a) j.
Proof.
  intros B zero w fresh room place s t n s' t' a H O N W L M R E.
  destruct (fresh s) as [[d nm]|] eqn:Ef; [|unfold open in E; rewrite O, Ef in E; discriminate E].
  destruct (open_new B zero w fresh room place s t n d nm H O Ef N W L M R) as [_ Em]. rewrite Em in E. clear Em.
  set (c := repeat zero (Z.to_nat (n * w - 1)) ++ [zero]) in E.
  unfold mmap in E. cbn [fds] in E. rewrite fset_eq in E. destruct (place _ _) as [b|]; [|discriminate E]. assert (X : 0 < n * w) by nia. rewrite (proj2 (Z.eqb_neq (n * w) 0)) in E by lia. injection E as <- <- <-.
  assert (Lc : zlen c = n * w) by (unfold c, zlen; rewrite app_length, repeat_length; cbn; lia).
  assert (Zc : forall j, byte zero c j = zero).
  { intros j. unfold byte, c. destruct (Nat.lt_ge_cases (Z.to_nat j) (length (repeat zero (Z.to_nat (n * w - 1))))) as [I|I]; [rewrite app_nth1 by exact I; apply nth_rep|].
    rewrite app_nth2 by exact I. destruct (Z.to_nat j - _)%nat as [|[|k]]; reflexivity. }
  assert (Pg : n * w <= pages (n * w) * 4096). { unfold pages. pose proof (Z.div_mod (n * w + 4095) 4096 ltac:(lia)). pose proof (Z.mod_pos_bound (n * w + 4095) 4096 ltac:(lia)). lia. }
  assert (Wi : forall (s2 : os B) c2 i, maps s2 b = Some (nm, pages (n * w)) -> files s2 nm = Some c2 -> zlen c2 = n * w -> 0 <= i < n -> within B w s2 b i = Some (nm, c2)).
  { intros s2 c2 i Hm Hf Hl Hi. unfold within. rewrite Hm, Hf, Hl, Z.min_r by lia. rewrite (proj2 (Z.leb_le 0 i)), (proj2 (Z.leb_le (i * w + w) (n * w))) by nia. reflexivity. }
  assert (Ext : forall x y : list B, zlen x = w -> zlen y = w -> (forall j, 0 <= j < w -> byte zero x j = byte zero y j) -> x = y).
  { intros x y Hx Hy Hj. unfold zlen in *. apply (nth_ext x y zero zero); [lia|]. intros k Hk. specialize (Hj (Z.of_nat k) ltac:(lia)). unfold byte in Hj. rewrite Nat2Z.id in Hj. exact Hj. }
  split; [reflexivity|]. split.
  - intros i Hi. unfold load. rewrite (Wi _ c i); [|cbn; apply fset_eq|cbn; apply fset_eq|exact Lc|exact Hi]. f_equal. apply Ext; [apply part_len; nia|unfold zlen; rewrite repeat_length; lia|].
    intros j J. rewrite part_byte by nia. rewrite Zc. symmetry. apply nth_rep.
  - intros i x Hi Hx. unfold store. rewrite (Wi _ c i); [|cbn; apply fset_eq|cbn; apply fset_eq|exact Lc|exact Hi]. eexists. split; [reflexivity|]. intros j Hj. unfold load.
    assert (Lo : zlen (overlay B zero c (i * w) x) = n * w) by (rewrite overlay_len by nia; rewrite (proj2 (Z.eqb_neq _ _)) by lia; nia).
    rewrite (Wi _ (overlay B zero c (i * w) x) j); [|cbn; apply fset_eq|cbn; apply fset_eq|exact Lo|exact Hj]. rewrite (Wi _ c j); [|cbn; apply fset_eq|cbn; apply fset_eq|exact Lc|exact Hj].
    destruct (j =? i) eqn:Ej; [apply Z.eqb_eq in Ej; subst j|apply Z.eqb_neq in Ej]; f_equal; (apply Ext; [apply part_len; nia|solve [exact Hx|apply part_len; nia]|]); intros k Hk; rewrite !part_byte by nia; rewrite overlay_byte by nia.
    + rewrite (proj2 (Z.leb_le _ _)), (proj2 (Z.ltb_lt _ _)) by lia. cbn [andb]. f_equal. lia.
    + assert (Q : (i * w <=? j * w + k) && (j * w + k <? i * w + zlen x) = false).
      { rewrite Hx. destruct (Z_lt_dec j i); [rewrite (proj2 (Z.leb_gt _ _)) by nia; reflexivity|]. rewrite (proj2 (Z.ltb_ge (j * w + k) _)) by nia. apply andb_false_r. }
      rewrite Q. reflexivity.
Qed.
Print Assumptions C104_map_partial.
(** a mapping that fails is returned as if it were there: the result is compared with NULL *)
Theorem C104_map_code : forall B (zero : B) w fresh room place s t n d nm, honest fresh place -> t_open t = false -> fresh s = Some (d, nm) -> 0 < n -> 0 < w -> n * w < 2 ^ 63 -> n * w mod 2 ^ 32 <> 0 -> room (n * w) = true ->
  (forall s' p, place s' p = None) -> exists s' t', open B zero w fresh room place s t n true = (s', t', Ok PFailed) /\ t_open t' = true.
Proof.
  intros B zero w fresh room place s t n d nm H O E N W L M R P. destruct (open_new B zero w fresh room place s t n d nm H O E N W L M R) as [_ ->]. unfold mmap. rewrite P. cbn [fds]. rewrite fset_eq.
  eexists _, _. split; [reflexivity|reflexivity].
Qed.
Print Assumptions C104_map_code.
Theorem C104_map_refuted : ~ C104_map.
Proof.
  intros H. assert (Ho : honest fresh0 (fun _ _ => None)) by (split; [exact (proj1 honest0)|discriminate]).
  destruct (C104_map_code unit tt 4 fresh0 room0 (fun _ _ => None) s00 new_tmp 2 3 nm0 Ho eq_refl eq_refl ltac:(lia) ltac:(lia) ltac:(lia) ltac:(discriminate) eq_refl ltac:(reflexivity)) as (s' & t' & E & _).
  destruct (H unit tt 4 fresh0 room0 (fun _ _ => None) s00 new_tmp 2 s' t' PFailed Ho eq_refl ltac:(lia) E) as [a X]. discriminate X.
Qed.
Print Assumptions C104_map_refuted.
Example C104_map_ex : exists s' t', open unit tt 4 fresh0 room0 place0 s00 new_tmp 2 true = (s', t', Ok (PAt 8192)).
Proof. eexists _, _. reflexivity. Qed.

(** ** Resize *)
Definition C104_resize : Prop := forall B (zero : B) w fresh room place s0 l n s t, honest fresh place -> 0 < w -> 0 <= n -> n * w < 2 ^ 63 ->
  steps zero w fresh room place (l ++ [OResize n]) s0 new_tmp = (s, t, Ok tt) -> t_open t = true -> exists c, holds s t c /\ zlen c = n * w /\ t_size t = n.
(** the first Resize changes the file; the size that is kept does not change, and going back to it is ignored *)
Theorem C104_resize_code : forall B (zero : B) w room place s t c n, 0 < w -> holds s t c -> t_mmap t = false -> 0 <= n -> n * w < 2 ^ 63 -> room (n * w) = true -> t_size t <> n ->
  exists s' c', resize B zero w room place s t n = (s', t, Ok PNull) /\ holds s' t c' /\ zlen c' = n * w /\ (forall j, 0 <= j -> byte zero c' j = if j <? n * w then byte zero c j else zero) /\
    (forall f, f <> t_name t -> files s' f = files s f) /\ resize B zero w room place s' t (t_size t) = (s', t, Ok (t_base t)).
Proof.
  intros B zero w room place s t c n W (O & Fc & o & Ho & Fd) Mm N L R Sz. unfold resize at 1. rewrite (proj2 (Z.eqb_neq _ _) Sz), O. cbn [orb negb].
  unfold truncate. rewrite Fd, Fc, bytes_small, off_pos by nia. rewrite (proj2 (Z.ltb_ge _ _)), R by nia. cbn [orb negb]. rewrite Mm.
  eexists _, _. split; [reflexivity|]. split; [split; [exact O|]; cbn; rewrite fset_eq; split; [reflexivity|]; exists o; split; assumption|].
  split; [apply trunc_len; nia|]. split; [intros j J; apply trunc_byte, J|]. split; [intros f Hf; cbn; apply fset_ne, Hf|].
  unfold resize. rewrite Z.eqb_refl. reflexivity.
Qed.
Print Assumptions C104_resize_code.
(** with a mapping: the file has the new size; the mapping is moved to the place that is given and covers the new size, or there is an exception and the file, the descriptor and the use of the object are gone *)
Theorem C104_remap_code : forall B (zero : B) w room place s t c n a, 0 < w -> holds s t c -> t_mmap t = true -> t_base t = PAt a -> 0 < t_size t -> t_size t * w < 2 ^ 63 -> maps s a = Some (t_name t, pages (t_size t * w)) ->
  0 < n -> n * w < 2 ^ 63 -> room (n * w) = true -> t_size t <> n ->
  exists s1 c', files s1 (t_name t) = Some c' /\ zlen c' = n * w /\ (forall j, 0 <= j -> byte zero c' j = if j <? n * w then byte zero c j else zero) /\ (forall f, f <> t_name t -> files s1 f = files s f) /\ fds s1 = fds s /\ maps s1 = maps s /\
    (forall b, place s1 (pages (n * w)) = Some b -> exists s' t', resize B zero w room place s t n = (s', t', Ok (PAt b)) /\ t_base t' = PAt b /\ holds s' t' c' /\ maps s' b = Some (t_name t, pages (n * w)) /\
       forall x, x <> b -> maps s' x = if x =? a then None else maps s x) /\
    (place s1 (pages (n * w)) = None -> exists s' t', resize B zero w room place s t n = (s', t', Throw) /\ files s' (t_name t) = None /\ fds s' (t_fd t) = None /\ t_open t' = false).
Proof.
  intros B zero w room place s t c n a W (O & Fc & o & Ho & Fd) Mm Ba Z0 Z1 Ma N L R Sz. exists (set_file s (t_name t) (Some (firstn (Z.to_nat (n * w)) c ++ repeat zero (Z.to_nat (n * w - zlen c)))))%list. eexists.
  split; [cbn; apply fset_eq|]. split; [apply trunc_len; nia|]. split; [intros j J; apply trunc_byte, J|]. split; [intros f Hf; cbn; apply fset_ne, Hf|]. split; [reflexivity|]. split; [reflexivity|].
  set (s1 := set_file s _ _).
  assert (E : resize B zero w room place s t n = let '(s2, p) := mremap B place s1 (PAt a) (t_size t * w) (n * w) in let t2 := mkTmp (t_name t) (t_fd t) (t_size t) (t_open t) true p in match p with PFailed => fail_remove B s2 t2 | _ => (s2, t2, Ok p) end).
  { unfold resize. rewrite (proj2 (Z.eqb_neq _ _) Sz), O. cbn [orb negb]. unfold truncate. rewrite Fd, Fc, !bytes_small, off_pos by nia. rewrite (proj2 (Z.ltb_ge _ _)), R by nia. cbn [orb negb]. rewrite Mm, Ba. reflexivity. }
  assert (P : forall m, 0 < m -> 0 < pages m) by (intros m Hm; unfold pages; apply Z.div_str_pos; lia).
  pose proof (P (t_size t * w) ltac:(nia)) as P1. pose proof (P (n * w) ltac:(nia)) as P2.
  split.
  - intros b Pb. rewrite E. unfold mremap. change (maps s1 a) with (maps s a). rewrite Ma, Pb. rewrite (proj2 (Z.eqb_neq (pages (t_size t * w)) 0)), (proj2 (Z.eqb_neq (pages (n * w)) 0)) by lia. rewrite Z.ltb_irrefl, Z.eqb_refl. cbn [orb].
    eexists _, _. split; [reflexivity|]. split; [reflexivity|]. split; [split; [exact O|]; split; [cbn; apply fset_eq|]; exists o; split; assumption|]. split; [cbn; apply fset_eq|].
    intros x X. cbn. rewrite fset_ne by exact X. destruct (Z.eqb_spec x a) as [->|A]; [apply fset_eq|apply fset_ne, A].
  - intros Pn. rewrite E. unfold mremap. change (maps s1 a) with (maps s a). rewrite Ma, Pn. unfold fail_remove, remove. cbn [t_fd t_name set_fd files fds]. change (files s1 (t_name t)) with (fset str_eq_dec (files s) (t_name t) (Some (firstn (Z.to_nat (n * w)) c ++ repeat zero (Z.to_nat (n * w - zlen c)))%list) (t_name t)). rewrite fset_eq. cbn [fst].
    eexists _, _. split; [reflexivity|]. split; [cbn; apply fset_eq|]. split; [cbn; apply fset_eq|reflexivity].
Qed.
Print Assumptions C104_remap_code.
(** a write without room: an exception, the descriptor is closed, the object is no more open, and the file stays as it is *)
Theorem C104_write_code : forall B (zero : B) room s t c l o, holds s t c -> fds s (t_fd t) = Some (t_name t, o) -> l <> [] -> zlen l <= cap -> room (Z.max (zlen c) (o + zlen l)) = false ->
  exists s' t', write_el B zero room s t l = (s', t', Throw) /\ t_open t' = false /\ fds s' (t_fd t) = None /\ (forall d, d <> t_fd t -> fds s' d = fds s d) /\ files s' = files s /\ maps s' = maps s.
Proof.
  intros B zero room s t c l o (O & Fc & _) Fd Nl C R. unfold write_el, write. rewrite Fd, Fc, Z.min_l by exact C.
  assert (P : 0 < zlen l) by (destruct l; [contradiction|unfold zlen; cbn [length]; lia]). rewrite (proj2 (Z.eqb_neq (zlen l) 0)) by lia. rewrite R. rewrite (proj2 (Z.eqb_neq (-1) (zlen l))) by lia.
  eexists _, _. split; [reflexivity|]. split; [reflexivity|]. split; [cbn; apply fset_eq|]. split; [intros d D; cbn; apply fset_ne, D|]. split; reflexivity.
Qed.
Print Assumptions C104_write_code.
Definition t_map : tmp := mkTmp nm0 3 2 true true (PAt 8192).
Definition s_map : os unit := mkOs (fun n => if str_eq_dec n nm0 then Some (repeat tt 8) else None) (fun d => if d =? 3 then Some (nm0, 0) else None) (fun a => if a =? 8192 then Some (nm0, 1) else None).
Example C104_remap_ex : holds s_map t_map (repeat tt 8) /\ maps s_map 8192 = Some (nm0, pages (2 * 4)) /\ exists s' t', resize unit tt 4 room0 (fun _ _ => Some 16384) s_map t_map 5 = (s', t', Ok (PAt 16384)) /\ maps s' 8192 = None.
Proof.
  split; [split; [reflexivity|]; split; [vm_compute; reflexivity|]; exists 0; split; [lia|reflexivity]|]. split; [vm_compute; reflexivity|].
  destruct (C104_remap_code unit tt 4 room0 (fun _ _ => Some 16384) s_map t_map (repeat tt 8) 5 8192) as (s1 & c' & _ & _ & _ & _ & _ & _ & K & _); try reflexivity; try lia.
  - split; [reflexivity|]; split; [vm_compute; reflexivity|]; exists 0; split; [lia|reflexivity].
  - discriminate.
  - destruct (K _ eq_refl) as (s' & t' & E & _ & _ & _ & M). exists s', t'. split; [exact E|]. rewrite M by discriminate. reflexivity.
Qed.
Example C104_write_ex : exists s' t', write_el unit tt (fun _ => false) s_map t_map [tt] = (s', t', Throw) /\ t_open t' = false.
Proof. eexists _, _. split; [cbn; reflexivity|reflexivity]. Qed.
Theorem C104_resize_refuted : ~ C104_resize.
Proof.
  intros H.
  destruct (steps tt 4 fresh0 room0 place0 ([OOpen 2 false; OResize 1] ++ [OResize 2]) s00 new_tmp) as [[s t] r] eqn:E.
  assert (R : snd (steps tt 4 fresh0 room0 place0 ([OOpen 2 false; OResize 1] ++ [OResize 2]) s00 new_tmp) = Ok tt) by (vm_compute; reflexivity). rewrite E in R. cbn [snd] in R. subst r.
  assert (O : t_open (snd (fst (steps tt 4 fresh0 room0 place0 ([OOpen 2 false; OResize 1] ++ [OResize 2]) s00 new_tmp))) = true) by (vm_compute; reflexivity). rewrite E in O. cbn [fst snd] in O.
  destruct (H unit tt 4 fresh0 room0 place0 s00 [OOpen 2 false; OResize 1] 2 s t honest0 ltac:(lia) ltac:(lia) ltac:(lia) E O) as (c & (_ & F & _) & L & _).
  assert (E1 : t_name (snd (fst (steps tt 4 fresh0 room0 place0 ([OOpen 2 false; OResize 1] ++ [OResize 2]) s00 new_tmp))) = nm0) by (vm_compute; reflexivity). rewrite E in E1. cbn [fst snd] in E1.
  assert (E2 : files (fst (fst (steps tt 4 fresh0 room0 place0 ([OOpen 2 false; OResize 1] ++ [OResize 2]) s00 new_tmp))) nm0 = Some (repeat tt 4)) by (vm_compute; reflexivity). rewrite E in E2. cbn [fst] in E2. rewrite E1, E2 in F. injection F as <-. discriminate L.
Qed.
Print Assumptions C104_resize_refuted.
Example C104_resize_ex : holds s_two t_two (repeat tt 8) /\ t_size t_two <> 1 /\ t_mmap t_two = false.
Proof. split; [exact (proj1 C104_array_ex)|]. split; [discriminate|reflexivity]. Qed.

(** ** nothing is left behind: files, descriptors and mappings are as before *)
Definition C104_clean : Prop := forall B (zero : B) w fresh room place s0 l s t r, honest fresh place -> fds s0 (-1) = None -> (forall n mm, In (OOpen n mm) l -> 0 <= n) ->
  steps zero w fresh room place l s0 new_tmp = (s, t, r) -> r <> UB /\ exists s' t', destroy B w s t = (s', t', Ok tt) /\ same s0 s'.
(** without exceptions and without Resize of mapped files *)
Theorem C104_clean_partial : forall B (zero : B) w fresh room place m s0 l s t, honest fresh place -> fds s0 (-1) = None -> Forall (plain B m) l ->
  steps zero w fresh room place l s0 new_tmp = (s, t, Ok tt) -> exists s' t', destroy B w s t = (s', t', Ok tt) /\ same s0 s'.
Proof.
  intros B zero w fresh room place m s0 l s t H H1 F E.
  assert (I0 : inv B w s0 s0 new_tmp) by (split; [repeat split|reflexivity]).
  assert (M0 : mode m new_tmp) by (intros X; discriminate X).
  pose proof (steps_inv B zero w fresh room place m s0 l H H1 F s0 new_tmp M0 I0 s t E) as I. destruct (close_inv B w s0 s t I) as (s' & t' & C & S & _). exists s', t'. split; [exact C|exact S].
Qed.
Print Assumptions C104_clean_partial.
Theorem C104_clean_refuted : ~ C104_clean.
Proof.
  intros H. destruct (steps tt 4 fresh0 room0 place0 [OOpen 2 false; ORead 1] s00 new_tmp) as [[s t] r] eqn:E.
  destruct (H unit tt 4 fresh0 room0 place0 s00 [OOpen 2 false; ORead 1] s t r honest0 eq_refl ltac:(intros n mm X; destruct X as [X|[X|X]]; [injection X; intros; lia|discriminate X|destruct X]) E) as (_ & s' & t' & D & (S & _)).
  assert (O : t_open (snd (fst (steps tt 4 fresh0 room0 place0 [OOpen 2 false; ORead 1] s00 new_tmp))) = false) by (vm_compute; reflexivity). rewrite E in O. cbn [fst snd] in O.
  rewrite (closed_stays unit 4 s t O) in D. injection D as <- <-. specialize (S nm0). assert (E2 : files (fst (fst (steps tt 4 fresh0 room0 place0 [OOpen 2 false; ORead 1] s00 new_tmp))) nm0 = Some (repeat tt 8)) by (vm_compute; reflexivity). rewrite E in E2. cbn [fst] in E2. rewrite S in E2. discriminate E2.
Qed.
Print Assumptions C104_clean_refuted.
Example C104_clean_ex : Forall (plain unit true) [OOpen 2 true; OSeek 1; OWrite [tt; tt; tt; tt]; OClose; OOpen 5 false; OSeek 2; ORead 3] /\
  snd (steps tt 4 fresh0 room0 place0 [OOpen 2 true; OSeek 1; OWrite [tt; tt; tt; tt]; OClose; OOpen 5 false; OSeek 2; ORead 3] s00 new_tmp) = Ok tt.
Proof. split; [repeat constructor; cbn; (lia || auto)|vm_compute; reflexivity]. Qed.

(** ** unmapping uses the size that Resize did not change *)
Definition C104_unmap : Prop := forall B (zero : B) w fresh room place s0 l s t, honest fresh place -> steps zero w fresh room place l s0 new_tmp = (s, t, Ok tt) -> snd (destroy B w s t) <> UB.
(** too many pages: memory of others is unmapped; too few: pages stay mapped *)
Theorem C104_unmap_code : forall B w s t a f q rm, t_open t = true -> t_mmap t = true -> t_base t = PAt a -> maps s a = Some (f, q) -> bytes w (t_size t) <> 0 -> 0 < pages (bytes w (t_size t)) ->
  (q < pages (bytes w (t_size t)) -> snd (close B w s t rm) = UB) /\
  (pages (bytes w (t_size t)) < q -> maps (fst (fst (close B w s t rm))) (a + pages (bytes w (t_size t)) * 4096) = Some (f, q - pages (bytes w (t_size t)))).
Proof.
  intros B w s t a f q rm O M P Ma N Pp. unfold close, munmap. rewrite O, M, P, Ma, (proj2 (Z.eqb_neq _ _) N). cbn [negb]. split; intros L.
  - rewrite (proj2 (Z.ltb_lt _ _) L). reflexivity.
  - destruct (q <? pages (bytes w (t_size t))) eqn:E1; [apply Z.ltb_lt in E1; lia|]. destruct (q =? pages (bytes w (t_size t))) eqn:E2; [apply Z.eqb_eq in E2; lia|]. unfold remove. destruct (t_fd t =? -1), rm; cbn [set_fd files maps]; try destruct (files _ _); cbn; apply fset_eq.
Qed.
Print Assumptions C104_unmap_code.
Definition place1 (s : os unit) (p : Z) : option Z := match maps s (8192 * p) with None => Some (8192 * p) | _ => None end.
Theorem C104_unmap_refuted : ~ C104_unmap.
Proof.
  intros H. destruct (steps tt 4096 fresh0 room0 place1 [OOpen 2 true; OResize 1] s00 new_tmp) as [[s t] r] eqn:E.
  assert (R : snd (steps tt 4096 fresh0 room0 place1 [OOpen 2 true; OResize 1] s00 new_tmp) = Ok tt) by (vm_compute; reflexivity). rewrite E in R. cbn [snd] in R. subst r.
  assert (Ho : honest fresh0 place1).
  { split; [exact (proj1 honest0)|]. intros s1 p a. unfold place1. destruct (maps s1 (8192 * p)) eqn:X; [discriminate|]. intros Y. injection Y as <-. exact X. }
  apply (H unit tt 4096 fresh0 room0 _ s00 _ s t Ho E).
  assert (X : (t_open (snd (fst (steps tt 4096 fresh0 room0 place1 [OOpen 2 true; OResize 1] s00 new_tmp))), t_mmap (snd (fst (steps tt 4096 fresh0 room0 place1 [OOpen 2 true; OResize 1] s00 new_tmp))), t_size (snd (fst (steps tt 4096 fresh0 room0 place1 [OOpen 2 true; OResize 1] s00 new_tmp))), t_base (snd (fst (steps tt 4096 fresh0 room0 place1 [OOpen 2 true; OResize 1] s00 new_tmp))), maps (fst (fst (steps tt 4096 fresh0 room0 place1 [OOpen 2 true; OResize 1] s00 new_tmp))) 8192) = (true, true, 2, PAt 8192, Some (nm0, 1))) by (vm_compute; reflexivity).
  rewrite E in X. cbn [fst snd] in X. injection X as E1 E2 E3 E4 E5.
  assert (Sz : bytes 4096 (t_size t) = 8192) by (rewrite E3; reflexivity).
  destruct (C104_unmap_code unit 4096 s t 8192 _ 1 true E1 E2 E4 E5) as [K _]; [rewrite Sz; lia|rewrite Sz; reflexivity|]. apply K. rewrite Sz. reflexivity.
Qed.
Print Assumptions C104_unmap_refuted.

(** ** an object without an open file leaves the system alone *)
Definition C104_foreign : Prop := forall B (zero : B) w fresh room place s0 l s t r s1 n, honest fresh place -> steps zero w fresh room place l s0 new_tmp = (s, t, r) -> t_open t = false -> 0 <= n ->
  forall d, fds (fst (fst (seek B w s1 t n))) d = fds s1 d.
(** after an exception the descriptor is still used, though it may belong to another file by then: it is moved, and that file overwritten *)
Theorem C104_foreign_code : forall B (zero : B) w room s t f c o n l, 0 < w -> fds s (t_fd t) = Some (f, o) -> files s f = Some c -> position (n * w) -> zlen l <= cap -> l <> [] -> room (Z.max (zlen c) (n * w + zlen l)) = true ->
  exists s1 s2, seek B w s t n = (s1, t, Ok tt) /\ fds s1 (t_fd t) = Some (f, n * w) /\ write_el B zero room s1 t l = (s2, t, Ok tt) /\ files s2 f = Some (overlay B zero c (n * w) l).
Proof.
  intros B zero w room s t f c o n l W Fd Fc [P1 P2] L N R. unfold seek, lseek. rewrite Fd, bytes_small, off_pos by lia. rewrite (proj2 (Z.ltb_ge _ _)) by lia. rewrite int_pos by exact P2.
  assert (Z : zlen l <> 0) by (destruct l; [congruence|unfold zlen; cbn; lia]). set (s1 := set_fd s (t_fd t) (Some (f, n * w))).
  assert (D1 : fds s1 (t_fd t) = Some (f, n * w)) by (cbn; apply fset_eq).
  unfold write_el, write. eexists s1, (set_fd (set_file s1 f (Some (overlay B zero c (n * w) l))) (t_fd t) (Some (f, n * w + zlen l))). split; [reflexivity|]. split; [exact D1|].
  rewrite D1. change (files s1 f) with (files s f). rewrite Fc, Z.min_l by exact L. rewrite (proj2 (Z.eqb_neq _ _) Z), R, Z.eqb_refl. unfold zlen at 1. rewrite Nat2Z.id, firstn_all. split; [reflexivity|]. cbn. apply fset_eq.
Qed.
Print Assumptions C104_foreign_code.
Theorem C104_foreign_refuted : ~ C104_foreign.
Proof.
  intros H. destruct (steps tt 4 fresh0 room0 place0 [OOpen 2 false; ORead 1] s00 new_tmp) as [[s t] r] eqn:E.
  assert (O : t_open (snd (fst (steps tt 4 fresh0 room0 place0 [OOpen 2 false; ORead 1] s00 new_tmp))) = false) by (vm_compute; reflexivity). rewrite E in O. cbn [fst snd] in O.
  assert (D : t_fd (snd (fst (steps tt 4 fresh0 room0 place0 [OOpen 2 false; ORead 1] s00 new_tmp))) = 3) by (vm_compute; reflexivity). rewrite E in D. cbn [fst snd] in D.
  set (s1 := mkOs (fun _ => Some [tt]) (fun d => if d =? 3 then Some (lit "other", 0) else None) (fun _ => None) : os unit).
  pose proof (H unit tt 4 fresh0 room0 place0 s00 _ s t r s1 1 honest0 E O ltac:(lia) 3) as K. 
  destruct (C104_foreign_code unit tt 4 (fun _ => true) s1 t (lit "other") [tt] 0 1 [tt]) as (s2 & _ & E2 & F2 & _); [lia|rewrite D; reflexivity|reflexivity|split; [lia|discriminate]|cbn; unfold cap; lia|discriminate|reflexivity|].
  rewrite E2 in K. rewrite D in F2. cbn [fst] in K. rewrite F2 in K. vm_compute in K. discriminate K.
Qed.
Print Assumptions C104_foreign_refuted.
Example C104_foreign_ex : fds s_two (t_fd (shut t_two)) = Some (nm0, 8) /\ t_open (shut t_two) = false.
Proof. split; reflexivity. Qed.
