(** Proofs about temporary files. *)
From Coq Require Import Ascii String List ZArith Lia Bool Arith.
From Verif Require Import Base Arrays Model.TmpFile Spec.TmpFile.
Import ListNotations.
Open Scope Z_scope.

Lemma fset_eq {K V} eqd (f : K -> option V) k v : fset eqd f k v k = v.
Proof. unfold fset. destruct (eqd k k); congruence. Qed.
Lemma fset_ne {K V} eqd (f : K -> option V) k v x : x <> k -> fset eqd f k v x = f x.
Proof. intros N. unfold fset. destruct (eqd x k); congruence. Qed.
Lemma off_pos x : 0 <= x < 2 ^ 63 -> off_t x = x.
Proof. intros H. unfold off_t. rewrite Z.mod_small by lia. rewrite (proj2 (Z.ltb_lt x (2 ^ 63))) by lia. reflexivity. Qed.
Lemma int_pos x : x mod 2 ^ 32 <> 2 ^ 32 - 1 -> (int_of x =? -1) = false.
Proof.
  intros H. apply Z.eqb_neq. unfold int_of. pose proof (Z.mod_pos_bound x (2 ^ 32) ltac:(lia)). destruct (x mod 2 ^ 32 <? 2 ^ 31) eqn:E; [apply Z.ltb_lt in E; lia|lia].
Qed.
Lemma int_neg x : x mod 2 ^ 32 = 2 ^ 32 - 1 -> (int_of x =? -1) = true.
Proof. intros H. apply Z.eqb_eq. unfold int_of. rewrite H. reflexivity. Qed.

Section Bytes.
  Variable B : Type.
  Variable zero : B.
  Local Notation byte := (byte zero).
  Local Notation overlay := (overlay B zero).
  Lemma nth_skipn (c : list B) k j : nth j (skipn k c) zero = nth (k + j) c zero.
  Proof. revert c. induction k as [|k IH]; intros c; [reflexivity|]. destruct c as [|a c]; [destruct j; reflexivity|]. cbn. apply IH. Qed.
  Lemma nth_firstn (c : list B) k j : nth j (firstn k c) zero = if (j <? k)%nat then nth j c zero else zero.
  Proof.
    revert c j. induction k as [|k IH]; intros c j; [destruct j; reflexivity|]. destruct c as [|a c]; [cbn [firstn]; match goal with |- context [if ?b then _ else _] => destruct b end; destruct j; reflexivity|].
    destruct j as [|j]; [reflexivity|]. cbn. apply IH.
  Qed.
  Lemma nth_rep k j : nth j (repeat zero k) zero = zero.
  Proof. revert j. induction k as [|k IH]; intros [|j]; cbn; auto. Qed.
  Lemma overlay_len (c : list B) o l : 0 <= o -> zlen (overlay c o l) = Z.max (if zlen l =? 0 then Z.max o (zlen c) else zlen c) (o + zlen l).
  Proof.
    intros H. unfold TmpFile.overlay, zlen. rewrite !app_length, firstn_length, repeat_length, skipn_length. destruct (Z.of_nat (length l) =? 0) eqn:E; [apply Z.eqb_eq in E|apply Z.eqb_neq in E]; lia.
  Qed.
  Lemma overlay_byte (c : list B) o l j : 0 <= o -> 0 <= j -> byte (overlay c o l) j = if (o <=? j) && (j <? o + zlen l) then byte l (j - o) else byte c j.
  Proof.
    intros H J. unfold Spec.TmpFile.byte, TmpFile.overlay, zlen.
    destruct (Z_lt_dec j o) as [L|G].
    - rewrite (proj2 (Z.leb_gt o j)) by lia. cbn [andb].
      destruct (Nat.lt_ge_cases (Z.to_nat j) (length (firstn (Z.to_nat o) c))) as [I|I].
      + rewrite app_nth1 by exact I. rewrite nth_firstn, (proj2 (Nat.ltb_lt _ _)) by lia. reflexivity.
      + rewrite app_nth2 by exact I. rewrite firstn_length in *. rewrite app_nth1 by (rewrite repeat_length; lia). rewrite nth_rep. rewrite nth_overflow by lia. reflexivity.
    - rewrite (proj2 (Z.leb_le o j)) by lia. cbn [andb]. rewrite app_nth2 by (rewrite firstn_length; lia). rewrite app_nth2 by (rewrite firstn_length, repeat_length; lia).
      rewrite firstn_length, repeat_length. replace (Z.to_nat j - _ - _)%nat with (Z.to_nat (j - o)) by lia.
      destruct (j <? o + Z.of_nat (length l)) eqn:E; [apply Z.ltb_lt in E|apply Z.ltb_ge in E].
      + rewrite app_nth1 by lia. reflexivity.
      + rewrite app_nth2 by lia. rewrite nth_skipn. f_equal. lia.
  Qed.
  Lemma part_len (c : list B) o n : 0 <= o -> 0 <= n -> o + n <= zlen c -> zlen (firstn (Z.to_nat n) (skipn (Z.to_nat o) c)) = n.
  Proof. intros H N L. unfold zlen in *. rewrite firstn_length, skipn_length. lia. Qed.
  Lemma part_byte (c : list B) o n j : 0 <= o -> 0 <= j < n -> byte (firstn (Z.to_nat n) (skipn (Z.to_nat o) c)) j = byte c (o + j).
  Proof. intros H J. unfold Spec.TmpFile.byte. rewrite nth_firstn, (proj2 (Nat.ltb_lt _ _)) by lia. rewrite nth_skipn. f_equal. lia. Qed.
  Lemma trunc_len (c : list B) n : 0 <= n -> zlen (firstn (Z.to_nat n) c ++ repeat zero (Z.to_nat (n - zlen c))) = n.
  Proof. intros H. unfold zlen. rewrite app_length, firstn_length, repeat_length. lia. Qed.
  Lemma trunc_byte (c : list B) n j : 0 <= j -> byte (firstn (Z.to_nat n) c ++ repeat zero (Z.to_nat (n - zlen c))) j = if j <? n then byte c j else zero.
  Proof.
    intros J. unfold Spec.TmpFile.byte, zlen. destruct (Nat.lt_ge_cases (Z.to_nat j) (length (firstn (Z.to_nat n) c))) as [I|I].
    - rewrite app_nth1 by exact I. rewrite nth_firstn. rewrite firstn_length in I. rewrite (proj2 (Nat.ltb_lt _ _)), (proj2 (Z.ltb_lt _ _)) by lia. reflexivity.
    - rewrite app_nth2 by exact I. rewrite nth_rep. rewrite firstn_length in I. destruct (j <? n) eqn:E; [|reflexivity]. apply Z.ltb_lt in E. rewrite nth_overflow by lia. reflexivity.
  Qed.
End Bytes.

Section Array.
  Variable B : Type.
  Variable w : Z.
  Local Notation bytes := (bytes w).
  Local Notation seek := (seek B w).
  Local Notation read_el := (read_el B w).
  Local Notation close := (close B w).
  Lemma bytes_small n : 0 <= n * w < 2 ^ 64 -> bytes n = n * w.
  Proof. intros H. apply Z.mod_small. exact H. Qed.

  (** ** the array *)
  Lemma seek_ok s t c n : holds s t c -> 0 < w -> position (n * w) ->
    exists s', seek s t n = (s', t, Ok tt) /\ (forall f, files s' f = files s f) /\ fds s' (t_fd t) = Some (t_name t, n * w) /\ holds s' t c.
  Proof.
    intros (O & Fc & o & Ho & Fd) W [P1 P2]. unfold TmpFile.seek, lseek. rewrite Fd, bytes_small, off_pos by lia. rewrite (proj2 (Z.ltb_ge _ _)) by lia. rewrite int_pos by exact P2.
    eexists. split; [reflexivity|]. split; [reflexivity|]. cbn [set_fd fds]. rewrite fset_eq. split; [reflexivity|]. split; [exact O|]. split; [exact Fc|]. exists (n * w). split; [lia|]. cbn. apply fset_eq.
  Qed.
  Lemma read_at s t c o n : t_open t = true -> files s (t_name t) = Some c -> fds s (t_fd t) = Some (t_name t, o) -> 0 <= o -> 0 <= n * w <= cap -> o + n * w <= zlen c ->
    exists s', read_el s t n = (s', t, Ok (firstn (Z.to_nat (n * w)) (skipn (Z.to_nat o) c))) /\ holds s' t c /\ forall f, files s' f = files s f.
  Proof.
    intros O Fc Fd Ho N L. unfold TmpFile.read_el, read. rewrite Fd, Fc, bytes_small by (unfold cap in N; lia). rewrite Z.min_l by lia. rewrite part_len by lia. rewrite Z.eqb_refl.
    eexists. split; [reflexivity|]. split; [|reflexivity]. split; [exact O|]. split; [exact Fc|]. eexists. split; [|cbn; apply fset_eq]. unfold zlen in *. lia.
  Qed.
  (** too much at once, or behind the end *)
  Lemma read_fails s t c o n : files s (t_name t) = Some c -> fds s (t_fd t) = Some (t_name t, o) -> 0 <= o -> 0 <= n * w < 2 ^ 64 -> (cap < n * w \/ zlen c < o + n * w) -> 0 < n * w ->
    exists s', read_el s t n = (s', shut t, Throw) /\ (forall f, files s' f = files s f) /\ fds s' (t_fd t) = None.
  Proof.
    intros Fc Fd Ho N L P. unfold TmpFile.read_el, read. rewrite Fd, Fc, bytes_small by exact N.
    assert (Z : zlen (firstn (Z.to_nat (Z.min (n * w) cap)) (skipn (Z.to_nat o) c)) <> n * w).
    { unfold zlen in *. rewrite firstn_length, skipn_length. unfold cap in *. lia. }
    rewrite (proj2 (Z.eqb_neq _ _) Z). unfold fail. eexists. split; [reflexivity|]. split; [reflexivity|]. cbn. apply fset_eq.
  Qed.
  Lemma closed_stays s t : t_open t = false -> destroy B w s t = (s, t, Ok tt).
  Proof. intros O. unfold destroy, TmpFile.close. rewrite O. reflexivity. Qed.

End Array.
Section Write.
  Variable B : Type.
  Variable zero : B.
  Variable room : Z -> bool.
  Local Notation write_el := (write_el B zero room).
  Lemma write_at s t c o l : t_open t = true -> files s (t_name t) = Some c -> fds s (t_fd t) = Some (t_name t, o) -> 0 <= o -> zlen l <= cap -> room (Z.max (zlen c) (o + zlen l)) = true -> l <> [] ->
    exists s', write_el s t l = (s', t, Ok tt) /\ holds s' t (overlay B zero c o l) /\ forall f, f <> t_name t -> files s' f = files s f.
  Proof.
    intros O Fc Fd Ho L R N. unfold TmpFile.write_el, write. rewrite Fd, Fc, Z.min_l by exact L. assert (Z : zlen l <> 0) by (destruct l; [congruence|unfold zlen; cbn; lia]).
    rewrite (proj2 (Z.eqb_neq _ _) Z), R. rewrite Z.eqb_refl. unfold zlen at 1. rewrite Nat2Z.id, firstn_all.
    eexists. split; [reflexivity|]. split.
    - split; [exact O|]. cbn. rewrite fset_eq. split; [reflexivity|]. exists (o + zlen l). split; [unfold zlen; lia|]. apply fset_eq.
    - intros f Hf. cbn. apply fset_ne, Hf.
  Qed.
End Write.

Section Files.
  Variable B : Type.
  Variable zero : B.
  Variable w : Z.
  Variables (fresh : os B -> option (Z * str)) (room : Z -> bool) (place : os B -> Z -> option Z).
  Local Notation bytes := (bytes w).
  Local Notation open := (open B zero w fresh room place).
  Local Notation close := (close B w).
  Local Notation resize := (resize B zero w room place).
  (** ** opening *)
  Lemma open_new s t n d nm : honest fresh place -> t_open t = false -> fresh s = Some (d, nm) -> 0 < n -> 0 < w -> n * w < 2 ^ 63 -> n * w mod 2 ^ 32 <> 0 -> room (n * w) = true ->
    let s1 := mkOs (fset str_eq_dec (fset str_eq_dec (files s) nm (Some [])) nm (Some (repeat zero (Z.to_nat (n * w - 1)) ++ [zero])))
                   (fset Z.eq_dec (fset Z.eq_dec (fset Z.eq_dec (fds s) d (Some (nm, 0))) d (Some (nm, n * w - 1))) d (Some (nm, n * w - 1 + 1))) (maps s) in
    open s t n false = (s1, mkTmp nm d n true false (t_base t), Ok PNull) /\
    open s t n true = (let '(s2, p) := mmap B place s1 (n * w) d in (s2, mkTmp nm d n true true p, Ok p)).
  Proof.
    intros [Hf _] O E N W L M R s1. destruct (Hf s d nm E) as (D & Fd & Ff).
    assert (X : 0 <= n * w - 1 < 2 ^ 63) by nia.
    assert (I : (int_of (n * w - 1) =? -1) = false).
    { apply int_pos. intros K. apply M. replace (n * w) with (n * w - 1 + 1) by lia. rewrite Z.add_mod, K by lia. reflexivity. }
    assert (U : forall mm, upsize B zero w room (set_fd (set_file s nm (Some [])) d (Some (nm, 0))) (mkTmp nm d n true mm (t_base t)) n = (s1, mkTmp nm d n true mm (t_base t), Ok tt)).
    { intros mm. unfold upsize, lseek. cbn [t_fd set_fd fds t_name t_open t_mmap t_base]. rewrite fset_eq, bytes_small, off_pos by lia. rewrite (proj2 (Z.ltb_ge _ _)) by lia. rewrite I.
      unfold write. cbn [set_fd fds files set_file]. rewrite !fset_eq. change (Z.min (zlen [zero]) cap) with 1. cbn [Z.eqb]. change (zlen (@nil B)) with 0.
      replace (Z.max 0 (n * w - 1 + 1)) with (n * w) by lia. rewrite R. change (int_of 1 =? -1) with false.
      unfold s1. unfold set_fd, set_file. cbn [files fds maps]. unfold overlay. rewrite firstn_nil, skipn_nil. change (zlen (@nil B)) with 0. rewrite Z.sub_0_r. cbn [app firstn Z.to_nat Pos.to_nat Pos.iter_op Init.Nat.add]. rewrite ?app_nil_r. reflexivity. }
    unfold TmpFile.open. rewrite O, E, (proj2 (Z.ltb_lt 0 n) N), !U. split; [reflexivity|]. cbn [t_name t_fd t_size t_open]. rewrite bytes_small by lia. reflexivity.
  Qed.
  Lemma open_4g s t n d nm mm : honest fresh place -> t_open t = false -> fresh s = Some (d, nm) -> 0 < n -> 0 < w -> n * w < 2 ^ 63 -> n * w mod 2 ^ 32 = 0 ->
    exists s' t', open s t n mm = (s', t', Throw) /\ files s' nm = Some [] /\ t_open t' = false.
  Proof.
    intros [Hf _] O E N W L M. destruct (Hf s d nm E) as (D & Fd & Ff).
    assert (X : 0 <= n * w - 1 < 2 ^ 63) by nia.
    assert (I : (int_of (n * w - 1) =? -1) = true).
    { apply int_neg. pose proof (Z.div_mod (n * w) (2 ^ 32) ltac:(lia)) as Q. rewrite M in Q. replace (n * w - 1) with (2 ^ 32 - 1 + (n * w / 2 ^ 32 - 1) * 2 ^ 32) by lia. rewrite Z.mod_add by lia. reflexivity. }
    unfold TmpFile.open. rewrite O, E, (proj2 (Z.ltb_lt 0 n) N). unfold upsize, lseek. cbn [t_fd set_fd fds t_name t_open t_mmap t_base]. rewrite fset_eq, bytes_small, off_pos by lia. rewrite (proj2 (Z.ltb_ge _ _)) by lia. rewrite I.
    eexists _, _. split; [reflexivity|]. split; [cbn; apply fset_eq|reflexivity].
  Qed.
  (** no room for the file: everything is as before *)
  Lemma open_full s t n d nm mm : honest fresh place -> t_open t = false -> fresh s = Some (d, nm) -> 0 < n -> 0 < w -> n * w < 2 ^ 63 -> n * w mod 2 ^ 32 <> 0 -> room (n * w) = false ->
    exists s' t', open s t n mm = (s', t', Throw) /\ same s s' /\ t_open t' = false.
  Proof.
    intros [Hf _] O E N W L M R. destruct (Hf s d nm E) as (D & Fd & Ff).
    assert (X : 0 <= n * w - 1 < 2 ^ 63) by nia.
    assert (I : (int_of (n * w - 1) =? -1) = false).
    { apply int_pos. intros K. apply M. replace (n * w) with (n * w - 1 + 1) by lia. rewrite Z.add_mod, K by lia. reflexivity. }
    unfold TmpFile.open. rewrite O, E, (proj2 (Z.ltb_lt 0 n) N). unfold upsize, lseek. cbn [t_fd set_fd fds t_name t_open t_mmap t_base]. rewrite fset_eq, bytes_small, off_pos by lia. rewrite (proj2 (Z.ltb_ge _ _)) by lia. rewrite I.
    unfold write. cbn [set_fd fds files set_file]. rewrite !fset_eq. change (Z.min (zlen [zero]) cap) with 1. cbn [Z.eqb]. change (zlen (@nil B)) with 0.
    replace (Z.max 0 (n * w - 1 + 1)) with (n * w) by lia. rewrite R. change (int_of (-1) =? -1) with true. cbn iota. unfold fail_remove, remove. cbn [set_fd set_file files fds maps t_fd t_name]. rewrite fset_eq. cbn [fst].
    eexists _, _. split; [reflexivity|]. split; [|reflexivity]. split; [|split]; cbn [set_fd set_file files fds maps]; [intros x|intros x|reflexivity].
    - destruct (str_eq_dec x nm) as [->|Q]; [rewrite fset_eq; symmetry; exact Ff|rewrite !fset_ne by exact Q; reflexivity].
    - destruct (Z.eq_dec x d) as [->|Q]; [rewrite fset_eq; symmetry; exact Fd|rewrite !fset_ne by exact Q; reflexivity].
  Qed.

  (** ** a life *)
  Definition inv (s0 s : os B) (t : tmp) : Prop :=
    if t_open t then
      t_fd t <> -1 /\ (exists o, 0 <= o /\ fds s (t_fd t) = Some (t_name t, o)) /\ (exists c, files s (t_name t) = Some c) /\ fds s0 (t_fd t) = None /\ files s0 (t_name t) = None /\
      (forall n, n <> t_name t -> files s n = files s0 n) /\ (forall d, d <> t_fd t -> fds s d = fds s0 d) /\
      (if t_mmap t then match t_base t with
         | PAt a => maps s a = Some (t_name t, pages (bytes (t_size t))) /\ bytes (t_size t) <> 0 /\ maps s0 a = None /\ forall b, b <> a -> maps s b = maps s0 b
         | _ => forall b, maps s b = maps s0 b end
       else forall b, maps s b = maps s0 b)
    else same s0 s /\ (t_fd t = -1).
  Lemma close_inv s0 s t : inv s0 s t -> exists s' t', close s t true = (s', t', Ok tt) /\ same s0 s' /\ t_open t' = false /\ t_fd t' = -1.
  Proof.
    unfold inv, TmpFile.close. destruct (t_open t) eqn:O; [|intros [H D]; exists s, t; exact (conj eq_refl (conj H (conj O D)))]. cbn [negb].
    intros (D & (o & Ho & Fd) & (c & Fc) & D0 & F0 & Fs & Ds & Mp).
    assert (M : exists s1, (if t_mmap t then munmap B s (t_base t) (bytes (t_size t)) else Ok s) = Ok s1 /\ files s1 = files s /\ fds s1 = fds s /\ forall b, maps s1 b = maps s0 b).
    { destruct (t_mmap t); [|exists s; auto]. unfold munmap. destruct (t_base t) as [| |a]; [exists s; auto|exists s; auto|]. destruct Mp as (Ma & Nz & M0 & Mo).
      rewrite (proj2 (Z.eqb_neq _ _) Nz), Ma, Z.ltb_irrefl, Z.eqb_refl. eexists. split; [reflexivity|]. split; [reflexivity|]. split; [reflexivity|].
      intros b. cbn. unfold fset. destruct (Z.eq_dec b a) as [->|Nb]; [symmetry; exact M0|apply Mo, Nb]. }
    destruct M as (s1 & -> & Ef & Ed & Em). rewrite (proj2 (Z.eqb_neq _ _) D). unfold remove. cbn [set_fd files]. rewrite Ef, Fc. eexists _, _. split; [reflexivity|].
    split; [|split; reflexivity]. split; [|split].
    - intros n. cbn. unfold fset. destruct (str_eq_dec n (t_name t)) as [->|Nn]; [symmetry; exact F0|]. rewrite Ef. apply Fs, Nn.
    - intros d. cbn. unfold fset. destruct (Z.eq_dec d (t_fd t)) as [->|Nd]; [symmetry; exact D0|]. rewrite Ed. apply Ds, Nd.
    - exact Em.
  Qed.
  Lemma lseek_fds (s : os B) d x s' r : lseek B s d x = (s', r) -> files s' = files s /\ maps s' = maps s /\ (forall e, e <> d -> fds s' e = fds s e) /\
    (forall n o, fds s d = Some (n, o) -> exists o', (0 <= o -> 0 <= o') /\ fds s' d = Some (n, o')) /\ (fds s d = None -> r = -1).
  Proof.
    unfold lseek. destruct (fds s d) as [[n o]|] eqn:E; [destruct (off_t x <? 0) eqn:X|]; intros H; injection H as <- <-; cbn.
    - repeat split; try congruence. intros n' o' [= <- <-]. eauto.
    - repeat split; try congruence; [intros e He; apply fset_ne, He|]. intros n' o' [= <- <-]. apply Z.ltb_ge in X. exists (off_t x). rewrite fset_eq. auto.
    - repeat split; congruence.
  Qed.
  Lemma write_fds (s : os B) d l s' r : write B zero room s d l = (s', r) -> maps s' = maps s /\ (forall e, e <> d -> fds s' e = fds s e) /\
    (forall n o, fds s d = Some (n, o) -> (exists o', (0 <= o -> 0 <= o') /\ fds s' d = Some (n, o')) /\ (forall m, m <> n -> files s' m = files s m) /\ ((exists c, files s n = Some c) -> exists c, files s' n = Some c)).
  Proof.
    unfold write. destruct (fds s d) as [[n o]|] eqn:E; [destruct (files s n) as [c|] eqn:Fn; [destruct (_ =? 0) eqn:K; [|destruct (room _)]|]|]; intros H; injection H as <- <-; cbn;
      (split; [reflexivity|]); (split; [solve [reflexivity|intros e He; apply fset_ne, He]|]); intros n' o' X; try discriminate; injection X as <- <-.
    1,3,4: (split; [eauto|auto]).
    split; [|split]; [eexists; rewrite fset_eq; split; [|reflexivity]; unfold cap, zlen in *; lia|intros m Hm; apply fset_ne, Hm|rewrite fset_eq; eauto].
  Qed.
  Lemma read_fds (s : os B) d k s' r : read B s d k = (s', r) -> files s' = files s /\ maps s' = maps s /\ (forall e, e <> d -> fds s' e = fds s e) /\
    (forall n o, fds s d = Some (n, o) -> exists o', (0 <= o -> 0 <= o') /\ fds s' d = Some (n, o')) /\ (fds s d = None -> r = None).
  Proof.
    unfold read. destruct (fds s d) as [[n o]|] eqn:E; [destruct (files s n) as [c|] eqn:Fn|]; intros H; injection H as <- <-; cbn.
    - repeat split; try congruence; [intros e He; apply fset_ne, He|]. intros n' o' [= <- <-]. eexists. rewrite fset_eq. split; [|reflexivity]. unfold zlen. lia.
    - repeat split; try congruence. intros n' o' [= <- <-]. eauto.
    - repeat split; congruence.
  Qed.
  (** the invariant depends on few things *)
  Lemma inv_move s0 s s' t : inv s0 s t -> t_open t = true -> maps s' = maps s -> (forall e, e <> t_fd t -> fds s' e = fds s e) ->
    (forall n o, fds s (t_fd t) = Some (n, o) -> exists o', (0 <= o -> 0 <= o') /\ fds s' (t_fd t) = Some (n, o')) ->
    (forall m, m <> t_name t -> files s' m = files s m) -> (exists c, files s' (t_name t) = Some c) -> inv s0 s' t.
  Proof.
    unfold inv. intros I O M1 M2 M3 M4 M5. rewrite O in *. destruct I as (D & (o & Ho & Fd) & (c & Fc) & D0 & F0 & Fs & Ds & Mp). destruct (M3 _ _ Fd) as (o' & Ho' & Fd').
    split; [exact D|]. split; [eauto|]. split; [exact M5|]. split; [exact D0|]. split; [exact F0|]. split; [intros n Hn; rewrite (M4 n Hn); apply Fs, Hn|]. split; [intros d Hd; rewrite (M2 d Hd); apply Ds, Hd|].
    rewrite M1. exact Mp.
  Qed.
  (** steps that are allowed: memory mapped files are not resized *)
  Definition plain (m : bool) (o : op B) : Prop := match o with OResize _ => m = false | OOpen n mm => 0 <= n /\ (mm = true -> m = true) | _ => True end.
  Definition mode (m : bool) (t : tmp) : Prop := t_open t = true -> t_mmap t = true -> m = true.
  Lemma open_inv s0 s t n mm s' t' p : honest fresh place -> fds s0 (-1) = None -> 0 <= n -> inv s0 s t -> open s t n mm = (s', t', Ok p) -> inv s0 s' t' /\ (t_mmap t' = mm /\ t_open t' = true).
  Proof.
    intros [Hf Hp] Hm N I. unfold TmpFile.open.
    assert (C : exists s1 t1, (if t_open t then close s t true else (s, t, Ok tt)) = (s1, t1, Ok tt) /\ same s0 s1).
    { destruct (t_open t) eqn:O; [destruct (close_inv s0 s t I) as (s1 & t1 & E & S & _); eauto|]. unfold inv in I. rewrite O in I. destruct I as [S _]. eauto. }
    destruct C as (s1 & t1 & -> & (S1 & S2 & S3)). destruct (fresh s1) as [[d nm]|] eqn:E; [|discriminate]. destruct (Hf _ _ _ E) as (D & Fd & Ff).
    set (s2 := set_fd (set_file s1 nm (Some [])) d (Some (nm, 0))). set (t2 := mkTmp nm d n true mm (t_base t1)).
    assert (I2 : inv s0 s2 (mkTmp nm d n true false (t_base t1))).
    { unfold inv. cbn. split; [exact D|]. split; [exists 0; rewrite fset_eq; split; [lia|reflexivity]|]. split; [rewrite fset_eq; eauto|]. split; [rewrite <- S2; exact Fd|]. split; [rewrite <- S1; exact Ff|].
      split; [intros x Hx; rewrite fset_ne by exact Hx; apply S1|]. split; [intros x Hx; rewrite fset_ne by exact Hx; apply S2|]. exact S3. }
    assert (U : forall s3 t3 r, (if 0 <? n then upsize B zero w room s2 t2 n else (s2, t2, Ok tt)) = (s3, t3, r) -> r <> Ok tt \/ t3 = t2 /\ inv s0 s3 (mkTmp nm d n true false (t_base t1))).
    { intros s3 t3 r. destruct (0 <? n); [|intros H; injection H as <- <- <-; right; auto]. unfold upsize. destruct (lseek B s2 (t_fd t2) (bytes n - 1)) as [s4 r4] eqn:L. destruct (int_of r4 =? -1); [intros H; injection H as <- <- <-; left; discriminate|].
      destruct (write B zero room s4 (t_fd t2) [zero]) as [s5 r5] eqn:Wr. destruct (int_of r5 =? -1); [intros H; injection H as <- <- <-; left; discriminate|]. intros H; injection H as <- <- <-. right. split; [reflexivity|].
      apply lseek_fds in L. destruct L as (L1 & L2 & L3 & L4 & _). assert (I4 : inv s0 s4 (mkTmp nm d n true false (t_base t1))).
      { apply (inv_move s0 s2 s4); [exact I2|reflexivity|exact L2|exact L3|exact L4|intros m _; rewrite L1; reflexivity|cbn [t_name]; rewrite L1; cbn; rewrite fset_eq; eauto]. }
      apply write_fds in Wr. destruct Wr as (W1 & W2 & W3). destruct (L4 nm 0 ltac:(cbn; apply fset_eq)) as (o' & _ & Ho'). destruct (W3 nm o' Ho') as (W4 & W5 & W6).
      apply (inv_move s0 s4 s5); [exact I4|reflexivity|exact W1|exact W2| |exact W5|apply W6; rewrite L1; cbn; rewrite fset_eq; eauto].
      cbn [t_fd]. intros x y Hxy. change (t_fd t2) with d in *. rewrite Ho' in Hxy. injection Hxy as <- <-. exact W4. }
    destruct (if 0 <? n then upsize B zero w room s2 t2 n else (s2, t2, Ok tt)) as [[s3 t3] r] eqn:Eu. destruct (U _ _ _ eq_refl) as [Nr|[-> I3]]; [destruct r as [[]| |]; [congruence|discriminate|discriminate]|].
    destruct r as [[]| |]; try discriminate. destruct mm.
    - unfold mmap. pose proof I3 as I3'. unfold inv in I3. cbn in I3. destruct I3 as (_ & (o & Ho & Fo) & (c & Fc) & D0 & F0 & Fs & Ds & Mp). rewrite Fo.
      destruct (place s3 (pages (bytes n))) as [a|] eqn:Pl; [destruct (bytes n =? 0) eqn:Z0|].
      + intros H. injection H as <- <- <-. split; [|split; reflexivity]. unfold inv. cbn. exact (conj D (conj (ex_intro _ o (conj Ho Fo)) (conj (ex_intro _ c Fc) (conj D0 (conj F0 (conj Fs (conj Ds Mp))))))).
      + intros H. injection H as <- <- <-. split; [|split; reflexivity]. unfold inv. cbn. split; [exact D|]. split; [eauto|]. split; [eauto|]. split; [exact D0|]. split; [exact F0|]. split; [exact Fs|]. split; [exact Ds|].
        rewrite fset_eq. split; [reflexivity|]. split; [apply Z.eqb_neq, Z0|]. split; [rewrite <- Mp; exact (Hp _ _ _ Pl)|]. intros b Hb. rewrite fset_ne by exact Hb. apply Mp.
      + intros H. injection H as <- <- <-. split; [|split; reflexivity]. unfold inv. cbn. exact (conj D (conj (ex_intro _ o (conj Ho Fo)) (conj (ex_intro _ c Fc) (conj D0 (conj F0 (conj Fs (conj Ds Mp))))))).
    - intros H. injection H as <- <- <-. split; [exact I3|split; reflexivity].
  Qed.
  Lemma step_inv m s0 s t o s' t' : honest fresh place -> fds s0 (-1) = None -> plain m o -> mode m t -> inv s0 s t -> step zero w fresh room place o s t = (s', t', Ok tt) -> inv s0 s' t' /\ mode m t'.
  Proof.
    intros H H1 P Md I. unfold mode in *. destruct o as [n mm|n|n|l|n|]; cbn [step].
    - destruct P as [N P]. destruct (open s t n mm) as [[s1 t1] [p| |]] eqn:E; cbn; intros X; try discriminate. injection X as <- <-. destruct (open_inv s0 s t n mm s1 t1 p H H1 N I E) as (I1 & M1 & O1). split; [exact I1|]. rewrite M1. auto.
    - unfold TmpFile.seek. destruct (lseek B s (t_fd t) (bytes n)) as [s1 r] eqn:L. destruct (int_of r =? -1) eqn:R; [discriminate|]. intros X. injection X as <- <-. split; [|exact Md].
      apply lseek_fds in L. destruct L as (L1 & L2 & L3 & L4 & L5). destruct (t_open t) eqn:O.
      + apply (inv_move s0 s s1); auto; [intros; rewrite L1; reflexivity|]. rewrite L1. unfold inv in I. rewrite O in I. tauto.
      + unfold inv in I. rewrite O in I. destruct I as [(S1 & S2 & S3) D]. rewrite D in *. rewrite L5 in R by (rewrite S2; exact H1). discriminate.
    - unfold TmpFile.read_el. destruct (read B s (t_fd t) (bytes n)) as [s1 [l|]] eqn:L; [|discriminate]. destruct (zlen l =? bytes n); [|discriminate]. cbn. intros X. injection X as <- <-. split; [|exact Md].
      apply read_fds in L. destruct L as (L1 & L2 & L3 & L4 & L5). destruct (t_open t) eqn:O.
      + apply (inv_move s0 s s1); auto; [intros; rewrite L1; reflexivity|]. rewrite L1. unfold inv in I. rewrite O in I. tauto.
      + unfold inv in I. rewrite O in I. destruct I as [(S1 & S2 & S3) D]. rewrite D in *. rewrite S2, H1 in L5. specialize (L5 eq_refl). discriminate.
    - unfold TmpFile.write_el. destruct (write B zero room s (t_fd t) l) as [s1 r] eqn:L. destruct (r =? zlen l) eqn:R; [|discriminate]. intros X. injection X as <- <-. split; [|exact Md].
      destruct (t_open t) eqn:O.
      + pose proof I as I'. unfold inv in I. rewrite O in I. destruct I as (D & (o & Ho & Fd) & (c & Fc) & _). apply write_fds in L. destruct L as (W1 & W2 & W3). destruct (W3 _ _ Fd) as (W4 & W5 & W6).
        apply (inv_move s0 s s1); auto; [|apply W6; eauto]. intros x y Hxy. rewrite Fd in Hxy. injection Hxy as <- <-. exact W4.
      + unfold inv in I. rewrite O in I. destruct I as [(S1 & S2 & S3) D]. unfold write in L. rewrite D, S2, H1 in L. injection L as _ <-. apply Z.eqb_eq in R. unfold zlen in R. lia.
    - cbn [plain] in P. unfold TmpFile.resize. destruct ((t_size t =? n) || negb (t_open t)) eqn:Q; [cbn; intros X; injection X as <- <-; split; [exact I|exact Md]|]. apply orb_false_iff in Q. destruct Q as [_ Q]. apply negb_false_iff in Q.
      assert (Mm : t_mmap t = false). { destruct (t_mmap t) eqn:Mm; [|reflexivity]. rewrite Md in P by auto. discriminate. }
      destruct (truncate B zero room s (t_fd t) (bytes n)) as [s1 [|]] eqn:T; cbn [negb]; [|discriminate]. rewrite Mm. cbn. intros X. injection X as <- <-. split; [|exact Md].
      pose proof I as I'. unfold inv in I. rewrite Q in I. destruct I as (D & (o & Ho & Fd) & (c & Fc) & _). unfold truncate in T. rewrite Fd, Fc in T. destruct (_ || _) in T; [discriminate|]. injection T as <-.
      apply (inv_move s0 s); auto; [intros x y Hxy; exists y; auto|intros x Hx; cbn; apply fset_ne, Hx|cbn; rewrite fset_eq; eauto].
    - intros X. destruct (close_inv s0 s t I) as (s1 & t1 & E & S & O & D). rewrite E in X. injection X as <- <-. split; [unfold inv; rewrite O; auto|rewrite O; discriminate].
  Qed.
  Lemma steps_inv m s0 l : honest fresh place -> fds s0 (-1) = None -> Forall (plain m) l -> forall s t, mode m t -> inv s0 s t -> forall s' t', steps zero w fresh room place l s t = (s', t', Ok tt) -> inv s0 s' t'.
  Proof.
    intros H H1 F. induction F as [|o l P F IH]; intros s t Md I s' t'; cbn [steps]; [intros X; injection X as <- <-; exact I|].
    destruct (step zero w fresh room place o s t) as [[s1 t1] [[]| |]] eqn:E; try discriminate. destruct (step_inv m s0 s t o s1 t1 H H1 P Md I E) as [I1 M1]. apply IH; assumption.
  Qed.
End Files.
