(** Proofs about raw binary files. *)
From Coq Require Import Ascii String List NArith ZArith Lia Bool Arith.
From Verif Require Import Base Arrays Model.Serial Proofs.Serial Model.FileWF Model.RawFile Spec.RawFile Proofs.Registry.
Import ListNotations.
Open Scope Z_scope.

Lemma bytes_eqb_spec a b : bytes_eqb a b = true <-> a = b.
Proof. unfold bytes_eqb. destruct (list_eq_dec Z.eq_dec a b); split; intros; congruence. Qed.
Lemma tagged_spec b tag : tagged b tag <-> skipn (length b - length tag) b = tag.
Proof.
  split.
  - intros [a ->]. rewrite app_length. replace (length a + length tag - length tag)%nat with (length a) by lia. rewrite skipn_app, skipn_all, Nat.sub_diag. reflexivity.
  - intros H. exists (firstn (length b - length tag) b). rewrite <- H at 2. symmetry. apply firstn_skipn.
Qed.
Lemma detect_plain b : plain b -> detect b = Ok Uncompressed.
Proof.
  intros (L & Z & B). unfold detect. destruct (Z.ltb_spec (zlen b) 8); [lia|]. rewrite tagged_spec in Z, B. change (length zlib_magic) with 8%nat in Z. change (length bzip_magic) with 8%nat in B. f_equal.
  destruct (bytes_eqb _ zlib_magic) eqn:E1; [apply bytes_eqb_spec in E1; contradiction|]. destruct (bytes_eqb _ bzip_magic) eqn:E2; [apply bytes_eqb_spec in E2; contradiction|]. reflexivity.
Qed.
Lemma detect_zlib a : detect (a ++ zlib_magic) = Ok Zlib.
Proof.
  unfold detect. assert (L : zlen (a ++ zlib_magic) = zlen a + 8) by (unfold zlen; rewrite app_length; cbn [length zlib_magic]; lia). destruct (Z.ltb_spec (zlen (a ++ zlib_magic)) 8); [unfold zlen in *; lia|]. assert (T : tagged (a ++ zlib_magic) zlib_magic) by (exists a; reflexivity). apply tagged_spec in T. change (length zlib_magic) with 8%nat in T. rewrite T. reflexivity.
Qed.
Lemma detect_bzip a : detect (a ++ bzip_magic) = Ok Bzip.
Proof.
  unfold detect. assert (L : zlen (a ++ bzip_magic) = zlen a + 8) by (unfold zlen; rewrite app_length; cbn [length bzip_magic]; lia). destruct (Z.ltb_spec (zlen (a ++ bzip_magic)) 8); [unfold zlen in *; lia|]. assert (T : tagged (a ++ bzip_magic) bzip_magic) by (exists a; reflexivity). apply tagged_spec in T. change (length bzip_magic) with 8%nat in T. rewrite T. reflexivity.
Qed.
Lemma cstring_some l : In 0 l -> exists m t, cstring l = Some m /\ l = (m ++ 0 :: t)%list /\ ~ In 0 m.
Proof.
  induction l as [|b l IH]; intros H; [contradiction|]. cbn [cstring]. destruct (Z.eqb_spec b 0) as [->|N]; [exists [], l; repeat split; intros []|]. destruct H as [H|H]; [congruence|]. destruct (IH H) as (m & t & E & -> & Nm). rewrite E. exists (b :: m), t. repeat split. intros [Hb|Hb]; [congruence|exact (Nm Hb)].
Qed.
Lemma cstring_none l : ~ In 0 l -> cstring l = None.
Proof. induction l as [|b l IH]; intros H; [reflexivity|]. cbn [cstring]. destruct (Z.eqb_spec b 0) as [->|]; [exfalso; apply H; left; reflexivity|]. rewrite IH; [reflexivity|]. intros Hi. apply H. right. exact Hi. Qed.
Lemma in_first0 l n : In 0 (firstn n l) -> In 0 l.
Proof. intros H. rewrite <- (firstn_skipn n l). apply in_or_app. left. exact H. Qed.
Lemma raw_firstn b : firstn 12 (firstn 16 b ++ skipn (length b) intro) = (firstn 12 b ++ skipn (length b) (magic ++ [0]))%list.
Proof.
  rewrite firstn_app, firstn_firstn, firstn_length. change (min 12 16) with 12%nat. f_equal. destruct (le_lt_dec 12 (length b)) as [L|L].
  - replace (12 - min 16 (length b))%nat with 0%nat by lia. rewrite (skipn_all2 (magic ++ [0])) by (change (length (magic ++ [0])) with 12%nat; lia). reflexivity.
  - replace (min 16 (length b)) with (length b) by lia. change (magic ++ [0])%list with (firstn 12 intro). rewrite skipn_firstn_comm. reflexivity.
Qed.
Lemma raw_zero b : (16 <= zlen b -> In 0 (firstn 16 b)) -> In 0 (firstn 16 b ++ skipn (length b) intro).
Proof.
  intros H. apply in_or_app. destruct (le_lt_dec 16 (length b)) as [L|L]; [left; apply H; unfold zlen; lia|]. right.
  assert (G : forall k, (k < 16)%nat -> In 0 (skipn k intro)) by (intros k Hk; do 16 (destruct k as [|k]; [vm_compute; tauto|]); lia). apply G. exact L.
Qed.
Lemma looks_not b : not_stream b -> looks_stream b = Some false.
Proof.
  intros [Z N]. unfold looks_stream. set (raw := (firstn 16 b ++ skipn (length b) intro)%list). destruct (cstring_some raw (raw_zero b Z)) as (m & t & E & R & Nm). rewrite E. f_equal.
  destruct (bytes_eqb m magic) eqn:B; [|reflexivity]. apply bytes_eqb_spec in B. subst m. exfalso. apply N. assert (F : firstn 12 raw = (magic ++ [0])%list) by (rewrite R; reflexivity). unfold raw in F. rewrite raw_firstn in F. rewrite <- F, firstn_app, firstn_length. destruct (le_lt_dec 12 (length b)) as [L|L].
  - rewrite (skipn_all2 (magic ++ [0])) by (change (length (magic ++ [0])) with 12%nat; lia). rewrite firstn_nil, app_nil_r. symmetry. rewrite firstn_firstn. f_equal. lia.
  - replace (length b - min 12 (length b))%nat with 0%nat by lia. rewrite firstn_O, app_nil_r, (firstn_all2 b) by lia. symmetry. apply firstn_all.
Qed.
Lemma looks_ub b : 16 <= zlen b -> ~ In 0 (firstn 16 b) -> looks_stream b = None.
Proof. intros L N. unfold looks_stream. rewrite (skipn_all2 intro) by (apply Nat2Z.inj_le; exact L). rewrite app_nil_r, cstring_none by exact N. reflexivity. Qed.

Lemma meta_data f : apart f -> meta_name f <> data_name f.
Proof.
  unfold apart, meta_name, data_name. intros [S|S] E.
  - rewrite S in E. apply app_inv_head in E. cbn in E. discriminate E.
  - apply app_inv_head in E. destruct (f_seq f); [cbn in E; discriminate E|]. cbn [app] in E. apply S. symmetry. exact E.
Qed.
Section R.
  Variable P : Type.
  Variable menc : P -> list byte.
  Variable mdec : list byte -> outcome P.
  Variable size : P -> outcome Z.
  Variables deflate bzip : list byte -> list byte.
  Variables inflate bunzip : list byte -> Z -> option (list byte).
  Variable stream : list byte -> outcome (P * list byte).
  Notation write_raw := (write_raw P menc deflate bzip).
  Notation read_raw := (read_raw P mdec size inflate bunzip).
  Notation read_file := (read_file P mdec size inflate bunzip stream).
  Notation sized := (sized menc mdec size).
  Lemma write_inv f d st f' st' : write_raw f d st = Ok (f', st') -> exists b, pack deflate bzip f (snd d) = Ok b /\ next f = Ok f' /\ st' = mset scmp (mset scmp st (meta_name f) (menc (fst d))) (data_name f) b.
  Proof. unfold RawFile.write_raw. destruct (pack _ _ _ _) as [b| |]; try discriminate. cbn [bind]. destruct (next f) as [g| |]; try discriminate. cbn [bind]. intros H. injection H; intros <- <-. exists b. repeat split. Qed.
  Lemma written_data f d st f' st' b : write_raw f d st = Ok (f', st') -> pack deflate bzip f (snd d) = Ok b -> mget scmp st' (data_name f) = Some b.
  Proof. intros H Hb. apply write_inv in H. destruct H as (b' & E & _ & ->). rewrite Hb in E. injection E; intros <-. apply mget_set_same. Qed.
  Lemma written_meta f d st f' st' : apart f -> write_raw f d st = Ok (f', st') -> mget scmp st' (meta_name f) = Some (menc (fst d)).
  Proof. intros A H. apply write_inv in H. destruct H as (b' & E & _ & ->). rewrite mget_set_other by (apply meta_data; exact A). apply mget_set_same. Qed.
  Lemma raw_eq f d st f' st' b : apart f -> sized d -> write_raw f d st = Ok (f', st') -> pack deflate bzip f (snd d) = Ok b ->
    read_raw f st' = let* c := detect b in let* x := read_data inflate bunzip (zlen (snd d)) c b in Ok (f', (fst d, x)).
  Proof.
    intros A (S1 & S2 & S3) W Pk. unfold RawFile.read_raw, read_meta_raw. rewrite (written_meta f d st f' st' A W), S1. cbn [bind]. rewrite S2. cbn [bind]. rewrite (written_data f d st f' st' b W Pk). apply write_inv in W. destruct W as (_ & _ & N & _). destruct (detect b); try reflexivity. cbn [bind]. destruct (read_data _ _ _ _); try reflexivity. cbn [bind]. rewrite N. reflexivity.
  Qed.
  Lemma file_eq f d st f' st' b : write_raw f d st = Ok (f', st') -> pack deflate bzip f (snd d) = Ok b ->
    read_file f st' = match looks_stream b with None => UB | Some true => let* x := stream b in Ok (f', x) | Some false => read_raw f st' end.
  Proof. intros W Pk. unfold RawFile.read_file. rewrite (written_data f d st f' st' b W Pk). apply write_inv in W. destruct W as (_ & _ & N & _). destruct (looks_stream b) as [[]|]; try reflexivity. rewrite N. destruct (stream b); reflexivity. Qed.
  Lemma data_plain d : sized d -> read_data inflate bunzip (zlen (snd d)) Uncompressed (snd d) = Ok (snd d).
  Proof. intros (_ & _ & S). unfold read_data. destruct (Z.leb_spec (zlen (snd d)) 0); [lia|]. destruct (Z.ltb_spec (zlen (snd d)) (zlen (snd d))); [lia|]. f_equal. apply firstn_all2. unfold zlen. lia. Qed.
  Lemma raw_plain f d st f' st' : apart f -> f_comp f = Uncompressed -> sized d -> plain (snd d) -> write_raw f d st = Ok (f', st') -> read_raw f st' = Ok (f', d).
  Proof. intros A M S Pl W. assert (Pk : pack deflate bzip f (snd d) = Ok (snd d)) by (unfold pack; rewrite M; reflexivity). rewrite (raw_eq f d st f' st' _ A S W Pk), (detect_plain _ Pl). cbn [bind]. rewrite data_plain by exact S. destruct d; reflexivity. Qed.
  Lemma file_plain f d st f' st' : apart f -> f_comp f = Uncompressed -> sized d -> plain (snd d) -> not_stream (snd d) -> write_raw f d st = Ok (f', st') -> read_file f st' = Ok (f', d).
  Proof. intros A M S Pl N W. assert (Pk : pack deflate bzip f (snd d) = Ok (snd d)) by (unfold pack; rewrite M; reflexivity). rewrite (file_eq f d st f' st' _ W Pk), (looks_not _ N). apply (raw_plain f d st f' st'); assumption. Qed.
  Lemma raw_short f d st f' st' : apart f -> f_comp f = Uncompressed -> sized d -> zlen (snd d) < 8 -> write_raw f d st = Ok (f', st') -> read_raw f st' = Throw.
  Proof. intros A M S L W. assert (Pk : pack deflate bzip f (snd d) = Ok (snd d)) by (unfold pack; rewrite M; reflexivity). rewrite (raw_eq f d st f' st' _ A S W Pk). unfold detect. destruct (Z.ltb_spec (zlen (snd d)) 8); [reflexivity|lia]. Qed.
  Lemma raw_tagged f d st f' st' : apart f -> f_comp f = Uncompressed -> sized d -> tagged (snd d) zlib_magic -> write_raw f d st = Ok (f', st') ->
    read_raw f st' = match inflate (snd d) (zlen (snd d)) with Some x => Ok (f', (fst d, x)) | None => Throw end.
  Proof. intros A M S [a T] W. assert (Pk : pack deflate bzip f (snd d) = Ok (snd d)) by (unfold pack; rewrite M; reflexivity). rewrite (raw_eq f d st f' st' _ A S W Pk). replace (detect (snd d)) with (@Ok comp Zlib) by (rewrite T; symmetry; apply detect_zlib). cbn [bind]. unfold read_data. destruct S as (_ & _ & S). destruct (Z.leb_spec (zlen (snd d)) 0); [lia|]. destruct (inflate _ _); reflexivity. Qed.
  Lemma file_ub f d st f' st' : f_comp f = Uncompressed -> 16 <= zlen (snd d) -> ~ In 0 (firstn 16 (snd d)) -> write_raw f d st = Ok (f', st') -> read_file f st' = UB.
  Proof. intros M L N W. assert (Pk : pack deflate bzip f (snd d) = Ok (snd d)) by (unfold pack; rewrite M; reflexivity). rewrite (file_eq f d st f' st' _ W Pk), looks_ub by assumption. reflexivity. Qed.
  Hypothesis zip : forall x t, inflate (deflate x ++ t) (zlen x) = Some x.
  Hypothesis bz : forall x t, bunzip (bzip x ++ t) (zlen x) = Some x.
  Lemma raw_packed f d st f' st' : apart f -> f_comp f <> Uncompressed -> sized d -> write_raw f d st = Ok (f', st') -> read_raw f st' = Ok (f', d).
  Proof.
    intros A M S W. destruct (write_inv _ _ _ _ _ W) as (b & Pk & _ & _). rewrite (raw_eq f d st f' st' _ A S W Pk). unfold pack in Pk. destruct S as (_ & _ & S).
    destruct (f_comp f); [contradiction| |]; match type of Pk with (if ?x then _ else _) = _ => destruct x; [discriminate|] end; injection Pk; intros <-; [rewrite detect_zlib|rewrite detect_bzip]; cbn [bind]; unfold read_data; (destruct (Z.leb_spec (zlen (snd d)) 0); [lia|]); [rewrite zip|rewrite bz]; cbn [bind]; destruct d; reflexivity.
  Qed.
End R.

(** sequences *)
Lemma dec_print_Z_inj a b : dec_print_Z a = dec_print_Z b -> a = b.
Proof.
  assert (M : forall n s, dec_print n <> ("-"%char :: s)).
  { intros n s E. destruct (dec_print_spec n) as (_ & _ & F). rewrite E in F. apply Forall_inv in F. discriminate F. }
  unfold dec_print_Z. destruct (Z.ltb_spec a 0), (Z.ltb_spec b 0); intros E.
  - injection E as E. apply dec_print_inj in E. lia.
  - symmetry in E. destruct (M _ _ E).
  - destruct (M _ _ E).
  - apply dec_print_inj in E. lia.
Qed.
Lemma data_name_inj f g : f_name f = f_name g -> f_suffix f = f_suffix g -> f_seq f = true -> f_seq g = true -> data_name f = data_name g -> f_count f = f_count g.
Proof.
  unfold data_name. intros -> -> -> -> E. apply app_inv_head in E. injection E as E. apply app_inv_tail in E. apply dec_print_Z_inj. exact E.
Qed.
Lemma last_cons {A} (l : list A) x d : last (x :: l) d = last l x.
Proof. revert x d. induction l as [|y l IH]; intros x d; [reflexivity|]. change (last (x :: y :: l) d) with (last (y :: l) d). rewrite !IH. reflexivity. Qed.
Definition at_count (f : file) (c : Z) : file := mkFile (f_name f) (f_suffix f) (f_seq f) c (f_inc f) (f_comp f).
Section Sq.
  Variable P : Type.
  Variable menc : P -> list byte.
  Variable mdec : list byte -> outcome P.
  Variable size : P -> outcome Z.
  Variables deflate bzip : list byte -> list byte.
  Variables inflate bunzip : list byte -> Z -> option (list byte).
  Variable stream : list byte -> outcome (P * list byte).
  Notation write_list := (write_list P menc deflate bzip).
  Notation read_list := (read_list P mdec size inflate bunzip stream).
  Variable f : file.
  Hypothesis sq : f_seq f = true.
  Hypothesis inc : f_inc f <> 0.
  Hypothesis un : f_comp f = Uncompressed.
  Let name (k : nat) : str := data_name (at_count f (f_count f + Z.of_nat k * f_inc f)).
  Let fk (k : nat) : file := at_count f (f_count f + Z.of_nat k * f_inc f).
  Lemma name_inj i j : name i = name j -> i = j.
  Proof. unfold name. intros E. apply data_name_inj in E; try reflexivity; try exact sq. cbn in E. nia. Qed.
  Lemma next_fk k : int_ok (f_count f + Z.of_nat (S k) * f_inc f) -> next (fk k) = Ok (fk (S k)).
  Proof.
    intros [L U]. unfold next. cbn [f_seq f_count f_inc fk at_count]. rewrite sq. replace (f_count f + Z.of_nat k * f_inc f + f_inc f) with (f_count f + Z.of_nat (S k) * f_inc f) by lia. destruct (Z.ltb_spec (f_count f + Z.of_nat (S k) * f_inc f) (-2147483648)); [lia|]. destruct (Z.ltb_spec 2147483647 (f_count f + Z.of_nat (S k) * f_inc f)); [lia|]. cbn [orb]. unfold fk, at_count. rewrite sq. reflexivity.
  Qed.
  Lemma meta_not_name k : name k <> meta_name f.
  Proof. intros E. apply (meta_data (fk k)); [left; exact sq|]. symmetry. exact E. Qed.
  (** what is stored after writing *)
  Lemma write_seq l : forall k st, (forall i, (k <= i <= k + length l)%nat -> int_ok (f_count f + Z.of_nat i * f_inc f)) ->
    exists st', write_list l (fk k) st = Ok (fk (k + length l), st') /\
      (forall i d, nth_error l i = Some d -> mget scmp st' (name (k + i)) = Some (snd d)) /\
      (forall n, n <> meta_name f -> (forall i, (i < length l)%nat -> n <> name (k + i)) -> mget scmp st' n = mget scmp st n) /\
      mget scmp st' (meta_name f) = last (map (fun d => Some (menc (fst d))) l) (mget scmp st (meta_name f)).
  Proof.
    induction l as [|d l IH]; intros k st R.
    - exists st. replace (k + length (@nil (P * list byte)))%nat with k by (cbn; lia). repeat split; try congruence; intros; destruct i; discriminate.
    - set (st1 := mset scmp (mset scmp st (meta_name f) (menc (fst d))) (name k) (snd d)).
      assert (W : write_raw P menc deflate bzip (fk k) d st = Ok (fk (S k), st1)).
      { unfold write_raw, pack. cbn [f_comp fk at_count]. rewrite un. cbn [bind]. rewrite next_fk; [reflexivity|]. apply R. cbn [length]. lia. }
      destruct (IH (S k) st1) as (st' & E & G & O & M); [intros i Hi; apply R; cbn [length]; lia|]. exists st'. repeat split.
      + unfold RawFile.write_list in *. cbn [foldM fst snd]. rewrite W. cbn [bind]. etransitivity; [exact E|]. do 2 f_equal. f_equal. cbn [length]. lia.
      + intros [|i] d' H.
        * injection H; intros <-. rewrite Nat.add_0_r. rewrite O; [unfold st1; apply mget_set_same|apply meta_not_name|]. intros i Hi X. apply name_inj in X. lia.
        * cbn [nth_error] in H. apply G in H. replace (k + S i)%nat with (S k + i)%nat by lia. exact H.
      + intros n Hm Hn. rewrite O; [|exact Hm|intros i Hi; specialize (Hn (S i)); replace (S k + i)%nat with (k + S i)%nat by lia; apply Hn; cbn [length]; lia]. unfold st1. rewrite mget_set_other; [rewrite mget_set_other by exact Hm; reflexivity|]. specialize (Hn 0%nat). rewrite Nat.add_0_r in Hn. apply Hn. cbn [length]. lia.
      + rewrite M. cbn [map]. rewrite last_cons. f_equal. unfold st1. rewrite mget_set_other by (intros X; apply (meta_not_name k); symmetry; exact X). apply mget_set_same.
  Qed.
  Lemma read_seq st l : (exists p, mget scmp st (meta_name f) = Some (menc p) /\ Forall (fun d => fst d = p) l) -> Forall (sized menc mdec size) l -> Forall (fun d => plain (snd d) /\ not_stream (snd d)) l ->
    forall k, (forall i, (k <= i <= k + length l)%nat -> int_ok (f_count f + Z.of_nat i * f_inc f)) -> (forall i d, nth_error l i = Some d -> mget scmp st (name (k + i)) = Some (snd d)) ->
    read_list (length l) (fk k) st = Ok (fk (k + length l), l).
  Proof.
    intros (p & M & Same) S Pl. revert Same S Pl. induction l as [|d l IH]; intros Same S Pl k R G; [cbn; rewrite Nat.add_0_r; reflexivity|]. pose proof (Forall_inv Same) as Sd. destruct (Forall_inv S) as (S1 & S2 & S3). destruct (Forall_inv Pl) as [Pd Nd]. apply Forall_inv_tail in Same. apply Forall_inv_tail in S. apply Forall_inv_tail in Pl.
    assert (Rd : read_file P mdec size inflate bunzip stream (fk k) st = Ok (fk (Datatypes.S k), d)).
    { specialize (G 0%nat d eq_refl). rewrite Nat.add_0_r in G. unfold read_file. change (data_name (fk k)) with (name k). rewrite G, (looks_not _ Nd). unfold read_raw, read_meta_raw. change (meta_name (fk k)) with (meta_name f). change (data_name (fk k)) with (name k). rewrite M, <- Sd, S1. cbn [bind]. rewrite S2. cbn [bind]. rewrite G, (detect_plain _ Pd). cbn [bind]. rewrite (data_plain P menc mdec size inflate bunzip d) by (repeat split; assumption). cbn [bind]. rewrite next_fk by (apply R; cbn [length]; lia). destruct d; reflexivity. }
    cbn [length RawFile.read_list]. rewrite Rd. cbn [bind fst snd]. rewrite IH; [cbn [bind fst snd]; do 3 f_equal; lia|exact Same|exact S|exact Pl|intros i Hi; apply R; cbn [length]; lia|]. intros i x H. specialize (G (Datatypes.S i) x H). replace (Datatypes.S k + i)%nat with (k + Datatypes.S i)%nat by lia. exact G.
  Qed.
  Lemma last_same l p (m : option (list byte)) : l <> [] -> Forall (fun d : P * list byte => fst d = p) l -> last (map (fun d => Some (menc (fst d))) l) m = Some (menc p).
  Proof.
    intros N F. revert m. induction F as [|d l E F IH]; intros m; [congruence|]. cbn [map]. rewrite last_cons. destruct l as [|d2 l]; [cbn; rewrite E; reflexivity|]. apply IH. discriminate.
  Qed.
  Lemma sequence l p st : l <> [] -> Forall (fun d => fst d = p) l -> Forall (sized menc mdec size) l -> Forall (fun d => plain (snd d) /\ not_stream (snd d)) l ->
    (forall i, (i <= length l)%nat -> int_ok (f_count f + Z.of_nat i * f_inc f)) ->
    exists st' g, write_list l f st = Ok (g, st') /\ read_list (length l) f st' = Ok (g, l).
  Proof.
    intros N Same S Pl R. assert (F0 : fk 0 = f) by (unfold fk, at_count; destruct f; cbn; f_equal; lia). destruct (write_seq l 0 st) as (st' & W & G & _ & M); [intros i Hi; apply R; lia|]. rewrite F0 in W. exists st', (fk (0 + length l)). split; [exact W|]. rewrite <- F0 at 1. apply read_seq; [|exact S|exact Pl|intros i Hi; apply R; lia|exact G]. exists p. split; [|exact Same]. rewrite M. apply last_same; assumption.
  Qed.
End Sq.

(** one element of a sequence *)
Lemma strip_last a b : ~ In "_"%char b -> strip_index (a ++ "_"%char :: b) = Some a.
Proof.
  intros N. assert (G : forall b, ~ In "_"%char b -> strip_index b = None).
  { clear. induction b as [|c b IH]; intros N; [reflexivity|]. unfold strip_index in *. cbn. rewrite IH by (intros H; apply N; right; exact H). destruct (Ascii.eqb_spec c "_") as [->|]; [exfalso; apply N; left; reflexivity|reflexivity]. }
  induction a as [|c a IH]; cbn [app].
  - change (match strip_index b with Some r => Some ("_"%char :: r) | None => Some [] end = Some []). rewrite G by exact N. reflexivity.
  - change (match strip_index (a ++ "_"%char :: b) with Some r => Some (c :: r) | None => if Ascii.eqb c "_" then Some [] else None end = Some (c :: a)). rewrite IH. reflexivity.
Qed.
Lemma digits_no_bar z : ~ In "_"%char (dec_print_Z z ++ lit ".meta").
Proof.
  intros H. apply in_app_or in H. destruct H as [H|H]; [|vm_compute in H; intuition discriminate].
  assert (D : forall n, ~ In "_"%char (dec_print n)) by (intros n Hn; destruct (dec_print_spec n) as (_ & _ & F); rewrite Forall_forall in F; apply F in Hn; discriminate Hn).
  unfold dec_print_Z in H. destruct (z <? 0); [destruct H as [H|H]; [discriminate H|]|]; apply (D _ H).
Qed.
Lemma element P menc mdec size deflate bzip inflate bunzip f g d st f' st' : f_seq f = true -> f_suffix f <> lit ".meta" -> f_comp f = Uncompressed ->
  f_name g = (f_name f ++ lit "_" ++ dec_print_Z (f_count f))%list -> f_suffix g = f_suffix f -> f_seq g = false -> mget scmp st (meta_name g) = None ->
  sized menc mdec size d -> plain (snd d) -> write_raw P menc deflate bzip f d st = Ok (f', st') -> read_raw P mdec size inflate bunzip g st' = Ok (g, d).
Proof.
  intros Sq Sf Un Ng Sg Qg M (S1 & S2 & S3) Pl W. pose proof (written_meta P menc deflate bzip f d st f' st' (or_introl Sq) W) as Wm.
  assert (Pk : pack deflate bzip f (snd d) = Ok (snd d)) by (unfold pack; rewrite Un; reflexivity).
  pose proof (written_data P menc deflate bzip f d st f' st' _ W Pk) as Wd. apply write_inv in W. destruct W as (b & _ & _ & Est).
  assert (Mg : meta_name g = (f_name f ++ "_"%char :: dec_print_Z (f_count f) ++ lit ".meta")%list) by (unfold meta_name; rewrite Ng, <- !app_assoc; reflexivity).
  assert (Dg : data_name g = data_name f) by (unfold data_name; rewrite Ng, Sg, Qg, Sq, <- !app_assoc; reflexivity).
  assert (Mg' : mget scmp st' (meta_name g) = None).
  { rewrite Est. rewrite mget_set_other; [rewrite mget_set_other; [exact M|]|].
    - rewrite Mg. unfold meta_name. intros E. apply app_inv_head in E. discriminate E.
    - rewrite Mg. unfold data_name. rewrite Sq. intros E. apply app_inv_head in E. cbn [lit app] in E. injection E as E. apply app_inv_head in E. symmetry in E. contradiction. }
  unfold read_raw, read_meta_raw. rewrite Mg', Mg, strip_last by apply digits_no_bar. change (f_name f ++ lit ".meta")%list with (meta_name f). rewrite Wm, S1. cbn [bind]. rewrite S2. cbn [bind]. rewrite Dg, Wd, (detect_plain _ Pl). cbn [bind].
  rewrite (data_plain P menc mdec size inflate bunzip d) by (repeat split; assumption). cbn [bind]. unfold next. rewrite Qg. destruct d; reflexivity.
Qed.
Lemma counter_ub P menc deflate bzip f d st : f_comp f = Uncompressed -> f_seq f = true -> ~ int_ok (f_count f + f_inc f) -> write_raw P menc deflate bzip f d st = UB.
Proof.
  intros Un Sq N. unfold write_raw, pack, next. rewrite Un, Sq. cbn [bind]. unfold int_ok in N.
  destruct (Z.ltb_spec (f_count f + f_inc f) (-2147483648)); [reflexivity|]. destruct (Z.ltb_spec 2147483647 (f_count f + f_inc f)); [reflexivity|]. lia.
Qed.
Lemma raw_cut P mdec size inflate bunzip f st mb p n b : mget scmp st (meta_name f) = Some mb -> mdec mb = Ok p -> size p = Ok n -> mget scmp st (data_name f) = Some b -> plain b -> zlen b < n ->
  read_raw P mdec size inflate bunzip f st = Throw.
Proof.
  intros M D S B Pl L. unfold read_raw, read_meta_raw. rewrite M, D. cbn [bind]. rewrite S. cbn [bind]. rewrite B, (detect_plain _ Pl). cbn [bind]. unfold read_data. destruct (Z.leb_spec n 0); [reflexivity|]. destruct (Z.ltb_spec (zlen b) n); [reflexivity|lia].
Qed.
Lemma stream_taken P mdec size inflate bunzip stream f st t d : f_seq f = false -> mget scmp st (data_name f) = Some (intro ++ t)%list -> stream (intro ++ t)%list = Ok d ->
  read_file P mdec size inflate bunzip stream f st = Ok (f, d).
Proof.
  intros Sq B S. unfold read_file. rewrite B. assert (L : looks_stream (intro ++ t) = Some true).
  { unfold looks_stream. change (firstn 16 (intro ++ t)) with intro. rewrite (skipn_all2 intro) by (rewrite app_length; lia). rewrite app_nil_r. reflexivity. }
  rewrite L, S. cbn [bind]. unfold next. rewrite Sq. reflexivity.
Qed.
