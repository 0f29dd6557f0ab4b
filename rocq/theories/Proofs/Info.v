From Coq Require Import Ascii String List NArith ZArith Lia Bool Arith.
From Verif Require Import Base Arrays Model.Params Model.Getopt Model.Serial Model.FileWF Model.Info Spec.FileWF Spec.Info Proofs.Serial Proofs.FileWF.
Import ListNotations.
Open Scope Z_scope.

Definition start (opts : list (ascii * str)) (argv : list str) (oi : nat) : gopt := parse_args new_getopt opts argv oi.
Lemma start_check opts argv oi : fst (check_options (start opts argv oi)) = start opts argv oi.
Proof. unfold check_options. destruct (present _ _); reflexivity. Qed.
Lemma start_name opts argv oi : non_option (start opts argv oi) 0 = name_of argv oi.
Proof.
  unfold non_option, name_of, start. cbn [parse_args optind Getopt.argv]. rewrite Nat.add_0_r. destruct (Nat.ltb_spec oi (length argv)) as [L|L].
  - symmetry. apply nth_error_nth'. exact L.
  - symmetry. apply nth_error_None. exact L.
Qed.
Lemma le4 n : 0 <= n -> le 4 n = [n mod 256; n / 256 mod 256; n / 65536 mod 256; n / 16777216 mod 256].
Proof. intros N. cbn [le]. rewrite !Z.div_div by lia. reflexivity. Qed.
Lemma le_unle l : octets l -> le (length l) (unle l) = l.
Proof.
  induction 1 as [|x l [A B] _ IH]; [reflexivity|]. cbn [length le unle].
  assert (M : (x + 256 * unle l) mod 256 = x) by (rewrite Z.mul_comm, Z_mod_plus_full; apply Z.mod_small; lia).
  assert (D : (x + 256 * unle l) / 256 = unle l) by (rewrite Z.mul_comm, Z_div_plus_full by lia; rewrite Z.div_small by lia; lia).
  rewrite M, D, IH. reflexivity.
Qed.
Lemma unle_range l : octets l -> 0 <= unle l < 256 ^ zlen l.
Proof.
  unfold zlen. induction 1 as [|x l [A B] _ IH]; [split; reflexivity || lia|]. cbn [length unle]. rewrite Nat2Z.inj_succ, Z.pow_succ_r by lia. lia.
Qed.
Lemma to_int_small n : 0 <= n < 2147483648 -> to_int n = n.
Proof. intros H. unfold to_int. rewrite Z.mod_small by lia. lia. Qed.
Lemma to_int_inv n : 0 <= n < 4294967296 -> 0 <= to_int n -> to_int n = n.
Proof.
  intros H T. unfold to_int in *. destruct (Z.ltb_spec n 2147483648) as [L|L]; [rewrite Z.mod_small by lia; lia|].
  rewrite <- (Z_mod_plus_full (n + 2147483648) (-1) 4294967296) in *. rewrite Z.mod_small in * by lia. lia.
Qed.
Lemma stream_eq e rest : stream_of e rest = (intro ++ le 4 (zlen e) ++ e ++ rest)%list.
Proof. unfold stream_of. rewrite le4 by (unfold zlen; lia). reflexivity. Qed.

Section P.
  Variable H : Type.
  Variable dec : list byte -> H * bool.
  Variable show : H -> str.
  Variable room : Z -> bool.
  Notation info := (info H dec show room).
  Notation info_file := (info_file H dec show room).
  Lemma header_ok e rest : zlen e < 2147483648 -> room (zlen e) = true -> info_header H dec room (le 4 (zlen e) ++ e ++ rest) = Ok (fst (dec e)).
  Proof.
    intros L R. unfold info_header. assert (P : 0 <= zlen e) by (unfold zlen; lia).
    assert (F : firstn 4 (le 4 (zlen e) ++ e ++ rest) = le 4 (zlen e)) by reflexivity. assert (K : skipn 4 (le 4 (zlen e) ++ e ++ rest) = (e ++ rest)%list) by reflexivity.
    rewrite F, K, unle_le, to_int_small by (change (256 ^ Z.of_nat 4) with 4294967296; lia). destruct (Z.ltb_spec (zlen (le 4 (zlen e) ++ e ++ rest)) 4) as [Q|_]; [unfold zlen in Q; rewrite app_length in Q; cbn [le length] in Q; lia|].
    destruct (Z.ltb_spec (zlen e) 0); [lia|]. rewrite R. cbn [orb negb]. destruct (Z.ltb_spec (zlen (e ++ rest)) (zlen e)) as [Q|_]; [unfold zlen in Q; rewrite app_length in Q; lia|].
    unfold zlen. rewrite Nat2Z.id, firstn_app, firstn_all, Nat.sub_diag. cbn [firstn]. rewrite app_nil_r. reflexivity.
  Qed.
  Lemma long t : zlen (intro ++ t) <? 16 = false.
  Proof. apply Z.ltb_ge. unfold zlen. rewrite app_length. cbn [intro magic app le length]. lia. Qed.
  Lemma file_intro t : info_file (Some (intro ++ t)) = let* h := info_header H dec room t in Ok (Some (show h)).
  Proof. unfold Info.info_file. rewrite long. reflexivity. Qed.
  Lemma info_eq opts argv oi files : info (start opts argv oi) files =
    let* r := info_file (match name_of argv oi with Some n => files n | None => None end) in Ok (match r with Some t => (t, Success) | None => ([], Failure) end).
  Proof. unfold Info.info. rewrite start_check, start_name. reflexivity. Qed.
  Lemma shown opts argv oi files n e rest : name_of argv oi = Some n -> files n = Some (stream_of e rest) -> zlen e < 2147483648 -> room (zlen e) = true ->
    info (start opts argv oi) files = Ok (show (fst (dec e)), Success).
  Proof. intros N F L R. rewrite info_eq, N, F, stream_eq, file_intro, header_ok by assumption. reflexivity. Qed.
  Lemma cstring_split l t : cstring l = Some t -> exists r, l = (t ++ 0 :: r)%list.
  Proof.
    revert t. induction l as [|a l IH]; intros t E; [discriminate|]. cbn [cstring] in E. destruct (Z.eqb_spec a 0) as [->|]; [injection E as <-; exists l; reflexivity|].
    destruct (cstring l) as [u|]; [|discriminate]. injection E as <-. destruct (IH u eq_refl) as [r ->]. exists r. reflexivity.
  Qed.
  Lemma tail_four (b r : list byte) : 16 <= zlen b -> firstn 16 b = (magic ++ 0 :: r)%list -> length r = 4%nat.
  Proof.
    intros L E. assert (Q : length (firstn 16 b) = 16%nat) by (apply firstn_length_le; unfold zlen in L; lia). rewrite E, app_length in Q. change (length magic) with 11%nat in Q. cbn [length] in Q. lia.
  Qed.
  Lemma octets_firstn n l : octets l -> octets (firstn n l).
  Proof. intros O. rewrite <- (firstn_skipn n l) in O. apply Forall_app in O. exact (proj1 O). Qed.
  Lemma octets_skipn n l : octets l -> octets (skipn n l).
  Proof. intros O. rewrite <- (firstn_skipn n l) in O. apply Forall_app in O. exact (proj2 O). Qed.
  Lemma only_streams opts argv oi files t : (forall n b, files n = Some b -> octets b) -> info (start opts argv oi) files = Ok (t, Success) ->
    exists n e rest, name_of argv oi = Some n /\ files n = Some (stream_of e rest) /\ t = show (fst (dec e)).
  Proof.
    intros O. rewrite info_eq. destruct (name_of argv oi) as [n|]; [|discriminate]. destruct (files n) as [b|] eqn:F; [|discriminate]. specialize (O _ _ F). unfold Info.info_file.
    destruct (Z.ltb_spec (zlen b) 16) as [|L]; [discriminate|]. destruct (cstring (firstn 16 b)) as [m|] eqn:E; [|discriminate]. unfold bytes_eqb. destruct (list_eq_dec Z.eq_dec m magic) as [->|]; [|discriminate]. cbn [negb].
    destruct (Z.eqb_spec (unle (skipn 12 (firstn 16 b))) 1) as [U|]; [|discriminate]. cbn [negb].
    destruct (cstring_split _ _ E) as [r Er]. pose proof (tail_four _ _ L Er) as Lr.
    assert (Or : octets r). { pose proof (octets_firstn 16 _ O) as Q. rewrite Er in Q. apply Forall_app in Q. destruct Q as [_ Q]. inversion Q. assumption. }
    assert (I : firstn 16 b = intro). { rewrite Er in U. change (skipn 12 (magic ++ 0 :: r)) with r in U. assert (r = le 4 1) as -> by (rewrite <- (le_unle r Or), Lr, U; reflexivity). rewrite Er. reflexivity. }
    unfold info_header. set (c := skipn 16 b). destruct (Z.ltb_spec (zlen c) 4) as [|Lc]; [discriminate|].
    assert (Oc : octets c) by (apply octets_skipn; exact O). set (k := to_int (unle (firstn 4 c))). destruct (Z.ltb_spec k 0) as [|Pk]; [discriminate|]. cbn [orb]. destruct (room k); [|discriminate]. cbn [negb].
    destruct (Z.ltb_spec (zlen (skipn 4 c)) k) as [|Lk]; [discriminate|]. cbn [bind]. intros Q. injection Q as <-.
    exists n, (firstn (Z.to_nat k) (skipn 4 c)), (skipn (Z.to_nat k) (skipn 4 c)). split; [reflexivity|]. split; [|reflexivity]. rewrite F. f_equal. rewrite stream_eq, <- I.
    assert (L4 : length (firstn 4 c) = 4%nat) by (apply firstn_length_le; unfold zlen in Lc; lia).
    assert (Uk : unle (firstn 4 c) = k). { pose proof (unle_range _ (octets_firstn 4 _ Oc)) as R. unfold zlen in R. rewrite L4 in R. change (256 ^ Z.of_nat 4) with 4294967296 in R. unfold k. symmetry. apply to_int_inv; [exact R|exact Pk]. }
    assert (Lz : zlen (firstn (Z.to_nat k) (skipn 4 c)) = k) by (unfold zlen in Lk |- *; clearbody k; rewrite firstn_length_le by lia; apply Z2Nat.id; exact Pk).
    assert (K4 : le 4 k = firstn 4 c) by (pose proof (le_unle _ (octets_firstn 4 _ Oc)) as Q; rewrite L4, Uk in Q; exact Q).
    rewrite Lz, K4, (firstn_skipn (Z.to_nat k)), (firstn_skipn 4 c). unfold c. symmetry. apply firstn_skipn.
  Qed.
  Lemma zero_cstring l : In 0 l -> exists t, cstring l = Some t.
  Proof.
    induction l as [|a l IH]; [contradiction|]. intros I. cbn [cstring]. destruct (Z.eqb_spec a 0) as [|N]; [eexists; reflexivity|]. destruct I as [->|I]; [contradiction|]. destruct (IH I) as [t ->]. eexists. reflexivity.
  Qed.
  Definition no_stream (b : list byte) : Prop := zlen b < 16 \/ (In 0 (firstn 16 b) /\ firstn 16 b <> first16).
  Lemma refused opts argv oi files : (forall n b, files n = Some b -> octets b) -> (forall n b, name_of argv oi = Some n -> files n = Some b -> no_stream b) -> info (start opts argv oi) files = Ok ([], Failure).
  Proof.
    intros O N. rewrite info_eq. destruct (name_of argv oi) as [n|]; [|reflexivity]. destruct (files n) as [b|] eqn:F; [|reflexivity]. specialize (O _ _ F). specialize (N n b eq_refl F).
    unfold Info.info_file. destruct (Z.ltb_spec (zlen b) 16) as [|L]; [reflexivity|]. destruct N as [N|[Z N]]; [lia|]. destruct (zero_cstring _ Z) as [m E]. rewrite E. unfold bytes_eqb. destruct (list_eq_dec Z.eq_dec m magic) as [->|]; [|reflexivity]. cbn [negb].
    destruct (Z.eqb_spec (unle (skipn 12 (firstn 16 b))) 1) as [U|]; [|reflexivity]. exfalso. apply N.
    destruct (cstring_split _ _ E) as [r Er]. pose proof (tail_four _ _ L Er) as Lr.
    assert (Or : octets r). { pose proof (octets_firstn 16 _ O) as Q. rewrite Er in Q. apply Forall_app in Q. destruct Q as [_ Q]. inversion Q. assumption. }
    rewrite Er in U. change (skipn 12 (magic ++ 0 :: r)) with r in U. assert (r = le 4 1) as -> by (rewrite <- (le_unle r Or), Lr, U; reflexivity). rewrite Er. reflexivity.
  Qed.
  (** damaged files *)
  Lemma header_short opts argv oi files n e k : name_of argv oi = Some n -> zlen e < 2147483648 -> room (zlen e) = true -> (16 <= k < 20 + length e)%nat -> files n = Some (firstn k (stream_of e [])) ->
    info (start opts argv oi) files = UB.
  Proof.
    intros N L R K F. rewrite info_eq, N, F, stream_eq, app_nil_r. assert (S : firstn k (intro ++ le 4 (zlen e) ++ e) = (intro ++ firstn (k - 16) (le 4 (zlen e) ++ e))%list).
    { rewrite firstn_app. rewrite (firstn_all2 intro) by (cbn [intro magic app le length]; lia). reflexivity. }
    rewrite S, file_intro. unfold info_header. set (j := (k - 16)%nat). assert (Lj : zlen (firstn j (le 4 (zlen e) ++ e)) = Z.of_nat j) by (unfold zlen; rewrite firstn_length_le; [reflexivity|rewrite app_length; cbn [le length]; lia]). rewrite Lj.
    destruct (Z.ltb_spec (Z.of_nat j) 4) as [|J]; [reflexivity|]. assert (S2 : firstn j (le 4 (zlen e) ++ e) = (le 4 (zlen e) ++ firstn (j - 4) e)%list). { rewrite firstn_app. rewrite (firstn_all2 (le 4 (zlen e))) by (cbn [le length]; lia). reflexivity. }
    rewrite S2. assert (F4 : firstn 4 (le 4 (zlen e) ++ firstn (j - 4) e) = le 4 (zlen e)) by reflexivity. assert (K4 : skipn 4 (le 4 (zlen e) ++ firstn (j - 4) e) = firstn (j - 4) e) by reflexivity.
    assert (P : 0 <= zlen e) by (unfold zlen; lia). rewrite F4, K4, unle_le, to_int_small by (change (256 ^ Z.of_nat 4) with 4294967296; lia). destruct (Z.ltb_spec (zlen e) 0); [lia|]. rewrite R. cbn [orb negb].
    destruct (Z.ltb_spec (zlen (firstn (j - 4) e)) (zlen e)) as [|Q]; [reflexivity|]. unfold zlen in Q. rewrite firstn_length in Q. lia.
  Qed.
  Lemma header_negative opts argv oi files n a b c d rest : name_of argv oi = Some n -> octets [a; b; c; d] -> 128 <= d -> files n = Some (first16 ++ [a; b; c; d] ++ rest)%list -> info (start opts argv oi) files = Throw.
  Proof.
    intros N O D F. rewrite info_eq, N, F. change first16 with intro. rewrite file_intro. unfold info_header. destruct (Z.ltb_spec (zlen ([a; b; c; d] ++ rest)) 4) as [Q|_]; [unfold zlen in Q; rewrite app_length in Q; cbn [length] in Q; lia|].
    cbn [app firstn]. inversion O as [|? ? Ra O1]; subst. inversion O1 as [|? ? Rb O2]; subst. inversion O2 as [|? ? Rc O3]; subst. inversion O3 as [|? ? Rd O4]; subst.
    assert (T : to_int (unle [a; b; c; d]) < 0).
    { cbn [unle]. unfold to_int. set (x := a + _). assert (2147483648 <= x < 4294967296) by (unfold x; lia). rewrite <- (Z_mod_plus_full (x + 2147483648) (-1)). rewrite Z.mod_small by lia. lia. }
    apply Z.ltb_lt in T. rewrite T. reflexivity.
  Qed.
  Lemma unended opts argv oi (files : str -> option (list byte)) n (b : list byte) : name_of argv oi = Some n -> files n = Some b -> 16 <= zlen b -> ~ In 0 (firstn 16 b) -> info (start opts argv oi) files = UB.
  Proof.
    intros N F L Z. rewrite info_eq, N, F. unfold Info.info_file. destruct (Z.ltb_spec (zlen b) 16); [lia|]. destruct (cstring (firstn 16 b)) as [t|] eqn:E; [|reflexivity]. exfalso. apply Z. destruct (cstring_split _ _ E) as [r ->]. apply in_or_app. right. left. reflexivity.
  Qed.
End P.

(** * Files written by qdng *)
Section W.
  Variables D C : Type.
  Variable cls : D -> C.
  Variable ser : D -> list byte.
  Variable enc : header C -> list byte.
  Definition first_header (w : wf D) (more : bool) : header C := match w with Single _ d => mkH C more (Some (cls d)) (zlen (ser d)) | Multi _ _ => mkH C true None 4 end.
  Lemma write_grows w : forall more s s', write D C cls ser enc w more s = Ok s' -> exists t, o_bytes s' = (o_bytes s ++ t)%list.
  Proof.
    induction w as [d|l IH] using (wf_rect2 D); intros more s s' E.
    - injection E as <-. unfold put. cbn [o_bytes]. rewrite <- app_assoc. eexists. reflexivity.
    - rewrite write_multi in E. destruct (zlen l <? 1); [discriminate|].
      assert (G : forall s s', write_all D C cls ser enc more l s = Ok s' -> exists t, o_bytes s' = (o_bytes s ++ t)%list).
      { clear E s s'. induction IH as [|x t Hx _ IH]; intros s s' E; [injection E as <-; exists []; symmetry; apply app_nil_r|].
        cbn [write_all] in E. destruct (write _ _ _ _ _ _ _ s) as [s1| |] eqn:E1; try discriminate. cbn [bind] in E. destruct (Hx _ _ _ E1) as [t1 T1]. destruct (IH _ _ E) as [t2 T2]. exists (t1 ++ t2)%list. rewrite T2, T1. symmetry. apply app_assoc. }
      destruct (G _ _ E) as [t T]. rewrite T. unfold put. cbn [o_bytes]. rewrite <- !app_assoc. eexists. reflexivity.
  Qed.
  Lemma written_stream w more o : write D C cls ser enc w more fresh_out = Ok o -> exists rest, o_bytes o = stream_of (enc (first_header w more)) rest.
  Proof.
    destruct w as [d|l].
    - intros E. injection E as <-. exists (ser d). rewrite stream_eq. cbn [o_bytes fresh_out o_intro put app]. reflexivity.
    - rewrite write_multi. destruct (zlen l <? 1); [discriminate|]. intros E.
      assert (G : forall l more s s', write_all D C cls ser enc more l s = Ok s' -> exists t, o_bytes s' = (o_bytes s ++ t)%list).
      { clear. induction l as [|x t IH]; intros more s s' E; [injection E as <-; exists []; symmetry; apply app_nil_r|].
        cbn [write_all] in E. destruct (write _ _ _ _ _ _ _ s) as [s1| |] eqn:E1; try discriminate. cbn [bind] in E. destruct (write_grows _ _ _ _ E1) as [t1 T1]. destruct (IH _ _ _ E) as [t2 T2]. exists (t1 ++ t2)%list. rewrite T2, T1. symmetry. apply app_assoc. }
      destruct (G _ _ _ _ E) as [t T]. exists (le 4 (zlen l) ++ t)%list. rewrite T, stream_eq. cbn [first_header put o_bytes fresh_out o_intro app]. rewrite <- !app_assoc. reflexivity.
  Qed.
  Lemma written_shown (dec : list byte -> header C * bool) show room opts argv oi files n w more o :
    (forall h, dec (enc h) = (h, true)) -> (forall h, zlen (enc h) < 2147483648 /\ room (zlen (enc h)) = true) ->
    write D C cls ser enc w more fresh_out = Ok o -> name_of argv oi = Some n -> files n = Some (o_bytes o) ->
    info (header C) dec show room (start opts argv oi) files = Ok (show (first_header w more), Success).
  Proof.
    intros K L E N F. destruct (written_stream _ _ _ E) as [rest R]. rewrite R in F. destruct (L (first_header w more)) as [L1 L2]. rewrite (shown _ _ _ _ _ _ _ _ _ _ _ N F L1 L2), K. reflexivity.
  Qed.
End W.

(** * qds2qdi *)
Section Q.
  Variable parse : str -> outcome str.
  Variable may_write : str -> bool.
  Notation qds := (qds parse may_write).
  Definition out_name (n : str) : str := (n ++ lit "qdi")%list.
  Lemma out_other n : n <> out_name n.
  Proof. intros E. apply (f_equal (@length ascii)) in E. unfold out_name in E. rewrite app_length in E. cbn in E. lia. Qed.
  Lemma put_same s n v : put_file s n v n = Some v.
  Proof. unfold put_file. destruct (str_eq_dec n n); [reflexivity|contradiction]. Qed.
  Lemma put_other s n v m : m <> n -> put_file s n v m = s m.
  Proof. intros N. unfold put_file. destruct (str_eq_dec m n); [contradiction|reflexivity]. Qed.
  Lemma qds_eq opts argv oi s n f : present (start opts argv oi) "h"%char = false -> name_of argv oi = Some n -> s n = Some f -> may_write (out_name n) = true ->
    qds (start opts argv oi) s = match parse f with Ok t => Ok (put_file (put_file s (out_name n) []) (out_name n) t, Success) | Throw => Ok (put_file s (out_name n) [], Failure) | UB => UB end.
  Proof.
    intros P N F W. unfold Info.qds. rewrite start_check, P, start_name, N. unfold convert. rewrite F. fold (out_name n). rewrite W. cbn [negb]. rewrite put_other by apply out_other. rewrite F. destruct (parse f); reflexivity.
  Qed.
  Lemma translated opts argv oi s n f t : present (start opts argv oi) "h"%char = false -> name_of argv oi = Some n -> s n = Some f -> may_write (out_name n) = true -> parse f = Ok t ->
    exists s', qds (start opts argv oi) s = Ok (s', Success) /\ changed s s' (out_name n) t.
  Proof.
    intros P N F W T. rewrite (qds_eq _ _ _ _ _ _ P N F W), T. eexists. split; [reflexivity|]. split; [apply put_same|]. intros m M. rewrite !put_other by exact M. reflexivity.
  Qed.
  Lemma failed opts argv oi s n f : present (start opts argv oi) "h"%char = false -> name_of argv oi = Some n -> s n = Some f -> may_write (out_name n) = true -> parse f = Throw ->
    exists s', qds (start opts argv oi) s = Ok (s', Failure) /\ changed s s' (out_name n) [].
  Proof.
    intros P N F W T. rewrite (qds_eq _ _ _ _ _ _ P N F W), T. eexists. split; [reflexivity|]. split; [apply put_same|]. intros m M. apply put_other. exact M.
  Qed.
  Lemma unopened opts argv oi s n : present (start opts argv oi) "h"%char = false -> name_of argv oi = Some n -> s n = None \/ may_write (out_name n) = false -> qds (start opts argv oi) s = Ok (s, Failure).
  Proof.
    intros P N U. unfold Info.qds. rewrite start_check, P, start_name, N. unfold convert. destruct (s n); [|reflexivity]. destruct U as [U|U]; [discriminate|]. fold (out_name n). rewrite U. reflexivity.
  Qed.
  Lemma idle opts argv oi s : present (start opts argv oi) "h"%char = true \/ name_of argv oi = None -> qds (start opts argv oi) s = Ok (s, Success).
  Proof.
    intros U. unfold Info.qds. rewrite start_check, start_name. destruct (present _ _); [reflexivity|]. destruct U as [U|U]; [discriminate|]. rewrite U. reflexivity.
  Qed.
  Lemma qds_success opts argv oi s s' n : present (start opts argv oi) "h"%char = false -> name_of argv oi = Some n -> qds (start opts argv oi) s = Ok (s', Success) ->
    exists f t, s n = Some f /\ parse f = Ok t /\ changed s s' (out_name n) t.
  Proof.
    intros P N E. destruct (s n) as [f|] eqn:F; [|rewrite (unopened _ _ _ _ _ P N (or_introl F)) in E; discriminate]. destruct (may_write (out_name n)) eqn:W; [|rewrite (unopened _ _ _ _ _ P N (or_intror W)) in E; discriminate].
    exists f. destruct (parse f) as [t| |] eqn:T.
    - exists t. split; [reflexivity|]. split; [reflexivity|]. destruct (translated _ _ _ _ _ _ _ P N F W T) as (s2 & E2 & C). rewrite E in E2. injection E2 as <-. exact C.
    - destruct (failed _ _ _ _ _ _ P N F W T) as (s2 & E2 & _). rewrite E in E2. discriminate.
    - rewrite (qds_eq _ _ _ _ _ _ P N F W), T in E. discriminate.
  Qed.
End Q.
