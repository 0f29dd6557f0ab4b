From Coq Require Import Ascii String List NArith ZArith Lia Bool Arith.
From Verif Require Import Base Arrays Algebra Ordered Model.Params Model.Getopt Model.RawFile Model.Qdz Spec.Params Spec.Getopt Spec.Qdz Proofs.Params Proofs.Getopt Proofs.RawFile.
Import ListNotations.
Open Scope Z_scope.

(** ** The command line *)
Lemma cmd_setup : setup cmdline.
Proof. unfold cmdline. apply s_help_par, s_help_par, s_help_par, s_help, s_help, s_new. Qed.
Lemma cmd_letters c : In c (map fst (helps cmdline)) -> c = "h"%char \/ c = "d"%char \/ c = "s"%char \/ c = "t"%char \/ c = "l"%char \/ c = "m"%char.
Proof. vm_compute. intuition. Qed.
Lemma cmd_checked c : ~ checked cmdline c.
Proof. intros (I & H). apply cmd_letters in I. destruct I as [-> |[-> |[-> |[-> |[-> | ->]]]]]; destruct H as [[A B]|[A B]]; vm_compute in A, B; congruence. Qed.
Lemma cmd_flag c : ~ flag_with_default cmdline c.
Proof. intros (I & A & B). apply cmd_letters in I. destruct I as [-> |[-> |[-> |[-> |[-> | ->]]]]]; vm_compute in A, B; congruence. Qed.
Lemma text_fun g opts c s t : option_text g opts c s -> option_text g opts c t -> s = t.
Proof.
  intros [(v & L & N & ->)|(D & ->)] [(w & L' & N' & ->)|(D' & ->)]; auto.
  - eapply last_fun; eassumption.
  - destruct D' as [L'|G]; [|destruct (G (last_given _ _ _ L))]. destruct (N (last_fun _ _ _ _ L L')).
  - destruct D as [L|G]; [|destruct (G (last_given _ _ _ L'))]. destruct (N' (last_fun _ _ _ _ L' L)).
Qed.
Definition parsed (opts : list (ascii * str)) (argv : list str) (oi : nat) : gopt := fst (check_options (parse_args cmdline opts argv oi)).
Lemma parsed_qrun opts argv oi : parsed opts argv oi = qrun (parse_args cmdline opts argv oi) [QCheck].
Proof. reflexivity. Qed.
Lemma shown opts argv oi c : present (parsed opts argv oi) c = true <-> given opts c.
Proof.
  rewrite parsed_qrun. destruct (presence cmdline opts argv oi [QCheck] c cmd_setup) as [A B]. split; [|exact A].
  intros H. destruct (B H) as [G|[(q & [<-|[]] & [E|[E|[o E]]])|[_ G]]]; [exact G|discriminate|discriminate|discriminate|destruct (cmd_checked c G)].
Qed.
Lemma shown_false opts argv oi c : ~ given opts c -> present (parsed opts argv oi) c = false.
Proof. intros N. destruct (present (parsed opts argv oi) c) eqn:E; [|reflexivity]. apply shown in E. contradiction. Qed.
Lemma text_at opts argv oi qs c s : option_text cmdline opts c s -> snd (get_string (qrun (parse_args cmdline opts argv oi) qs) c) = s.
Proof. intros H. eapply text_fun; [|exact H]. apply text_stable; [apply cmd_setup|]. intros [_ G]. exact (cmd_flag c G). Qed.
Lemma has_text opts c : exists s, option_text cmdline opts c s.
Proof. eexists. apply (text_stable cmdline opts [] 0%nat [] c cmd_setup). intros [[] _]. Qed.
Lemma rest_name opts argv oi : non_option (parsed opts argv oi) 0 = nth_error (skipn oi argv) 0.
Proof.
  rewrite non_option_spec. unfold parsed. destruct (ce_same _ _ _ (check_eff_all (parse_args cmdline opts argv oi))) as (_ & _ & _ & _ & A & O). rewrite A, O. reflexivity.
Qed.

Section Q.
  Variable F : ofld.
  Variables V R : Type.
  Variable reduce : F -> V -> R.
  Variable restore : R -> V.
  Variable scan : str -> option F.
  Variable open : str -> bool.
  Notation disk := (list (str * content V R)).
  Notation settings := (settings scan).
  Notation turn := (turn reduce restore open).
  Notation rest := (rest reduce restore open).
  Notation convert := (convert reduce restore open).
  Notation qdz := (qdz reduce restore scan open).
  Notation holds := (holds restore).
  Notation readable := (readable restore).
  Notation converted := (converted reduce restore).
  Notation request := (request scan).
  Notation refused := (refused scan).

  Lemma settings_eq opts argv oi T L M : option_text cmdline opts "t"%char T -> option_text cmdline opts "l"%char L -> option_text cmdline opts "m"%char M ->
    settings (parsed opts argv oi) =
    match scan T with
    | None => UB
    | Some tol => match ocmp c1 tol with
      | inleft (left _) => Throw
      | _ => let* l := scan_int L in
        match l with None => UB | Some level =>
          if (level <? 1) || (9 <? level) then Throw else
          if str_eqb M (lit "z") then Ok (mkSet (oabs tol) level Zlib) else if str_eqb M (lit "j") then Ok (mkSet (oabs tol) level Bzip) else Throw
        end
      end
    end.
  Proof.
    intros HT HL HM. unfold settings.
    destruct (get_string (parsed opts argv oi) "t"%char) as [g1 t] eqn:E1.
    assert (G1 : g1 = qrun (parse_args cmdline opts argv oi) [QCheck; QString "t"%char]) by (change g1 with (fst (g1, t)); rewrite <- E1; reflexivity).
    assert (t = T). { change t with (snd (g1, t)). rewrite <- E1, parsed_qrun. apply text_at, HT. } subst t.
    destruct (scan T) as [tol|]; [|reflexivity].
    destruct (get_string g1 "l"%char) as [g2 l] eqn:E2.
    assert (G2 : g2 = qrun (parse_args cmdline opts argv oi) [QCheck; QString "t"%char; QString "l"%char]) by (change g2 with (fst (g2, l)); rewrite <- E2, G1; reflexivity).
    assert (l = L). { change l with (snd (g2, l)). rewrite <- E2, G1. apply text_at, HL. } subst l.
    destruct (get_string g2 "m"%char) as [g3 m] eqn:E3.
    assert (m = M). { change m with (snd (g3, m)). rewrite <- E3, G2. apply text_at, HM. } subst m. reflexivity.
  Qed.
  Lemma settings_ok opts argv oi tol level m : numbers scan opts tol level -> ~ olt c1 tol -> 1 <= level <= 9 -> option_text cmdline opts "m"%char m -> m = lit "z" \/ m = lit "j" ->
    exists k, k <> Uncompressed /\ settings (parsed opts argv oi) = Ok (mkSet (oabs tol) level k).
  Proof.
    intros ((T & HT & ST) & (L & HL & BL & IL)) NT Lv HM Mz. rewrite (settings_eq opts argv oi T L m HT HL HM), ST.
    rewrite (scan_int_begins _ _ BL), (proj2 (in_int_iff level) IL). cbn [bind].
    assert (E : (level <? 1) || (9 <? level) = false) by (destruct (Z.ltb_spec level 1), (Z.ltb_spec 9 level); try reflexivity; lia). rewrite E.
    destruct (ocmp c1 tol) as [[H|H]|H]; [contradiction| |]; (destruct Mz as [-> | ->]; eexists; (split; [|reflexivity]); discriminate).
  Qed.
  Lemma settings_no opts argv oi : refused opts -> settings (parsed opts argv oi) = Throw.
  Proof.
    destruct (has_text opts "t"%char) as [T HT], (has_text opts "l"%char) as [L HL], (has_text opts "m"%char) as [M HM].
    intros H. rewrite (settings_eq opts argv oi T L M HT HL HM).
    destruct H as [t tol _ Ht St Lt|tol level _ ((t & Ht & St) & (l & Hl & Bl & Il)) Nl|tol level m _ ((t & Ht & St) & (l & Hl & Bl & Il)) Hm Nz Nj];
      rewrite (text_fun _ _ _ _ _ HT Ht), St.
    - destruct (ocmp c1 tol) as [[H|H]|H]; [reflexivity| |].
      + rewrite H in Lt. destruct (olt_irr _ _ Lt).
      + destruct (olt_irr _ _ (olt_tr _ _ _ _ Lt H)).
    - destruct (ocmp c1 tol) as [[H|H]|H]; [reflexivity| |];
      rewrite (text_fun _ _ _ _ _ HL Hl), (scan_int_begins _ _ Bl), (proj2 (in_int_iff level) Il); cbn [bind];
      (assert (E : (level <? 1) || (9 <? level) = true) by (destruct (Z.ltb_spec level 1), (Z.ltb_spec 9 level); try reflexivity; lia); rewrite E; reflexivity).
    - destruct (ocmp c1 tol) as [[H|H]|H]; [reflexivity| |];
      rewrite (text_fun _ _ _ _ _ HL Hl), (scan_int_begins _ _ Bl), (proj2 (in_int_iff level) Il); cbn [bind];
      (destruct ((level <? 1) || (9 <? level)); [reflexivity|]);
      rewrite (text_fun _ _ _ _ _ HM Hm); (destruct (str_eqb m (lit "z")) eqn:Ez; [apply str_eqb_true in Ez; contradiction|]); (destruct (str_eqb m (lit "j")) eqn:Ej; [apply str_eqb_true in Ej; contradiction|reflexivity]).
  Qed.

  (** ** Files *)
  Definition ask (o : option (setting F)) : option F := option_map s_tol o.
  Definition packs (o : option (setting F)) : Prop := forall s, o = Some s -> s_method s <> Uncompressed.
  Lemma readable_dec st n : readable st n \/ ~ readable st n.
  Proof.
    destruct (mget scmp st n) as [[v|m r|]|] eqn:E.
    - left. exists v. left. exact E.
    - left. exists (restore r). right. exists m, r. auto.
    - right. intros (v & [H|(m & r & H & _)]); rewrite E in H; discriminate.
    - right. intros (v & [H|(m & r & H & _)]); rewrite E in H; discriminate.
  Qed.
  Lemma holds_fun st n v w : holds st n v -> holds st n w -> v = w.
  Proof. intros [A|(m & r & A & <-)] [B|(m' & r' & B & <-)]; rewrite A in B; congruence. Qed.
  Lemma turn_no o f st : ~ readable st (data_name f) -> turn o f st = Throw.
  Proof.
    intros N. unfold turn, fetch. destruct (mget scmp st (data_name f)) as [[v|m r|]|] eqn:E; try reflexivity.
    - destruct N. exists v. left. exact E.
    - destruct N. exists (restore r). right. exists m, r. auto.
  Qed.
  Lemma at_same f g : next f = Ok g -> at_ g (f_count f) = f.
  Proof.
    unfold next. destruct f as [n s q c i k]. cbn. destruct q; [|intros H; injection H as <-; reflexivity].
    destruct ((c + i <? -2147483648) || (2147483647 <? c + i)); [discriminate|]. intros H. injection H as <-. reflexivity.
  Qed.
  Lemma turn_yes o f g st v : packs o -> holds st (data_name f) v -> next f = Ok g ->
    turn o f st = if open (data_name f) then Ok (g, mset scmp st (data_name f) (stored reduce (ask o) v)) else UB.
  Proof.
    intros P H Ng. assert (Fe : fetch restore f st = Ok (g, v)).
    { unfold fetch. destruct H as [E|(m & r & E & <-)]; rewrite E, Ng; reflexivity. }
    unfold turn. rewrite Fe. cbn [bind fst snd]. rewrite (at_same _ _ Ng). unfold deposit. destruct (open (data_name f)); [|reflexivity]. cbn [negb]. rewrite Ng. cbn [bind].
    destruct o as [s|]; [|reflexivity]. cbn [ask option_map stored]. specialize (P s eq_refl). destruct (s_method s); [contradiction|reflexivity|reflexivity].
  Qed.
  Definition fat (fname : str) (k : Z) : file := mkFile fname (lit ".wf") true k 1 Uncompressed.
  Lemma fat_name fname k : data_name (fat fname k) = elem_name fname k. Proof. reflexivity. Qed.
  Lemma elem_inj fname a b : elem_name fname a = elem_name fname b -> a = b.
  Proof. intros E. apply (data_name_inj (fat fname a) (fat fname b)); auto. Qed.
  Lemma fat_next fname k : -2147483648 <= k < 2147483647 -> next (fat fname k) = Ok (fat fname (k + 1)).
  Proof. intros H. unfold next, fat. cbn. destruct (Z.ltb_spec (k + 1) (-2147483648)), (Z.ltb_spec 2147483647 (k + 1)); try lia. reflexivity. Qed.
  Lemma holds_set st n c m v : n <> m -> (holds (mset scmp st n c) m v <-> holds st m v).
  Proof. intros N. unfold holds, Spec.Qdz.holds. rewrite mget_mset_s. destruct (str_eq_dec m n) as [E|_]; [congruence|reflexivity]. Qed.
  (** elements a ... a + n - 1 *)
  Lemma rest_run o fname : packs o -> forall n a st fuel, 0 <= a -> a + Z.of_nat n <= 2147483647 ->
    (forall k, a <= k < a + Z.of_nat n -> readable st (elem_name fname k) /\ open (elem_name fname k) = true) -> ~ readable st (elem_name fname (a + Z.of_nat n)) -> (n < fuel)%nat ->
    exists st', rest fuel o (fat fname a) st = Some (Ok st') /\ converted (ask o) st st' (fun x => exists k, a <= k < a + Z.of_nat n /\ x = elem_name fname k).
  Proof.
    intros P. induction n as [|n IH]; intros a st fuel A B H N Fu; (destruct fuel as [|fuel]; [lia|]).
    - cbn [Qdz.rest]. rewrite turn_no by (rewrite fat_name; replace a with (a + Z.of_nat 0) by lia; exact N). exists st. split; [reflexivity|]. split; [intros x (k & K & _); lia|reflexivity].
    - cbn [Qdz.rest]. destruct (H a) as [(v & Hv) O]; [lia|]. rewrite (turn_yes o (fat fname a) _ st v P Hv (fat_next fname a ltac:(lia))). rewrite fat_name, O.
      set (st1 := mset scmp st (elem_name fname a) (stored reduce (ask o) v)).
      assert (Rd : forall k, k <> a -> (readable st1 (elem_name fname k) <-> readable st (elem_name fname k))).
      { intros k K. unfold readable, Spec.Qdz.readable, st1. split; intros (w & W); exists w; apply (holds_set st (elem_name fname a) (stored reduce (ask o) v) (elem_name fname k) w) in W; auto; intros E; apply elem_inj in E; lia. }
      destruct (IH (a + 1) st1 fuel) as (st' & E & C1 & C2); [lia|lia| | |lia|].
      + intros k K. destruct (H k) as [Q1 Q2]; [lia|]. split; [apply Rd; [lia|exact Q1]|exact Q2].
      + replace (a + 1 + Z.of_nat n) with (a + Z.of_nat (S n)) by lia. intros Q. apply Rd in Q; [contradiction|lia].
      + exists st'. split; [exact E|]. split.
        * intros x (k & K & ->). destruct (Z.eq_dec k a) as [-> |Ne].
          -- exists v. split; [exact Hv|]. rewrite C2; [unfold st1; rewrite mget_mset_s; destruct (str_eq_dec (elem_name fname a) (elem_name fname a)); [reflexivity|contradiction]|].
             intros (k & K' & E'). apply elem_inj in E'. lia.
          -- destruct (C1 (elem_name fname k)) as (w & W & G); [exists k; split; [lia|reflexivity]|]. exists w. split; [|exact G].
             apply (holds_set st (elem_name fname a) (stored reduce (ask o) v) (elem_name fname k) w) in W; auto. intros E'. apply elem_inj in E'. lia.
        * intros x Nx. rewrite C2.
          -- unfold st1. rewrite mget_mset_s. destruct (str_eq_dec x (elem_name fname a)) as [-> |_]; [|reflexivity]. destruct Nx. exists a. split; [lia|reflexivity].
          -- intros (k & K & ->). apply Nx. exists k. split; [lia|reflexivity].
  Qed.
  (** every disk has an end of every series: the names of the readable elements are different keys *)
  Lemma run_exists (st : disk) fname : exists n, (n <= length st)%nat /\ run_of restore st fname (Z.of_nat n).
  Proof.
    assert (Q : forall n, (forall k, 0 <= k < Z.of_nat n -> readable st (elem_name fname k)) \/ exists m, (m < n)%nat /\ run_of restore st fname (Z.of_nat m)).
    { induction n as [|n [IH|(m & M & H)]].
      - left. intros k K. lia.
      - destruct (readable_dec st (elem_name fname (Z.of_nat n))) as [Y|N].
        + left. intros k K. destruct (Z.eq_dec k (Z.of_nat n)) as [-> |]; [exact Y|apply IH; lia].
        + right. exists n. split; [lia|]. split; assumption.
      - right. exists m. split; [lia|exact H]. }
    destruct (Q (S (length st))) as [A|(m & M & H)]; [exfalso|exists m; split; [lia|exact H]].
    assert (I : incl (map (fun k => elem_name fname (Z.of_nat k)) (seq 0 (S (length st)))) (keys st)).
    { intros x X. apply in_map_iff in X. destruct X as (k & <- & K). apply in_seq in K. destruct (A (Z.of_nat k)) as (v & Hv); [lia|].
      destruct Hv as [E|(m & r & E & _)]; apply mget_in in E; try apply scmp_eq; apply (in_map fst) in E; exact E. }
    apply NoDup_incl_length in I.
    - rewrite map_length, seq_length in I. unfold keys in I. rewrite map_length in I. lia.
    - apply FinFun.Injective_map_NoDup; [|apply seq_NoDup]. intros a b E. apply elem_inj in E. lia.
  Qed.

  (** ** The program *)
  Lemma request_setting opts argv oi o : request opts o -> exists s, packs s /\ ask s = o /\
    (if present (parsed opts argv oi) "d"%char then Ok None else let* s := settings (parsed opts argv oi) in Ok (Some s)) = Ok s.
  Proof.
    intros [G|tol level m Nd Nm Nt Lv Hm Mz].
    - exists None. split; [discriminate|]. split; [reflexivity|]. rewrite (proj2 (shown opts argv oi "d"%char) G). reflexivity.
    - destruct (settings_ok opts argv oi tol level m Nm Nt Lv Hm Mz) as (k & K & E). exists (Some (mkSet (oabs tol) level k)).
      split; [intros s Es; injection Es as <-; exact K|]. split; [reflexivity|]. rewrite (shown_false _ _ _ _ Nd), E. reflexivity.
  Qed.
  Lemma qdz_asked fuel opts argv oi fname st s : asked opts argv oi fname ->
    (if present (parsed opts argv oi) "d"%char then Ok None else let* s := settings (parsed opts argv oi) in Ok (Some s)) = Ok s ->
    qdz fuel opts argv oi st = match convert fuel s fname (present (parsed opts argv oi) "s"%char) st with
                               | None => None | Some (Ok st) => Some (Ok (st, true)) | Some Throw => Some (Ok (st, false)) | Some UB => Some UB end.
  Proof.
    intros [Nh Nm] E. unfold qdz. fold (parsed opts argv oi). rewrite (shown_false _ _ _ _ Nh), rest_name, Nm, E. reflexivity.
  Qed.
  Lemma single_run fuel opts argv oi fname st o : asked opts argv oi fname -> request opts o -> ~ given opts "s"%char -> readable st (single_name fname) ->
    if open (single_name fname) then exists st', qdz fuel opts argv oi st = Some (Ok (st', true)) /\ converted o st st' (eq (single_name fname)) else qdz fuel opts argv oi st = Some UB.
  Proof.
    intros A Rq Ns (v & Hv). destruct (request_setting opts argv oi o Rq) as (s & P & <- & E). rewrite (qdz_asked fuel opts argv oi fname st s A E), (shown_false _ _ _ _ Ns).
    unfold convert. set (f := mkFile fname (lit ".wf") false 0 1 Uncompressed). rewrite (turn_yes s f f st v P Hv eq_refl). change (data_name f) with (single_name fname).
    destruct (open (single_name fname)); [|reflexivity]. eexists. split; [reflexivity|]. split.
    - intros n <-. exists v. split; [exact Hv|]. rewrite mget_mset_s. destruct (str_eq_dec (single_name fname) (single_name fname)); [reflexivity|contradiction].
    - intros n Nn. rewrite mget_mset_s. destruct (str_eq_dec n (single_name fname)) as [-> |]; [contradiction|reflexivity].
  Qed.
  Lemma first_no fuel opts argv oi fname st o : asked opts argv oi fname -> request opts o ->
    (given opts "s"%char -> ~ readable st (elem_name fname 0)) -> (~ given opts "s"%char -> ~ readable st (single_name fname)) -> qdz fuel opts argv oi st = Some (Ok (st, false)).
  Proof.
    intros A Rq Y N. destruct (request_setting opts argv oi o Rq) as (s & P & <- & E). rewrite (qdz_asked fuel opts argv oi fname st s A E). unfold convert.
    destruct (given_dec opts "s"%char) as [G|G].
    - rewrite (proj2 (shown opts argv oi "s"%char) G), turn_no; [reflexivity|]. exact (Y G).
    - rewrite (shown_false _ _ _ _ G), turn_no; [reflexivity|]. exact (N G).
  Qed.
  Lemma series_run fuel opts argv oi fname st o n : asked opts argv oi fname -> request opts o -> given opts "s"%char -> run_of restore st fname (Z.of_nat n) ->
    (0 < n)%nat -> Z.of_nat n <= 2147483647 -> (n <= fuel)%nat -> (forall k, 0 <= k < Z.of_nat n -> open (elem_name fname k) = true) ->
    exists st', qdz fuel opts argv oi st = Some (Ok (st', true)) /\ converted o st st' (elements fname (Z.of_nat n)).
  Proof.
    intros A Rq G (Rd & Nr) N0 Nb Fu Op. destruct (request_setting opts argv oi o Rq) as (s & P & <- & E). rewrite (qdz_asked fuel opts argv oi fname st s A E), (proj2 (shown opts argv oi "s"%char) G).
    destruct (rest_run s fname P n 0 st (S fuel)) as (st' & Er & C); [lia|lia| |exact Nr|lia|].
    - intros k K. split; [apply Rd|apply Op]; lia.
    - cbn [Qdz.rest] in Er. unfold convert. change (mkFile fname (lit ".wf") true 0 1 Uncompressed) with (fat fname 0).
      destruct (Rd 0) as (v & Hv); [lia|]. rewrite (turn_yes s (fat fname 0) _ st v P Hv (fat_next fname 0 ltac:(lia))) in *. rewrite fat_name in *. rewrite Op in * by lia.
      rewrite Er. exists st'. split; [reflexivity|]. exact C.
  Qed.
  Lemma refused_run fuel opts argv oi fname st : asked opts argv oi fname -> refused opts -> qdz fuel opts argv oi st = Some (Ok (st, false)).
  Proof.
    intros [Nh Nm] Rf. pose proof (settings_no opts argv oi Rf) as E. unfold qdz. fold (parsed opts argv oi). rewrite (shown_false _ _ _ _ Nh), rest_name, Nm.
    assert (Nd : ~ given opts "d"%char) by (destruct Rf; assumption). rewrite (shown_false _ _ _ _ Nd), E. reflexivity.
  Qed.
  Lemma not_asked fuel opts argv oi st : given opts "h"%char \/ nth_error (skipn oi argv) 0 = None -> qdz fuel opts argv oi st = Some (Ok (st, true)).
  Proof.
    intros H. unfold qdz. fold (parsed opts argv oi). destruct (given_dec opts "h"%char) as [G|G].
    - rewrite (proj2 (shown opts argv oi "h"%char) G). reflexivity.
    - rewrite (shown_false _ _ _ _ G), rest_name. destruct H as [H| ->]; [contradiction|reflexivity].
  Qed.
  Lemma no_number fuel opts argv oi fname st t : asked opts argv oi fname -> ~ given opts "d"%char -> option_text cmdline opts "t"%char t -> scan t = None -> qdz fuel opts argv oi st = Some UB.
  Proof.
    intros [Nh Nm] Nd Ht Sc. destruct (has_text opts "l"%char) as [L HL], (has_text opts "m"%char) as [M HM].
    unfold qdz. fold (parsed opts argv oi). rewrite (shown_false _ _ _ _ Nh), rest_name, Nm, (shown_false _ _ _ _ Nd), (settings_eq opts argv oi t L M Ht HL HM), Sc. reflexivity.
  Qed.
  (** the program ends for every disk with fewer than 2^31 files *)
  Lemma rest_ends o fname : forall n a st, 0 <= a -> a + Z.of_nat n <= 2147483647 ->
    (forall k, a <= k < a + Z.of_nat n -> readable st (elem_name fname k)) -> ~ readable st (elem_name fname (a + Z.of_nat n)) -> forall fuel, (n < fuel)%nat -> packs o -> rest fuel o (fat fname a) st <> None.
  Proof.
    induction n as [|n IH]; intros a st A B H N fuel Fu P; (destruct fuel as [|fuel]; [lia|]); cbn [Qdz.rest].
    - rewrite turn_no by (rewrite fat_name; replace a with (a + Z.of_nat 0) by lia; exact N). discriminate.
    - destruct (H a) as (v & Hv); [lia|]. rewrite (turn_yes o (fat fname a) _ st v P Hv (fat_next fname a ltac:(lia))). rewrite fat_name. destruct (open (elem_name fname a)); [|discriminate].
      set (st1 := mset scmp st (elem_name fname a) (stored reduce (ask o) v)).
      assert (Rd : forall k, k <> a -> (readable st1 (elem_name fname k) <-> readable st (elem_name fname k))).
      { intros k K. unfold readable, Spec.Qdz.readable, st1. split; intros (w & W); exists w; apply (holds_set st (elem_name fname a) (stored reduce (ask o) v) (elem_name fname k) w) in W; auto; intros E; apply elem_inj in E; lia. }
      apply IH; [lia|lia| | |lia|exact P].
      + intros k K. apply Rd; [lia|]. apply H. lia.
      + replace (a + 1 + Z.of_nat n) with (a + Z.of_nat (S n)) by lia. intros Q. apply Rd in Q; [contradiction|lia].
  Qed.
  Lemma settings_packs g s : settings g = Ok s -> s_method s <> Uncompressed.
  Proof.
    unfold settings. destruct (get_string g "t"%char) as [g1 t]. destruct (scan t) as [tol|]; [|discriminate]. destruct (get_string g1 "l"%char) as [g2 l]. destruct (get_string g2 "m"%char) as [g3 m].
    destruct (ocmp c1 tol) as [[H|H]|H]; [discriminate| |]; (destruct (scan_int l) as [[level|]| |]; cbn [bind]; try discriminate; destruct ((level <? 1) || (9 <? level)); [discriminate|];
    destruct (str_eqb m (lit "z")); [intros E; injection E as <-; discriminate|]; destruct (str_eqb m (lit "j")); [intros E; injection E as <-; discriminate|discriminate]).
  Qed.
  Lemma ends opts argv oi st fuel : (length st <= fuel)%nat -> Z.of_nat (length st) <= 2147483647 -> qdz fuel opts argv oi st <> None.
  Proof.
    intros Fu B. unfold qdz. fold (parsed opts argv oi). destruct (present (parsed opts argv oi) "h"%char); [discriminate|].
    destruct (non_option (parsed opts argv oi) 0) as [fname|]; [|discriminate].
    destruct (if present (parsed opts argv oi) "d"%char then Ok None else _) as [o| |] eqn:E; try discriminate.
    assert (P : packs o).
    { destruct (present (parsed opts argv oi) "d"%char); [injection E as <-; discriminate|]. destruct (settings (parsed opts argv oi)) as [s| |] eqn:Es; cbn [bind] in E; try discriminate.
      injection E as <-. intros s' Q. injection Q as <-. exact (settings_packs _ _ Es). }
    destruct (convert fuel o fname (present (parsed opts argv oi) "s"%char) st) as [[d| |]|] eqn:Ec; try discriminate. exfalso. revert Ec.
    unfold convert. destruct (present (parsed opts argv oi) "s"%char).
    - change (mkFile fname (lit ".wf") true 0 1 Uncompressed) with (fat fname 0). destruct (run_exists st fname) as (n & Nl & Rd & Nr).
      pose proof (rest_ends o fname n 0 st ltac:(lia) ltac:(lia) (fun k K => Rd k ltac:(lia)) Nr (S fuel) ltac:(lia) P) as Q. cbn [Qdz.rest] in Q.
      destruct (turn o (fat fname 0) st) as [[g st1]| |]; [exact Q|discriminate|discriminate].
    - destruct (turn o (mkFile fname (lit ".wf") false 0 1 Uncompressed) st) as [[g st1]| |]; discriminate.
  Qed.
  (** ** What is read afterwards *)
  Lemma read_back o st st' names n v : converted o st st' names -> holds st n v -> names n ->
    holds st' n (match o with None => v | Some tol => restore (reduce tol v) end).
  Proof.
    intros [A _] H Nn. destruct (A n Nn) as (w & W & E). rewrite (holds_fun _ _ _ _ H W). destruct o as [tol|]; [right; exists Zlib, (reduce tol w); split; [exact E|reflexivity]|left; exact E].
  Qed.
  Lemma lossless st st' names n v : converted None st st' names -> (names n \/ ~ names n) -> (holds st n v <-> holds st' n v).
  Proof.
    intros C [Y|N].
    - split; intros H; [apply (read_back None st st' names n v C H Y)|]. destruct C as [A _]. destruct (A n Y) as (w & W & E).
      assert (K : holds st' n w) by (left; exact E). rewrite (holds_fun _ _ _ _ H K). exact W.
    - unfold holds, Spec.Qdz.holds. destruct C as [_ B]. rewrite (B n N). reflexivity.
  Qed.

  Lemma turn_ext s s' f st : packs s -> packs s' -> ask s = ask s' -> turn s f st = turn s' f st.
  Proof.
    intros P P' E. unfold turn. destruct (fetch restore f st) as [[g v]| |]; try reflexivity. cbn [bind]. unfold deposit. cbn [fst snd].
    destruct (negb (open (data_name (at_ g (f_count f))))); [reflexivity|].
    destruct s as [s|], s' as [s'|]; cbn in E; try discriminate; [|reflexivity]. injection E as <-. specialize (P s eq_refl). specialize (P' s' eq_refl).
    destruct (s_method s), (s_method s'); try contradiction; reflexivity.
  Qed.
  Lemma rest_ext s s' : packs s -> packs s' -> ask s = ask s' -> forall n f st, rest n s f st = rest n s' f st.
  Proof. intros P P' E. induction n as [|n IH]; intros f st; [reflexivity|]. cbn [Qdz.rest]. rewrite (turn_ext s s' f st P P' E). destruct (turn s' f st) as [[g d]| |]; try reflexivity. apply IH. Qed.
  Lemma same_request fuel opts opts' argv oi argv' oi' fname st o : asked opts argv oi fname -> asked opts' argv' oi' fname -> request opts o -> request opts' o ->
    (given opts "s"%char <-> given opts' "s"%char) -> qdz fuel opts argv oi st = qdz fuel opts' argv' oi' st.
  Proof.
    intros A A' Rq Rq' S. destruct (request_setting opts argv oi o Rq) as (s & P & <- & E), (request_setting opts' argv' oi' _ Rq') as (s' & P' & Es & E').
    rewrite (qdz_asked fuel opts argv oi fname st s A E), (qdz_asked fuel opts' argv' oi' fname st s' A' E').
    assert (Eq : present (parsed opts argv oi) "s"%char = present (parsed opts' argv' oi') "s"%char).
    { destruct (given_dec opts "s"%char) as [G|G].
      - rewrite (proj2 (shown opts argv oi _) G), (proj2 (shown opts' argv' oi' _) (proj1 S G)). reflexivity.
      - rewrite (shown_false _ _ _ _ G). symmetry. apply shown_false. tauto. }
    rewrite Eq. unfold convert. rewrite (turn_ext s s' _ _ P P' (eq_sym Es)). destruct (turn s' _ st) as [[g d]| |]; try reflexivity.
    rewrite (rest_ext s s' P P' (eq_sym Es)). reflexivity.
  Qed.
End Q.
