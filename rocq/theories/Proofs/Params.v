From Coq Require Import Ascii String List NArith ZArith Lia Bool Arith.
From Verif Require Import Base Model.Params Spec.Params.
Import ListNotations.

(** * trim *)
Lemma is_blank_iff c : is_blank c = true <-> blank c.
Proof. unfold is_blank, blank, tab. rewrite orb_true_iff, !Ascii.eqb_eq. tauto. Qed.
Lemma is_blank_false c : is_blank c = false <-> ~ blank c.
Proof. rewrite <- is_blank_iff. destruct (is_blank c); split; congruence. Qed.

Lemma find_first_some p s n : find_first p s = Some n ->
  exists a c t, s = a ++ c :: t /\ length a = n /\ Forall (fun x => p x = false) a /\ p c = true.
Proof.
  revert n; induction s as [|x s IH]; simpl; intros n H; [discriminate|].
  destruct (p x) eqn:E.
  - injection H as <-. exists [], x, s. auto.
  - destruct (find_first p s) as [m|] eqn:F; [|discriminate]. injection H as <-.
    destruct (IH m eq_refl) as (a & c & t & -> & <- & Ha & Hc).
    exists (x :: a), c, t. repeat split; auto.
Qed.
Lemma find_first_none p s : find_first p s = None -> Forall (fun x => p x = false) s.
Proof.
  induction s as [|x s IH]; simpl; [constructor|]. destruct (p x) eqn:E; [discriminate|].
  destruct (find_first p s); [discriminate|]. auto.
Qed.
Lemma find_last_some p s n : find_last p s = Some n ->
  exists a c t, s = a ++ c :: t /\ length a = n /\ Forall (fun x => p x = false) t /\ p c = true.
Proof.
  revert n; induction s as [|x s IH]; simpl; intros n H; [discriminate|].
  destruct (find_last p s) as [m|] eqn:F.
  - injection H as <-. destruct (IH m eq_refl) as (a & c & t & -> & <- & Ha & Hc).
    exists (x :: a), c, t. repeat split; auto.
  - destruct (p x) eqn:E; [|discriminate]. injection H as <-.
    exists [], x, s. repeat split; auto.
    clear -F. induction s as [|y s IH]; [constructor|]. simpl in F.
    destruct (find_last p s); [discriminate|]. destruct (p y) eqn:E; [discriminate|]. auto.
Qed.
Lemma find_last_none p s : find_last p s = None -> Forall (fun x => p x = false) s.
Proof.
  induction s as [|x s IH]; simpl; [constructor|].
  destruct (find_last p s); [discriminate|]. destruct (p x) eqn:E; [discriminate|]. auto.
Qed.

Lemma skipn_app_len {A} (a b : list A) : skipn (length a) (a ++ b) = b.
Proof. rewrite skipn_app, skipn_all, Nat.sub_diag. reflexivity. Qed.
Lemma firstn_app_len {A} (a b : list A) : firstn (length a) (a ++ b) = a.
Proof. rewrite firstn_app, firstn_all, Nat.sub_diag, firstn_O, app_nil_r. reflexivity. Qed.

Lemma negb_blank_Forall s : Forall (fun x => negb (is_blank x) = false) s -> Forall blank s.
Proof. apply Forall_impl. intros x H. apply is_blank_iff. destruct (is_blank x); [reflexivity|discriminate]. Qed.

(** left trimming when something non-blank exists *)
Lemma trim_left_spec s : ~ Forall blank s ->
  exists a c t, s = a ++ c :: t /\ Forall blank a /\ ~ blank c /\ trim_left s = c :: t.
Proof.
  intros H. unfold trim_left.
  destruct (find_first is_blank s) as [[|n]|] eqn:E.
  - destruct (find_first (fun c => negb (is_blank c)) s) as [p|] eqn:E2.
    + apply find_first_some in E2. destruct E2 as (a & c & t & -> & <- & Ha & Hc).
      exists a, c, t. rewrite skipn_app_len. repeat split; auto.
      * apply negb_blank_Forall; assumption.
      * apply is_blank_false. destruct (is_blank c); [discriminate|reflexivity].
    + exfalso. apply H. apply negb_blank_Forall, find_first_none, E2.
  - apply find_first_some in E. destruct E as ([|x a] & c & t & -> & Hl & Ha & Hc); [discriminate|].
    inversion Ha; subst. exists [], x, (a ++ c :: t). repeat split; auto. apply is_blank_false; assumption.
  - apply find_first_none in E. destruct s as [|x s]; [exfalso; apply H; constructor|].
    inversion E; subst. exists [], x, s. repeat split; auto. apply is_blank_false; assumption.
Qed.

Lemma trim_left_blank s : Forall blank s -> trim_left s = s.
Proof.
  intros H. unfold trim_left. destruct (find_first is_blank s) as [[|n]|]; try reflexivity.
  destruct (find_first (fun c => negb (is_blank c)) s) as [p|] eqn:E; [|reflexivity].
  apply find_first_some in E. destruct E as (a & c & t & -> & _ & _ & Hc).
  apply Forall_app in H. destruct H as [_ H]. inversion H as [|? ? Hb]; subst.
  apply is_blank_iff in Hb. rewrite Hb in Hc. discriminate.
Qed.

Lemma trim_right_spec c t : ~ blank c ->
  exists r b, c :: t = r ++ b /\ trim_right (c :: t) = r /\ Forall blank b /\
              (exists r', r = c :: r') /\ (forall x l, r = l ++ [x] -> ~ blank x).
Proof.
  intros Hc. unfold trim_right.
  destruct (find_last is_blank (c :: t)) as [[|n]|] eqn:E.
  - apply find_last_some in E. destruct E as ([|? ?] & x & u & E & Hl & Ha & Hx); [|discriminate].
    injection E as -> ->. apply is_blank_iff in Hx. tauto.
  - destruct (S n =? length (c :: t) - 1) eqn:E2.
    + apply Nat.eqb_eq in E2.
      destruct (find_last (fun c => negb (is_blank c)) (c :: t)) as [q|] eqn:E3.
      * apply find_last_some in E3. destruct E3 as (a & x & u & E3 & <- & Hu & Hx).
        rewrite E3. replace (firstn (length a + 1) (a ++ x :: u)) with (a ++ [x]).
        -- exists (a ++ [x]), u. rewrite <- app_assoc. repeat split; auto.
           ++ apply negb_blank_Forall; assumption.
           ++ destruct a as [|y a]; injection E3; intros; subst; eexists; reflexivity.
           ++ intros y l El. apply app_inj_tail in El. destruct El as [_ ->].
              apply is_blank_false. destruct (is_blank y); [discriminate|reflexivity].
        -- change (x :: u) with ([x] ++ u). rewrite app_assoc.
           replace (length a + 1) with (length (a ++ [x])) by (rewrite app_length; reflexivity).
           symmetry; apply firstn_app_len.
      * apply find_last_none in E3. apply negb_blank_Forall in E3. inversion E3; tauto.
    + apply Nat.eqb_neq in E2. exists (c :: t), []. rewrite app_nil_r. repeat split; auto; [eexists; reflexivity|].
      intros x l El Hx. apply find_last_some in E. destruct E as (a & y & u & E & Hl & Hu & Hy).
      rewrite E in El. destruct (@exists_last _ u) as (u' & z & ->).
      { intros ->. apply E2. rewrite E, app_length, Hl. simpl. lia. }
      rewrite app_comm_cons, app_assoc in El. apply app_inj_tail in El. destruct El as [_ ->].
      apply Forall_app in Hu. destruct Hu as [_ Hu]. inversion Hu as [|? ? Hz]; subst.
      apply is_blank_iff in Hx. congruence.
  - apply find_last_none in E. exists (c :: t), []. rewrite app_nil_r. repeat split; auto; [eexists; reflexivity|].
    intros x l El. rewrite El in E. apply Forall_app in E. destruct E as [_ E]. inversion E; subst.
    apply is_blank_false; assumption.
Qed.

Lemma trim_stripped s : ~ Forall blank s -> stripped s (trim s).
Proof.
  intros H. destruct (trim_left_spec s H) as (a & c & t & -> & Ha & Hc & Ht). unfold trim. rewrite Ht.
  destruct (trim_right_spec c t Hc) as (r & b & E & -> & Hb & (r' & ->) & Hlast).
  exists a, b. rewrite E. repeat split; auto.
  intros x u [= <- <-]. assumption.
Qed.

Lemma trim_short s : length s <= 1 -> stripped s (trim s).
Proof.
  destruct s as [|c [|d s]]; simpl; intros H; [| |lia].
  - exists [], []. repeat split; auto; [discriminate|]. intros x t E. destruct t; discriminate.
  - destruct (is_blank c) eqn:E.
    + assert (T : trim [c] = []).
      { unfold trim, trim_left. simpl. rewrite E. simpl. unfold trim_right; simpl. rewrite E. reflexivity. }
      rewrite T. exists [c], []. simpl. repeat split; auto.
      * constructor; auto. apply is_blank_iff; assumption.
      * discriminate.
      * intros x t E2. destruct t; discriminate.
    + apply trim_stripped. intros F. inversion F; subst. apply is_blank_false in E. tauto.
Qed.

Lemma find_last_blanks s : Forall blank s -> s <> [] -> find_last is_blank s = Some (length s - 1).
Proof.
  induction s as [|c [|d s] IH]; intros H Hn; [tauto| |].
  - inversion H as [|? ? Hb]; subst. apply is_blank_iff in Hb. simpl. rewrite Hb. reflexivity.
  - inversion H; subst. change (match find_last is_blank (d :: s) with Some n => Some (S n)
      | None => if is_blank c then Some 0 else None end = Some (length (c :: d :: s) - 1)).
    rewrite IH; [|assumption|discriminate]. simpl. f_equal. lia.
Qed.

Lemma trim_all_blank s : Forall blank s -> 2 <= length s -> trim s = s.
Proof.
  intros H Hl. unfold trim. rewrite trim_left_blank by assumption. unfold trim_right.
  rewrite find_last_blanks; [|assumption|destruct s; simpl in *; [lia|discriminate]].
  destruct (length s - 1) as [|n] eqn:E; [lia|]. rewrite Nat.eqb_refl.
  destruct (find_last (fun c => negb (is_blank c)) s) as [q|] eqn:E2; [|reflexivity].
  apply find_last_some in E2. destruct E2 as (a & c & t & -> & _ & _ & Hc).
  apply Forall_app in H. destruct H as [_ H]. inversion H as [|? ? Hb]; subst.
  apply is_blank_iff in Hb. rewrite Hb in Hc. discriminate.
Qed.

Lemma stripped_iff s : stripped s (trim s) <-> (~ Forall blank s \/ length s <= 1).
Proof.
  split.
  - intros H. destruct (Nat.le_gt_cases (length s) 1) as [L|L]; [right; assumption|].
    left. intros HF. rewrite trim_all_blank in H by (assumption || lia).
    destruct H as (a & b & E & _ & _ & H1 & _). destruct s as [|c s]; [simpl in L; lia|].
    inversion HF; subst. apply (H1 c s); auto.
  - intros [H|H]; [apply trim_stripped|apply trim_short]; assumption.
Qed.

(** uniqueness of the stripped string, used to rewrite trims of padded strings *)
Lemma trim_unpadded s : unpadded s -> trim s = s.
Proof.
  intros [H1 H2]. destruct s as [|c s]; [reflexivity|].
  pose proof (H1 c s eq_refl) as Hc.
  unfold trim. assert (L : trim_left (c :: s) = c :: s).
  { unfold trim_left. simpl. apply is_blank_false in Hc. rewrite Hc.
    destruct (find_first is_blank s); reflexivity. }
  rewrite L. destruct (trim_right_spec c s Hc) as (r & b & E & -> & Hb & _ & _).
  destruct b as [|z b]; [rewrite app_nil_r in E; auto|].
  destruct (@exists_last _ (z :: b)) as (b' & y & E2); [discriminate|].
  rewrite E2 in *. apply Forall_app in Hb. destruct Hb as [_ Hb]. inversion Hb; subst.
  exfalso. apply (H2 y (r ++ b')); [rewrite E, app_assoc; reflexivity|assumption].
Qed.

Lemma unpadded_snoc_blanks s b : unpadded s -> Forall blank b -> s <> [] -> trim (s ++ b) = s.
Proof.
  intros [H1 H2] Hb Hs. destruct s as [|c s]; [tauto|].
  pose proof (H1 c s eq_refl) as Hc.
  unfold trim. assert (L : trim_left ((c :: s) ++ b) = (c :: s) ++ b).
  { unfold trim_left. simpl. apply is_blank_false in Hc. rewrite Hc.
    destruct (find_first is_blank (s ++ b)); reflexivity. }
  rewrite L. rewrite <- app_comm_cons.
  destruct (trim_right_spec c (s ++ b) Hc) as (r & b2 & E & -> & Hb2 & (r' & Er) & Hlast).
  change (c :: s ++ b) with ((c :: s) ++ b) in E.
  apply app_eq_app in E. destruct E as (l & [[E1 E2]|[E1 E2]]).
  - destruct l as [|y l]; [rewrite app_nil_r in E1; auto|].
    rewrite E2 in Hb2. apply Forall_app in Hb2. destruct Hb2 as [Hl _].
    destruct (@exists_last _ (y :: l)) as (l' & z & E3); [discriminate|]. rewrite E3 in *.
    apply Forall_app in Hl. destruct Hl as [_ Hl]. apply Forall_inv in Hl.
    exfalso. apply (H2 z (r ++ l')); [|assumption]. rewrite E1, app_assoc. reflexivity.
  - destruct l as [|y l]; [rewrite app_nil_r in E1; auto|].
    rewrite E2 in Hb. apply Forall_app in Hb. destruct Hb as [Hl _].
    destruct (@exists_last _ (y :: l)) as (l' & z & E3); [discriminate|]. rewrite E3 in *.
    apply Forall_app in Hl. destruct Hl as [_ Hl]. apply Forall_inv in Hl.
    exfalso. apply (Hlast z ((c :: s) ++ l')); [|assumption]. rewrite E1, app_assoc. reflexivity.
Qed.

Lemma trim_pad_left v : unpadded v -> trim (" "%char :: v) = v.
Proof.
  intros H. destruct v as [|c v]; [reflexivity|].
  rewrite <- (trim_unpadded (c :: v) H) at 2.
  destruct H as [H1 _]. pose proof (H1 c v eq_refl) as Hc. unfold trim. f_equal.
  apply is_blank_false in Hc. unfold trim_left. simpl. rewrite Hc. simpl.
  destruct (find_first is_blank v); reflexivity.
Qed.

(** * reading lines *)
Lemma getline_scan_line room l t acc : ~ In nl l -> (N.of_nat (length l) <= room)%N ->
  getline_scan room (l ++ nl :: t) acc = (rev acc ++ l, mkIS t false false).
Proof.
  revert room acc; induction l as [|c l IH]; intros room acc Hn Hr; cbn [getline_scan app].
  - rewrite Ascii.eqb_refl, app_nil_r. reflexivity.
  - destruct (Ascii.eqb c nl) eqn:E; [apply Ascii.eqb_eq in E; subst; exfalso; apply Hn; left; reflexivity|].
    cbn [length] in Hr. destruct (room =? 0)%N eqn:E2; [apply N.eqb_eq in E2; lia|].
    rewrite IH; [|intros H; apply Hn; right; assumption|lia].
    cbn [rev]. rewrite <- app_assoc. reflexivity.
Qed.

Lemma getline_line l t : ~ In nl l -> (N.of_nat (length l) < 2048)%N ->
  getline (stream_of (l ++ nl :: t)) = (l, stream_of t).
Proof.
  intros Hn Hl. unfold getline, stream_of. cbn [eofb failb rest orb].
  rewrite getline_scan_line; [reflexivity|assumption|unfold max_line_length; lia].
Qed.

Lemma cstr_id s : ~ In nul s -> cstr s = s.
Proof.
  induction s as [|c s IH]; intros H; [reflexivity|]. cbn [cstr].
  destruct (Ascii.eqb c nul) eqn:E; [apply Ascii.eqb_eq in E; subst; exfalso; apply H; left; reflexivity|].
  rewrite IH; [reflexivity|]. intros H2; apply H; right; assumption.
Qed.

Fixpoint fold_lines (c : container) (L : list str) : outcome container :=
  match L with
  | [] => Ok c
  | l :: L => match parse_line c l with Ok c' => fold_lines c' L | Throw => Throw | UB => UB end
  end.

Definition of_lines (L : list str) : str := concat (map (fun l => l ++ [nl]) L).

Lemma parse_line_not_ub c l : parse_line c l <> UB.
Proof.
  unfold parse_line. destruct (find_char _ l); [|discriminate]. destruct (parse_key _) as [[k t]|]; [|discriminate].
  destruct k as [|a k]; [discriminate|]. destruct (Ascii.eqb a "#"); discriminate.
Qed.

Lemma parse_loop_lines L c :
  Forall (fun l => ~ In nl l /\ ~ In nul l /\ (N.of_nat (length l) < 2048)%N) L ->
  parse_loop (length L + 2) None (stream_of (of_lines L)) c =
  Some (match fold_lines c L with Ok c' => Ok (c', mkIS [] true true) | Throw => Throw | UB => UB end).
Proof.
  revert c; induction L as [|l L IH]; intros c H.
  - reflexivity.
  - inversion H as [|? ? (H1 & H2 & H3) HL]; subst.
    change (length (l :: L) + 2) with (S (length L + 2)).
    unfold of_lines. cbn [map concat]. rewrite <- app_assoc. cbn [app].
    cbn [parse_loop]. cbn [stream_of eofb].
    fold (of_lines L).
    change (mkIS (l ++ nl :: of_lines L) false false) with (stream_of (l ++ nl :: of_lines L)).
    rewrite getline_line by assumption. rewrite cstr_id by assumption.
    cbn [fold_lines]. destruct (parse_line c l) as [c'| |]; [|reflexivity|reflexivity].
    apply IH; assumption.
Qed.

Lemma parse_loop_mono f1 f2 eof st c r : parse_loop f1 eof st c = Some r -> f1 <= f2 ->
  parse_loop f2 eof st c = Some r.
Proof.
  revert f2 st c; induction f1 as [|f IH]; intros f2 st c H Hle; [discriminate|].
  destruct f2 as [|f2]; [lia|]. cbn [parse_loop] in *.
  destruct (eofb st); [assumption|]. destruct (getline st) as [line st'].
  destruct (match eof with Some e => str_eqb (cstr line) e | None => false end); [assumption|].
  destruct (parse_line c (cstr line)); [|assumption|assumption]. apply IH; [assumption|lia].
Qed.

Lemma parses_to_det s eof r1 r2 : parses_to s eof r1 -> parses_to s eof r2 -> r1 = r2.
Proof.
  intros (f1 & o1 & H1 & E1) (f2 & o2 & H2 & E2).
  assert (o1 = o2).
  { destruct (Nat.le_ge_cases f1 f2) as [L|L].
    - unfold parse in *. eapply parse_loop_mono in H1; [|exact L]. congruence.
    - unfold parse in *. eapply parse_loop_mono in H2; [|exact L]. congruence. }
  subst o2. destruct o1 as [[c st]| |], r1, r2; try tauto; congruence.
Qed.

Lemma parse_of_lines L :
  Forall (fun l => ~ In nl l /\ ~ In nul l /\ (N.of_nat (length l) < 2048)%N) L ->
  parses_to (of_lines L) None (fold_lines empty_c L).
Proof.
  intros H. exists (length L + 2), (match fold_lines empty_c L with Ok c' => Ok (c', mkIS [] true true) | Throw => Throw | UB => UB end).
  split; [apply parse_loop_lines; assumption|]. destruct (fold_lines empty_c L); auto.
Qed.

(** * one line *)
Lemma find_char_app_notin c a b : ~ In c a -> find_char c (a ++ c :: b) = Some (length a).
Proof.
  induction a as [|x a IH]; intros H; cbn.
  - rewrite Ascii.eqb_refl. reflexivity.
  - destruct (Ascii.eqb x c) eqn:E; [apply Ascii.eqb_eq in E; subst; exfalso; apply H; left; reflexivity|].
    rewrite IH; [reflexivity|]. intros H2; apply H; right; assumption.
Qed.
Lemma find_char_notin c s : ~ In c s -> find_char c s = None.
Proof.
  induction s as [|x s IH]; intros H; cbn; [reflexivity|].
  destruct (Ascii.eqb x c) eqn:E; [apply Ascii.eqb_eq in E; subst; exfalso; apply H; left; reflexivity|].
  rewrite IH; [reflexivity|]. intros H2; apply H; right; assumption.
Qed.
Lemma find_char_in c s : In c s -> exists n, find_char c s = Some n.
Proof.
  induction s as [|x s IH]; intros H; cbn; [destruct H|].
  destruct (Ascii.eqb x c) eqn:E; [eexists; reflexivity|].
  destruct H as [->|H]; [rewrite Ascii.eqb_refl in E; discriminate|].
  destruct (IH H) as (n & ->). eexists; reflexivity.
Qed.

Lemma blank_sp : blank " "%char. Proof. left; reflexivity. Qed.

(** the key part in front of " = " *)
Lemma parse_line_split c kk v : ~ In "="%char kk -> unpadded kk -> kk <> [] -> unpadded v ->
  parse_line c (kk ++ lit " = " ++ v) =
  match parse_key kk with
  | None => Throw
  | Some (key, t) =>
    match key with
    | [] => Ok c
    | ch :: _ => if Ascii.eqb ch "#"%char then Ok c else Ok (set_value c key v t)
    end
  end.
Proof.
  intros Hk Hu Hn Hv. unfold parse_line.
  change (kk ++ lit " = " ++ v) with (kk ++ [" "%char] ++ "="%char :: " "%char :: v).
  rewrite app_assoc. rewrite find_char_app_notin.
  2:{ rewrite in_app_iff. intros [H|[H|[]]]; [tauto|discriminate]. }
  rewrite firstn_app_len.
  replace (skipn (length (kk ++ [" "%char]) + 1) ((kk ++ [" "%char]) ++ "="%char :: " "%char :: v)) with (" "%char :: v).
  2:{ rewrite Nat.add_comm. change ("="%char :: " "%char :: v) with (["="%char] ++ " "%char :: v).
      rewrite app_assoc. replace (1 + length (kk ++ [" "%char])) with (length ((kk ++ [" "%char]) ++ ["="%char]))
        by (rewrite app_length; simpl; lia).
      symmetry; apply skipn_app_len. }
  rewrite unpadded_snoc_blanks; [|assumption|constructor; [apply blank_sp|constructor]|assumption].
  rewrite trim_pad_left by assumption. reflexivity.
Qed.

Lemma parse_line_untyped c k v : good_key k -> good_value v ->
  parse_line c (k ++ lit " = " ++ v) = Ok (set_value c k v t_undef).
Proof.
  intros (Hn & Hu & Hh & He & Hb & _ & _) (Hv & _ & _).
  rewrite parse_line_split by assumption. unfold parse_key. rewrite find_char_notin by assumption.
  destruct k as [|ch k]; [tauto|]. destruct (Ascii.eqb ch "#") eqn:E; [|reflexivity].
  apply Ascii.eqb_eq in E; subst. exfalso; apply (Hh k); reflexivity.
Qed.

Lemma unpadded_tag k ty : unpadded k -> k <> [] -> unpadded (k ++ lit "[" ++ ty ++ lit "]").
Proof.
  intros [H1 _] Hn. split.
  - intros c t E. destruct k as [|x k]; [tauto|]. injection E as <- _. apply (H1 x k eq_refl).
  - intros c t E. rewrite !app_assoc in E. change (lit "]") with ["]"%char] in E. apply app_inj_tail in E.
    destruct E as [_ <-]. intros [H|H]; discriminate.
Qed.

Lemma substr_tag k ty : substr (k ++ lit "[" ++ ty ++ lit "]") (length k + 1) (length k) = firstn (length k) (ty ++ lit "]").
Proof.
  unfold substr. f_equal. rewrite app_assoc.
  replace (length k + 1) with (length (k ++ lit "[")) by (rewrite app_length; reflexivity).
  apply skipn_app_len.
Qed.

Lemma type2string_nobracket t : ~ In "="%char (type2string t) /\ ~ In "010"%char (type2string t) /\ ~ In "000"%char (type2string t).
Proof. destruct t; cbn; repeat split; intuition discriminate. Qed.

Lemma string2type_inv t : string2type (type2string t) = Some t.
Proof. destruct t; reflexivity. Qed.

(** the tag is recognised iff the key is as long as the type name *)
Lemma string2type_cut n t : t <> t_undef -> 0 < n ->
  string2type (firstn n (type2string t ++ lit "]")) = if n =? length (type2string t) then Some t else None.
Proof.
  intros Ht Hn.
  destruct (Nat.le_gt_cases (length (type2string t ++ lit "]")) n) as [L|L].
  - rewrite firstn_all2 by assumption. rewrite app_length in L. simpl in L.
    replace (n =? length (type2string t)) with false by (symmetry; apply Nat.eqb_neq; lia).
    destruct t; reflexivity.
  - destruct t; [tauto|..];
      do 7 (destruct n as [|n]; [first [exfalso; lia | reflexivity | exfalso; simpl in L; lia]|]);
      exfalso; simpl in L; lia.
Qed.

Lemma parse_line_typed c k v t : t <> t_undef -> good_key k -> good_value v ->
  parse_line c (k ++ lit "[" ++ type2string t ++ lit "] = " ++ v) =
  if length k =? length (type2string t) then Ok (set_value c k v t) else Throw.
Proof.
  intros Ht (Hn & Hu & Hh & He & Hb & _ & _) (Hv & _ & _).
  replace (k ++ lit "[" ++ type2string t ++ lit "] = " ++ v)
    with ((k ++ lit "[" ++ type2string t ++ lit "]") ++ lit " = " ++ v)
    by (rewrite <- !app_assoc; reflexivity).
  destruct (type2string_nobracket t) as (T1 & _ & _).
  rewrite parse_line_split; [| |apply unpadded_tag; assumption|destruct k; [tauto|discriminate]|assumption].
  2:{ rewrite !in_app_iff. simpl. intuition discriminate. }
  unfold parse_key. change (lit "[" ++ type2string t ++ lit "]") with ("["%char :: type2string t ++ lit "]").
  rewrite find_char_app_notin by assumption.
  destruct (find_char_in "]"%char (k ++ "["%char :: type2string t ++ lit "]")) as (n2 & ->).
  { rewrite in_app_iff; right; right. rewrite in_app_iff; right; left; reflexivity. }
  change ("["%char :: type2string t ++ lit "]") with (lit "[" ++ type2string t ++ lit "]").
  rewrite substr_tag. rewrite string2type_cut; [|assumption|destruct k; [tauto|simpl; lia]].
  destruct (length k =? length (type2string t)) eqn:E; [|reflexivity].
  rewrite firstn_app_len, trim_unpadded by assumption.
  destruct k as [|ch k]; [tauto|]. destruct (Ascii.eqb ch "#") eqn:E2; [|reflexivity].
  apply Ascii.eqb_eq in E2; subst. exfalso; apply (Hh k); reflexivity.
Qed.

(** * files *)
Definition entry_line (with_types : bool) (c : container) (e : str * str) : str :=
  let '(key, value) := e in
  match with_types, get_type c key with
  | false, _ | true, t_undef => key ++ lit " = " ++ value
  | true, t => key ++ lit "[" ++ type2string t ++ lit "] = " ++ value
  end.

Lemma write_lines wt c : write_c wt c = of_lines (map (entry_line wt c) (params c)).
Proof.
  unfold write_c, of_lines. rewrite map_map. f_equal. apply map_ext. intros [k v].
  unfold write_entry, entry_line. destruct wt; [destruct (get_type c k)|];
  rewrite <- ?app_assoc; reflexivity.
Qed.

(** sequence of insertions *)
Definition set_all (c : container) (L : list (str * str * dtype)) : container :=
  fold_left (fun c e => set_value c (fst (fst e)) (snd (fst e)) (snd e)) L c.

Lemma scmp_refl k : scmp k k = Eq. Proof. apply scmp_eq; reflexivity. Qed.
Lemma scmp_neq a b : a <> b -> scmp a b <> Eq. Proof. rewrite scmp_eq; auto. Qed.

Lemma mget_mset_s {V} (m : list (str * V)) k v k' :
  mget scmp (mset scmp m k v) k' = if str_eq_dec k' k then Some v else mget scmp m k'.
Proof.
  rewrite (mget_mset scmp scmp_eq). destruct (str_eq_dec k' k) as [->|N].
  - rewrite scmp_refl. reflexivity.
  - destruct (scmp k' k) eqn:E; try reflexivity. apply scmp_eq in E. tauto.
Qed.

Lemma get_value_set c k v t k' : get_value (set_value c k v t) k' = if str_eq_dec k' k then Some v else get_value c k'.
Proof. apply mget_mset_s. Qed.
Lemma get_type_set c k v t k' : get_type (set_value c k v t) k' = if str_eq_dec k' k then t else get_type c k'.
Proof. unfold get_type, set_value; cbn [types]. rewrite mget_mset_s. destruct (str_eq_dec k' k); reflexivity. Qed.

Lemma set_all_notin L c k : ~ In k (map (fun e => fst (fst e)) L) ->
  get_value (set_all c L) k = get_value c k /\ get_type (set_all c L) k = get_type c k.
Proof.
  revert c; induction L as [|[[k1 v1] t1] L IH]; intros c H; [auto|].
  cbn [set_all fold_left] in *. cbn [map fst snd] in *.
  destruct (IH (set_value c k1 v1 t1)) as [I1 I2]; [intros H2; apply H; right; assumption|].
  unfold set_all in I1, I2. rewrite I1, I2, get_value_set, get_type_set.
  destruct (str_eq_dec k k1) as [->|]; [exfalso; apply H; left; reflexivity|auto].
Qed.

Lemma set_all_in L c k v t : NoDup (map (fun e => fst (fst e)) L) -> In (k, v, t) L ->
  get_value (set_all c L) k = Some v /\ get_type (set_all c L) k = t.
Proof.
  revert c; induction L as [|[[k1 v1] t1] L IH]; intros c ND H; [destruct H|].
  cbn [map fst] in ND. inversion ND as [|? ? Hn ND']; subst.
  change (set_all c ((k1, v1, t1) :: L)) with (set_all (set_value c k1 v1 t1) L).
  destruct H as [H|H].
  - injection H as -> -> ->.
    destruct (set_all_notin L (set_value c k v t) k Hn) as [-> ->].
    rewrite get_value_set, get_type_set. destruct (str_eq_dec k k); [auto|tauto].
  - apply IH; assumption.
Qed.

Definition entries (wt : bool) (c : container) : list (str * str * dtype) :=
  map (fun e => (fst e, snd e, if wt then get_type c (fst e) else t_undef)) (params c).

Lemma entries_keys wt c : map (fun e => fst (fst e)) (entries wt c) = map fst (params c).
Proof. unfold entries. rewrite map_map. apply map_ext. reflexivity. Qed.

Lemma get_value_in c k v : NoDup (map fst (params c)) -> (get_value c k = Some v <-> In (k, v) (params c)).
Proof.
  intros ND. unfold get_value. split; [apply (mget_in scmp scmp_eq)|]. apply (in_mget scmp scmp_eq); assumption.
Qed.

Lemma set_all_entries wt c : NoDup (map fst (params c)) -> forall k,
  get_value (set_all empty_c (entries wt c)) k = get_value c k /\
  (get_value c k <> None -> get_type (set_all empty_c (entries wt c)) k = if wt then get_type c k else t_undef) /\
  (get_value c k = None -> get_type (set_all empty_c (entries wt c)) k = t_undef).
Proof.
  intros ND k. destruct (get_value c k) as [v|] eqn:E.
  - apply get_value_in in E; [|assumption].
    destruct (set_all_in (entries wt c) empty_c k v (if wt then get_type c k else t_undef)) as [-> ->].
    + rewrite entries_keys; assumption.
    + unfold entries. apply in_map_iff. exists (k, v). auto.
    + repeat split; auto. discriminate.
  - assert (~ In k (map fst (params c))) by (apply (mget_none scmp scmp_eq); assumption).
    destruct (set_all_notin (entries wt c) empty_c k) as [-> ->]; [rewrite entries_keys; assumption|].
    repeat split; auto. intros H2; tauto.
Qed.

Definition fits (wt : bool) (c : container) : Prop :=
  Forall (fun e => (N.of_nat (length (entry_line wt c e)) < 2048)%N) (params c).

Lemma entry_line_ok wt c k v : good_key k -> good_value v ->
  ~ In nl (entry_line wt c (k, v)) /\ ~ In nul (entry_line wt c (k, v)).
Proof.
  intros (_ & _ & _ & _ & _ & K1 & K2) (_ & V1 & V2).
  assert (A : ~ In nl (k ++ lit " = " ++ v) /\ ~ In nul (k ++ lit " = " ++ v)).
  { rewrite !in_app_iff. unfold nl, nul in *. simpl. split; intuition discriminate. }
  assert (B : forall t, ~ In nl (k ++ lit "[" ++ type2string t ++ lit "] = " ++ v) /\
                        ~ In nul (k ++ lit "[" ++ type2string t ++ lit "] = " ++ v)).
  { intros t. destruct (type2string_nobracket t) as (_ & T1 & T2). rewrite !in_app_iff. unfold nl, nul in *. simpl.
    split; intuition discriminate. }
  unfold entry_line. destruct wt; [|assumption]. destruct (get_type c k) eqn:E; try apply B. assumption.
Qed.

Definition tag_ok (wt : bool) (c : container) (k : str) : Prop :=
  wt = true -> get_type c k <> t_undef -> length k = length (type2string (get_type c k)).

Lemma parse_entry wt c d k v : good_key k -> good_value v ->
  (tag_ok wt c k -> parse_line d (entry_line wt c (k, v)) = Ok (set_value d k v (if wt then get_type c k else t_undef))) /\
  (~ tag_ok wt c k -> parse_line d (entry_line wt c (k, v)) = Throw).
Proof.
  intros Hk Hv. unfold entry_line, tag_ok. destruct wt.
  - destruct (get_type c k) eqn:E;
    try (rewrite parse_line_typed by (assumption || discriminate);
         split; [intros H; rewrite H by (reflexivity || discriminate); rewrite Nat.eqb_refl; reflexivity
                |intros H; destruct (_ =? _) eqn:E2; [|reflexivity]; apply Nat.eqb_eq in E2; tauto]).
    split; [intros _; apply parse_line_untyped; assumption|].
    intros H; exfalso; apply H; intros _ H2; tauto.
  - split; [intros _; apply parse_line_untyped; assumption|].
    intros H; exfalso; apply H; discriminate.
Qed.

Lemma fold_entries wt c L d :
  Forall (fun e => good_key (fst e) /\ good_value (snd e) /\ tag_ok wt c (fst e)) L ->
  fold_lines d (map (entry_line wt c) L) =
  Ok (set_all d (map (fun e => (fst e, snd e, if wt then get_type c (fst e) else t_undef)) L)).
Proof.
  revert d; induction L as [|[k v] L IH]; intros d H; [reflexivity|].
  inversion H as [|? ? (H1 & H2 & H3) HL]; subst. cbn [map fold_lines fst snd] in *.
  destruct (parse_entry wt c d k v H1 H2) as [A _]. rewrite A by assumption.
  rewrite IH by assumption. reflexivity.
Qed.

Lemma write_parse wt c :
  NoDup (map fst (params c)) ->
  (forall k v, In (k, v) (params c) ->
     good_key k /\ good_value v /\ (N.of_nat (length (entry_line wt c (k, v))) < 2048)%N /\ tag_ok wt c k) ->
  parses_to (write_c wt c) None (Ok (set_all empty_c (entries wt c))).
Proof.
  intros ND H. rewrite write_lines.
  replace (Ok (set_all empty_c (entries wt c))) with (fold_lines empty_c (map (entry_line wt c) (params c))).
  - apply parse_of_lines. apply Forall_forall. intros l Hl. apply in_map_iff in Hl. destruct Hl as ([k v] & <- & Hin).
    destruct (H k v Hin) as (Hk & Hv & Hlen & _). destruct (entry_line_ok wt c k v Hk Hv). auto.
  - apply fold_entries. apply Forall_forall. intros [k v] Hin. destruct (H k v Hin) as (Hk & Hv & _ & Ht). auto.
Qed.

Lemma fold_entries_throw wt c L d :
  Forall (fun e => good_key (fst e) /\ good_value (snd e)) L ->
  Exists (fun e => ~ tag_ok wt c (fst e)) L ->
  (forall k, tag_ok wt c k \/ ~ tag_ok wt c k) ->
  fold_lines d (map (entry_line wt c) L) = Throw.
Proof.
  intros HF HE Hdec. revert d HF; induction HE as [[k v] L HE|[k v] L HE IH]; intros d HF;
  inversion HF as [|? ? (H1 & H2) HL]; subst; cbn [map fold_lines fst snd] in *;
  destruct (parse_entry wt c d k v H1 H2) as [A B].
  - rewrite B by assumption. reflexivity.
  - destruct (Hdec k) as [T|T]; [rewrite A by assumption; apply IH; assumption|rewrite B by assumption; reflexivity].
Qed.

Lemma tag_ok_dec wt c k : tag_ok wt c k \/ ~ tag_ok wt c k.
Proof.
  unfold tag_ok. destruct wt; [|left; discriminate].
  destruct (get_type c k) eqn:E; [left; tauto|..];
  (destruct (Nat.eq_dec (length k) (length (type2string (get_type c k)))) as [Q|Q];
   rewrite E in Q; [left; auto|right; intros H; apply Q, H; [reflexivity|discriminate]]).
Qed.

Lemma write_parse_throw wt c :
  (forall k v, In (k, v) (params c) -> good_key k /\ good_value v /\ (N.of_nat (length (entry_line wt c (k, v))) < 2048)%N) ->
  (exists k v, In (k, v) (params c) /\ ~ tag_ok wt c k) ->
  parses_to (write_c wt c) None Throw.
Proof.
  intros H (k & v & Hin & Ht). rewrite write_lines.
  replace Throw with (fold_lines empty_c (map (entry_line wt c) (params c))).
  - apply parse_of_lines. apply Forall_forall. intros l Hl. apply in_map_iff in Hl. destruct Hl as ([k1 v1] & <- & Hin1).
    destruct (H k1 v1 Hin1) as (Hk & Hv & Hlen). destruct (entry_line_ok wt c k1 v1 Hk Hv). auto.
  - apply fold_entries_throw.
    + apply Forall_forall. intros [k1 v1] Hin1. destruct (H k1 v1 Hin1) as (Hk & Hv & _). auto.
    + apply Exists_exists. exists (k, v). auto.
    + apply tag_ok_dec.
Qed.

(** * merging *)
Lemma merge_map_get {V} (m add : list (str * V)) k : NoDup (map fst add) ->
  mget scmp (merge_map m add) k = match mget scmp add k with Some v => Some v | None => mget scmp m k end.
Proof.
  revert m; induction add as [|[a v] add IH]; intros m ND; [reflexivity|].
  inversion ND as [|? ? Hn ND']; subst. cbn [merge_map fold_left fst snd].
  change (fold_left _ add (mset scmp m a v)) with (merge_map (mset scmp m a v) add).
  rewrite IH by assumption. rewrite mget_mset_s. cbn [mget].
  destruct (str_eq_dec k a) as [->|N].
  - rewrite scmp_refl. rewrite (proj2 (mget_none scmp scmp_eq add a) Hn). reflexivity.
  - destruct (scmp k a) eqn:E; try reflexivity. apply scmp_eq in E; tauto.
Qed.

Lemma add_c_value a b k : consistent b ->
  get_value (add_c a b) k = match get_value b k with Some v => Some v | None => get_value a k end.
Proof. intros [H _]. apply merge_map_get; assumption. Qed.

Lemma add_c_type a b k : consistent b ->
  get_type (add_c a b) k = match mget scmp (types b) k with Some t => t | None => get_type a k end.
Proof. intros [_ H]. unfold get_type, add_c; cbn [types]. rewrite merge_map_get by assumption.
  destruct (mget scmp (types b) k); reflexivity. Qed.

(** * termination *)
Lemma parse_stuck fuel s c : parse_loop fuel None (mkIS s false true) c = None.
Proof. induction fuel as [|f IH]; [reflexivity|]. cbn. exact IH. Qed.

Lemma getline_scan_full room l x t acc : ~ In nl (l ++ [x]) -> N.of_nat (length l) = room ->
  getline_scan room (l ++ x :: t) acc = (rev acc ++ l, mkIS (x :: t) false true).
Proof.
  revert room acc; induction l as [|c l IH]; intros room acc Hn Hr; cbn [getline_scan app].
  - destruct (Ascii.eqb x nl) eqn:E; [apply Ascii.eqb_eq in E; subst; exfalso; apply Hn; left; reflexivity|].
    subst room. cbn. rewrite app_nil_r. reflexivity.
  - destruct (Ascii.eqb c nl) eqn:E; [apply Ascii.eqb_eq in E; subst; exfalso; apply Hn; left; reflexivity|].
    cbn [length] in Hr. destruct (room =? 0)%N eqn:E2; [apply N.eqb_eq in E2; lia|].
    rewrite IH; [|intros H; apply Hn; right; assumption|lia].
    cbn [rev]. rewrite <- app_assoc. reflexivity.
Qed.

Lemma getline_scan_eof room l acc : ~ In nl l -> (N.of_nat (length l) <= room)%N ->
  exists f, getline_scan room l acc = (rev acc ++ l, mkIS [] true f).
Proof.
  revert room acc; induction l as [|c l IH]; intros room acc Hn Hr; cbn [getline_scan app].
  - rewrite app_nil_r. eexists; reflexivity.
  - destruct (Ascii.eqb c nl) eqn:E; [apply Ascii.eqb_eq in E; subst; exfalso; apply Hn; left; reflexivity|].
    cbn [length] in Hr. destruct (room =? 0)%N eqn:E2; [apply N.eqb_eq in E2; lia|].
    destruct (IH (room - 1)%N (c :: acc)) as (f & ->); [intros H; apply Hn; right; assumption|lia|].
    cbn [rev]. rewrite <- app_assoc. eexists; reflexivity.
Qed.

Lemma nl_split (s : str) : (~ In nl s) \/ exists l t, s = l ++ nl :: t /\ ~ In nl l.
Proof.
  destruct (in_dec ascii_dec nl s) as [H|H]; [right|left; assumption].
  induction s as [|c s IH]; [destruct H|].
  destruct (ascii_dec c nl) as [->|N]; [exists [], s; auto|].
  destruct H as [H|H]; [tauto|]. destruct (IH H) as (l & t & -> & Hl).
  exists (c :: l), t. split; [reflexivity|]. intros [E|E]; tauto.
Qed.

Definition long_line (s : str) : Prop :=
  exists a l b, s = a ++ l ++ b /\ ~ In nl l /\ (2048 <= N.of_nat (length l))%N.

Lemma long_line_cut (l t : str) : (2048 <= N.of_nat (length l))%N ->
  exists l1 x l2, l = l1 ++ x :: l2 /\ N.of_nat (length l1) = 2047%N.
Proof.
  intros H. pose (n := N.to_nat 2047).
  assert (n < length l) by (subst n; lia).
  destruct (skipn n l) as [|x l2] eqn:E.
  - assert (length (skipn n l) = length l - n) by apply skipn_length. rewrite E in H1. simpl in H1. lia.
  - exists (firstn n l), x, l2. rewrite <- E, firstn_skipn. split; [reflexivity|].
    rewrite firstn_length. subst n. lia.
Qed.

Lemma in_mid (x : ascii) a b c : ~ In x (a ++ b :: c) -> ~ In x (a ++ [b]).
Proof. rewrite !in_app_iff. simpl. tauto. Qed.

Lemma first_long l t c fuel : (2048 <= N.of_nat (length l))%N -> ~ In nl l ->
  parse_line c (cstr (firstn (N.to_nat 2047) l)) <> Throw ->
  parse_loop fuel None (stream_of (l ++ t)) c = None.
Proof.
  intros Hl Hn Ht. destruct (long_line_cut l t Hl) as (l1 & x & l2 & -> & H1).
  destruct fuel as [|f]; [reflexivity|]. cbn [parse_loop stream_of eofb].
  unfold getline. cbn [eofb failb rest orb stream_of].
  rewrite <- app_assoc. cbn [app].
  rewrite getline_scan_full; [|eapply in_mid; exact Hn|unfold max_line_length; lia].
  cbn [rev app].
  replace (firstn (N.to_nat 2047) (l1 ++ x :: l2)) with l1 in Ht.
  2:{ replace (N.to_nat 2047) with (length l1) by lia. symmetry; apply firstn_app_len. }
  destruct (parse_line c (cstr l1)) eqn:E; [apply parse_stuck|tauto|].
  exfalso; eapply parse_line_not_ub; exact E.
Qed.

Lemma lines_fit_tail l t : lines_fit (l ++ nl :: t) -> lines_fit t.
Proof. intros H a m b E. apply (H (l ++ nl :: a) m b). rewrite E. rewrite <- app_assoc. reflexivity. Qed.

Lemma parse_fit_terminates n s c : length s <= n -> lines_fit s ->
  exists r, parse_loop (n + 2) None (stream_of s) c = Some r.
Proof.
  revert s c; induction n as [|n IH]; intros s c Hlen Hfit.
  - destruct s; [|simpl in Hlen; lia]. eexists; reflexivity.
  - change (S n + 2) with (S (n + 2)). cbn [parse_loop stream_of eofb].
    destruct (nl_split s) as [Hn|(l & t & -> & Hl)].
    + unfold getline. cbn [eofb failb rest orb stream_of].
      destruct (getline_scan_eof (max_line_length - 1) s [] Hn) as (f & ->).
      { assert (N.of_nat (length s) < 2048)%N; [|unfold max_line_length; lia].
        apply (Hfit [] s []); [rewrite app_nil_r; reflexivity|exact Hn]. }
      destruct (parse_line c (cstr _)) as [c'| |]; try (eexists; reflexivity).
      rewrite Nat.add_comm. cbn. eexists; reflexivity.
    + change (mkIS (l ++ nl :: t) false false) with (stream_of (l ++ nl :: t)).
      rewrite getline_line; [|assumption|apply (Hfit [] l (nl :: t)); [reflexivity|assumption]].
      destruct (parse_line c (cstr l)) as [c'| |]; try (eexists; reflexivity).
      apply IH; [|eapply lines_fit_tail; eassumption].
      rewrite app_length in Hlen. simpl in Hlen. lia.
Qed.

Lemma parses_of_loop f eof s o : parse_loop f eof (stream_of s) empty_c = Some o ->
  exists r, parses_to s eof r.
Proof.
  intros H. destruct o as [[c st]| |].
  - exists (Ok c), f, (Ok (c, st)). auto.
  - exists Throw, f, Throw. auto.
  - exists UB, f, UB. auto.
Qed.

Lemma fit_terminates s : lines_fit s -> parse_terminates s.
Proof.
  intros H. destruct (parse_fit_terminates (length s) s empty_c (le_n _) H) as (r & Hr).
  eapply parses_of_loop; exact Hr.
Qed.


Lemma parse_line_nobracket c l : ~ In "["%char l -> exists c', parse_line c l = Ok c'.
Proof.
  intros H. unfold parse_line. destruct (find_char "="%char l) as [pos|]; [|eexists; reflexivity].
  assert (~ In "["%char (trim (firstn pos l))).
  { intros Hin. apply H.
    assert (S1 : forall s x, In x (trim_left s) -> In x s).
    { intros s x. unfold trim_left. destruct (find_first is_blank s) as [[|n]|]; auto.
      destruct (find_first _ s); auto. intros Hi. rewrite <- (firstn_skipn n s). apply in_app_iff; right; assumption. }
    assert (S2 : forall s x, In x (trim_right s) -> In x s).
    { intros s x. unfold trim_right. destruct (find_last is_blank s) as [[|n]|]; auto; [intros []|].
      destruct (_ =? _); auto. destruct (find_last _ s) as [q|]; auto. intros Hi.
      rewrite <- (firstn_skipn (q + 1) s). apply in_app_iff; left; assumption. }
    apply S2, S1 in Hin. rewrite <- (firstn_skipn pos l). apply in_app_iff; left; assumption. }
  unfold parse_key. rewrite find_char_notin by assumption.
  destruct (trim (firstn pos l)) as [|ch k]; [eexists; reflexivity|].
  destruct (Ascii.eqb ch "#"); eexists; reflexivity.
Qed.

Lemma in_cstr x s : In x (cstr s) -> In x s.
Proof.
  induction s as [|c s IH]; cbn; [tauto|]. destruct (Ascii.eqb c nul); cbn; [tauto|]. intuition.
Qed.

Lemma nl_free_prefix (l t m b : str) : l ++ nl :: t = m ++ b -> ~ In nl m -> length m <= length l.
Proof.
  revert m; induction l as [|x l IH]; intros [|y m] E Hm; simpl; try lia; injection E; intros E2 Exy; subst y.
  - exfalso; apply Hm; left; reflexivity.
  - apply le_n_S. apply IH; [exact E2|]. intros H; apply Hm; right; exact H.
Qed.

Lemma nl_free_piece (l t a m b : str) : l ++ nl :: t = a ++ m ++ b -> ~ In nl m ->
  length m <= length l \/ exists d, t = d ++ m ++ b.
Proof.
  revert a; induction l as [|x l IH]; intros [|y a] E Hm; cbn [app] in E.
  - left. apply (nl_free_prefix [] t m b); assumption.
  - right. exists a. injection E; auto.
  - left. apply (nl_free_prefix (x :: l) t m b); assumption.
  - injection E; intros E2 _. destruct (IH a E2 Hm) as [H|H]; [left; simpl; lia|right; exact H].
Qed.

Lemma long_diverges n s c fuel : length s <= n -> ~ In "["%char s -> long_line s ->
  parse_loop fuel None (stream_of s) c = None.
Proof.
  revert s c fuel; induction n as [|n IH]; intros s c fuel Hlen Hb (a & m & b & E & Hm & Hm2).
  - exfalso. subst s. rewrite !app_length in Hlen. lia.
  - destruct (nl_split s) as [Hn|(l & t & -> & Hl)].
    + replace s with (s ++ []) by apply app_nil_r. apply first_long; [|assumption|].
      * rewrite E, !app_length. lia.
      * destruct (parse_line_nobracket c (cstr (firstn (N.to_nat 2047) s))) as (c' & ->); [|discriminate].
        intros Hi. apply in_cstr in Hi. apply Hb. rewrite <- (firstn_skipn (N.to_nat 2047) s).
        apply in_app_iff; left; assumption.
    + destruct (N.le_gt_cases 2048 (N.of_nat (length l))) as [L|L].
      * apply first_long; [assumption|assumption|].
        destruct (parse_line_nobracket c (cstr (firstn (N.to_nat 2047) l))) as (c' & ->); [|discriminate].
        intros Hi. apply in_cstr in Hi. apply Hb. rewrite <- (firstn_skipn (N.to_nat 2047) l).
        apply in_app_iff; left. apply in_app_iff; left; assumption.
      * destruct fuel as [|fuel]; [reflexivity|]. cbn [parse_loop stream_of eofb].
        change (mkIS (l ++ nl :: t) false false) with (stream_of (l ++ nl :: t)).
        rewrite getline_line by assumption.
        destruct (parse_line_nobracket c (cstr l)) as (c' & ->).
        { intros Hi. apply in_cstr in Hi. apply Hb. apply in_app_iff; left; assumption. }
        apply IH; [rewrite app_length in Hlen; simpl in Hlen; lia| |].
        { intros Hi; apply Hb. apply in_app_iff; right; right; assumption. }
        destruct (nl_free_piece l t a m b E Hm) as [Q|(d & Ed)]; [lia|].
        exists d, m, b; auto.
Qed.

Lemma fit_or_long s : lines_fit s \/ long_line s.
Proof.
  remember (length s) as n eqn:Hn. revert s Hn. induction n as [n IH] using lt_wf_ind; intros s ->.
  destruct (nl_split s) as [H|(l & t & -> & Hl)].
  - destruct (N.le_gt_cases 2048 (N.of_nat (length s))) as [L|L].
    + right. exists [], s, []. rewrite app_nil_r. auto.
    + left. intros a m b E _. rewrite E, !app_length in L. lia.
  - destruct (N.le_gt_cases 2048 (N.of_nat (length l))) as [L|L].
    + right. exists [], l, (nl :: t). auto.
    + destruct (IH (length t)) with (s := t) as [F|(a & m & b & E & H1 & H2)]; [rewrite app_length; simpl; lia|reflexivity| |].
      * left. intros a m b E Hm. destruct (nl_free_piece l t a m b E Hm) as [Q|(d & Ed)]; [lia|].
        apply (F d m b); assumption.
      * right. exists (l ++ nl :: a), m, b. rewrite E, <- app_assoc. auto.
Qed.

Lemma terminates_iff s : ~ In "["%char s -> (parse_terminates s <-> lines_fit s).
Proof.
  intros Hb. split; [|apply fit_terminates]. intros (r & f & o & H & _).
  destruct (fit_or_long s) as [F|L]; [assumption|].
  unfold parse in H. change (clear_c empty_c) with empty_c in H.
  rewrite (long_diverges (length s) s empty_c f (le_n _) Hb L) in H. discriminate.
Qed.

(** * numbers *)
Lemma is_digit_iff c : is_digit c = true <-> digit c.
Proof. unfold is_digit, digit. rewrite andb_true_iff, !N.leb_le. reflexivity. Qed.
Lemma is_digit_false c : is_digit c = false <-> ~ digit c.
Proof. rewrite <- is_digit_iff. destruct (is_digit c); split; congruence. Qed.
Lemma is_space_iff c : is_space c = true <-> white c.
Proof.
  unfold is_space, white. rewrite orb_true_iff, andb_true_iff, N.eqb_eq, !N.leb_le. simpl. split; [|intuition lia].
  intros H. assert (N_of_ascii c = 32 \/ N_of_ascii c = 9 \/ N_of_ascii c = 10 \/ N_of_ascii c = 11 \/ N_of_ascii c = 12 \/ N_of_ascii c = 13)%N by lia.
  intuition.
Qed.
Lemma is_space_false c : is_space c = false <-> ~ white c.
Proof. rewrite <- is_space_iff. destruct (is_space c); split; congruence. Qed.
Lemma digit_not_white c : digit c -> ~ white c.
Proof. unfold digit, white. simpl. intuition lia. Qed.

Lemma number_rev_app r c : number_rev (r ++ [c]) = (number_rev r + 10 ^ Z.of_nat (length r) * (Z.of_N (N_of_ascii c) - 48))%Z.
Proof.
  induction r as [|x r IH]; cbn [app number_rev length].
  - lia.
  - rewrite IH. rewrite Nat2Z.inj_succ, Z.pow_succ_r by lia. lia.
Qed.

Lemma dec_val_number ds : Forall digit ds -> Z.of_N (dec_val ds) = number_rev (rev ds).
Proof.
  induction ds as [|c ds IH] using rev_ind; intros H; [reflexivity|].
  apply Forall_app in H. destruct H as [H1 H2]. apply Forall_inv in H2.
  unfold dec_val in *. rewrite dec_val_acc_app, rev_app_distr. cbn [rev app number_rev].
  unfold dec_val_acc at 1. cbn [fold_left]. rewrite <- IH by assumption. unfold digit_val. unfold digit in H2. lia.
Qed.

Lemma skip_space_app w x : Forall white w -> (forall c t, x = c :: t -> ~ white c) -> skip_space (w ++ x) = x.
Proof.
  intros Hw Hx. induction Hw as [|c w Hc Hw IH]; cbn.
  - destruct x as [|c x]; [reflexivity|]. cbn. rewrite (proj2 (is_space_false c) (Hx c x eq_refl)). reflexivity.
  - apply is_space_iff in Hc. rewrite Hc. exact IH.
Qed.

Lemma skip_space_split s : exists w, s = w ++ skip_space s /\ Forall white w /\
  (forall c t, skip_space s = c :: t -> ~ white c).
Proof.
  induction s as [|c s IH]; cbn.
  - exists []. repeat split; auto. discriminate.
  - destruct (is_space c) eqn:E.
    + destruct IH as (w & E2 & Hw & Hx). exists (c :: w). cbn. rewrite <- E2. repeat split; auto.
      constructor; auto. apply is_space_iff; assumption.
    + exists []. repeat split; auto. intros x t [= <- <-]. apply is_space_false; assumption.
Qed.

Lemma span_digits_app ds tl : Forall digit ds -> (forall c t, tl = c :: t -> ~ digit c) -> span_digits (ds ++ tl) = ds.
Proof.
  intros Hd Ht. induction Hd as [|c ds Hc Hd IH]; cbn.
  - destruct tl as [|c t]; [reflexivity|]. cbn. rewrite (proj2 (is_digit_false c) (Ht c t eq_refl)). reflexivity.
  - apply is_digit_iff in Hc. rewrite Hc, IH. reflexivity.
Qed.

Lemma span_digits_split s : exists tl, s = span_digits s ++ tl /\ Forall digit (span_digits s) /\
  (forall c t, tl = c :: t -> ~ digit c).
Proof.
  induction s as [|c s IH]; cbn.
  - exists []. repeat split; auto. discriminate.
  - destruct (is_digit c) eqn:E.
    + destruct IH as (tl & E2 & Hd & Hx). exists tl. cbn. rewrite <- E2. repeat split; auto.
      constructor; auto. apply is_digit_iff; assumption.
    + exists (c :: s). repeat split; auto. intros x t [= <- <-]. apply is_digit_false; assumption.
Qed.

Definition in_int (v : Z) : bool := ((int_min <=? v) && (v <=? int_max))%Z.
Lemma in_int_iff v : in_int v = true <-> int32 v.
Proof. unfold in_int, int_min, int_max, int32. rewrite andb_true_iff, !Z.leb_le. reflexivity. Qed.

Definition signed (s : str) : bool * str :=
  match s with
  | c :: t => if Ascii.eqb c "-"%char then (true, t)
              else if Ascii.eqb c "+"%char then (false, t) else (false, s)
  | [] => (false, [])
  end.

Lemma scan_int_eq s : scan_int s =
  let '(neg, s) := signed (skip_space s) in
  match span_digits s with
  | [] => Ok None
  | ds => let v := if neg : bool then (- Z.of_N (dec_val ds))%Z else Z.of_N (dec_val ds) in
          if in_int v then Ok (Some v) else UB
  end.
Proof.
  unfold scan_int, signed, in_int. reflexivity.
Qed.

Lemma digit_not_sign c : digit c -> Ascii.eqb c "-" = false /\ Ascii.eqb c "+" = false.
Proof.
  intros H. split; apply Ascii.eqb_neq; intros ->; unfold digit in H; vm_compute in H; destruct H; congruence.
Qed.

Lemma signed_spec sg x : (forall c t, x = c :: t -> digit c) -> x <> [] ->
  (sg = [] \/ sg = lit "+" -> signed (sg ++ x) = (false, x)) /\ (sg = lit "-" -> signed (sg ++ x) = (true, x)).
Proof.
  intros H Hn. destruct x as [|c x]; [tauto|]. destruct (digit_not_sign c (H c x eq_refl)) as [H1 H2].
  split.
  - intros [->| ->]; cbn; rewrite ?H1, ?H2; reflexivity.
  - intros ->; reflexivity.
Qed.

Lemma scan_int_begins s z : begins_with_int s z -> scan_int s = if in_int z then Ok (Some z) else UB.
Proof.
  intros (w & sg & ds & tl & -> & Hw & Hd & Hn & Htl & Hz). rewrite scan_int_eq.
  assert (Hsg : sg = [] \/ sg = lit "+" \/ sg = lit "-") by tauto.
  rewrite skip_space_app; [|assumption|].
  2:{ intros c t E Hc. destruct Hsg as [->|[->| ->]].
      - destruct ds as [|d ds]; [tauto|]. cbn in E. injection E as -> _. apply Forall_inv in Hd.
        apply (digit_not_white c); assumption.
      - cbn in E. injection E as <- _. vm_compute in Hc. intuition discriminate.
      - cbn in E. injection E as <- _. vm_compute in Hc. intuition discriminate. }
  destruct (signed_spec sg (ds ++ tl)) as [S1 S2].
  { intros c t E. destruct ds as [|d ds]; [tauto|]. injection E as -> _. apply Forall_inv in Hd. exact Hd. }
  { destruct ds; [tauto|discriminate]. }
  rewrite <- dec_val_number in Hz by assumption.
  destruct Hz as [[Hs ->]|[Hs ->]].
  - rewrite (S1 Hs), span_digits_app by assumption. destruct ds as [|d ds]; [tauto|]. reflexivity.
  - rewrite (S2 Hs), span_digits_app by assumption. destruct ds as [|d ds]; [tauto|]. reflexivity.
Qed.

Lemma scan_int_cases s : (exists z, begins_with_int s z) \/ (scan_int s = Ok None /\ forall z, ~ begins_with_int s z).
Proof.
  destruct (skip_space_split s) as (w & E & Hw & Hx).
  destruct (signed (skip_space s)) as [neg x] eqn:Es.
  destruct (span_digits_split x) as (tl & E2 & Hd & Htl).
  assert (Hsg : exists sg, skip_space s = sg ++ x /\ ((neg = false /\ (sg = [] \/ sg = lit "+")) \/ (neg = true /\ sg = lit "-"))).
  { unfold signed in Es. destruct (skip_space s) as [|c t]; [injection Es as <- <-; exists []; auto|].
    destruct (Ascii.eqb c "-") eqn:E3; [apply Ascii.eqb_eq in E3; subst c; injection Es as <- <-; exists (lit "-"); auto|].
    destruct (Ascii.eqb c "+") eqn:E4; [apply Ascii.eqb_eq in E4; subst c; injection Es as <- <-; exists (lit "+"); auto|].
    injection Es as <- <-. exists []; auto. }
  destruct (span_digits x) as [|d ds] eqn:Ed.
  - right. assert (S0 : scan_int s = Ok None) by (rewrite scan_int_eq, Es, Ed; reflexivity).
    split; [assumption|]. intros z Hz. rewrite (scan_int_begins s z Hz) in S0. destruct (in_int z); discriminate.
  - left. destruct Hsg as (sg & E3 & Hsg).
    exists (if neg then - number_rev (rev (d :: ds)) else number_rev (rev (d :: ds)))%Z.
    exists w, sg, (d :: ds), tl. rewrite <- E2, <- E3. repeat split; auto; [discriminate|].
    destruct Hsg as [[-> H]|[-> H]]; auto.
Qed.

Lemma begins_det s z1 z2 : begins_with_int s z1 -> begins_with_int s z2 -> in_int z1 = true -> in_int z2 = true -> z1 = z2.
Proof.
  intros H1 H2 I1 I2. apply scan_int_begins in H1, H2. rewrite I1 in H1. rewrite I2 in H2. congruence.
Qed.

Lemma dec_print_begins n tl : (forall c t, tl = c :: t -> ~ digit c) -> begins_with_int (dec_print n ++ tl) (Z.of_N n).
Proof.
  intros Ht. destruct (dec_print_spec n) as (H1 & H2 & H3). exists [], [], (dec_print n), tl.
  assert (Forall digit (dec_print n)) by (eapply Forall_impl; [|exact H3]; intros a; apply is_digit_iff).
  repeat split; auto. left. split; [auto|]. rewrite <- dec_val_number by assumption. rewrite H1. reflexivity.
Qed.

Lemma dec_print_Z_begins z tl : (forall c t, tl = c :: t -> ~ digit c) -> begins_with_int (dec_print_Z z ++ tl) z.
Proof.
  intros Ht. unfold dec_print_Z. destruct (z <? 0)%Z eqn:E.
  - destruct (dec_print_spec (Z.abs_N z)) as (H1 & H2 & H3). exists [], (lit "-"), (dec_print (Z.abs_N z)), tl.
    assert (Forall digit (dec_print (Z.abs_N z))) by (eapply Forall_impl; [|exact H3]; intros a; apply is_digit_iff).
    repeat split; auto. right. split; [auto|]. rewrite <- dec_val_number by assumption. rewrite H1.
    apply Z.ltb_lt in E. lia.
  - apply Z.ltb_ge in E. replace z with (Z.of_N (Z.abs_N z)) at 2 by lia. apply dec_print_begins; assumption.
Qed.

Lemma scan_print z : int32 z -> scan_int (dec_print_Z z) = Ok (Some z).
Proof.
  intros H. rewrite <- (app_nil_r (dec_print_Z z)).
  rewrite (scan_int_begins _ z) by (apply dec_print_Z_begins; discriminate).
  apply in_int_iff in H. rewrite H. reflexivity.
Qed.

Lemma dec_print_Z_nocomma z : ~ In ","%char (dec_print_Z z).
Proof.
  assert (A : forall n, ~ In ","%char (dec_print n)).
  { intros n H. destruct (dec_print_spec n) as (_ & _ & H3). rewrite Forall_forall in H3. apply H3 in H. discriminate. }
  unfold dec_print_Z. destruct (z <? 0)%Z; [|apply A]. intros [H|H]; [discriminate|]. apply (A _ H).
Qed.

Lemma split_go_nocomma cur s : ~ In ","%char s -> split_go cur s = [cur ++ s].
Proof.
  revert cur; induction s as [|c s IH]; intros cur H; cbn; [rewrite app_nil_r; reflexivity|].
  destruct (Ascii.eqb c ",") eqn:E; [apply Ascii.eqb_eq in E; subst; exfalso; apply H; left; reflexivity|].
  rewrite IH; [rewrite <- app_assoc; reflexivity|]. intros H2; apply H; right; assumption.
Qed.
Lemma split_go_comma cur s t : ~ In ","%char s -> split_go cur (s ++ ","%char :: t) = (cur ++ s) :: split t.
Proof.
  revert cur; induction s as [|c s IH]; intros cur H; cbn.
  - rewrite app_nil_r. reflexivity.
  - destruct (Ascii.eqb c ",") eqn:E; [apply Ascii.eqb_eq in E; subst; exfalso; apply H; left; reflexivity|].
    rewrite IH; [rewrite <- app_assoc; reflexivity|]. intros H2; apply H; right; assumption.
Qed.

Lemma split_join l : l <> [] -> split (join_ints l) = map dec_print_Z l.
Proof.
  induction l as [|z [|y l] IH]; intros H; [tauto| |].
  - apply split_go_nocomma, dec_print_Z_nocomma.
  - change (join_ints (z :: y :: l)) with (dec_print_Z z ++ ","%char :: join_ints (y :: l)).
    unfold split. rewrite split_go_comma by apply dec_print_Z_nocomma. rewrite IH by discriminate. reflexivity.
Qed.

Lemma scan_parts_print l : Forall int32 l -> scan_parts (map dec_print_Z l) = Ok l.
Proof.
  induction 1 as [|z l Hz Hl IH]; [reflexivity|]. cbn [map scan_parts]. rewrite scan_print by assumption.
  cbn. rewrite IH. reflexivity.
Qed.

Lemma array_roundtrip c k l : l <> [] -> Forall int32 l ->
  get_array_int (set_array_int c k l) k = Ok (true, l).
Proof.
  intros Hn Hl. unfold get_array_int, set_array_int. rewrite get_value_set.
  destruct (str_eq_dec k k); [|tauto]. rewrite split_join, scan_parts_print by assumption. reflexivity.
Qed.

Lemma bool_lit_nocomma (b : bool) : ~ In ","%char (if b then lit "true" else lit "false").
Proof. destruct b; cbn; intuition discriminate. Qed.

Lemma split_join_bools l : l <> [] -> split (join_bools l) = map (fun b : bool => if b then lit "true" else lit "false") l.
Proof.
  induction l as [|z [|y l] IH]; intros H; [tauto| |].
  - apply split_go_nocomma, bool_lit_nocomma.
  - change (join_bools (z :: y :: l)) with ((if z then lit "true" else lit "false") ++ ","%char :: join_bools (y :: l)).
    unfold split. rewrite split_go_comma by apply bool_lit_nocomma. rewrite IH by discriminate. reflexivity.
Qed.

Lemma array_bool_roundtrip c k l : l <> [] -> get_array_bool (set_array_bool c k l) k = (true, l).
Proof.
  intros Hn. unfold get_array_bool, set_array_bool. rewrite get_value_set.
  destruct (str_eq_dec k k); [|tauto]. rewrite split_join_bools by assumption.
  f_equal. rewrite map_map. rewrite <- (map_id l) at 2. apply map_ext. intros []; reflexivity.
Qed.

Lemma int_roundtrip c k z old : int32 z -> get_int (set_int c k z) k old = Ok (true, z).
Proof.
  intros H. unfold get_int, set_int. rewrite get_value_set. destruct (str_eq_dec k k); [|tauto].
  rewrite scan_print by assumption. reflexivity.
Qed.

Lemma get_int_char c k old s : get_value c k = Some s ->
  (exists z, begins_with_int s z /\ get_int c k old = (if in_int z then Ok (true, z) else UB)) \/
  ((forall z, ~ begins_with_int s z) /\ get_int c k old = Ok (true, old)).
Proof.
  intros H. unfold get_int. rewrite H. destruct (scan_int_cases s) as [(z & Hz)|(E & Hn)].
  - left. exists z. split; [assumption|]. rewrite (scan_int_begins s z Hz). destruct (in_int z); reflexivity.
  - right. split; [assumption|]. rewrite E. reflexivity.
Qed.

(** * statements used by Props *)
Lemma parses_iff s r : parses_to s None r -> forall r', parses_to s None r' <-> r' = r.
Proof. intros H r'. split; [intros H'; eapply parses_to_det; eassumption|intros ->; assumption]. Qed.

Lemma untyped_roundtrip c :
  consistent c ->
  (forall k v, get_value c k = Some v -> good_key k /\ good_value v /\ (N.of_nat (length k + 3 + length v) < 2048)%N) ->
  exists c', (forall r, parses_to (write_c false c) None r <-> r = Ok c') /\
             forall k, get_value c' k = get_value c k.
Proof.
  intros [ND _] H. exists (set_all empty_c (entries false c)). split.
  - apply parses_iff, write_parse; [assumption|]. intros k v Hin.
    apply get_value_in in Hin; [|assumption]. destruct (H k v Hin) as (H1 & H2 & H3).
    repeat split; try (apply H1) ; try (apply H2); try discriminate.
    unfold entry_line. rewrite !app_length. cbn [length lit list_ascii_of_string]. lia.
  - intros k. apply set_all_entries; assumption.
Qed.

Lemma typed_roundtrip c :
  consistent c ->
  (forall k v, get_value c k = Some v -> good_key k /\ good_value v /\ (N.of_nat (length k + 11 + length v) < 2048)%N) ->
  ((forall k, get_value c k <> None -> get_type c k <> t_undef -> length k = length (type2string (get_type c k))) ->
   exists c', (forall r, parses_to (write_c true c) None r <-> r = Ok c') /\
     forall k, get_value c' k = get_value c k /\ (get_value c k <> None -> get_type c' k = get_type c k)) /\
  (forall k, get_value c k <> None -> get_type c k <> t_undef -> length k <> length (type2string (get_type c k)) ->
     forall r, parses_to (write_c true c) None r <-> r = Throw).
Proof.
  intros [ND _] H.
  assert (Hlen : forall k v, get_value c k = Some v -> (N.of_nat (length (entry_line true c (k, v))) < 2048)%N).
  { intros k v Hv. destruct (H k v Hv) as (_ & _ & H3).
    unfold entry_line. destruct (get_type c k); rewrite !app_length; cbn [length lit list_ascii_of_string type2string]; lia. }
  split.
  - intros Ht. exists (set_all empty_c (entries true c)). split.
    + apply parses_iff, write_parse; [assumption|]. intros k v Hin.
      apply get_value_in in Hin; [|assumption]. destruct (H k v Hin) as (H1 & H2 & _).
      repeat split; try (apply H1); try (apply H2); [apply Hlen; assumption|].
      intros _ Hu. apply Ht; congruence.
    + intros k. destruct (set_all_entries true c ND k) as (A & B & _). auto.
  - intros k Hk Hu Hl. apply parses_iff. apply write_parse_throw.
    + intros k1 v1 Hin. apply get_value_in in Hin; [|assumption]. destruct (H k1 v1 Hin) as (H1 & H2 & _).
      auto.
    + destruct (get_value c k) as [v|] eqn:E; [|tauto]. exists k, v. split; [apply get_value_in; assumption|].
      intros T. apply Hl, T; auto.
Qed.

Lemma merge_spec a b : consistent b ->
  (forall k, get_value (add_c a b) k = match get_value b k with Some v => Some v | None => get_value a k end) /\
  (forall k, mget scmp (types (add_c a b)) k = match mget scmp (types b) k with Some t => Some t | None => mget scmp (types a) k end) /\
  (forall k, get_value (add_c (add_c a b) b) k = get_value (add_c a b) k /\
             get_type (add_c (add_c a b) b) k = get_type (add_c a b) k).
Proof.
  intros Hb. split; [intros k; apply add_c_value; assumption|]. split.
  - intros k. destruct Hb as [_ H]. apply merge_map_get; assumption.
  - intros k. rewrite !add_c_value, !add_c_type by assumption.
    destruct (get_value b k), (mget scmp (types b) k); auto.
Qed.

Lemma scalar_roundtrip c k :
  (forall z old, int32 z -> get_int (set_int c k z) k old = Ok (true, z)) /\
  (forall b def, get_bool (set_bool c k b) k def = (true, b)) /\
  (forall old, get_value c k = None -> get_int c k old = Ok (false, 0%Z)) /\
  (forall def, get_value c k = None -> get_bool c k def = (false, def)).
Proof.
  split; [intros; apply int_roundtrip; assumption|]. split.
  - intros b def. unfold get_bool, set_bool. rewrite get_value_set. destruct (str_eq_dec k k); [|tauto].
    destruct b; reflexivity.
  - split; intros x H; unfold get_int, get_bool; rewrite H; reflexivity.
Qed.

(** storing under one key does not disturb another *)
Lemma scalar_other c k k' z b : k' <> k ->
  get_value (set_int c k z) k' = get_value c k' /\ get_value (set_bool c k b) k' = get_value c k'.
Proof.
  intros N. unfold set_int, set_bool. rewrite !get_value_set. destruct (str_eq_dec k' k); [tauto|auto].
Qed.

(** boolean versions, for the examples *)
Definition unpaddedb (s : str) : bool :=
  match s with [] => true | c :: _ => negb (is_blank c) && negb (is_blank (last s c)) end.
Definition hasb (c : ascii) (s : str) : bool := existsb (Ascii.eqb c) s.
Definition good_keyb (k : str) : bool :=
  match k with [] => false | c :: _ => negb (Ascii.eqb c "#") end && unpaddedb k &&
  negb (hasb "="%char k || hasb "["%char k || hasb nl k || hasb nul k).
Definition good_valueb (v : str) : bool := unpaddedb v && negb (hasb nl v || hasb nul v).
Lemma hasb_false c s : hasb c s = false -> ~ In c s.
Proof.
  intros H Hi. assert (E : hasb c s = true); [|congruence].
  apply existsb_exists. exists c. split; [assumption|apply Ascii.eqb_refl].
Qed.
Lemma unpaddedb_ok s : unpaddedb s = true -> unpadded s.
Proof.
  destruct s as [|c s]; intros H.
  - split; [discriminate|]. intros c t E. destruct t; discriminate.
  - unfold unpaddedb in H. apply andb_true_iff in H. destruct H as [H1 H2].
    apply negb_true_iff in H1, H2. split.
    + intros x t [= <- <-]. apply is_blank_false; assumption.
    + intros x t E. rewrite E in H2. rewrite last_last in H2. apply is_blank_false; assumption.
Qed.
Lemma good_keyb_ok k : good_keyb k = true -> good_key k.
Proof.
  unfold good_keyb. rewrite !andb_true_iff, negb_true_iff, !orb_false_iff. intros ((H1 & H2) & ((H3 & H4) & H5) & H6).
  apply unpaddedb_ok in H2. apply hasb_false in H3, H4, H5, H6.
  repeat split; try assumption; try (apply H2).
  - intros ->; discriminate.
  - intros t ->. discriminate.
Qed.
Lemma good_valueb_ok k : good_valueb k = true -> good_value k.
Proof.
  unfold good_valueb. rewrite !andb_true_iff, negb_true_iff, !orb_false_iff. intros (H2 & H5 & H6).
  apply unpaddedb_ok in H2. apply hasb_false in H5, H6.
  repeat split; try assumption; apply H2.
Qed.
Definition all_goodb (extra : nat) (c : container) : bool :=
  forallb (fun e => good_keyb (fst e) && good_valueb (snd e) && (N.of_nat (length (fst e) + extra + length (snd e)) <? 2048)%N) (params c).
Lemma all_goodb_ok extra c : all_goodb extra c = true -> forall k v, get_value c k = Some v ->
  good_key k /\ good_value v /\ (N.of_nat (length k + extra + length v) < 2048)%N.
Proof.
  intros H k v Hv. apply (mget_in scmp scmp_eq) in Hv. unfold all_goodb in H. rewrite forallb_forall in H.
  specialize (H _ Hv). cbn [fst snd] in H. rewrite !andb_true_iff in H. destruct H as ((H1 & H2) & H3).
  apply N.ltb_lt in H3. auto using good_keyb_ok, good_valueb_ok.
Qed.

(** * words *)
Lemma str_eqb_dec s t {A} (x y : A) : (if str_eqb s t then x else y) = if list_eq_dec ascii_dec s t then x else y.
Proof. destruct (list_eq_dec ascii_dec s t) as [->|N]; [rewrite str_eqb_refl; reflexivity|]. destruct (str_eqb s t) eqn:E; [apply str_eqb_true in E; contradiction|reflexivity]. Qed.
Lemma get_bool_words c k s : get_value c k = Some s -> forall def,
  get_bool c k def = (true, if list_eq_dec ascii_dec s (lit "true") then true else if list_eq_dec ascii_dec s (lit "false") then false else def).
Proof. intros E def. unfold get_bool. rewrite E, !str_eqb_dec. reflexivity. Qed.
Lemma split_commas ws : Forall (fun w => ~ In ","%char w) ws -> ws <> [] -> split (commas ws) = ws.
Proof.
  induction 1 as [|w ws Hw Hws IH]; intros N; [tauto|]. cbn [commas]. destruct ws as [|v ws].
  - unfold split. rewrite split_go_nocomma by exact Hw. reflexivity.
  - unfold split at 1. rewrite split_go_comma by exact Hw. rewrite IH by discriminate. reflexivity.
Qed.
Lemma get_bools_words c k ws : Forall (fun w => ~ In ","%char w) ws -> ws <> [] -> get_value c k = Some (commas ws) ->
  exists l, get_array_bool c k = (true, l) /\ length l = length ws /\
  forall i w, nth_error ws i = Some w -> nth_error l i = Some (if list_eq_dec ascii_dec w (lit "true") then true else false).
Proof.
  intros F N E. unfold get_array_bool. rewrite E, split_commas by assumption. eexists. split; [reflexivity|]. split; [apply map_length|].
  intros i w H. erewrite map_nth_error by exact H. rewrite <- str_eqb_dec. destruct (str_eqb w (lit "true")); reflexivity.
Qed.

(** * end marks and NUL *)
Lemma loop_lines_mark lines mark b : forall c, Forall (text_line mark) lines -> text_line [] mark ->
  parse_loop (length lines + 1) (Some mark) (stream_of (of_lines lines ++ mark ++ nl :: b)) c =
  Some (match fold_lines c lines with Ok c' => Ok (c', stream_of b) | Throw => Throw | UB => UB end).
Proof.
  induction lines as [|l L IH]; intros c H (M1 & M2 & M3 & M4).
  - unfold of_lines. cbn [map concat app length]. cbn [parse_loop stream_of eofb].
    change (parse_loop (0 + 1)) with (parse_loop 1). cbn [parse_loop stream_of eofb].
    change (mkIS (mark ++ nl :: b) false false) with (stream_of (mark ++ nl :: b)).
    rewrite getline_line by assumption. rewrite cstr_id by assumption. rewrite str_eqb_refl. reflexivity.
  - inversion H as [|? ? (H1 & H2 & H3 & H4) HL]; subst.
    change (length (l :: L) + 1) with (S (length L + 1)).
    unfold of_lines. cbn [map concat]. rewrite <- !app_assoc. cbn [app].
    cbn [parse_loop]. cbn [stream_of eofb]. fold (of_lines L).
    repeat match goal with |- context[mkIS ?s false false] => change (mkIS s false false) with (stream_of s) end.
    rewrite getline_line by assumption. rewrite cstr_id by assumption.
    destruct (str_eqb l mark) eqn:E; [apply str_eqb_true in E; contradiction|].
    cbn [fold_lines]. destruct (parse_line c l) as [c'| |]; [|reflexivity|reflexivity].
    apply IH; [assumption|repeat split; assumption].
Qed.
Lemma end_mark c lines mark b r : Forall (text_line mark) lines -> text_line [] mark -> mark <> [] ->
  parses_to (concat (map (fun l => l ++ ["010"%char]) lines)) None (Ok r) ->
  exists fuel, parse fuel c (Some mark) (stream_of (concat (map (fun l => l ++ ["010"%char]) lines) ++ mark ++ "010"%char :: b)) = Some (Ok (r, stream_of b)).
Proof.
  intros F M _ P. exists (length lines + 1). unfold parse.
  change (concat (map (fun l => l ++ ["010"%char]) lines)) with (of_lines lines). change "010"%char with nl.
  rewrite loop_lines_mark by assumption.
  assert (Q : parses_to (of_lines lines) None (fold_lines empty_c lines)).
  { apply parse_of_lines. eapply Forall_impl; [|exact F]. intros l (A & B & _ & D). auto. }
  rewrite (parses_to_det _ _ _ _ Q P : fold_lines (clear_c c) lines = Ok r). reflexivity.
Qed.
Lemma cstr_nul a t : ~ In nul a -> cstr (a ++ nul :: t) = a.
Proof.
  induction a as [|x a IH]; intros H; cbn [app cstr]; [reflexivity|].
  destruct (Ascii.eqb x nul) eqn:E; [apply Ascii.eqb_eq in E; subst; exfalso; apply H; left; reflexivity|].
  rewrite IH; [reflexivity|]. intros I; apply H; right; exact I.
Qed.
Lemma loop_nul f a junk b c : (N.of_nat (length (a ++ nul :: junk)) < 2048)%N -> ~ In nul a -> ~ In nl (a ++ junk) ->
  parse_loop f None (stream_of (a ++ nul :: junk ++ nl :: b)) c = parse_loop f None (stream_of (a ++ nl :: b)) c.
Proof.
  intros L N1 N2. assert (La : (N.of_nat (length a) < 2048)%N) by (rewrite app_length in L; lia).
  assert (N3 : ~ In nl (a ++ nul :: junk)).
  { intros I. apply N2. apply in_app_iff in I. apply in_app_iff. destruct I as [I|[I|I]]; auto. discriminate. }
  assert (N4 : ~ In nl a) by (intros I; apply N2, in_app_iff; auto).
  destruct f as [|f]; [reflexivity|]. cbn [parse_loop stream_of eofb].
  change (mkIS (a ++ nl :: b) false false) with (stream_of (a ++ nl :: b)).
  replace (a ++ nul :: junk ++ nl :: b) with ((a ++ nul :: junk) ++ nl :: b) by (rewrite <- app_assoc; reflexivity).
  rewrite (getline_line (a ++ nul :: junk) b), (getline_line a b) by assumption. rewrite cstr_nul, cstr_id by assumption. reflexivity.
Qed.
Lemma nul_line a junk b r : (N.of_nat (length (a ++ "000"%char :: junk)) < 2048)%N -> ~ In "000"%char a -> ~ In "010"%char (a ++ junk) ->
  (parses_to (a ++ "000"%char :: junk ++ "010"%char :: b) None r <-> parses_to (a ++ "010"%char :: b) None r).
Proof.
  intros L N1 N2. unfold parses_to, parse. change "000"%char with nul. change "010"%char with nl.
  split; intros (f & o & E & H); exists f, o; (split; [|exact H]); [rewrite <- (loop_nul f a junk b) by assumption|rewrite loop_nul by assumption]; exact E.
Qed.
