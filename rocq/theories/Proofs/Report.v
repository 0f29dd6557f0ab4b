(** Proofs about the report of a propagation. *)
From Coq Require Import Ascii String List ZArith Lia Bool Arith Ring Field.
From Verif Require Import Base Arrays Algebra Complex Model.Params Model.Frequency Model.Report Spec.Report.
Import ListNotations.
Open Scope Z_scope.

Lemma get_bool_on c k d : snd (get_bool c k d) = true <-> on c k d.
Proof.
  unfold get_bool, on. destruct (get_value c k) as [s|]; cbn [snd].
  - destruct (str_eqb s (lit "true")) eqn:E1; [apply str_eqb_true in E1; subst; split; [left; reflexivity|reflexivity]|].
    assert (N1 : s <> lit "true") by (intros ->; rewrite str_eqb_refl in E1; discriminate).
    destruct (str_eqb s (lit "false")) eqn:E2; [apply str_eqb_true in E2; subst; split; [discriminate|intros [H|[_ H]]; [injection H as H; discriminate|congruence]]|].
    assert (N2 : s <> lit "false") by (intros ->; rewrite str_eqb_refl in E2; discriminate).
    split; [intros ->; right; split; [reflexivity|congruence]|intros [H|[H _]]; congruence].
  - split; [intros ->; right; split; [reflexivity|discriminate]|intros [H|[H _]]; congruence].
Qed.
Lemma get_bool_off c k d : snd (get_bool c k d) = false <-> ~ on c k d.
Proof. rewrite <- get_bool_on. destruct (snd (get_bool c k d)); split; congruence. Qed.

Lemma chosen_app P l1 m1 l2 m2 : chosen P l1 m1 -> chosen P l2 m2 -> chosen P (l1 ++ l2) (m1 ++ m2).
Proof. intros H1 H2. induction H1; [exact H2|apply ch_take; assumption|apply ch_leave; assumption]. Qed.
Lemma chosen_all (P : column -> Prop) l : (forall x, In x l -> P x) -> chosen P l l.
Proof. induction l as [|x l IH]; intros H; constructor; [apply H; left; reflexivity|apply IH; intros y Hy; apply H; right; exact Hy]. Qed.
Lemma chosen_none (P : column -> Prop) l : (forall x, In x l -> ~ P x) -> chosen P l [].
Proof. induction l as [|x l IH]; intros H; constructor; [apply H; left; reflexivity|apply IH; intros y Hy; apply H; right; exact Hy]. Qed.
Lemma chosen_one (P : column -> Prop) x (b : bool) : (b = true <-> P x) -> chosen P [x] (if b then [x] else []).
Proof.
  destruct b; intros [H1 H2]; [apply ch_take; [apply H1; reflexivity|apply ch_nil]|apply ch_leave; [intros H; discriminate (H2 H)|apply ch_nil]].
Qed.

Section Proofs.
  Variable F : fld.
  Add Ring FR : (cr_th F).
  Variable W : Type.
  Variables (norm energy : W -> F) (states : W -> option (list F)) (dot : W -> W -> Cx F).
  Variable bad : F -> bool.
  Variable cabs : Cx F -> F.
  Variable junk : Z -> Cx F.
  Variables (dt : F) (steps : Z).
  Local Notation analyze := (analyze F W norm energy states dot bad cabs junk dt steps).
  Local Notation analyze_all := (analyze_all F W norm energy states dot bad cabs junk dt steps).
  Local Notation rep := (rep F W).

  (** the state norms of a wave function *)
  Definition sts (psi : W) : list F := match states psi with Some l => l | None => [] end.
  Definition f1 (r : rep) : fmt := if r_norm r then (if r_sci r then Sci 8 else Fixed 6) else Fixed 1.
  Definition f2 (r : rep) : fmt := if r_energy r then prec 8 (f1 r) else f1 r.
  Definition pop (psi : W) : F := (norm psi * norm psi)%cr.
  Definition lead (r : rep) (t : Z) (psi : W) : list (cell F) :=
    [(Int, NInt t); (Fixed 1, NReal (ofZ t * dt)%cr)] ++ (if r_norm r then [(f1 r, NReal (pop psi))] else []).
  Definition cells (r : rep) (p0 : W) (t : Z) (psi : W) : list (cell F) :=
    lead r t psi ++ (if r_norm r then map (fun x => (f1 r, NReal (x * x)%cr)) (sts psi) else [])
    ++ (if r_energy r then [(f2 r, NReal (energy psi))] else [])
    ++ (if r_proj r then [(f2 r, if r_sq r then NReal (cabs (dot psi p0) * cabs (dot psi p0))%cr else NCx (dot psi p0))] else []).
  Definition cols (r : rep) (k : Z) : list column :=
    [CStep; CTime] ++ (if r_norm r then [CPop] else []) ++ (if r_norm r then map CState (upto 0 k) else [])
    ++ (if r_energy r then [CEnergy] else []) ++ (if r_proj r && negb (r_sq r) then [CProj] else []) ++ (if r_proj r && r_sq r then [CProjSq] else []).
  Definition signal (r : rep) (p0 psi : W) : Cx F :=
    if r_sq r then cx_of (cabs (dot psi p0) * cabs (dot psi p0))%cr else dot psi p0.
  Definition good (r : rep) (psi : W) : Prop := r_norm r = true -> bad (pop psi) = false.
  (** the reporter fits to k states and p0 *)
  Definition fits (r : rep) (k : Z) (p0 : W) : Prop := r_multi r = (0 <? k) /\ r_psi0 r = Some p0.

  Lemma sp_ok r k psi : r_multi r = (0 <? k) -> uniform states k psi ->
    (if r_norm r && r_multi r then match states psi with Some l => Ok (map (fun x => (f1 r, NReal (x * x)%cr)) l) | None => UB end else Ok [])
    = Ok (if r_norm r then map (fun x => (f1 r, NReal (x * x)%cr)) (sts psi) else []).
  Proof.
    intros Hm Hu. unfold uniform, sts in *. rewrite Hm. destruct (r_norm r); [|reflexivity]. cbn [andb].
    destruct (states psi) as [l|]; [destruct Hu as [_ Hk]; rewrite (proj2 (Z.ltb_lt 0 k) Hk); reflexivity|subst k; reflexivity].
  Qed.
  Lemma upd_mid {A} (pre : list A) x rest v : upd (pre ++ x :: rest) (length pre) v = pre ++ v :: rest.
  Proof. induction pre as [|a pre IH]; [reflexivity|]. cbn. rewrite IH. reflexivity. Qed.
  Lemma wr_mid {A} (pre : list A) x rest v : wr (pre ++ x :: rest) (zlen pre) v = Ok (pre ++ v :: rest).
  Proof.
    rewrite wr_ok; [|unfold zlen; rewrite app_length; cbn [length]; lia]. unfold zlen. rewrite Nat2Z.id, upd_mid. reflexivity.
  Qed.
  (** one report that is not the first *)
  Lemma analyze_next r k p0 t psi pre rest : fits r k p0 -> uniform states k psi -> good r psi -> 0 < r_step r ->
    (r_proj r && r_spec r = true -> r_buf r = pre ++ rest /\ zlen pre = r_step r /\ rest <> []) ->
    exists b, analyze t psi r = Ok (true, (with_buf F W r b (r_step r + 1), [Row (cells r p0 t psi)])) /\
      (r_proj r && r_spec r = true -> b = pre ++ signal r p0 psi :: tl rest).
  Proof.
    intros [Hm Hp] Hu Hg Hs Hb. unfold Report.analyze. rewrite (proj2 (Z.eqb_neq (r_step r) 0)) by lia.
    cbn [with_buf r_norm r_sci r_energy r_proj r_sq r_spec r_multi r_psi0 r_buf r_step].
    fold (f1 r). change (norm psi * norm psi)%cr with (pop psi).
    assert (Hg' : r_norm r && bad (pop psi) = false) by (destruct (r_norm r) eqn:E; [cbn; apply Hg; exact E|reflexivity]). rewrite Hg'.
    rewrite (sp_ok r k psi Hm Hu). cbn [bind]. change (if r_energy r then prec 8 (f1 r) else f1 r) with (f2 r).
    unfold cells, lead. destruct (r_proj r) eqn:Ep.
    - rewrite Hp. destruct (r_spec r) eqn:Es.
      + destruct (Hb eq_refl) as (B1 & B2 & B3). destruct rest as [|x rest]; [congruence|].
        replace (r_step r + 1 - 1) with (zlen pre) by lia. rewrite B1. fold (signal r p0 psi). rewrite wr_mid. cbn [bind tl].
        eexists. split; [|reflexivity]. rewrite <- !app_assoc. reflexivity.
      + cbn [bind]. eexists. split; [|discriminate]. rewrite <- !app_assoc. reflexivity.
    - eexists. split; [|discriminate]. rewrite app_nil_r, <- !app_assoc. reflexivity.
  Qed.
  Lemma analyze_bad r t psi : 0 < r_step r -> r_norm r = true -> bad (pop psi) = true ->
    analyze t psi r = Ok (false, (with_buf F W r (r_buf r) (r_step r + 1), [Cut (lead r t psi)])).
  Proof.
    intros Hs Hn Hb. unfold Report.analyze. rewrite (proj2 (Z.eqb_neq (r_step r) 0)) by lia.
    cbn [with_buf r_norm r_sci r_energy r_proj r_sq r_spec r_multi r_psi0 r_buf r_step].
    fold (f1 r). change (norm psi * norm psi)%cr with (pop psi). rewrite Hn at 1. rewrite Hb. cbn [andb app]. unfold lead. reflexivity.
  Qed.

  (** the reporter with the header written: energies only with a Hamiltonian, a fresh buffer *)
  Definition started (r : rep) : rep :=
    mkRep (r_norm r) (r_sci r) (r_energy r && r_ham r) (r_proj r) (r_sq r) (r_spec r) (r_win r) (r_multi r) (r_psi0 r) (r_ham r) (r_name r) (map junk (upto 0 steps)) 0.
  Lemma header_ok r k psi : 0 <= steps -> r_multi r = (0 <? k) -> uniform states k psi -> r_step r = 0 ->
    header F W states junk steps psi r = Ok (started r, [Head (cols (started r) k)]).
  Proof.
    intros H0 Hm Hu Hs. unfold header. rewrite (proj2 (Z.ltb_ge steps 0)) by lia.
    assert (E : (if r_multi r && r_norm r then match states psi with Some l => Ok (map CState (upto 0 (zlen l))) | None => UB end else Ok [])
      = Ok (if r_norm r then map CState (upto 0 k) else [])).
    { unfold uniform in Hu. rewrite Hm. destruct (states psi) as [l|]; [destruct Hu as [-> Hk]; rewrite (proj2 (Z.ltb_lt 0 k) Hk); destruct (r_norm r); reflexivity|].
      subst k. cbn. destruct (r_norm r); reflexivity. }
    rewrite E. cbn [bind]. unfold started, cols. cbn [r_norm r_sci r_energy r_proj r_sq]. rewrite Hs. reflexivity.
  Qed.
  (** the first report is the header and then what another one would be, with the step counter moved *)
  Definition shift (r : rep) (n : Z) : rep := with_buf F W r (r_buf r) n.
  Lemma analyze_first r k p0 t psi : 0 < steps -> fits r k p0 -> uniform states k psi -> good r psi -> r_step r = 0 ->
    exists b, analyze t psi r = Ok (true, (with_buf F W (started r) b 1, [Head (cols (started r) k); Row (cells (started r) p0 t psi)])) /\
      (r_proj r && r_spec r = true -> b = signal r p0 psi :: tl (map junk (upto 0 steps))).
  Proof.
    intros H0 [Hm Hp] Hu Hg Hs. unfold Report.analyze. rewrite Hs, Z.eqb_refl, (header_ok r k psi ltac:(lia) Hm Hu Hs).
    set (q := started r). assert (Qm : r_multi q = (0 <? k)) by exact Hm. assert (Qp : r_psi0 q = Some p0) by exact Hp.
    assert (Qn : r_norm q = r_norm r) by reflexivity. assert (Qs : r_step q = 0) by reflexivity.
    cbn [with_buf r_norm r_sci r_energy r_proj r_sq r_spec r_multi r_psi0 r_buf r_step].
    fold (f1 q). change (norm psi * norm psi)%cr with (pop psi).
    assert (Hg' : r_norm q && bad (pop psi) = false) by (rewrite Qn; destruct (r_norm r) eqn:E; [cbn; apply Hg; exact E|reflexivity]). rewrite Hg'.
    rewrite (sp_ok q k psi Qm Hu). cbn [bind]. change (if r_energy q then prec 8 (f1 q) else f1 q) with (f2 q). rewrite Qs.
    unfold cells, lead. change (r_proj q) with (r_proj r). change (r_spec q) with (r_spec r). destruct (r_proj r) eqn:Ep.
    - rewrite Qp. destruct (r_spec r) eqn:Es.
      + change (r_buf q) with (map junk (upto 0 steps)). rewrite (upto_cons 0 steps H0). cbn [map]. fold (signal q p0 psi).
        replace (wr (junk 0 :: map junk (upto (0 + 1) steps)) (0 + 1 - 1) (signal q p0 psi)) with (Ok (signal q p0 psi :: map junk (upto (0 + 1) steps))) by reflexivity. cbn [bind tl app].
        eexists. split; [|reflexivity]. cbn [app]; repeat rewrite <- app_assoc; cbn [app]; repeat rewrite <- app_assoc; reflexivity.
      + cbn [bind app]. eexists. split; [|discriminate]. cbn [app]; repeat rewrite <- app_assoc; cbn [app]; repeat rewrite <- app_assoc; reflexivity.
    - cbn [app]. eexists. split; [|discriminate]. rewrite app_nil_r; cbn [app]; repeat rewrite <- app_assoc; cbn [app]; repeat rewrite <- app_assoc; reflexivity.
  Qed.
  Lemma analyze_first_bad r k p0 t psi : 0 < steps -> fits r k p0 -> uniform states k psi -> r_step r = 0 -> r_norm r = true -> bad (pop psi) = true ->
    analyze t psi r = Ok (false, (with_buf F W (started r) (r_buf (started r)) 1, [Head (cols (started r) k); Cut (lead (started r) t psi)])).
  Proof.
    intros H0 [Hm Hp] Hu Hs Hn Hb. unfold Report.analyze. rewrite Hs, Z.eqb_refl, (header_ok r k psi ltac:(lia) Hm Hu Hs).
    set (q := started r). assert (Qn : r_norm q = true) by exact Hn.
    cbn [with_buf r_norm r_sci r_energy r_proj r_sq r_spec r_multi r_psi0 r_buf r_step].
    fold (f1 q). change (norm psi * norm psi)%cr with (pop psi). rewrite Qn at 1. rewrite Hb. cbn [andb app]. reflexivity.
  Qed.

  Lemma cells_buf r b n p0 t psi : cells (with_buf F W r b n) p0 t psi = cells r p0 t psi. Proof. reflexivity. Qed.
  Lemma lead_buf r b n t psi : lead (with_buf F W r b n) t psi = lead r t psi. Proof. reflexivity. Qed.
  Lemma signal_buf r b n p0 psi : signal (with_buf F W r b n) p0 psi = signal r p0 psi. Proof. reflexivity. Qed.
  (** further reports *)
  Lemma all_next k p0 l : forall r out pre rest, fits r k p0 -> Forall (fun x => uniform states k (snd x) /\ good r (snd x)) l -> 0 < r_step r ->
    (r_proj r && r_spec r = true -> r_buf r = pre ++ rest /\ zlen pre = r_step r /\ (length l <= length rest)%nat) ->
    exists b, analyze_all l r out = Ok (true, (with_buf F W r b (r_step r + zlen l), out ++ map (fun x => Row (cells r p0 (fst x) (snd x))) l)) /\
      (r_proj r && r_spec r = true -> b = pre ++ map (fun x => signal r p0 (snd x)) l ++ skipn (length l) rest).
  Proof.
    induction l as [|[t psi] l IH]; intros r out pre rest Hf Hl Hs Hb.
    - exists (r_buf r). cbn. rewrite app_nil_r, Z.add_0_r. split; [destruct r; reflexivity|]. intros E. destruct (Hb E) as (-> & _). reflexivity.
    - inversion Hl as [|? ? [Hu Hg] Hl']; subst. cbn [snd fst] in *.
      destruct (analyze_next r k p0 t psi pre rest Hf Hu Hg Hs) as (b & E & Eb).
      { intros X. destruct (Hb X) as (B1 & B2 & B3). split; [exact B1|split; [exact B2|]]. destruct rest; [cbn in B3; lia|discriminate]. }
      cbn [Report.analyze_all]. rewrite E. cbn [bind]. set (r' := with_buf F W r b (r_step r + 1)).
      destruct (IH r' (out ++ [Row (cells r p0 t psi)]) (pre ++ [signal r p0 psi]) (tl rest)) as (b' & E' & Eb').
      + exact Hf.
      + exact Hl'.
      + cbn. lia.
      + change (r_proj r' && r_spec r') with (r_proj r && r_spec r). intros X. destruct (Hb X) as (B1 & B2 & B3). change (r_buf r') with b. rewrite (Eb X), <- app_assoc. split; [reflexivity|].
        split; [unfold zlen in *; rewrite app_length; cbn [length]; change (r_step r') with (r_step r + 1); lia|destruct rest; cbn in *; lia].
      + exists b'. rewrite E'. split.
        * change (r_step r') with (r_step r + 1). replace (r_step r + 1 + zlen l) with (r_step r + zlen ((t, psi) :: l)) by (unfold zlen; cbn [length]; lia). rewrite <- app_assoc. reflexivity.
        * intros X. rewrite (Eb' X), <- app_assoc. cbn [app map length skipn fst snd]. destruct rest; [destruct (Hb X) as (_ & _ & B3); cbn in B3; lia|reflexivity].
  Qed.
  (** all reports, from the beginning *)
  Theorem all_ok r k p0 l : l <> [] -> zlen l <= steps -> fits r k p0 -> Forall (fun x => uniform states k (snd x) /\ good r (snd x)) l -> r_step r = 0 ->
    exists b, analyze_all l r [] = Ok (true, (with_buf F W (started r) b (zlen l), Head (cols (started r) k) :: map (fun x => Row (cells (started r) p0 (fst x) (snd x))) l)) /\
      (r_proj r && r_spec r = true -> b = map (fun x => signal r p0 (snd x)) l ++ map junk (upto (zlen l) steps)).
  Proof.
    intros Hne Hn Hf Hl Hs. destruct l as [|[t psi] l]; [congruence|]. inversion Hl as [|? ? [Hu Hg] Hl']; subst. cbn [snd] in *.
    assert (H0 : 0 < steps) by (unfold zlen in Hn; cbn [length] in Hn; lia).
    destruct (analyze_first r k p0 t psi H0 Hf Hu Hg Hs) as (b & E & Eb). cbn [Report.analyze_all]. rewrite E. cbn [bind app].
    set (r' := with_buf F W (started r) b 1).
    destruct (all_next k p0 l r' [Head (cols (started r) k); Row (cells (started r) p0 t psi)] [signal r p0 psi] (map junk (upto 1 steps))) as (b' & E' & Eb').
    - exact Hf.
    - exact Hl'.
    - cbn. lia.
    - change (r_proj r' && r_spec r') with (r_proj r && r_spec r). intros X. change (r_buf r') with b. rewrite (Eb X), (upto_cons 0 steps H0). cbn [map tl app].
      split; [reflexivity|split; [reflexivity|]]. rewrite map_length, upto_length. unfold zlen in Hn. cbn [length] in Hn. lia.
    - exists b'. rewrite E'. split.
      + change (r_step r') with 1. replace (1 + zlen l) with (zlen ((t, psi) :: l)) by (unfold zlen; cbn [length]; lia). reflexivity.
      + intros X. rewrite (Eb' X). cbn [app map snd]. f_equal. f_equal. rewrite <- (app_nil_l (map junk (upto (zlen _) steps))).
        rewrite (upto_app 1 (1 + zlen l) steps); [|unfold zlen; lia|unfold zlen in *; cbn [length] in Hn; lia].
        rewrite map_app, skipn_app, skipn_all2 by (rewrite map_length, upto_length; unfold zlen; lia).
        cbn [app]. rewrite map_length, upto_length. replace (length l - Z.to_nat (1 + zlen l - 1))%nat with 0%nat by (unfold zlen; lia). cbn [skipn].
        do 2 f_equal. unfold zlen. cbn [length]. lia.
  Qed.
  (** a population that is not a number *)
  Lemma all_app l1 l2 r out : analyze_all (l1 ++ l2) r out =
    let* x := analyze_all l1 r out in let '(ok, (r, out)) := x in if ok then analyze_all l2 r out else Ok (false, (r, out)).
  Proof.
    revert r out. induction l1 as [|[t psi] l1 IH]; intros r out; [reflexivity|]. cbn [app Report.analyze_all]. destruct (analyze t psi r) as [[ok [r' o]]| |]; [|reflexivity|reflexivity]. cbn [bind].
    destruct ok; [apply IH|reflexivity].
  Qed.
  Theorem all_stop r k p0 l t psi l' : zlen l < steps -> fits r k p0 -> Forall (fun x => uniform states k (snd x) /\ good r (snd x)) l -> r_step r = 0 ->
    uniform states k psi -> r_norm r = true -> bad (pop psi) = true ->
    exists b, analyze_all (l ++ (t, psi) :: l') r [] = Ok (false, (with_buf F W (started r) b (zlen l + 1),
      Head (cols (started r) k) :: map (fun x => Row (cells (started r) p0 (fst x) (snd x))) l ++ [Cut (lead (started r) t psi)])) /\
      (r_proj r && r_spec r = true -> b = map (fun x => signal r p0 (snd x)) l ++ map junk (upto (zlen l) steps)).
  Proof.
    intros Hn Hf Hl Hs Hu Hno Hb. destruct l as [|x l].
    - cbn [app Report.analyze_all]. rewrite (analyze_first_bad r k p0 t psi ltac:(unfold zlen in Hn; cbn in Hn; lia) Hf Hu Hs Hno Hb). cbn [bind]. eexists. split; [reflexivity|]. reflexivity.
    - destruct (all_ok r k p0 (x :: l) ltac:(discriminate) ltac:(lia) Hf Hl Hs) as (b & E & Eb). rewrite all_app, E. cbn [bind Report.analyze_all].
      rewrite analyze_bad; [|cbn; unfold zlen; cbn [length]; lia|exact Hno|exact Hb]. cbn [bind]. exists b. split; [reflexivity|exact Eb].
  Qed.

  (** what the rows show *)
  Lemma shows_states pr t psi (f : fmt) st : states psi = Some st -> forall l i, (forall j x, rd l j = Ok x -> rd st (i + j) = Ok x) ->
    Forall2 (shows norm energy states dt pr t psi) (map CState (upto i (i + zlen l))) (map snd (map (fun x => (f, NReal (x * x)%cr)) l)).
  Proof.
    intros Es. induction l as [|x l IH]; intros i H.
    - rewrite upto_nil by (unfold zlen; cbn; lia). constructor.
    - rewrite upto_cons by (unfold zlen; cbn [length]; lia). cbn [map snd]. constructor.
      + apply sh_state with (l := st) (x := x); [exact Es|]. specialize (H 0 x eq_refl). rewrite Z.add_0_r in H. exact H.
      + replace (i + zlen (x :: l)) with (i + 1 + zlen l) by (unfold zlen; cbn [length]; lia). apply IH. intros j y E. replace (i + 1 + j) with (i + (j + 1)) by lia. apply H.
        unfold rd in *. destruct (Z.leb_spec 0 j) as [L|L]; [|discriminate]. rewrite (proj2 (Z.leb_le 0 (j + 1))) by lia. replace (Z.to_nat (j + 1)) with (S (Z.to_nat j)) by lia. exact E.
  Qed.
  Lemma row_ok r k p0 t psi pr : uniform states k psi -> (r_proj r && negb (r_sq r) = true -> pr = dot psi p0) ->
    (r_proj r && r_sq r = true -> (cabs (dot psi p0) * cabs (dot psi p0))%cr = sqr pr) ->
    row_shows norm energy states dt pr (cols r k) t psi (cells r p0 t psi).
  Proof.
    intros Hu H1 H2. unfold row_shows, cols, cells, lead. rewrite <- !app_assoc. rewrite !map_app.
    apply Forall2_app; [repeat constructor|]. apply Forall2_app; [destruct (r_norm r); repeat constructor|].
    apply Forall2_app.
    - destruct (r_norm r); [|constructor]. unfold uniform, sts in *. destruct (states psi) as [st|] eqn:Es.
      + destruct Hu as [<- _]. apply (shows_states pr t psi (f1 r) st Es st 0). intros j x E. exact E.
      + subst k. rewrite upto_nil by lia. constructor.
    - apply Forall2_app; [destruct (r_energy r); repeat constructor|].
      destruct (r_proj r); [|constructor]. destruct (r_sq r); cbn [andb negb app map snd] in *.
      + rewrite (H2 eq_refl). repeat constructor.
      + rewrite <- (H1 eq_refl). repeat constructor.
  Qed.
  (** the decimals *)
  Lemma cells_prec r p0 t psi : r_norm r = true \/ r_energy r = true -> Forall (fun x => 6 <= decimals (fst x)) (skipn 2 (cells r p0 t psi)).
  Proof.
    intros H. unfold cells, lead. rewrite <- app_assoc. cbn [app skipn].
    assert (H1 : r_norm r = true -> 6 <= decimals (f1 r)) by (intros E; unfold f1; rewrite E; destruct (r_sci r); cbn; lia).
    assert (H2 : 6 <= decimals (f2 r)).
    { unfold f2. destruct (r_energy r); [unfold f1; destruct (r_norm r); [destruct (r_sci r)|]; cbn; lia|]. apply H1. destruct H; [assumption|discriminate]. }
    repeat (apply Forall_app; split).
    - destruct (r_norm r); [repeat constructor; apply H1; reflexivity|constructor].
    - destruct (r_norm r); [|constructor]. apply Forall_forall. intros x Hx. apply in_map_iff in Hx as (y & <- & _). apply H1. reflexivity.
    - destruct (r_energy r); repeat constructor; exact H2.
    - destruct (r_proj r); repeat constructor; exact H2.
  Qed.
End Proofs.

Section Spectrum.
  Variable F : fld.
  Add Ring FR2 : (cr_th F).
  Add Ring CR2 : (cr_th (Cx F)).
  Variable W : Type.
  Variables (norm energy : W -> F) (states : W -> option (list F)) (dot : W -> W -> Cx F).
  Variable bad : F -> bool.
  Variable cabs : Cx F -> F.
  Variable cosn : Z -> Z -> F.
  Variable cis : Z -> Z -> Cx F.
  Variable junk : Z -> Cx F.
  Variable twopi : F.
  Variables (dt : F) (steps : Z).
  Local Notation rep := (rep F W).
  Local Notation fin := (finalize F W cabs cosn cis twopi dt steps).
  Local Notation rpt := (report F W norm energy states dot bad cabs cosn cis junk twopi dt steps).

  Lemma div_mul (a b : F) : (a / b)%cr = (a * / b)%cr. Proof. exact (Fdiv_def (f_th F) a b). Qed.
  Lemma combine_self {A B} (f : A -> B) l : combine l (map f l) = map (fun a => (a, f a)) l.
  Proof. induction l as [|a l IH]; [reflexivity|]. cbn. rewrite IH. reflexivity. Qed.
  Lemma zlen_upto n : 0 <= n -> zlen (upto 0 n) = n.
  Proof. intros H. unfold zlen. rewrite upto_length. lia. Qed.
  Lemma hann_map n (g : Z -> Cx F) : 0 <= n -> hann F cosn (map g (upto 0 n)) = map (window cosn true n g) (upto 0 n).
  Proof.
    intros H. unfold hann. rewrite zlen_map, zlen_upto by exact H. rewrite combine_self, map_map. apply map_ext. intros j. unfold window. f_equal. rewrite !div_mul. ring.
  Qed.
  Lemma forward_map n (g : Z -> Cx F) : 0 <= n -> forward F cis (map g (upto 0 n)) = map (transform cis n g) (upto 0 n).
  Proof.
    intros H. unfold forward. rewrite zlen_map, zlen_upto by exact H. apply map_ext. intros m. rewrite combine_self, lsum_map. reflexivity.
  Qed.
  (** the lines of the file *)
  Definition lines (n : Z) (g : Z -> Cx F) : list (row F) :=
    map (fun i => (spectrum_freq F twopi dt n i, (cabs (transform cis n g i) / ofZ (Z.quot n 2))%cr, (fst (transform cis n g i) / ofZ (Z.quot n 2))%cr, (snd (transform cis n g i) / ofZ (Z.quot n 2))%cr)) (upto 0 n).
  Definition sfinal (handling opens : bool) (r : rep) (n : Z) (g : Z -> Cx F) : ending F :=
    let l := Done steps (ofZ steps * dt)%cr :: (if r_win r then [Windowed] else []) in
    if opens then Ended (l ++ [Written (r_name r)]) (Some (mkSfile (r_name r) (if Z.quot n 2 =? 0 then None else Some (lines n (window cosn (r_win r) n g)))))
    else if handling then Ended (l ++ [NotWritten]) None else Terminated l.
  Lemma write_map handling opens n g name l : 0 < n ->
    write_spectrum F cabs cis twopi dt handling opens (map g (upto 0 n)) name l =
    Ok (if opens then Ended (l ++ [Written name]) (Some (mkSfile name (if Z.quot n 2 =? 0 then None else Some (lines n g))))
        else if handling then Ended (l ++ [NotWritten]) None else Terminated l).
  Proof.
    intros H. unfold write_spectrum. rewrite zlen_map, zlen_upto by lia. destruct opens; [|reflexivity]. cbn [negb]. rewrite (proj2 (Z.eqb_neq n 0)) by lia.
    rewrite forward_map, combine_self, map_map by lia. reflexivity.
  Qed.
  Lemma window_off n g : map (window cosn false n g) (upto 0 n) = map g (upto 0 n).
  Proof. apply map_ext. reflexivity. Qed.
  Lemma lines_ext n g g' : (forall j, 0 <= j < n -> g j = g' j) -> lines n g = lines n g'.
  Proof.
    intros H. unfold lines. apply map_ext. intros i. assert (E : transform cis n g i = transform cis n g' i).
    { unfold transform. apply lsum_ext. intros j Hj. apply in_upto in Hj. rewrite H by exact Hj. reflexivity. }
    rewrite E. reflexivity.
  Qed.
  Lemma final_map handling opens r n g : 0 < n -> r_spec r = true -> r_buf r = map g (upto 0 n) -> fin handling opens r = Ok (sfinal handling opens r n g).
  Proof.
    intros H Hs Hb. unfold finalize, sfinal. rewrite Hs, Hb. destruct (r_win r).
    - rewrite hann_map, write_map by lia. destruct opens; reflexivity.
    - rewrite write_map by lia. rewrite (lines_ext n (window cosn false n g) g) by reflexivity. destruct opens; reflexivity.
  Qed.
  Lemma final_none handling opens r : r_spec r = false -> fin handling opens r = Ok (Ended [Done steps (ofZ steps * dt)%cr] None).
  Proof. intros H. unfold finalize. rewrite H. reflexivity. Qed.

  Lemma final_same handling opens r r' : r_spec r = r_spec r' -> r_win r = r_win r' -> r_name r = r_name r' -> (r_spec r = true -> r_buf r = r_buf r') -> fin handling opens r = fin handling opens r'.
  Proof.
    intros H1 H2 H3 H4. unfold finalize. rewrite <- H1, <- H2, <- H3. destruct (r_spec r); [|reflexivity]. rewrite <- (H4 eq_refl). reflexivity.
  Qed.
  Lemma final_done handling opens r e n : fin handling opens r = Ok e -> (exists t, match e with Ended l _ | Terminated l => In (Done n t) l end) <-> n = steps.
  Proof.
    intros Ef. unfold finalize, write_spectrum in Ef.
    destruct (r_spec r); [destruct (r_win r); destruct opens, handling; cbn [negb] in Ef; repeat (destruct (_ =? _) in Ef; try discriminate)|]; injection Ef as <-; cbn [app In];
      (split; [intros [t Ht]; intuition congruence|intros ->; eexists; left; reflexivity]).
  Qed.

  (** the reporter as the propagation sets it up *)
  Definition setup (dir : str) (c : container) (psi0 : W) : rep := hamilton F W (psi_initial F W states psi0 (options F W dir c (new_rep F W))).
  Lemma setup_fits dir c psi0 k : uniform states k psi0 -> fits F W (setup dir c psi0) k psi0.
  Proof.
    intros H. split; unfold setup, hamilton, psi_initial, options, new_rep; cbn; [|reflexivity].
    unfold uniform in H. destruct (states psi0) as [l|]; [destruct H as [_ H]; symmetry; apply Z.ltb_lt; exact H|subst k; destruct (get_value c _); reflexivity].
  Qed.
  Lemma setup_norm dir c psi0 : r_norm (setup dir c psi0) = snd (get_bool c (lit "norm") true).
  Proof. unfold setup, hamilton, psi_initial, options. destruct (get_value c (lit "spectrum")); reflexivity. Qed.
  Lemma setup_energy dir c psi0 : r_energy (setup dir c psi0) = snd (get_bool c (lit "energy") true).
  Proof. unfold setup, hamilton, psi_initial, options. destruct (get_value c (lit "spectrum")); reflexivity. Qed.
  Lemma setup_sq dir c psi0 : r_sq (setup dir c psi0) = snd (get_bool c (lit "proj0Abs") false).
  Proof. unfold setup, hamilton, psi_initial, options. destruct (get_value c (lit "spectrum")); reflexivity. Qed.
  Lemma setup_proj dir c psi0 : r_proj (setup dir c psi0) = match get_value c (lit "spectrum") with Some _ => true | None => snd (get_bool c (lit "proj0Abs") false) || snd (get_bool c (lit "proj0") false) end.
  Proof. unfold setup, hamilton, psi_initial, options. destruct (get_value c (lit "spectrum")); reflexivity. Qed.
  Lemma setup_spec dir c psi0 : r_spec (setup dir c psi0) = match get_value c (lit "spectrum") with Some _ => true | None => false end.
  Proof. unfold setup, hamilton, psi_initial, options. destruct (get_value c (lit "spectrum")); reflexivity. Qed.
  Lemma setup_win dir c psi0 s : get_value c (lit "spectrum") = Some s -> r_win (setup dir c psi0) = snd (get_bool c (lit "win") true).
  Proof. intros H. unfold setup, hamilton, psi_initial, options. rewrite H. reflexivity. Qed.
  Lemma setup_name dir c psi0 s : get_value c (lit "spectrum") = Some s -> r_name (setup dir c psi0) = (dir ++ s)%list.
  Proof. intros H. unfold setup, hamilton, psi_initial, options. rewrite H. reflexivity. Qed.
  Lemma setup_step dir c psi0 : r_step (setup dir c psi0) = 0.
  Proof. unfold setup, hamilton, psi_initial, options. destruct (get_value c (lit "spectrum")); reflexivity. Qed.
  Lemma setup_ham dir c psi0 : r_ham (setup dir c psi0) = true.
  Proof. reflexivity. Qed.
  Definition begun (dir : str) (c : container) (psi0 : W) : rep := started F W junk steps (setup dir c psi0).
  Lemma begun_energy dir c psi0 : r_energy (begun dir c psi0) = snd (get_bool c (lit "energy") true).
  Proof. unfold begun, started. cbn [r_energy]. rewrite setup_ham, andb_true_r. apply setup_energy. Qed.
  Lemma cols_chosen dir c psi0 k : chosen (asked c) (all_columns k) (cols F W (begun dir c psi0) k).
  Proof.
    set (q := begun dir c psi0). assert (Qn : r_norm q = snd (get_bool c (lit "norm") true)) by apply setup_norm.
    assert (Qe : r_energy q = snd (get_bool c (lit "energy") true)) by apply begun_energy.
    assert (Qs : r_sq q = snd (get_bool c (lit "proj0Abs") false)) by apply setup_sq.
    assert (Qp : r_proj q = match get_value c (lit "spectrum") with Some _ => true | None => snd (get_bool c (lit "proj0Abs") false) || snd (get_bool c (lit "proj0") false) end) by apply setup_proj.
    unfold cols, all_columns. change [CStep; CTime; CPop] with ([CStep; CTime] ++ [CPop]). rewrite <- app_assoc.
    apply chosen_app; [repeat constructor; exact I|]. apply chosen_app; [apply chosen_one; rewrite Qn; apply get_bool_on|].
    apply chosen_app.
    - rewrite Qn. destruct (snd (get_bool c (lit "norm") true)) eqn:E; [apply chosen_all|apply chosen_none]; intros x Hx; apply in_map_iff in Hx as (i & <- & _); cbn [asked];
        [apply get_bool_on|apply get_bool_off]; exact E.
    - change [CEnergy; CProj; CProjSq] with ([CEnergy] ++ [CProj] ++ [CProjSq]). apply chosen_app; [apply chosen_one; rewrite Qe; apply get_bool_on|].
      apply chosen_app; apply chosen_one; rewrite Qp, Qs; cbn [asked]; unfold with_spectrum; rewrite <- ?(get_bool_on c (lit "proj0")), <- ?(get_bool_on c (lit "proj0Abs")); rewrite <- ?get_bool_on;
        destruct (get_value c (lit "spectrum")); destruct (snd (get_bool c (lit "proj0Abs") false)); try destruct (snd (get_bool c (lit "proj0") false)); cbn; intuition congruence.
  Qed.

  (** the ending of a run of which n reports were made *)
  Lemma signals_map dir c psi0 (l : list (Z * W)) (g : Z -> Cx F) : (forall j x, rd l j = Ok x -> g j = signal F W dot cabs (setup dir c psi0) psi0 (snd x)) ->
    map (fun x => signal F W dot cabs (setup dir c psi0) psi0 (snd x)) l = map g (upto 0 (zlen l)).
  Proof.
    intros H. apply rd_ext; [rewrite !zlen_map, zlen_upto; unfold zlen; lia|]. intros i Hi. rewrite zlen_map in Hi. rewrite !rd_map, rd_upto by lia.
    destruct (proj1 (rd_ok l i) Hi) as [x Hx]. rewrite Hx. cbn [bind]. rewrite Z.add_0_l, (H _ _ Hx). reflexivity.
  Qed.
  Theorem report_ok dir c psi0 k l stopped opens : l <> [] -> zlen l <= steps -> uniform states k psi0 ->
    Forall (fun x => uniform states k (snd x) /\ (on c (lit "norm") true -> bad (norm (snd x) * norm (snd x))%cr = false)) l ->
    exists b e, rpt dir c psi0 l stopped opens = Ok (Head (cols F W (begun dir c psi0) k) :: map (fun x => Row (cells F W norm energy states dot cabs dt (begun dir c psi0) psi0 (fst x) (snd x))) l, e) /\
      fin stopped opens (with_buf F W (begun dir c psi0) b (zlen l)) = Ok e /\
      (with_spectrum c -> b = map (fun x => signal F W dot cabs (setup dir c psi0) psi0 (snd x)) l ++ map junk (upto (zlen l) steps)).
  Proof.
    intros Hne Hn Hu Hl. set (r := setup dir c psi0).
    destruct (all_ok F W norm energy states dot bad cabs junk dt steps r k psi0 l Hne Hn (setup_fits dir c psi0 k Hu)) as (b & E & Eb).
    { apply Forall_forall. intros x Hx. rewrite Forall_forall in Hl. destruct (Hl x Hx) as [H1 H2]. split; [exact H1|]. intros Hno. apply H2. unfold r in Hno. rewrite setup_norm in Hno. apply get_bool_on. exact Hno. }
    { apply setup_step. }
    assert (B : with_spectrum c -> b = map (fun x => signal F W dot cabs r psi0 (snd x)) l ++ map junk (upto (zlen l) steps)).
    { intros Hw. apply Eb. unfold r. rewrite setup_proj, setup_spec. unfold with_spectrum in Hw. destruct (get_value c (lit "spectrum")); [reflexivity|congruence]. }
    assert (X : exists e, fin stopped opens (with_buf F W (begun dir c psi0) b (zlen l)) = Ok e).
    { destruct (get_value c (lit "spectrum")) as [s|] eqn:Es.
      - assert (Hb : b = map (fun j => nth (Z.to_nat j) b c0) (upto 0 steps)).
        { assert (Hz : zlen b = steps). { rewrite B by (unfold with_spectrum; rewrite Es; discriminate). unfold zlen in *. rewrite app_length, !map_length, upto_length. lia. }
          apply rd_ext; [rewrite zlen_map, zlen_upto; unfold zlen in *; lia|]. intros i Hi. rewrite rd_map, rd_upto by lia. cbn [bind]. rewrite (rd_nth b i c0 Hi). do 2 f_equal. }
        eexists. apply final_map with (n := steps); [destruct l; [congruence|unfold zlen in Hn; cbn [length] in Hn; lia]| |exact Hb].
        change (r_spec (setup dir c psi0) = true). rewrite setup_spec, Es. reflexivity.
      - eexists. apply final_none. change (r_spec (setup dir c psi0) = false). rewrite setup_spec, Es. reflexivity. }
    destruct X as [e X]. exists b, e. split; [|split; [exact X|exact B]]. unfold report. fold (setup dir c psi0). fold r. rewrite E. cbn [bind negb]. rewrite orb_false_r.
    unfold begun in X. fold r in X. rewrite X. reflexivity.
  Qed.
  (** a complete run with a spectrum *)
  Theorem report_spectrum dir c psi0 k l stopped opens s g : l <> [] -> zlen l = steps -> uniform states k psi0 ->
    Forall (fun x => uniform states k (snd x) /\ (on c (lit "norm") true -> bad (norm (snd x) * norm (snd x))%cr = false)) l ->
    get_value c (lit "spectrum") = Some s -> (forall j x, rd l j = Ok x -> g j = signal F W dot cabs (setup dir c psi0) psi0 (snd x)) ->
    exists out, rpt dir c psi0 l stopped opens = Ok (out, sfinal stopped opens (setup dir c psi0) steps g).
  Proof.
    intros Hne Hn Hu Hl Hs Hg. destruct (report_ok dir c psi0 k l stopped opens Hne ltac:(lia) Hu Hl) as (b & e & E & Ef & Eb).
    assert (Hb : b = map g (upto 0 steps)).
    { rewrite Eb by (unfold with_spectrum; rewrite Hs; discriminate). rewrite (signals_map dir c psi0 l g Hg), Hn, (upto_nil steps steps) by lia. rewrite app_nil_r. reflexivity. }
    rewrite (final_map stopped opens (with_buf F W (begun dir c psi0) b (zlen l)) steps g) in Ef.
    - injection Ef as <-. eexists. exact E.
    - destruct l; [congruence|unfold zlen in Hn; cbn [length] in Hn; lia].
    - change (r_spec (setup dir c psi0) = true). rewrite setup_spec, Hs. reflexivity.
    - exact Hb.
  Qed.

  (** a stationary state *)
  Lemma lsum_one {A} (l : list A) : lsum (fun _ => c1 : Cx F) l = ofZ (zlen l).
  Proof.
    induction l as [|a l IH]; [reflexivity|]. cbn [lsum]. rewrite IH. unfold zlen. cbn [length]. rewrite Nat2Z.inj_succ, <- Z.add_1_r, ofZ_add, ofZ_1. ring.
  Qed.
  Lemma ofZ_cx z : @ofZ (Cx F) z = cx_of (ofZ z).
  Proof.
    assert (P : forall n : nat, @ofZ (Cx F) (Z.of_nat n) = cx_of (ofZ (Z.of_nat n))).
    { induction n as [|n IH]; [reflexivity|]. rewrite Nat2Z.inj_succ, <- Z.add_1_r, !ofZ_add, IH, !ofZ_1. unfold cx_of. apply cx_eq; cbn; ring. }
    destruct (Z.le_gt_cases 0 z) as [H|H]; [rewrite <- (Z2Nat.id z H); apply P|].
    replace z with (- Z.of_nat (Z.to_nat (- z))) by lia. rewrite !ofZ_opp, P. apply cx_eq; cbn; ring.
  Qed.
  Lemma transform_stationary n k m : 0 < n -> 0 <= k < n -> 0 <= m < n -> roots cis n ->
    transform cis n (fun j => cis (j * k) n) m = if m =? k then cx_of (ofZ n) else c0.
  Proof.
    intros Hn Hk Hm (R1 & R2 & R3 & R4). unfold transform.
    rewrite (lsum_ext (Cx F) _ (fun j => cis (j * (k - m)) n)) by (intros j _; rewrite <- R1; f_equal; lia).
    destruct (Z.eqb_spec m k) as [->|Hne].
    - rewrite (lsum_ext (Cx F) _ (fun _ => c1)) by (intros j _; rewrite Z.sub_diag, Z.mul_0_r; exact R2). rewrite lsum_one, zlen_upto, ofZ_cx by lia. reflexivity.
    - apply R4. intros H. apply Z.rem_divide in H; [|lia]. destruct H as [q Hq]. assert (q = 0) by nia. subst q. lia.
  Qed.
  Lemma sqr_opp (y : F) : (- y * - y)%cr = (y * y)%cr. Proof. ring. Qed.
  Lemma zero_mul (y : F) : (c0 * y)%cr = c0. Proof. ring. Qed.
End Spectrum.
