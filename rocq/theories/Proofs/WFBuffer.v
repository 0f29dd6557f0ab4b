From Coq Require Import List ZArith Lia Bool.
From Verif Require Import Base Arrays Model.WFBuffer Spec.WFBuffer.
Import ListNotations.
Open Scope Z_scope.

Section P.
  Variable V : Type.
  Variable sz : Z.
  Variable reload : V -> V.
  Variable fresh : V.
  Notation buf := (buf V).
  Notation ent := (b_ent V).
  Notation last_ := (b_last V).
  Notation depth := (b_depth V).
  Notation files := (b_files V).

  Lemma upd_filter (f : entry V -> bool) l n e e' : nth_error l n = Some e -> f e' = f e -> length (filter f (upd l n e')) = length (filter f l).
  Proof.
    revert n. induction l as [|x l IH]; intros [|n] E F; cbn in *; try discriminate.
    - injection E as ->. rewrite F. destruct (f e); reflexivity.
    - destruct (f x); cbn; rewrite (IH n E F); reflexivity.
  Qed.
  Lemma upd_filter_less (f : entry V -> bool) l n e' : f e' = false -> (length (filter f (upd l n e')) <= length (filter f l))%nat.
  Proof.
    intros F. revert n. induction l as [|x l IH]; intros [|n]; cbn; try lia.
    - rewrite F. destruct (f x); cbn; lia.
    - specialize (IH n). destruct (f x); cbn; lia.
  Qed.
  Lemma rd_nth_error {A} (l : list A) i e : rd l i = Ok e -> nth_error l (Z.to_nat i) = Some e.
  Proof. unfold rd. destruct (0 <=? i); [|discriminate]. destruct (nth_error l (Z.to_nat i)); congruence. Qed.

  Lemma set_psi_ok b pos v : 0 <= pos < zlen (ent b) -> exists e, rd (ent b) pos = Ok e /\
    set_psi V b pos v = Ok (with_ent V b (upd (ent b) (Z.to_nat pos) (mkE V v (e_lock V e) (e_disk V e)))).
  Proof. intros H. destruct (proj1 (rd_ok _ _) H) as [e E]. exists e. split; [exact E|]. unfold set_psi. rewrite E. cbn [bind]. rewrite wr_ok by exact H. reflexivity. Qed.
  Lemma set_lock_ok b pos k : 0 <= pos < zlen (ent b) -> exists e, rd (ent b) pos = Ok e /\
    set_lock V b pos k = Ok (with_ent V b (upd (ent b) (Z.to_nat pos) (mkE V (e_psi V e) k (e_disk V e)))).
  Proof. intros H. destruct (proj1 (rd_ok _ _) H) as [e E]. exists e. split; [exact E|]. unfold set_lock. rewrite E. cbn [bind]. rewrite wr_ok by exact H. reflexivity. Qed.
  Lemma set_lock_inv b pos k b' : set_lock V b pos k = Ok b' -> exists e, rd (ent b) pos = Ok e /\
    b' = with_ent V b (upd (ent b) (Z.to_nat pos) (mkE V (e_psi V e) k (e_disk V e))).
  Proof.
    intros E. assert (B : 0 <= pos < zlen (ent b)).
    { unfold set_lock in E. destruct (rd (ent b) pos) eqn:Er; try discriminate. apply rd_bounds in Er. exact Er. }
    destruct (set_lock_ok b pos k B) as (e & E1 & E2). exists e. split; [exact E1|]. congruence.
  Qed.
  Lemma set_psi_inv b pos k b' : set_psi V b pos k = Ok b' -> exists e, rd (ent b) pos = Ok e /\
    b' = with_ent V b (upd (ent b) (Z.to_nat pos) (mkE V k (e_lock V e) (e_disk V e))).
  Proof.
    intros E. assert (B : 0 <= pos < zlen (ent b)).
    { unfold set_psi in E. destruct (rd (ent b) pos) eqn:Er; try discriminate. apply rd_bounds in Er. exact Er. }
    destruct (set_psi_ok b pos k B) as (e & E1 & E2). exists e. split; [exact E1|]. congruence.
  Qed.

  (** what an entry holds *)
  Definition content (b : buf) (i : Z) : option V :=
    match rd (ent b) i with
    | Ok e => match e_psi V e with Some v => Some v | None => if e_disk V e then files b i else None end
    | _ => None
    end.
  Definition filed (b : buf) : Prop := forall i e, rd (ent b) i = Ok e -> e_disk V e = true -> files b i <> None.

  Lemma victim_some b i : victim V b = Some i -> 1 <= i < zlen (ent b) /\ exists e v, rd (ent b) i = Ok e /\ e_psi V e = Some v /\ e_lock V e = false.
  Proof.
    unfold victim. intros E. apply find_some in E. destruct E as [I M]. apply in_rev in I. apply in_upto in I. split; [exact I|].
    unfold movable in M. destruct (rd (ent b) i) as [e| |] eqn:Er; try discriminate. apply andb_true_iff in M. destruct M as [M1 M2].
    unfold in_mem in M1. destruct (e_psi V e) as [v|] eqn:Ep; [|discriminate]. exists e, v. split; [reflexivity|]. split; [exact Ep|]. destruct (e_lock V e); [discriminate|reflexivity].
  Qed.
  (** moving an entry to disk *)
  Lemma move_cases b : move V b = b \/ exists i e v, 1 <= i < zlen (ent b) /\ rd (ent b) i = Ok e /\ e_psi V e = Some v /\ e_lock V e = false /\
    move V b = mkB V (upd (ent b) (Z.to_nat i) (mkE V None false true)) (last_ b) (depth b) (b_max V b) (fun j => if j =? i then Some v else files b j).
  Proof.
    unfold move. destruct (victim V b) as [i|] eqn:E; [|left; reflexivity]. destruct (victim_some b i E) as (Hi & e & v & Er & Ep & El).
    right. exists i, e, v. split; [exact Hi|]. split; [exact Er|]. split; [exact Ep|]. split; [exact El|]. rewrite Er, El, Ep. reflexivity.
  Qed.
  Definition same_frame (b b' : buf) : Prop := zlen (ent b') = zlen (ent b) /\ last_ b' = last_ b /\ depth b' = depth b /\ b_max V b' = b_max V b.
  Record moved (b b' : buf) : Prop := {
    mv_frame : same_frame b b';
    mv_content : forall i, content b' i = content b i;
    mv_filed : filed b -> filed b';
    mv_bytes : 0 <= sz -> bytes V sz b' <= bytes V sz b;
    mv_count : forall real, 0 <= real -> held V real b' <= held V real b;
    mv_locked : forall i e, rd (ent b) i = Ok e -> (i = 0 \/ e_lock V e = true) -> rd (ent b') i = Ok e;
    mv_lock : forall i e, rd (ent b) i = Ok e -> exists e', rd (ent b') i = Ok e' /\ e_lock V e' = e_lock V e }.
  Lemma moved_refl b : moved b b.
  Proof.
    constructor; try (intros; lia); auto; [split; [|split; [|split]]; reflexivity|]. intros i e E. exists e. split; [exact E|reflexivity].
  Qed.
  Lemma move_moved b : moved b (move V b).
  Proof.
    destruct (move_cases b) as [->|(i & e & v & Hi & Er & Ep & El & ->)]; [apply moved_refl|].
    assert (R : forall j, rd (upd (ent b) (Z.to_nat i) (mkE V None false true)) j = if j =? i then Ok (mkE V None false true) else rd (ent b) j)
      by (intros j; apply rd_upd; lia).
    constructor; cbn [b_ent b_last b_depth b_max b_files].
    - split; [cbn; apply zlen_upd|]. split; [|split]; reflexivity.
    - intros j. unfold content. cbn [b_ent b_files]. rewrite R. destruct (Z.eqb_spec j i) as [->|N]; [|reflexivity]. cbn [e_psi e_disk]. rewrite Er, Ep. reflexivity.
    - intros F j e' E D. cbn [b_ent b_files] in *. rewrite R in E. destruct (Z.eqb_spec j i) as [->|N]; [discriminate|]. exact (F j e' E D).
    - intros H. unfold bytes. cbn [b_ent]. pose proof (upd_filter_less (in_mem V) (ent b) (Z.to_nat i) (mkE V None false true) eq_refl). unfold zlen. nia.
    - intros real H. unfold held. cbn [b_ent]. pose proof (upd_filter_less (in_mem V) (ent b) (Z.to_nat i) (mkE V None false true) eq_refl). unfold zlen. nia.
    - intros j e' E L. rewrite R. destruct (Z.eqb_spec j i) as [->|N]; [|exact E]. destruct L as [L|L]; [lia|]. congruence.
    - intros j e' E. rewrite R. destruct (Z.eqb_spec j i) as [->|N]; [|exists e'; split; [exact E|reflexivity]]. eexists. split; [reflexivity|]. cbn. congruence.
  Qed.
  Lemma mif_moved b : moved b (move_if_full V sz b).
  Proof. unfold move_if_full. destruct (b_max V b <=? bytes V sz b); [apply move_moved|apply moved_refl]. Qed.

  Lemma repeat_rd {A} (x : A) n i e : rd (repeat x n) i = Ok e -> e = x.
  Proof. intros E. apply rd_nth_error in E. apply nth_error_In in E. apply repeat_spec in E. exact E. Qed.
  Lemma rd_app_r {A} (l m : list A) i : zlen l <= i -> rd (l ++ m) i = rd m (i - zlen l).
  Proof.
    intros H. unfold rd, zlen in *. rewrite (proj2 (Z.leb_le 0 i)), (proj2 (Z.leb_le 0 _)) by lia. rewrite nth_error_app2 by lia.
    replace (Z.to_nat i - length l)%nat with (Z.to_nat (i - Z.of_nat (length l))) by lia. reflexivity.
  Qed.
  Lemma enlarge_rd b n i e : rd (ent (enlarge V b n)) i = Ok e -> rd (ent b) i = Ok e \/ (zlen (ent b) <= i /\ e = no_entry V).
  Proof.
    cbn. intros E. destruct (Z_lt_ge_dec i (zlen (ent b))) as [L|L].
    - left. rewrite rd_app_l in E; [exact E|]. apply rd_bounds in E. lia.
    - right. split; [lia|]. rewrite rd_app_r in E by lia. apply repeat_rd in E. exact E.
  Qed.
  Lemma enlarge_old b n i e : rd (ent b) i = Ok e -> rd (ent (enlarge V b n)) i = Ok e.
  Proof. intros E. cbn. rewrite rd_app_l; [exact E|]. apply rd_bounds in E. exact E. Qed.
  Lemma enlarge_content b n i : content (enlarge V b n) i = content b i.
  Proof.
    unfold content. destruct (rd (ent (enlarge V b n)) i) as [e| |] eqn:E.
    - destruct (enlarge_rd b n i e E) as [E2|[L ->]]; [rewrite E2; reflexivity|]. rewrite rd_ub by lia. reflexivity.
    - unfold rd in E. destruct (0 <=? i); [|discriminate]. destruct (nth_error _ _); discriminate.
    - destruct (rd (ent b) i) as [e| |] eqn:E2; try reflexivity. rewrite (enlarge_old _ n _ _ E2) in E. discriminate.
  Qed.
  Lemma enlarge_len b n : zlen (ent b) <= n -> zlen (ent (enlarge V b n)) = n.
  Proof. intros H. cbn. unfold zlen in *. rewrite app_length, repeat_length. lia. Qed.
  Lemma filter_none n : filter (in_mem V) (repeat (no_entry V) n) = [].
  Proof. induction n; [reflexivity|assumption]. Qed.
  Lemma enlarge_held real b n : held V real (enlarge V b n) = held V real b.
  Proof. unfold held. cbn. rewrite filter_app, filter_none, app_nil_r. reflexivity. Qed.

  Definition prep (b : buf) (pos : Z) : buf := if zlen (ent b) <=? pos then enlarge V b (pos + 1) else b.
  Lemma prep_ok b pos : 0 <= pos -> pos < zlen (ent (prep b pos)) /\ zlen (ent b) <= zlen (ent (prep b pos)) /\
    last_ (prep b pos) = last_ b /\ depth (prep b pos) = depth b /\ b_max V (prep b pos) = b_max V b /\
    (forall i, content (prep b pos) i = content b i) /\ (filed b -> filed (prep b pos)) /\
    (forall i e, rd (ent b) i = Ok e -> rd (ent (prep b pos)) i = Ok e) /\ (forall r, held V r (prep b pos) = held V r b).
  Proof.
    intros H. unfold prep. destruct (Z.leb_spec (zlen (ent b)) pos) as [L|L].
    - rewrite enlarge_len by lia. split; [lia|]. split; [lia|]. split; [reflexivity|]. split; [reflexivity|]. split; [reflexivity|].
      split; [intros i; apply enlarge_content|]. split; [|split; [intros i e; apply enlarge_old|intros r; apply enlarge_held]].
      intros F i e E D. destruct (enlarge_rd b _ i e E) as [E2|[_ ->]]; [exact (F i e E2 D)|discriminate].
    - split; [exact L|]. split; [lia|]. split; [reflexivity|]. split; [reflexivity|]. split; [reflexivity|]. auto 6.
  Qed.

  (** storing *)
  Lemma set_ok b pos v : 0 <= pos -> exists ok b', b_set V sz b pos v = Ok (ok, b') /\
    ok = checked V sz b' /\ last_ b' = last_ b /\ depth b' = depth b /\ b_max V b' = b_max V b /\ zlen (ent b) <= zlen (ent b') /\
    (forall i, content b' i = if i =? pos then Some v else content b i) /\ (filed b -> filed b') /\
    (forall i e u, rd (ent b) i = Ok e -> e_psi V e = Some u -> (i = 0 \/ e_lock V e = true) -> exists e' u', rd (ent b') i = Ok e' /\ e_psi V e' = Some u' /\ e_lock V e' = e_lock V e).
  Proof.
    intros H. unfold b_set. fold (prep b pos). destruct (prep_ok b pos H) as (P1 & P2 & P3 & P4 & P5 & P6 & P7 & P8 & P9).
    pose proof (mif_moved (prep b pos)) as M1. set (b1 := move_if_full V sz (prep b pos)) in *. destruct M1 as [(F1 & F2 & F3 & F4) MC MF MB MH MK ML].
    destruct (set_psi_ok b1 pos (Some v)) as (e & Ee & Es); [lia|]. rewrite Es. cbn [bind].
    set (b2 := with_ent V b1 _) in *. pose proof (mif_moved b2) as M2. set (b3 := move_if_full V sz b2) in *. destruct M2 as [(G1 & G2 & G3 & G4) NC NF NB NH NK NL].
    exists (checked V sz b3), b3. split; [reflexivity|]. split; [reflexivity|]. cbn in G1, G2, G3, G4. rewrite zlen_upd in G1.
    assert (R2 : forall j, rd (ent b2) j = if j =? pos then Ok (mkE V (Some v) (e_lock V e) (e_disk V e)) else rd (ent b1) j) by (intros j; apply rd_upd; lia).
    split; [congruence|]. split; [congruence|]. split; [congruence|]. split; [lia|]. split; [|split].
    - intros i. rewrite NC. unfold content at 1. rewrite R2. destruct (Z.eqb_spec i pos) as [->|N]; [reflexivity|]. change (files b2 i) with (files b1 i). fold (content b1 i). rewrite MC. apply P6.
    - intros F. apply NF. intros i e' E D. change (files b2 i) with (files b1 i). rewrite R2 in E. destruct (Z.eqb_spec i pos) as [->|N].
      + apply (MF (P7 F) pos e Ee). injection E as <-. exact D.
      + exact (MF (P7 F) i e' E D).
    - intros i e0 u E0 Eu L. apply P8 in E0. pose proof (MK i e0 E0 L) as E1. destruct (Z.eq_dec i pos) as [->|N].
      + assert (e = e0) by congruence. subst e0. assert (R : rd (ent b2) pos = Ok (mkE V (Some v) (e_lock V e) (e_disk V e))) by (rewrite R2, Z.eqb_refl; reflexivity).
        apply NK in R; [|exact L]. do 2 eexists. split; [exact R|]. split; reflexivity.
      + assert (R : rd (ent b2) i = Ok e0) by (rewrite R2; destruct (Z.eqb_spec i pos); [contradiction|exact E1]). apply NK in R; [|exact L]. exists e0, u. auto.
  Qed.

  (** the window of accesses *)
  Definition window (b : buf) (pos : Z) : list Z := if 0 <? depth b then pos :: last_ b else last_ b.
  Definition pops (b : buf) (pos x : Z) : bool := (depth b <? zlen (window b pos)) && (List.last (window b pos) 0 =? x).
  Definition slide (b : buf) (pos : Z) : outcome buf :=
    let* b := set_lock V b pos true in
    let last := if 0 <? b_depth V b then pos :: b_last V b else b_last V b in
    if b_depth V b <? zlen last then
      let* b := set_lock V b (List.last last 0) false in
      Ok (mkB V (b_ent V b) (removelast last) (b_depth V b) (b_max V b) (b_files V b))
    else Ok (mkB V (b_ent V b) last (b_depth V b) (b_max V b) (b_files V b)).

  Lemma last_in (l : list Z) : l <> [] -> In (List.last l 0) l.
  Proof. intros H. rewrite (app_removelast_last 0 H) at 2. apply in_or_app. right. left. reflexivity. Qed.

  Definition bounded (b : buf) : Prop := 0 <= depth b /\ forall x, In x (last_ b) -> 0 <= x < zlen (ent b).
  Lemma window_ne b pos : bounded b -> depth b < zlen (window b pos) -> window b pos <> [].
  Proof. intros [D _] L E. rewrite E in L. unfold zlen in L. cbn in L. lia. Qed.
  Lemma window_in b pos x : bounded b -> 0 <= pos < zlen (ent b) -> In x (window b pos) -> 0 <= x < zlen (ent b).
  Proof. intros [_ B] Hp. unfold window. destruct (0 <? depth b); [intros [<-|I]|intros I]; auto. Qed.

  Lemma slide_ok b pos : bounded b -> 0 <= pos < zlen (ent b) -> exists b1, slide b pos = Ok b1 /\ zlen (ent b1) = zlen (ent b) /\
    depth b1 = depth b /\ b_max V b1 = b_max V b /\ (forall i, files b1 i = files b i) /\
    last_ b1 = (if depth b <? zlen (window b pos) then removelast (window b pos) else window b pos) /\
    (forall r, held V r b1 = held V r b) /\
    (forall x e, rd (ent b) x = Ok e -> rd (ent b1) x = Ok (mkE V (e_psi V e) (if pops b pos x then false else if x =? pos then true else e_lock V e) (e_disk V e))).
  Proof.
    intros B Hp. unfold slide. destruct (set_lock_ok b pos true Hp) as (e & Ee & ->). cbn [bind with_ent b_ent b_last b_depth b_max b_files].
    fold (window b pos).
    set (l1 := upd (ent b) (Z.to_nat pos) _).
    assert (R1 : forall j, rd l1 j = if j =? pos then Ok (mkE V (e_psi V e) true (e_disk V e)) else rd (ent b) j) by (intros j; apply rd_upd; exact Hp).
    assert (L1 : zlen l1 = zlen (ent b)) by apply zlen_upd.
    assert (H1 : length (filter (in_mem V) l1) = length (filter (in_mem V) (ent b))) by (apply (upd_filter _ _ _ e); [apply rd_nth_error; exact Ee|reflexivity]).
    destruct (Z.ltb_spec (depth b) (zlen (window b pos))) as [L|L].
    - set (q := List.last (window b pos) 0). assert (Bq : 0 <= q < zlen (ent b)) by (apply (window_in b pos); [exact B|exact Hp|apply last_in; apply window_ne; assumption]).
      destruct (set_lock_ok (with_ent V b l1) q false) as (e2 & E2 & ->); [cbn; lia|]. cbn [bind with_ent b_ent b_last b_depth b_max b_files].
      eexists. split; [reflexivity|]. cbn [b_ent b_last b_depth b_max b_files]. split; [rewrite zlen_upd; exact L1|]. split; [reflexivity|]. split; [reflexivity|]. split; [reflexivity|]. split; [reflexivity|]. split.
      + intros r. unfold held. cbn [b_ent]. unfold zlen. rewrite (upd_filter _ _ _ e2); [rewrite H1; reflexivity|apply rd_nth_error; exact E2|reflexivity].
      + intros x e0 E0. cbn in E2. rewrite rd_upd by lia. unfold pops. rewrite (proj2 (Z.ltb_lt _ _) L). fold q. cbn [andb]. rewrite (Z.eqb_sym q x).
        destruct (Z.eqb_spec x q) as [->|N].
        * rewrite R1 in E2. destruct (Z.eqb_spec q pos) as [->|N2]; [|congruence]. assert (e0 = e) by congruence. subst e0. injection E2 as <-. reflexivity.
        * rewrite R1. destruct (Z.eqb_spec x pos) as [->|N2]; [|rewrite E0; destruct e0; reflexivity]. assert (e0 = e) by congruence. subst e0. reflexivity.
    - eexists. split; [reflexivity|]. cbn [b_ent b_last b_depth b_max b_files]. split; [exact L1|]. split; [reflexivity|]. split; [reflexivity|]. split; [reflexivity|]. split; [reflexivity|]. split.
      + intros r. unfold held. cbn [b_ent]. unfold zlen. rewrite H1. reflexivity.
      + intros x e0 E0. unfold pops. rewrite (proj2 (Z.ltb_ge _ _) L). cbn [andb]. rewrite R1. destruct (Z.eqb_spec x pos) as [->|N2]; [|rewrite E0; destruct e0; reflexivity]. assert (e0 = e) by congruence. subst e0. reflexivity.
  Qed.

  Lemma get_split b pos : b_get V sz reload fresh b pos =
    if zlen (ent b) <=? pos then Ok (false, None, b)
    else let* b := slide b pos in
      let* e := rd (ent b) pos in
      match e_psi V e with
      | Some v => Ok (true, Some v, b)
      | None =>
        let b := move_if_full V sz b in
        match valid V b with
        | None => UB
        | Some _ =>
          let* e := rd (ent b) pos in
          let* v := (if e_disk V e then match b_files V b pos with Some v => Ok (reload v) | None => UB end else Ok fresh) in
          let* b := set_psi V b pos (Some v) in
          let b := move_if_full V sz b in
          if checked V sz b then let* e := rd (ent b) pos in Ok (true, e_psi V e, b)
          else Ok (false, None, b)
        end
      end.
  Proof.
    unfold b_get, slide. destruct (zlen (ent b) <=? pos); [reflexivity|]. destruct (set_lock V b pos true) as [b1| |]; cbn [bind]; try reflexivity.
  Qed.

  Lemma valid_some b i : resident V b i -> valid V b <> None.
  Proof.
    intros (e & v & Er & Ep). unfold valid. apply rd_nth_error in Er. apply nth_error_In in Er.
    assert (I : In e (filter (in_mem V) (ent b))) by (apply filter_In; split; [exact Er|unfold in_mem; rewrite Ep; reflexivity]).
    destruct (filter (in_mem V) (ent b)) as [|x l] eqn:F; [destruct I|]. assert (J : In x (filter (in_mem V) (ent b))) by (rewrite F; left; reflexivity).
    apply filter_In in J. destruct J as [_ J]. unfold in_mem in J. destruct (e_psi V x); [discriminate|discriminate J].
  Qed.

  (** Reading. *)
  Lemma get_cases b pos : 0 <= pos -> bounded b -> filed b ->
    (zlen (ent b) <= pos /\ b_get V sz reload fresh b pos = Ok (false, None, b)) \/
    (pos < zlen (ent b) /\ b_get V sz reload fresh b pos = UB /\ ~ resident V b 0) \/
    (pos < zlen (ent b) /\ exists ok p b', b_get V sz reload fresh b pos = Ok (ok, p, b') /\
      zlen (ent b') = zlen (ent b) /\ depth b' = depth b /\ b_max V b' = b_max V b /\
      last_ b' = (if depth b <? zlen (window b pos) then removelast (window b pos) else window b pos) /\
      filed b' /\
      (forall i, i <> pos -> content b' i = content b i) /\
      ((forall v, reload v = v) -> forall v, content b pos = Some v -> content b' pos = Some v) /\
      (ok = true -> forall v, p = Some v -> content b' pos = Some v) /\
      (ok = true -> pops b pos pos = false -> p <> None) /\
      (forall i e v, rd (ent b) i = Ok e -> e_psi V e = Some v -> (i = 0 \/ (e_lock V e = true /\ pops b pos i = false)) ->
        exists e', rd (ent b') i = Ok e' /\ e_psi V e' = Some v /\ (pops b pos i = false -> e_lock V e = true -> e_lock V e' = true)) /\
      (pops b pos pos = false -> exists e v, rd (ent b') pos = Ok e /\ e_psi V e = Some v /\ e_lock V e = true) /\
      (ok = true -> checked V sz b' = true \/ held V sz b' = held V sz b)).
  Proof.
    intros Hp B F. rewrite get_split. destruct (Z.leb_spec (zlen (ent b)) pos) as [L|L]; [left; split; [exact L|reflexivity]|right].
    destruct (slide_ok b pos B) as (b1 & -> & S1 & S2 & S3 & S4 & S5 & S6 & S7); [lia|]. cbn [bind].
    destruct (proj1 (rd_ok (ent b) pos)) as [e Ee]; [lia|]. rewrite (S7 _ _ Ee). cbn [bind e_psi].
    assert (C1 : forall i, content b1 i = content b i).
    { intros i. unfold content. destruct (rd (ent b) i) as [e0| |] eqn:E0.
      - rewrite (S7 _ _ E0), S4. reflexivity.
      - unfold rd in E0. destruct (0 <=? i); [|discriminate]. destruct (nth_error _ _); discriminate.
      - destruct (rd (ent b1) i) as [e0| |] eqn:E1; try reflexivity. apply rd_bounds in E1. destruct (proj1 (rd_ok (ent b) i)) as [x Ex]; [lia|]. congruence. }
    assert (F1 : filed b1).
    { intros i e0 E0 D. rewrite S4. pose proof (rd_bounds _ _ _ E0) as Bi. destruct (proj1 (rd_ok (ent b) i)) as [x Ex]; [lia|]. rewrite (S7 _ _ Ex) in E0. injection E0 as <-. exact (F i x Ex D). }
    destruct (e_psi V e) as [v|] eqn:Ep.
    - right. split; [exact L|]. exists true, (Some v), b1. split; [reflexivity|]. split; [exact S1|]. split; [exact S2|]. split; [exact S3|]. split; [exact S5|]. split; [exact F1|].
      split; [intros i _; apply C1|]. split; [intros _ w E; rewrite C1; exact E|]. split.
      { intros _ w [= <-]. unfold content. rewrite (S7 _ _ Ee). cbn. rewrite Ep. reflexivity. }
      split; [discriminate|]. split; [|split].
      + intros i e0 w E0 E1 _. eexists. split; [apply S7; exact E0|]. cbn. split; [exact E1|]. intros -> ->. destruct (i =? pos); reflexivity.
      + intros P. eexists. exists v. split; [apply S7; exact Ee|]. cbn. split; [exact Ep|]. rewrite P, Z.eqb_refl. reflexivity.
      + intros _. right. apply S6.
    - pose proof (mif_moved b1) as M. set (b2 := move_if_full V sz b1) in *. destruct M as [(G1 & G2 & G3 & G4) NC NF NB NH NK NL]. cbv zeta.
      destruct (valid V b2) as [w|] eqn:Ev.
      2:{ left. split; [exact L|]. split; [reflexivity|]. intros (e0 & v0 & E0 & E1). apply (valid_some b2 0); [|exact Ev].
          exists (mkE V (e_psi V e0) (if pops b pos 0 then false else if 0 =? pos then true else e_lock V e0) (e_disk V e0)), v0. split; [apply NK; [apply S7; exact E0|left; reflexivity]|exact E1]. }
      right. split; [exact L|]. destruct (proj1 (rd_ok (ent b2) pos)) as [e2 Ee2]; [lia|]. rewrite Ee2. cbn [bind].
      assert (V2 : exists x, (if e_disk V e2 then match b_files V b2 pos with Some v => Ok (reload v) | None => UB end else Ok fresh) = Ok x /\
        (forall u, (forall v, reload v = v) -> content b2 pos = Some u -> e_psi V e2 = None -> u = x)).
      { destruct (e_disk V e2) eqn:D.
        - destruct (files b2 pos) as [u|] eqn:Fu; [|exfalso; exact (NF F1 pos e2 Ee2 D Fu)]. exists (reload u). split; [reflexivity|]. intros u' HR C En. rewrite HR. unfold content in C. rewrite Ee2, En, D, Fu in C. congruence.
        - exists fresh. split; [reflexivity|]. intros u' _ C En. unfold content in C. rewrite Ee2, En, D in C. discriminate. }
      destruct V2 as (x & -> & Hx). cbn [bind]. destruct (set_psi_ok b2 pos (Some x)) as (e3 & Ee3 & Es); [lia|]. assert (e3 = e2) by congruence. subst e3. rewrite Es. cbn [bind].
      set (b3 := with_ent V b2 _) in *. pose proof (mif_moved b3) as M3. set (b4 := move_if_full V sz b3) in *. destruct M3 as [(K1 & K2 & K3 & K4) OC OF OB OH OK OL].
      assert (R3 : forall j, rd (ent b3) j = if j =? pos then Ok (mkE V (Some x) (e_lock V e2) (e_disk V e2)) else rd (ent b2) j) by (intros j; apply rd_upd; lia).
      cbn in K1, K2, K3, K4. rewrite zlen_upd in K1.
      assert (C4 : content b4 pos = Some x) by (rewrite OC; unfold content; rewrite R3, Z.eqb_refl; reflexivity).
      assert (Np : e_psi V e2 = None).
      { assert (E1 := S7 _ _ Ee). rewrite Ep in E1. destruct (move_cases b1) as [Q|(i & e0 & v0 & Hi & Ei & Epi & _ & Q)].
        - unfold b2, move_if_full in Ee2. rewrite Q in Ee2. destruct (_ <=? _); rewrite E1 in Ee2; injection Ee2 as <-; reflexivity.
        - unfold b2, move_if_full in Ee2. destruct (_ <=? _); [rewrite Q in Ee2; cbn [b_ent] in Ee2; rewrite rd_upd in Ee2 by lia; destruct (Z.eqb_spec pos i) as [<-|N]|]; [rewrite E1 in Ei; injection Ei as <-; discriminate| |]; rewrite E1 in Ee2; injection Ee2 as <-; reflexivity. }
      assert (F4 : filed b4).
      { apply OF. intros i e0 E0 D. change (files b3 i) with (files b2 i). rewrite R3 in E0. destruct (Z.eqb_spec i pos) as [->|N]; [|exact (NF F1 i e0 E0 D)]. apply (NF F1 pos e2 Ee2). injection E0 as <-. exact D. }
      assert (PL : pops b pos pos = false -> rd (ent b4) pos = Ok (mkE V (Some x) true (e_disk V e2))).
      { intros P. assert (L2 : e_lock V e2 = true).
        { destruct (NL _ _ (S7 _ _ Ee)) as (e' & Q1 & Q2). rewrite Ee2 in Q1. injection Q1 as <-. rewrite Q2. cbn. rewrite P, Z.eqb_refl. reflexivity. }
        rewrite <- L2. apply OK; [rewrite R3, Z.eqb_refl; reflexivity|right; exact L2]. }
      assert (GEN : zlen (ent b4) = zlen (ent b) /\ depth b4 = depth b /\ b_max V b4 = b_max V b /\
        last_ b4 = (if depth b <? zlen (window b pos) then removelast (window b pos) else window b pos)).
      { split; [lia|]. split; [congruence|]. split; congruence. }
      destruct GEN as (T1 & T2 & T3 & T4).
      assert (T5 : forall i, i <> pos -> content b4 i = content b i).
      { intros i N. rewrite OC. unfold content at 1. rewrite R3, (proj2 (Z.eqb_neq _ _) N). change (files b3 i) with (files b2 i). fold (content b2 i). rewrite NC. apply C1. }
      assert (T6 : (forall v, reload v = v) -> forall v, content b pos = Some v -> content b4 pos = Some v).
      { intros HR v C. rewrite C4. f_equal. symmetry. apply Hx; [exact HR|rewrite NC, C1; exact C|exact Np]. }
      assert (T7 : forall i e0 v, rd (ent b) i = Ok e0 -> e_psi V e0 = Some v -> (i = 0 \/ (e_lock V e0 = true /\ pops b pos i = false)) ->
        exists e', rd (ent b4) i = Ok e' /\ e_psi V e' = Some v /\ (pops b pos i = false -> e_lock V e0 = true -> e_lock V e' = true)).
      { intros i e0 v E0 E1 Q. assert (N : i <> pos) by (intros ->; congruence). pose proof (S7 _ _ E0) as E2. set (e1 := mkE V _ _ _) in E2.
        assert (LK : i = 0 \/ e_lock V e1 = true) by (destruct Q as [Q|[Q1 Q2]]; [left; exact Q|right; unfold e1; cbn; rewrite Q2, Q1; destruct (i =? pos); reflexivity]).
        apply NK in E2; [|exact LK]. assert (E3 : rd (ent b3) i = Ok e1) by (rewrite R3, (proj2 (Z.eqb_neq _ _) N); exact E2). apply OK in E3; [|exact LK].
        exists e1. split; [exact E3|]. split; [exact E1|]. intros P1 P2. unfold e1. cbn. rewrite P1, P2. destruct (i =? pos); reflexivity. }
      destruct (checked V sz b4) eqn:CK.
      + destruct (proj1 (rd_ok (ent b4) pos)) as [e4 Ee4]; [lia|]. rewrite Ee4. cbn [bind]. exists true, (e_psi V e4), b4.
        split; [reflexivity|]. split; [exact T1|]. split; [exact T2|]. split; [exact T3|]. split; [exact T4|]. split; [exact F4|]. split; [exact T5|]. split; [exact T6|].
        split; [intros _ v E; unfold content; rewrite Ee4, E; reflexivity|]. split; [intros _ P E; rewrite (PL P) in Ee4; injection Ee4 as <-; discriminate|].
        split; [exact T7|]. split; [intros P; do 2 eexists; split; [apply PL; exact P|split; reflexivity]|]. intros _. left. exact CK.
      + exists false, None, b4. split; [reflexivity|]. split; [exact T1|]. split; [exact T2|]. split; [exact T3|]. split; [exact T4|]. split; [exact F4|]. split; [exact T5|]. split; [exact T6|].
        split; [discriminate|]. split; [discriminate|]. split; [exact T7|]. split; [intros P; do 2 eexists; split; [apply PL; exact P|split; reflexivity]|]. discriminate.
  Qed.

  Lemma bytes_held b : bytes V sz b = held V sz b.
  Proof. reflexivity. Qed.
  Lemma upd_same b pos e e' : rd (ent b) pos = Ok e -> e_psi V e' = e_psi V e -> e_disk V e' = e_disk V e ->
    let b' := with_ent V b (upd (ent b) (Z.to_nat pos) e') in
    (forall i, content b' i = content b i) /\ (filed b -> filed b') /\ zlen (ent b') = zlen (ent b) /\ (forall r, held V r b' = held V r b).
  Proof.
    intros E P D b'. pose proof (rd_bounds _ _ _ E) as B.
    assert (R : forall j, rd (ent b') j = if j =? pos then Ok e' else rd (ent b) j) by (intros j; apply rd_upd; exact B). split; [|split; [|split]].
    - intros i. unfold content. rewrite R. destruct (Z.eqb_spec i pos) as [->|N]; [|reflexivity]. rewrite E, P, D. reflexivity.
    - intros F i e0 E0 D0. change (files b' i) with (files b i). rewrite R in E0. destruct (Z.eqb_spec i pos) as [->|N]; [|exact (F i e0 E0 D0)]. apply (F pos e E). congruence.
    - apply zlen_upd.
    - intros r. unfold held. cbn. unfold zlen. rewrite (upd_filter _ _ _ e); [reflexivity|apply rd_nth_error; exact E|]. unfold in_mem. rewrite P. reflexivity.
  Qed.
  Lemma set_lock_keep b pos k b' : set_lock V b pos k = Ok b' ->
    (forall i, content b' i = content b i) /\ (filed b -> filed b') /\ zlen (ent b') = zlen (ent b) /\ (forall r, held V r b' = held V r b) /\
    last_ b' = last_ b /\ depth b' = depth b /\ b_max V b' = b_max V b.
  Proof.
    intros E. destruct (set_lock_inv _ _ _ _ E) as (e & E1 & ->). destruct (upd_same b pos e (mkE V (e_psi V e) k (e_disk V e)) E1 eq_refl eq_refl) as (A1 & A2 & A3 & A4).
    split; [exact A1|]. split; [exact A2|]. split; [exact A3|]. split; [exact A4|]. split; [|split]; reflexivity.
  Qed.
  Lemma lock_keep b pos ok b' : b_lock V sz b pos = Ok (ok, b') ->
    (forall i, content b' i = content b i) /\ (filed b -> filed b') /\ zlen (ent b') = zlen (ent b) /\ (forall r, 0 <= r -> held V r b' <= held V r b) /\
    last_ b' = last_ b /\ depth b' = depth b /\ b_max V b' = b_max V b.
  Proof.
    unfold b_lock. intros E.
    assert (M : forall b1, (if b_max V b <=? bytes V sz b then
        let* e := rd (ent b) pos in let* b1 := set_lock V b pos true in set_lock V (move V b1) pos (e_lock V e) else Ok b) = Ok b1 ->
      (forall i, content b1 i = content b i) /\ (filed b -> filed b1) /\ zlen (ent b1) = zlen (ent b) /\ (forall r, 0 <= r -> held V r b1 <= held V r b) /\
      last_ b1 = last_ b /\ depth b1 = depth b /\ b_max V b1 = b_max V b).
    { intros b1. destruct (_ <=? _).
      - destruct (rd (ent b) pos) as [e| |]; cbn [bind]; try discriminate. destruct (set_lock V b pos true) as [b2| |] eqn:E2; cbn [bind]; try discriminate. intros E3.
        apply set_lock_keep in E2. apply set_lock_keep in E3. destruct (move_moved b2) as [(G1 & G2 & G3 & G4) NC NF NB NH NK NL].
        destruct E2 as (A1 & A2 & A3 & A4 & A5 & A6 & A7), E3 as (B1 & B2 & B3 & B4 & B5 & B6 & B7).
        split; [intros i; rewrite B1, NC, A1; reflexivity|]. split; [auto|]. split; [lia|]. split; [intros r Hr; rewrite B4, <- A4; apply NH; exact Hr|]. split; [congruence|]. split; congruence.
      - intros [= <-]. split; [reflexivity|]. split; [auto|]. split; [reflexivity|]. split; [intros; lia|]. split; [|split]; reflexivity. }
    destruct (if b_max V b <=? bytes V sz b then _ else _) as [b1| |] eqn:E1; cbn [bind] in E; try discriminate. destruct (M b1 eq_refl) as (A1 & A2 & A3 & A4 & A5 & A6 & A7).
    destruct (checked V sz b1); [|injection E as <- <-; repeat (split; [assumption|]); assumption].
    destruct (set_lock V b1 pos true) as [b2| |] eqn:E2; cbn [bind] in E; try discriminate. injection E as <- <-.
    apply set_lock_keep in E2. destruct E2 as (B1 & B2 & B3 & B4 & B5 & B6 & B7).
    split; [intros i; rewrite B1, A1; reflexivity|]. split; [auto|]. split; [lia|]. split; [intros r Hr; rewrite B4; apply A4; exact Hr|]. split; [congruence|]. split; congruence.
  Qed.

  (** The invariant of all histories. *)
  Definition good (b : buf) (a : arr V) : Prop :=
    bounded b /\ filed b /\ ((forall v, reload v = v) -> forall i v, a i = Some v -> content b i = Some v).

  Lemma removelast_in (l : list Z) x : In x (removelast l) -> In x l.
  Proof.
    destruct l as [|y l]; [auto|]. intros H. rewrite (app_removelast_last (l := y :: l) 0) by discriminate. apply in_or_app. left. exact H.
  Qed.
  Lemma rd_firstn {A} n (l : list A) i e : rd (firstn n l) i = Ok e -> rd l i = Ok e /\ i < Z.of_nat n.
  Proof.
    intros E. pose proof (rd_bounds _ _ _ E) as B. unfold zlen in B. rewrite firstn_length in B. split; [|lia]. rewrite <- (firstn_skipn n l). rewrite rd_app_l; [exact E|].
    unfold zlen. rewrite firstn_length. lia.
  Qed.
  Lemma filter_firstn (f : entry V -> bool) n l : (length (filter f (firstn n l)) <= length (filter f l))%nat.
  Proof. rewrite <- (firstn_skipn n l) at 2. rewrite filter_app, app_length. lia. Qed.
  Lemma good_step b a o ok b' : good b a -> legal V o -> step V sz reload fresh b o = Ok (ok, b') -> good b' (astep V a o).
  Proof.
    intros ((D & B) & F & C) Lg E. destruct o as [|pos v|pos|pos|pos|d|n| |pos v]; cbn [step legal astep] in *.
    - injection E as E. unfold b_init in E. destruct (_ && _); [injection E as _ <-; split; [split; assumption|split; assumption]|].
      destruct (ent b) as [|x l] eqn:Eb; injection E as _ <-; [|split; [split; [exact D|rewrite Eb; exact B]|split; assumption]].
      assert (NL : last_ b = []). { destruct (last_ b) as [|y t]; [reflexivity|]. specialize (B y (or_introl eq_refl)). unfold zlen in B. cbn in B. lia. }
      split; [split; [exact D|cbn; rewrite NL; intros x []]|]. split.
      + intros i e E0 D0. cbn in E0. pose proof (rd_bounds _ _ _ E0) as Bi. unfold zlen in Bi. cbn in Bi. replace i with 0 in E0 by lia. injection E0 as <-. discriminate.
      + intros HR i v Ea. apply (C HR) in Ea. unfold content in Ea. rewrite Eb in Ea. rewrite rd_ub in Ea; [discriminate|unfold zlen; cbn; lia].
    - destruct (set_ok b pos v Lg) as (ok' & b2 & E2 & _ & S1 & S2 & S3 & S4 & S5 & S6 & _). rewrite E2 in E. injection E as -> <-.
      split; [split; [lia|rewrite S1; intros x Hx; specialize (B x Hx); lia]|]. split; [auto|]. intros HR i w. rewrite S5. destruct (i =? pos); [auto|apply C; exact HR].
    - destruct (get_cases b pos Lg (conj D B) F) as [[_ G]|[(_ & G & _)|(L & ok' & p & b2 & G & T1 & T2 & T3 & T4 & T5 & T6 & T7 & _)]]; rewrite G in E; cbn [bind fst snd] in E; try discriminate; injection E as _ <-.
      + split; [split; assumption|split; assumption].
      + split; [split; [lia|]|].
        * intros x Hx. rewrite T1. apply (window_in b pos); [split; assumption|lia|]. rewrite T4 in Hx. destruct (_ <? _); [apply removelast_in; exact Hx|exact Hx].
        * split; [exact T5|]. intros HR i v Ea. apply (C HR) in Ea. destruct (Z.eq_dec i pos) as [->|N]; [apply T7; assumption|rewrite T6 by exact N; exact Ea].
    - apply lock_keep in E. destruct E as (A1 & A2 & A3 & A4 & A5 & A6 & A7). split; [split; [lia|rewrite A5, A3; exact B]|]. split; [auto|]. intros HR i v Ea. rewrite A1. apply C; assumption.
    - unfold b_unlock in E. destruct (set_lock V b pos false) as [b2| |] eqn:E2; cbn [bind] in E; try discriminate. injection E as _ <-.
      apply set_lock_keep in E2. destruct E2 as (A1 & A2 & A3 & A4 & A5 & A6 & A7). split; [split; [lia|rewrite A5, A3; exact B]|]. split; [auto|]. intros HR i v Ea. rewrite A1. apply C; assumption.
    - injection E as _ <-. split; [split; [exact Lg|exact B]|]. split; assumption.
    - unfold b_resize in E. destruct (Z.ltb_spec n (zlen (ent b))) as [L|L].
      + destruct (Z.eqb_spec n 0) as [->|N0]; [discriminate|]. cbn [bind] in E. injection E as _ <-. split; [split; [exact D|intros x []]|]. split.
        * intros i e E0 D0. cbn in *. apply rd_firstn in E0. destruct E0 as [E0 _]. exact (F i e E0 D0).
        * intros HR i v. destruct (Z.ltb_spec i n) as [Li|Li]; [|discriminate]. intros Ea. apply (C HR) in Ea. unfold content in *. cbn [b_ent b_files].
          destruct (rd (ent b) i) as [e| |] eqn:E0; try discriminate. pose proof (rd_bounds _ _ _ E0) as Bi.
          assert (E1 : rd (firstn (Z.to_nat n) (ent b)) i = Ok e).
          { destruct (proj1 (rd_ok (firstn (Z.to_nat n) (ent b)) i)) as [e' E']; [unfold zlen in *; rewrite firstn_length; lia|]. destruct (rd_firstn _ _ _ _ E'). congruence. }
          rewrite E1. exact Ea.
      + cbn [bind] in E. injection E as _ <-. split; [split; [exact D|]|].
        * intros x Hx. rewrite enlarge_len by lia. specialize (B x Hx). lia.
        * split; [intros i e E0 D0; destruct (enlarge_rd b n i e E0) as [E2|[_ ->]]; [exact (F i e E2 D0)|discriminate]|].
          intros HR i v. destruct (Z.ltb_spec i n); [|discriminate]. intros Ea. rewrite enlarge_content. apply C; assumption.
    - injection E as _ <-. split; [split; [exact D|intros x []]|]. split; [|discriminate]. intros i e E0. cbn in E0. apply rd_bounds in E0. unfold zlen in E0. cbn in E0. lia.
    - unfold b_write in E. destruct (rd (ent b) pos) as [e| |] eqn:E0; cbn [bind] in E; try discriminate. destruct (e_psi V e) as [u|] eqn:Eu; cbn [bind] in E; try discriminate.
      destruct (set_psi V b pos (Some v)) as [b2| |] eqn:E2; cbn [bind] in E; try discriminate. injection E as _ <-. destruct (set_psi_inv _ _ _ _ E2) as (e2 & Ee & ->). assert (e2 = e) by congruence. subst e2.
      pose proof (rd_bounds _ _ _ E0) as Bp.
      assert (R : forall j, rd (upd (ent b) (Z.to_nat pos) (mkE V (Some v) (e_lock V e) (e_disk V e))) j = if j =? pos then Ok (mkE V (Some v) (e_lock V e) (e_disk V e)) else rd (ent b) j) by (intros j; apply rd_upd; exact Bp).
      split; [split; [exact D|cbn; rewrite zlen_upd; exact B]|]. split.
      + intros i e0 Ei Di. cbn in *. rewrite R in Ei. destruct (Z.eqb_spec i pos) as [->|N]; [|exact (F i e0 Ei Di)]. apply (F pos e E0). injection Ei as <-. exact Di.
      + intros HR i w. destruct (Z.eqb_spec i pos) as [->|N].
        * intros [= <-]. unfold content. cbn. rewrite R, Z.eqb_refl. reflexivity.
        * intros Ea. unfold content. cbn. rewrite R, (proj2 (Z.eqb_neq _ _) N). apply (C HR). exact Ea.
  Qed.
  Lemma hist_good max b a : hist V sz reload fresh max b a -> good b a.
  Proof.
    induction 1 as [|b a o ok b' Hh IH Lg E]; [|exact (good_step b a o ok b' IH Lg E)].
    split; [split; [cbn; lia|intros x []]|]. split; [|discriminate]. intros i e E. cbn in E. apply rd_bounds in E. unfold zlen in E. cbn in E. lia.
  Qed.
  Lemma calm_hist max b : calm V sz reload fresh max b -> exists a, hist V sz reload fresh max b a.
  Proof. induction 1 as [|b o b' Hc [a IH] Lg E]; [eexists; apply h_new|]. eexists. eapply h_step; eassumption. Qed.

  (** never wrong data *)
  Lemma get_data max b a i v p b' : hist V sz reload fresh max b a -> (forall u, reload u = u) -> 0 <= i -> a i = Some v ->
    b_get V sz reload fresh b i = Ok (true, p, b') -> p = Some v \/ p = None.
  Proof.
    intros H HR Hi Ea G. destruct (hist_good _ _ _ H) as (B & F & C). destruct (get_cases b i Hi B F) as [[_ G2]|[(_ & G2 & _)|(L & ok & q & b2 & G2 & _ & _ & _ & _ & _ & _ & T7 & T8 & _)]]; rewrite G2 in G; try discriminate.
    injection G as -> -> ->. destruct p as [w|]; [left|right; reflexivity]. specialize (T8 eq_refl w eq_refl). rewrite (T7 HR v (C HR i v Ea)) in T8. congruence.
  Qed.
  Lemma pops_oldest b i : bounded b -> ~ oldest V b i -> pops b i i = false.
  Proof.
    intros [D B] N. unfold pops. destruct (Z.ltb_spec (depth b) (zlen (window b i))) as [L|L]; [cbn [andb]|reflexivity].
    apply Z.eqb_neq. intros E. apply N. unfold window in *. destruct (Z.ltb_spec 0 (depth b)) as [P|P].
    - destruct (last_ b) as [|x t] eqn:El; [unfold zlen in L; cbn in L; lia|]. split; [|split].
      + rewrite El. unfold zlen in *. cbn in *. lia.
      + rewrite El. discriminate.
      + rewrite El. cbn in E |- *. exact E.
    - split; [unfold zlen; lia|]. split; [intros E2; rewrite E2 in L; unfold zlen in L; cbn in L; lia|exact E].
  Qed.
  Lemma get_live max b a i p b' : hist V sz reload fresh max b a -> 0 <= i -> ~ oldest V b i ->
    b_get V sz reload fresh b i = Ok (true, p, b') -> p <> None.
  Proof.
    intros H Hi N G. destruct (hist_good _ _ _ H) as (B & F & _). destruct (get_cases b i Hi B F) as [[_ G2]|[(_ & G2 & _)|(L & ok & q & b2 & G2 & _ & _ & _ & _ & _ & _ & _ & _ & T9 & _)]]; rewrite G2 in G; try discriminate.
    injection G as -> -> ->. apply T9; [reflexivity|]. apply pops_oldest; assumption.
  Qed.
  Lemma get_defined max b a i : hist V sz reload fresh max b a -> 0 <= i -> resident V b 0 -> b_get V sz reload fresh b i <> UB.
  Proof.
    intros H Hi R. destruct (hist_good _ _ _ H) as (B & F & _). destruct (get_cases b i Hi B F) as [[_ ->]|[(_ & G2 & N)|(L & ok & q & b2 & -> & _)]]; [discriminate|contradiction|discriminate].
  Qed.

  (** memory *)
  Lemma max_step b a o ok b' : good b a -> legal V o -> step V sz reload fresh b o = Ok (ok, b') -> b_max V b' = b_max V b.
  Proof.
    intros ((D & B) & F & C) Lg E. destruct o as [|pos v|pos|pos|pos|d|n| |pos v]; cbn [step legal] in *.
    - injection E as E. unfold b_init in E. destruct (_ && _); [injection E as _ <-; reflexivity|]. destruct (ent b); injection E as _ <-; reflexivity.
    - destruct (set_ok b pos v Lg) as (ok' & b2 & E2 & _ & S1 & S2 & S3 & _). rewrite E2 in E. injection E as -> <-. exact S3.
    - destruct (get_cases b pos Lg (conj D B) F) as [[_ G]|[(_ & G & _)|(L & ok' & p & b2 & G & T1 & T2 & T3 & _)]]; rewrite G in E; cbn [bind fst snd] in E; try discriminate; injection E as _ <-; [reflexivity|exact T3].
    - apply lock_keep in E. apply E.
    - unfold b_unlock in E. destruct (set_lock V b pos false) as [b2| |] eqn:E2; cbn [bind] in E; try discriminate. injection E as _ <-. apply set_lock_keep in E2. apply E2.
    - injection E as _ <-. reflexivity.
    - unfold b_resize in E. destruct (_ <? _); [destruct (_ =? _); [discriminate|]|]; cbn [bind] in E; injection E as _ <-; reflexivity.
    - injection E as _ <-. reflexivity.
    - unfold b_write in E. destruct (rd (ent b) pos) as [e| |]; cbn [bind] in E; try discriminate. destruct (e_psi V e); cbn [bind] in E; try discriminate.
      destruct (set_psi V b pos (Some v)) as [b2| |] eqn:E2; cbn [bind] in E; try discriminate. injection E as _ <-. destruct (set_psi_inv _ _ _ _ E2) as (e2 & _ & ->). reflexivity.
  Qed.
  Lemma checked_le b : checked V sz b = true -> held V sz b <= b_max V b.
  Proof. unfold checked. destruct (Z.ltb_spec (b_max V b) (bytes V sz b)) as [L|L]; [discriminate|]. intros _. rewrite bytes_held in L. exact L. Qed.
  Lemma held_step b a o b' : 0 < sz -> 0 < b_max V b -> good b a -> legal V o -> step V sz reload fresh b o = Ok (true, b') -> held V sz b <= b_max V b -> held V sz b' <= b_max V b'.
  Proof.
    intros Hs Hm G Lg E Hb. rewrite (max_step b a o true b' G Lg E). pose proof (max_step b a o true b' G Lg E) as EM. destruct G as ((D & B) & F & C). destruct o as [|pos v|pos|pos|pos|d|n| |pos v]; cbn [step legal] in *.
    - injection E as E. unfold b_init in E. destruct ((0 <? b_max V b) && (b_max V b <? sz)) eqn:Q; [discriminate|].
      rewrite (proj2 (Z.ltb_lt _ _) Hm) in Q. cbn [andb] in Q. apply Z.ltb_ge in Q. destruct (ent b); injection E as <-; [|exact Hb]. unfold held. cbn. unfold zlen. cbn. lia.
    - destruct (set_ok b pos v Lg) as (ok' & b2 & E2 & Ck & S1 & S2 & S3 & _). rewrite E2 in E. injection E as -> <-. rewrite <- EM. apply checked_le. congruence.
    - destruct (get_cases b pos Lg (conj D B) F) as [[_ G]|[(_ & G & _)|(L & ok' & p & b2 & G & T1 & T2 & T3 & _ & _ & _ & _ & _ & _ & _ & _ & T)]]; rewrite G in E; cbn [bind fst snd] in E; try discriminate.
      injection E as -> <-. destruct (T eq_refl) as [T'|T']; [rewrite <- EM; apply checked_le; exact T'|lia].
    - apply lock_keep in E. destruct E as (_ & _ & _ & A & _). specialize (A sz). lia.
    - unfold b_unlock in E. destruct (set_lock V b pos false) as [b2| |] eqn:E2; cbn [bind] in E; try discriminate. injection E as <-. apply set_lock_keep in E2. destruct E2 as (_ & _ & _ & A & _). rewrite A. exact Hb.
    - injection E as <-. exact Hb.
    - unfold b_resize in E. destruct (_ <? _); [destruct (_ =? _); [discriminate|]|]; cbn [bind] in E; injection E as <-.
      + unfold held in *. cbn [b_ent]. pose proof (filter_firstn (in_mem V) (Z.to_nat n) (ent b)). unfold zlen in *. nia.
      + rewrite enlarge_held. exact Hb.
    - injection E as <-. unfold held. cbn. unfold zlen. cbn. lia.
    - unfold b_write in E. destruct (rd (ent b) pos) as [e| |] eqn:E0; cbn [bind] in E; try discriminate. destruct (e_psi V e) as [u|] eqn:Eu; cbn [bind] in E; try discriminate.
      destruct (set_psi V b pos (Some v)) as [b2| |] eqn:E2; cbn [bind] in E; try discriminate. injection E as <-. destruct (set_psi_inv _ _ _ _ E2) as (e2 & Ee & ->). assert (e2 = e) by congruence. subst e2.
      unfold held in *. cbn. unfold zlen in *. rewrite (upd_filter _ _ _ e); [exact Hb|apply rd_nth_error; exact E0|]. unfold in_mem. rewrite Eu. reflexivity.
  Qed.
  Lemma calm_held max b : 0 < sz -> 0 < max -> calm V sz reload fresh max b -> held V sz b <= max.
  Proof.
    intros Hs Hm H. assert (K : b_max V b = max /\ held V sz b <= b_max V b).
    { induction H as [|b o b' Hc IH Lg E]; [split; [reflexivity|unfold held; cbn; unfold zlen; cbn; lia]|].
      destruct IH as [I1 I2]. destruct (calm_hist max b Hc) as [a Ha]. apply hist_good in Ha. split; [rewrite (max_step b a o true b' Ha Lg E); exact I1|].
      apply (held_step b a o b'); auto. lia. }
    lia.
  Qed.

  (** the window *)
  Lemma nodup_removelast (l : list Z) : NoDup l -> NoDup (removelast l) /\ (l <> [] -> ~ In (List.last l 0) (removelast l)).
  Proof.
    intros H. destruct l as [|x l]; [split; [constructor|congruence]|]. rewrite (app_removelast_last (l := x :: l) 0) in H by discriminate.
    apply NoDup_remove in H. rewrite app_nil_r in H. destruct H as [H1 H2]. split; [exact H1|]. intros _. exact H2.
  Qed.
  Lemma get_window b pos r b' : 0 <= pos -> bounded b -> filed b -> 0 < depth b -> window_ok V b -> ~ In pos (last_ b) -> b_get V sz reload fresh b pos = Ok (true, r, b') ->
    r <> None /\ window_ok V b' /\ depth b' = depth b /\ bounded b' /\ filed b' /\
    nth_error (last_ b') 0 = Some pos /\ forall k x, nth_error (last_ b) k = Some x -> Z.of_nat k + 1 < depth b -> nth_error (last_ b') (S k) = Some x.
  Proof.
    intros Hp B F Dp (ND & W) NI G. destruct (get_cases b pos Hp B F) as [[_ G2]|[(_ & G2 & _)|(L & ok & q & b2 & G2 & T1 & T2 & T3 & T4 & T5 & T6 & T7 & T8 & T9 & T10 & T11 & _)]]; rewrite G2 in G; try discriminate.
    injection G as -> -> ->.
    assert (EW : window b pos = pos :: last_ b) by (unfold window; rewrite (proj2 (Z.ltb_lt _ _) Dp); reflexivity).
    assert (PP : pops b pos pos = false).
    { unfold pops. rewrite EW. destruct (Z.ltb_spec (depth b) (zlen (pos :: last_ b))) as [LL|LL]; [cbn [andb]|reflexivity]. apply Z.eqb_neq. intros E. apply NI.
      destruct (last_ b) as [|y t] eqn:El; [unfold zlen in LL; cbn in LL; lia|]. cbn in E. rewrite <- E. apply (last_in (y :: t)). discriminate. }
    rewrite EW in T4.
    assert (ND2 : NoDup (pos :: last_ b)) by (constructor; assumption).
    split; [apply T9; auto|]. split.
    - split; [rewrite T4; destruct (_ <? _); [apply nodup_removelast; exact ND2|exact ND2]|]. intros x Hx. rewrite T4 in Hx.
      assert (PX : pops b pos x = false).
      { unfold pops. rewrite EW. destruct (depth b <? zlen (pos :: last_ b)) eqn:LL; [cbn [andb]|reflexivity]. apply Z.eqb_neq. intros E.
        destruct (nodup_removelast (pos :: last_ b) ND2) as [_ N]. apply N; [discriminate|]. rewrite E. exact Hx. }
      assert (IX : In x (pos :: last_ b)) by (destruct (_ <? _); [apply removelast_in; exact Hx|exact Hx]). destruct IX as [<-|IX].
      + apply T11. exact PP.
      + destruct (W x IX) as (e & v & E1 & E2 & E3). destruct (T10 x e v E1 E2 (or_intror (conj E3 PX))) as (e' & Q1 & Q2 & Q3). exists e', v. auto.
    - split; [exact T2|]. split; [|split; [exact T5|]].
      + split; [destruct B; lia|]. intros x Hx. rewrite T1. apply (window_in b pos); [exact B|lia|]. rewrite EW. rewrite T4 in Hx. destruct (_ <? _); [apply removelast_in; exact Hx|exact Hx].
      + assert (K : forall k x, nth_error (pos :: last_ b) k = Some x -> Z.of_nat k < depth b -> nth_error (last_ b') k = Some x).
        { intros k x E Hk. rewrite T4. destruct (Z.ltb_spec (depth b) (zlen (pos :: last_ b))) as [LL|LL]; [|exact E].
          rewrite (app_removelast_last (l := pos :: last_ b) 0) in E by discriminate. rewrite nth_error_app1 in E; [exact E|].
          assert (LE := f_equal (@length Z) (app_removelast_last (l := pos :: last_ b) 0 ltac:(discriminate))). rewrite app_length in LE. cbn [length] in LE. unfold zlen in LL. cbn [length] in LL. lia. }
        split; [apply K; [reflexivity|lia]|]. intros k x E Hk. apply K; [exact E|lia].
  Qed.
  Lemma set_window b pos v ok b' : 0 <= pos -> bounded b -> filed b -> window_ok V b -> b_set V sz b pos v = Ok (ok, b') ->
    window_ok V b' /\ depth b' = depth b /\ bounded b' /\ filed b' /\ last_ b' = last_ b.
  Proof.
    intros Hp [D B] F (ND & W) E. destruct (set_ok b pos v Hp) as (ok' & b2 & E2 & _ & S1 & S2 & S3 & S4 & S5 & S6 & S7). rewrite E2 in E. injection E as -> ->.
    split; [split; [rewrite S1; exact ND|]|split; [exact S2|split; [split; [lia|]|split; [auto|exact S1]]]].
    - intros x Hx. rewrite S1 in Hx. destruct (W x Hx) as (e & u & Q1 & Q2 & Q3). destruct (S7 x e u Q1 Q2 (or_intror Q3)) as (e' & u' & R1 & R2 & R3). exists e', u'. split; [exact R1|]. split; [exact R2|congruence].
    - intros x Hx. rewrite S1 in Hx. specialize (B x Hx). lia.
  Qed.
  Lemma run_window k b b1 : run V sz reload fresh k b b1 -> bounded b -> filed b -> 0 < depth b -> window_ok V b ->
    window_ok V b1 /\ depth b1 = depth b /\ bounded b1 /\ filed b1 /\
    forall x, nth_error (last_ b) 0 = Some x -> Z.of_nat k < depth b -> nth_error (last_ b1) k = Some x.
  Proof.
    induction 1 as [b|k b b1 ok b2 pos v R IH Hp E|k b b1 r b2 pos R IH Hp NI E]; intros B F D W.
    - split; [exact W|]. split; [reflexivity|]. split; [exact B|]. split; [exact F|]. auto.
    - destruct (IH B F D W) as (W1 & D1 & B1 & F1 & N1). destruct (set_window b1 pos v ok b2 Hp B1 F1 W1 E) as (W2 & D2 & B2 & F2 & L2).
      split; [exact W2|]. split; [congruence|]. split; [exact B2|]. split; [exact F2|]. intros x Hx Hk. rewrite L2. apply N1; assumption.
    - destruct (IH B F D W) as (W1 & D1 & B1 & F1 & N1). destruct (get_window b1 pos r b2 Hp B1 F1 ltac:(lia) W1 NI E) as (_ & W2 & D2 & B2 & F2 & _ & N2).
      split; [exact W2|]. split; [congruence|]. split; [exact B2|]. split; [exact F2|]. intros x Hx Hk. apply N2; [apply N1; [exact Hx|lia]|lia].
  Qed.
  (** a pointer stays valid *)
  Lemma get_stays max b a i r b1 k b2 : hist V sz reload fresh max b a -> 0 <= i -> 0 < depth b -> window_ok V b -> ~ In i (last_ b) ->
    b_get V sz reload fresh b i = Ok (true, r, b1) -> run V sz reload fresh k b1 b2 -> Z.of_nat k < depth b -> r <> None /\ resident V b2 i.
  Proof.
    intros H Hi D W NI G R Hk. destruct (hist_good _ _ _ H) as (B & F & _). destruct (get_window b i r b1 Hi B F D W NI G) as (N & W1 & D1 & B1 & F1 & H0 & _).
    split; [exact N|]. destruct (run_window k b1 b2 R B1 F1 ltac:(lia) W1) as ((_ & W2) & _ & _ & _ & N2). assert (I := N2 i H0 ltac:(lia)). apply nth_error_In in I.
    destruct (W2 i I) as (e & v & Q1 & Q2 & _). exists e, v. auto.
  Qed.
  (** shrinking to nothing *)
  Lemma resize_zero b : ent b <> [] -> b_resize V b 0 = UB.
  Proof. intros H. unfold b_resize. destruct (ent b) as [|x l]; [congruence|]. reflexivity. Qed.

  (** replaying a list of calls *)
  Definition play (b : buf) (l : list (op V)) : outcome buf := foldM (fun b o => let* r := step V sz reload fresh b o in Ok (snd r)) l b.
  Lemma play_hist max l : forall b a b', hist V sz reload fresh max b a -> Forall (legal V) l -> play b l = Ok b' -> hist V sz reload fresh max b' (fold_left (astep V) l a).
  Proof.
    induction l as [|o l IH]; intros b a b' H F E; [injection E as <-; exact H|]. unfold play in E. cbn [foldM] in E.
    destruct (step V sz reload fresh b o) as [[ok b1]| |] eqn:E1; cbn [bind snd] in E; try discriminate. inversion F as [|? ? L F']; subst. cbn [fold_left]. apply (IH b1); auto. eapply h_step; eassumption.
  Qed.
  Definition playc (b : buf) (l : list (op V)) : outcome buf :=
    foldM (fun b o => let* r := step V sz reload fresh b o in if fst r then Ok (snd r) else Throw) l b.
  Lemma play_calm max l : forall b b', calm V sz reload fresh max b -> Forall (legal V) l -> playc b l = Ok b' -> calm V sz reload fresh max b'.
  Proof.
    induction l as [|o l IH]; intros b b' H F E; [injection E as <-; exact H|]. unfold playc in E. cbn [foldM] in E.
    destruct (step V sz reload fresh b o) as [[ok b1]| |] eqn:E1; cbn [bind fst snd] in E; try discriminate. destruct ok; cbn [bind] in E; [|discriminate]. inversion F as [|? ? L F']; subst. apply (IH b1); auto. eapply c_step; eassumption.
  Qed.
End P.
