(** Proofs about the stream format. *)
From Coq Require Import List ZArith Lia Bool Arith.
From Verif Require Import Base Arrays Model.Serial Proofs.Serial Model.FileWF Spec.FileWF.
Import ListNotations.
Open Scope Z_scope.

Section P.
  Variables D C : Type.
  Variable cls : D -> C.
  Variable ser : D -> list byte.
  Variable des : C -> list byte -> outcome (D * list byte).
  Variable blank : C -> D.
  Notation header := (header C).
  Variable enc : header -> list byte.
  Variable dec : list byte -> option header.
  Hypothesis codec : forall h, dec (enc h) = Some h.
  Hypothesis small : forall h, zlen (enc h) < 256 ^ 4.
  Hypothesis trip : forall d rest, des (cls d) (ser d ++ rest) = Ok (d, rest).
  Hypothesis some : forall d, 0 < zlen (ser d).
  Notation wf := (wf D).
  Notation write := (write D C cls ser enc).
  Notation put := (put C enc).
  Notation read := (read D C cls des dec).
  Notation load := (load D C des blank dec).
  Notation read_meta := (read_meta C dec).
  Notation ins := (ins C).
  Notation is_single := (is_single D).
  Notation like := (like D C cls).
  Notation spine := (spine D).
  Notation addable := (addable D).
  Definition write_all (more : bool) := fix go (l : list wf) (s : out) : outcome out := match l with [] => Ok s | x :: t => let* s := write x (match t with [] => more | _ => true end) s in go t s end.
  Lemma write_multi l more s : write (Multi D l) more s = if zlen l <? 1 then Throw else write_all more l (put s (mkH C true None 4) (le 4 (zlen l))).
  Proof. reflexivity. Qed.
  Definition read_all := fix go (l : list wf) (s : ins) : outcome (list wf * ins) := if h_more C (i_meta C s) then match l with [] => UB | x :: t => let* r := read x s in let* r2 := go t (snd r) in Ok (fst r :: fst r2, snd r2) end else Ok (l, s).
  Lemma read_multi_eq l s : read (Multi D l) s = if zlen l <? 1 then Throw else let* s := read_meta s in let* r := read_all l (read_multi C s) in Ok (Multi D (fst r), snd r).
  Proof. reflexivity. Qed.
  Lemma wf_rect2 (P : wf -> Prop) : (forall d, P (Single D d)) -> (forall l, Forall P l -> P (Multi D l)) -> forall w, P w.
  Proof. intros H1 H2. fix IH 1. intros [d|l]; [apply H1|]. apply H2. induction l as [|x t IHt]; constructor; [apply IH|exact IHt]. Qed.
  Lemma like_multi l k : like (Multi D l) (Multi D k) <-> Forall2 like l k.
  Proof.
    revert k. induction l as [|x t IH]; intros [|y u]; split; intros H; try solve [constructor | contradiction | inversion H].
    - destruct H as [H1 H2]. constructor; [exact H1|]. apply IH. exact H2.
    - inversion H; subst. split; [assumption|]. apply IH. assumption.
  Qed.
  (** reading a header *)
  Definition head (i : bool) (h : header) : list byte := ((if i then [] else intro) ++ le 4 (zlen (enc h)) ++ enc h)%list.
  Lemma put_eq p i h payload : put (mkOut p i) h payload = mkOut (p ++ head i h ++ payload) (h_more C h).
  Proof. unfold FileWF.put, head. cbn [o_bytes o_intro]. rewrite <- !app_assoc. reflexivity. Qed.
  Lemma intro_ok t m : check_intro C (mkIn C (intro ++ t) false m) = Ok (mkIn C t true m).
  Proof.
    unfold check_intro. cbn [i_intro i_bytes i_meta]. replace (firstn 16 (intro ++ t)) with intro by reflexivity. assert (S : skipn (length (intro ++ t)) intro = []) by (apply skipn_all2; rewrite app_length; lia). rewrite S, app_nil_r. reflexivity.
  Qed.
  Lemma meta_ok i h t m : read_meta (mkIn C (head i h ++ t) i m) = Ok (mkIn C t true h).
  Proof.
    unfold FileWF.read_meta. assert (I : check_intro C (mkIn C (head i h ++ t) i m) = Ok (mkIn C (le 4 (zlen (enc h)) ++ enc h ++ t) true m)).
    { unfold head. destruct i; cbn [app]; [unfold check_intro; cbn [i_intro]; rewrite <- app_assoc; reflexivity|]. rewrite <- !app_assoc. apply intro_ok. }
    rewrite I. cbn [bind i_bytes i_meta]. assert (F : firstn 4 (le 4 (zlen (enc h)) ++ enc h ++ t) = le 4 (zlen (enc h))) by reflexivity. assert (K : skipn 4 (le 4 (zlen (enc h)) ++ enc h ++ t) = (enc h ++ t)%list) by reflexivity. rewrite F, K.
    rewrite unle_le by (change (Z.of_nat 4) with 4; split; [unfold zlen; lia|apply small]). destruct (Z.ltb_spec (zlen (enc h ++ t)) (zlen (enc h))) as [L|_]; [unfold zlen in L; rewrite app_length in L; lia|].
    unfold zlen. rewrite Nat2Z.id, firstn_app, firstn_all, Nat.sub_diag. cbn [firstn]. rewrite app_nil_r, codec. rewrite skipn_app, skipn_all, Nat.sub_diag. reflexivity.
  Qed.
  Lemma multi_skip n t h : h = mkH C true None 4 -> read_multi C (mkIn C (le 4 n ++ t) true h) = mkIn C t true h.
  Proof. intros ->. reflexivity. Qed.
  Lemma single_ok d i m rest more : read_meta (mkIn C ((head i (mkH C more (Some (cls d)) (zlen (ser d))) ++ ser d) ++ rest) i m) = Ok (mkIn C (ser d ++ rest) true (mkH C more (Some (cls d)) (zlen (ser d)))) /\
    forall d0, read_single D C des (cls d) d0 (mkIn C (ser d ++ rest) true (mkH C more (Some (cls d)) (zlen (ser d)))) = Ok (d, mkIn C rest more (mkH C more (Some (cls d)) (zlen (ser d)))).
  Proof.
    split; [rewrite <- app_assoc; apply meta_ok|]. intros d0. unfold read_single. cbn [i_meta h_size]. destruct (Z.ltb_spec 0 (zlen (ser d))); [|pose proof (some d); lia]. cbn [i_bytes]. rewrite trip. reflexivity.
  Qed.
  Definition back (w : wf) (more : bool) : Prop := forall i p, exists e, write w more (mkOut p i) = Ok (mkOut (p ++ e) more) /\
    (forall w0 m rest, like w0 w -> exists m', read w0 (mkIn C (e ++ rest) i m) = Ok (w, mkIn C rest more m') /\ h_more C m' = more) /\
    (addable w -> exists n0, forall n m rest, (n0 <= n)%nat -> exists m', load n (mkIn C (e ++ rest) i m) = Ok (Some (w, mkIn C rest more m')) /\ h_more C m' = more).
  Lemma back_single d more : back (Single D d) more.
  Proof.
    intros i p. set (h := mkH C more (Some (cls d)) (zlen (ser d))). exists (head i h ++ ser d)%list. split; [unfold h; cbn [FileWF.write]; rewrite put_eq; reflexivity|]. split.
    - intros [d0|l] m rest L; [|contradiction]. cbn in L. destruct (single_ok d i m rest more) as [M R]. exists h. cbn [FileWF.read]. unfold h in *. rewrite M. cbn [bind]. rewrite L, R. split; reflexivity.
    - intros _. exists 1%nat. intros [|n] m rest Hn; [lia|]. destruct (single_ok d i m rest more) as [M R]. exists h. cbn [FileWF.load]. unfold h in *. rewrite M. cbn [bind i_meta h_class]. rewrite R. split; reflexivity.
  Qed.
  Definition load_loop (n : nat) := fix loop (m : nat) (acc : list wf) (s : ins) : outcome (option (list wf * ins)) := match m with
              | O => Ok None
              | S m => if h_more C (i_meta C s) then
                  let* r := load n s in
                  match r with
                  | None => Ok None
                  | Some (x, s) => let* acc := ms_push D acc x in loop m acc s
                  end else Ok (Some (acc, s))
              end.
  Lemma load_eq n s : load (S n) s = let* s := read_meta s in match h_class C (i_meta C s) with
    | Some c => let* r := read_single D C des c (blank c) s in Ok (Some (Single D (fst r), snd r))
    | None => let* r := load_loop n n [] (read_multi C s) in match r with None => Ok None | Some (l, s) => if zlen l <? 1 then Throw else Ok (Some (Multi D l, s)) end end.
  Proof. reflexivity. Qed.
  Definition spine_list := fix go (l : list wf) : Prop := match l with [] => False | x :: t => match t with [] => spine x | _ => is_single x /\ go t end end.
  Definition addable_list := fix go (l : list wf) : Prop := match l with [] => True | x :: t => addable x /\ strides D x <= 1 /\ go t end.
  Lemma back_list l : spine_list l -> Forall (fun w => spine w -> back w false) l -> forall p, exists e, write_all false l (mkOut p true) = Ok (mkOut (p ++ e) false) /\
    (forall l0 m rest, Forall2 like l0 l -> h_more C m = true -> exists m', read_all l0 (mkIn C (e ++ rest) true m) = Ok (l, mkIn C rest false m') /\ h_more C m' = false) /\
    (addable_list l -> exists n0, forall n k acc m rest, (n0 <= n)%nat -> (n0 <= k)%nat -> zlen acc + zlen l < 64 -> h_more C m = true -> exists m', load_loop n k acc (mkIn C (e ++ rest) true m) = Ok (Some ((acc ++ l)%list, mkIn C rest false m')) /\ h_more C m' = false).
  Proof.
    induction l as [|x t IH]; intros Sp B p; [contradiction|]. apply Forall_inv in B as Bx. apply Forall_inv_tail in B as Bt. destruct t as [|y u].
    - destruct (Bx Sp true p) as (e & W & R & L). exists e. cbn [write_all]. rewrite W. split; [reflexivity|]. split.
      + intros l0 m rest F M. inversion F as [|x0 ? t0 ? Lx Ft]; subst. inversion Ft; subst. destruct (R x0 m rest Lx) as (m' & Rd & M'). exists m'. split; [|exact M']. cbn [read_all i_meta]. rewrite M, Rd. cbn [bind fst snd i_meta]. rewrite M'. reflexivity.
      + intros (Ax & Sx & _). destruct (L Ax) as (n0 & Ln). exists (S (S n0)). intros n [|[|k]] acc m rest Hn Hk Hz M; try lia. destruct (Ln n m rest) as (m' & Ld & M'); [lia|]. exists m'. split; [|exact M']. cbn [load_loop i_meta]. rewrite M, Ld. cbn [bind]. unfold ms_push. change (zlen [x]) with 1 in Hz. destruct (Z.leb_spec 64 (zlen acc + 1)); [lia|]. destruct (Z.ltb_spec 1 (strides D x)); [lia|]. cbn [bind i_meta]. rewrite M'. reflexivity.
    - destruct Sp as [Sx St]. destruct x as [d|]; [|contradiction]. destruct (back_single d true true p) as (e1 & W1 & R1 & L1). destruct (IH St Bt (p ++ e1)%list) as (e2 & W2 & R2 & L2). exists (e1 ++ e2)%list. rewrite app_assoc. split; [|split].
      + change (write_all false (Single D d :: y :: u) (mkOut p true)) with (let* s := write (Single D d) true (mkOut p true) in write_all false (y :: u) s). rewrite W1. cbn [bind]. exact W2.
      + intros l0 m rest F M. inversion F as [|x0 ? t0 ? Lx Ft]; subst. rewrite <- app_assoc. destruct (R1 x0 m (e2 ++ rest)%list Lx) as (m1 & Rd1 & M1). destruct (R2 t0 m1 rest Ft M1) as (m' & Rd2 & M'). exists m'. split; [|exact M'].
        change (read_all (x0 :: t0) (mkIn C (e1 ++ e2 ++ rest) true m)) with (if h_more C m then let* r := read x0 (mkIn C (e1 ++ e2 ++ rest) true m) in let* r2 := read_all t0 (snd r) in Ok (fst r :: fst r2, snd r2) else Ok (x0 :: t0, mkIn C (e1 ++ e2 ++ rest) true m)). rewrite M, Rd1. cbn [bind fst snd]. rewrite Rd2. reflexivity.
      + intros (_ & _ & At). destruct (L1 I) as (n1 & Ln1). destruct (L2 At) as (n2 & Ln2). exists (S (max n1 n2)). intros n [|k] acc m rest Hn Hk Hz M; [lia|]. rewrite <- app_assoc. destruct (Ln1 n m (e2 ++ rest)%list) as (m1 & Ld1 & M1); [lia|]. assert (Zc : zlen (Single D d :: y :: u) = zlen (y :: u) + 1) by (unfold zlen; cbn [length]; lia). assert (1 <= zlen (y :: u)) by (unfold zlen; cbn [length]; lia).
        destruct (Ln2 n k (acc ++ [Single D d])%list m1 rest) as (m' & Ld2 & M'); [lia|lia|unfold zlen in *; rewrite app_length; cbn [length] in *; lia|exact M1|]. exists m'. split; [|exact M']. cbn [load_loop i_meta]. rewrite M, Ld1. cbn [bind]. unfold ms_push at 1. cbn [strides]. destruct (Z.leb_spec 64 (zlen acc + 1)); [lia|]. change (1 <? 1) with false. cbv iota. cbn [bind]. fold (load_loop n). rewrite Ld2, <- app_assoc. reflexivity.
  Qed.
  Lemma back_spine w : spine w -> back w false.
  Proof.
    induction w as [d|l IH] using wf_rect2; intros Sp; [apply back_single|]. intros i p. change (spine_list l) in Sp. assert (Hl : 1 <= zlen l) by (destruct l; [contradiction|unfold zlen; cbn [length]; lia]). assert (Nl : (zlen l <? 1) = false) by (apply Z.ltb_ge; lia).
    set (h := mkH C true None 4). destruct (back_list l Sp IH (p ++ head i h ++ le 4 (zlen l))%list) as (e & W & R & L). exists ((head i h ++ le 4 (zlen l)) ++ e)%list. rewrite write_multi, Nl, put_eq. split; [|split].
    - fold h. change (h_more C h) with true. rewrite W. rewrite <- !app_assoc. reflexivity.
    - intros [d|l0] m rest Lk; [contradiction|]. apply like_multi in Lk. rewrite read_multi_eq. assert (Zl : zlen l0 = zlen l) by (unfold zlen; f_equal; clear - Lk; induction Lk; cbn; congruence). rewrite Zl, Nl. rewrite <- !app_assoc. rewrite meta_ok. cbn [bind]. rewrite multi_skip by reflexivity. destruct (R l0 h rest Lk eq_refl) as (m' & Rd & M'). rewrite Rd. exists m'. split; [reflexivity|exact M'].
    - intros [Zl A]. destruct (L A) as (n0 & Ln). exists (S n0). intros [|n] m rest Hn; [lia|]. rewrite load_eq. rewrite <- !app_assoc. rewrite meta_ok. cbn [bind i_meta]. change (h_class C h) with (@None C). cbv iota. rewrite multi_skip by reflexivity. destruct (Ln n n [] h rest) as (m' & Ld & M'); [lia|lia|change (zlen (@nil wf)) with 0; lia|reflexivity|]. rewrite Ld. cbn [bind app]. rewrite Nl. exists m'. split; [reflexivity|exact M'].
  Qed.
End P.

Section Q.
  Variables D C : Type.
  Variable cls : D -> C.
  Variable ser : D -> list byte.
  Variable des : C -> list byte -> outcome (D * list byte).
  Variable blank : C -> D.
  Variable enc : header C -> list byte.
  Variable dec : list byte -> option (header C).
  Hypothesis K : coded D C cls ser des enc dec.
  Notation write := (write D C cls ser enc).
  Notation read := (read D C cls des dec).
  Notation load := (load D C des blank dec).
  Lemma round_read w : spine D w -> exists e, write w false fresh_out = Ok (mkOut e false) /\
    forall w0 m rest, like D C cls w0 w -> exists m', read w0 (at_start C (e ++ rest) m) = Ok (w, at_start C rest m').
  Proof.
    destruct K as (K1 & K2 & K3 & K4). intros S. destruct (back_spine D C cls ser des blank enc dec K1 K2 K3 K4 w S false []) as (e & W & R & _). exists e. split; [exact W|]. intros w0 m rest L. destruct (R w0 m rest L) as (m' & E & _). exists m'. exact E.
  Qed.
  Lemma round_load w : spine D w -> addable D w -> exists e n0, write w false fresh_out = Ok (mkOut e false) /\
    forall n m rest, (n0 <= n)%nat -> exists m', load n (at_start C (e ++ rest) m) = Ok (Some (w, at_start C rest m')).
  Proof.
    destruct K as (K1 & K2 & K3 & K4). intros S A. destruct (back_spine D C cls ser des blank enc dec K1 K2 K3 K4 w S false []) as (e & W & _ & L). destruct (L A) as (n0 & H). exists e, n0. split; [exact W|]. intros n m rest Hn. destruct (H n m rest Hn) as (m' & E & _). exists m'. exact E.
  Qed.
  (** several wave functions in one stream *)
  Definition write_seq (l : list (wf D)) (s : out) : outcome out := foldM (fun s w => write w false s) l s.
  Fixpoint read_seq (l : list (wf D)) (s : ins C) : outcome (list (wf D) * ins C) :=
    match l with [] => Ok ([], s) | w :: t => let* r := read w s in let* r2 := read_seq t (snd r) in Ok (fst r :: fst r2, snd r2) end.
  Lemma seq_read l : Forall (spine D) l -> forall p, exists e, write_seq l (mkOut p false) = Ok (mkOut (p ++ e) false) /\
    forall l0 m rest, Forall2 (like D C cls) l0 l -> exists m', read_seq l0 (at_start C (e ++ rest) m) = Ok (l, at_start C rest m').
  Proof.
    destruct K as (K1 & K2 & K3 & K4). induction 1 as [|w t S _ IH]; intros p.
    - exists []. split; [cbn; rewrite app_nil_r; reflexivity|]. intros l0 m rest F. inversion F; subst. exists m. reflexivity.
    - destruct (back_spine D C cls ser des blank enc dec K1 K2 K3 K4 w S false p) as (e & W & R & _). destruct (IH (p ++ e)%list) as (e2 & W2 & R2). exists (e ++ e2)%list. split.
      + unfold write_seq in *. cbn [foldM]. rewrite W. cbn [bind]. rewrite W2, app_assoc. reflexivity.
      + intros l0 m rest F. inversion F as [|w0 ? t0 ? Lw Ft]; subst. destruct (R w0 m (e2 ++ rest)%list Lw) as (m1 & E1 & _). destruct (R2 t0 m1 rest Ft) as (m2 & E2). exists m2. cbn [read_seq]. unfold at_start in *. rewrite <- app_assoc, E1. cbn [bind fst snd]. rewrite E2. reflexivity.
  Qed.
  (** a target with too few states *)
  Lemma target_short l k m rest e : spine D (Multi D l) -> Forall (is_single D) k -> (0 < length k < length l)%nat -> Forall2 (like D C cls) k (firstn (length k) l) ->
    write (Multi D l) false fresh_out = Ok (mkOut e false) -> read (Multi D k) (at_start C (e ++ rest) m) = UB.
  Proof.
    destruct K as (K1 & K2 & K3 & K4). intros S Sk Len F W. rewrite write_multi in W. assert (Nl : (zlen l <? 1) = false) by (apply Z.ltb_ge; unfold zlen; lia). rewrite Nl in W. unfold fresh_out in W. rewrite put_eq in W. cbn [app h_more] in W. set (h := mkH C true None 4) in *.
    assert (G : forall k l p e q, (length k < length l)%nat -> Forall2 (like D C cls) k (firstn (length k) l) -> Forall (is_single D) k -> write_all D C cls ser enc false l (mkOut p true) = Ok (mkOut q false) -> q = (p ++ e)%list -> forall m, h_more C m = true -> read_all D C cls des dec k (mkIn C (e ++ rest) true m) = UB).
    { clear - blank K1 K2 K3 K4. induction k as [|x k IH]; intros l p e q Lk Lf Ls W E m M; cbn [read_all i_meta]; rewrite M; [reflexivity|]. destruct l as [|y l]; [cbn in Lk; lia|]. cbn [length firstn] in Lk, Lf. inversion Lf as [|? ? ? ? Lxy Lr]; subst. destruct x as [dx|]; [|inversion Ls; contradiction]. destruct y as [dy|]; [|contradiction]. destruct l as [|y2 l]; [cbn in Lk; lia|].
      destruct (back_single D C cls ser des blank enc dec K1 K2 K3 K4 dy true true p) as (e1 & W1 & R1 & _). change (write_all D C cls ser enc false (Single D dy :: y2 :: l) (mkOut p true)) with (let* s := write (Single D dy) true (mkOut p true) in write_all D C cls ser enc false (y2 :: l) s) in W. rewrite W1 in W. cbn [bind] in W.
      assert (X : exists e2, (p ++ e)%list = ((p ++ e1) ++ e2)%list).
      { clear - W. revert W. generalize (p ++ e1)%list as a, (p ++ e)%list as b. intros a b.
        assert (Mono : forall w more s s', write w more s = Ok s' -> exists z, o_bytes s' = (o_bytes s ++ z)%list).
        { induction w as [d|l' IHl] using wf_rect2; intros more s s' H; [injection H; intros <-; unfold FileWF.put; cbn [o_bytes]; rewrite <- app_assoc; eexists; reflexivity|]. rewrite write_multi in H. destruct (zlen l' <? 1); [discriminate|].
          assert (Mall : forall l' s s', Forall (fun w => forall more s s', write w more s = Ok s' -> exists z, o_bytes s' = (o_bytes s ++ z)%list) l' -> write_all D C cls ser enc more l' s = Ok s' -> exists z, o_bytes s' = (o_bytes s ++ z)%list).
          { clear. induction l' as [|x t IH]; intros s s' F H; [injection H; intros <-; exists []; rewrite app_nil_r; reflexivity|]. inversion F; subst. change (write_all D C cls ser enc more (x :: t) s) with (let* s := write x (match t with [] => more | _ => true end) s in write_all D C cls ser enc more t s) in H. destruct (write x _ s) as [s1| |] eqn:E1; try discriminate. cbn [bind] in H. destruct (H2 _ _ _ E1) as [z1 Z1]. destruct (IH _ _ H3 H) as [z2 Z2]. exists (z1 ++ z2)%list. rewrite Z2, Z1, app_assoc. reflexivity. }
          destruct (Mall l' _ _ IHl H) as [z Z]. rewrite Z. unfold FileWF.put. cbn [o_bytes]. rewrite <- !app_assoc. eexists. reflexivity. }
        intros W. assert (Mall : forall l' s s', write_all D C cls ser enc false l' s = Ok s' -> exists z, o_bytes s' = (o_bytes s ++ z)%list).
        { clear - Mono. induction l' as [|x t IH]; intros s s' H; [injection H; intros <-; exists []; rewrite app_nil_r; reflexivity|]. change (write_all D C cls ser enc false (x :: t) s) with (let* s := write x (match t with [] => false | _ => true end) s in write_all D C cls ser enc false t s) in H. destruct (write x _ s) as [s1| |] eqn:E1; try discriminate. cbn [bind] in H. destruct (Mono _ _ _ _ E1) as [z1 Z1]. destruct (IH _ _ H) as [z2 Z2]. exists (z1 ++ z2)%list. rewrite Z2, Z1, app_assoc. reflexivity. }
        destruct (Mall _ _ _ W) as [z Z]. exists z. exact Z. }
      destruct X as [e2 X]. assert (Ee : e = (e1 ++ e2)%list) by (rewrite <- app_assoc in X; apply app_inv_head in X; exact X). subst e. rewrite <- app_assoc. destruct (R1 (Single D dx) m (e2 ++ rest)%list Lxy) as (m1 & Rd & M1).
      fold (read_all D C cls des dec). rewrite Rd. cbn [bind snd fst]. rewrite (IH (y2 :: l) (p ++ e1)%list e2 (p ++ e1 ++ e2)%list); [reflexivity|cbn [length] in *; lia|exact Lr|inversion Ls; assumption|exact W|apply app_assoc|exact M1]. }
    rewrite read_multi_eq. assert (Nk : (zlen k <? 1) = false) by (apply Z.ltb_ge; unfold zlen; lia). rewrite Nk.
    assert (X : exists z, e = ((head C enc false h ++ le 4 (zlen l)) ++ z)%list).
    { destruct (back_list D C cls ser des blank enc dec K1 K2 K3 K4 l S) with (p := (head C enc false h ++ le 4 (zlen l))%list) as (z & Wz & _).
      - apply Forall_forall. intros x _ Sx. apply back_spine; assumption.
      - rewrite Wz in W. injection W; intros <-. exists z. reflexivity. }
    destruct X as [z Ez]. rewrite Ez, <- !app_assoc. unfold at_start. rewrite (meta_ok D C cls ser des enc dec K1 K2 K3). cbn [bind]. rewrite multi_skip by reflexivity. rewrite (G k l (head C enc false h ++ le 4 (zlen l))%list z e); [reflexivity|lia|exact F|exact Sk|exact W|exact Ez|reflexivity].
  Qed.
End Q.

Lemma flat_spine (D : Type) (w : wf D) : flat D w -> spine D w /\ addable D w.
Proof.
  destruct w as [d|l]; [split; exact I|]. intros (N & Z & F). split.
  - change (spine_list D l). clear Z. induction F as [|x t Hx F IH]; [congruence|]. destruct t as [|y u]; [destruct x; [exact I|contradiction]|]. split; [exact Hx|]. apply IH. discriminate.
  - split; [exact Z|]. change (addable_list D l). clear N Z. induction F as [|x t Hx F IH]; [exact I|]. destruct x; [|contradiction]. split; [exact I|]. split; [apply Z.le_refl|exact IH].
Qed.

(** the intro *)
Lemma intro_exact C b m s : 16 <= zlen b -> (check_intro C (at_start C b m) = Ok s <-> s = mkIn C (skipn 16 b) true m /\ firstn 12 b = (magic ++ [0])%list /\ unle (firstn 4 (skipn 12 b)) = 1).
Proof.
  intros L. unfold check_intro, at_start. cbn [i_intro i_bytes i_meta]. rewrite (skipn_all2 intro) by (apply Nat2Z.inj_le; exact L). rewrite app_nil_r.
  assert (S12 : skipn 12 (firstn 16 b) = firstn 4 (skipn 12 b)) by (rewrite skipn_firstn_comm; reflexivity). rewrite S12.
  assert (F12 : firstn 12 (firstn 16 b) = firstn 12 b) by (rewrite firstn_firstn; reflexivity).
  assert (Sp : firstn 16 b = (firstn 12 b ++ firstn 4 (skipn 12 b))%list) by (rewrite <- F12, <- S12; symmetry; apply firstn_skipn).
  split.
  - destruct (cstring (firstn 16 b)) as [t|] eqn:E; [|discriminate]. unfold bytes_eqb. destruct (list_eq_dec Z.eq_dec t magic) as [->|]; [|discriminate]. cbn [negb]. destruct (Z.eqb_spec (unle (firstn 4 (skipn 12 b))) 1) as [U|]; [|discriminate]. cbn [negb]. intros H. injection H as <-. split; [reflexivity|]. split; [|exact U].
    assert (G : forall l t, cstring l = Some t -> exists r, l = (t ++ 0 :: r)%list).
    { clear. induction l as [|a l IH]; intros t H; [discriminate|]. cbn [cstring] in H. destruct (Z.eqb_spec a 0) as [->|]; [injection H as <-; exists l; reflexivity|]. destruct (cstring l) as [u|]; [|discriminate]. injection H as <-. destruct (IH u eq_refl) as [r ->]. exists r. reflexivity. }
    destruct (G _ _ E) as [r Er]. rewrite <- F12, Er. reflexivity.
  - intros (-> & F & U). rewrite Sp, F, U. reflexivity.
Qed.
(** a stream that ends within a header *)
Lemma header_cut D C cls des (enc : header C -> list byte) dec : (forall h, zlen (enc h) < 256 ^ 4) -> forall d h k m, (k < length (enc h))%nat ->
  read D C cls des dec (Single D d) (at_start C (intro ++ le 4 (zlen (enc h)) ++ firstn k (enc h)) m) = UB.
Proof.
  intros small d h k m Hk. cbn [read]. unfold read_meta, at_start.
  assert (I : forall t, check_intro C (mkIn C (intro ++ t) false m) = Ok (mkIn C t true m)).
  { intros t. unfold check_intro. cbn [i_intro i_bytes i_meta]. change (firstn 16 (intro ++ t)) with intro. rewrite (skipn_all2 intro) by (rewrite app_length; lia). rewrite app_nil_r. reflexivity. }
  rewrite I. cbn [bind i_bytes].
  change (firstn 4 (le 4 (zlen (enc h)) ++ firstn k (enc h))) with (le 4 (zlen (enc h))). change (skipn 4 (le 4 (zlen (enc h)) ++ firstn k (enc h))) with (firstn k (enc h)).
  rewrite unle_le by (change (Z.of_nat 4) with 4; split; [unfold zlen; lia|apply small]). destruct (Z.ltb_spec (zlen (firstn k (enc h))) (zlen (enc h))) as [|L]; [reflexivity|]. unfold zlen in L. rewrite firstn_length in L. lia.
Qed.
