(** Proofs about the logger. *)
From Coq Require Import Ascii String List ZArith Lia Bool Arith.
From Verif Require Import Base Arrays Model.Logger Spec.Logger.
Import ListNotations.
Open Scope Z_scope.

(** ** lines *)
Lemma lines_none b : forall r, lines b = ([], r) -> r = b /\ find_nl b 0 = None.
Proof.
  induction b as [|c b IH]; cbn [lines find_nl]; intros r H; [injection H as <-; auto|]. destruct (lines b) as [l r0]. destruct (Ascii.eqb c nl) eqn:E; [discriminate|].
  destruct l as [|x l]; [|discriminate]. injection H as <-. destruct (IH r0 eq_refl) as [-> F]. rewrite F. auto.
Qed.
Lemma lines_some b : forall x l r, lines b = (x :: l, r) -> exists b', b = x ++ nl :: b' /\ lines b' = (l, r) /\ find_nl b 0 = Some (length x).
Proof.
  induction b as [|c b IH]; cbn [lines find_nl]; intros x l r H; [discriminate|]. destruct (lines b) as [l0 r0] eqn:L. destruct (Ascii.eqb c nl) eqn:E.
  - injection H as <- <- <-. apply Ascii.eqb_eq in E. subst c. exists b. auto.
  - destruct l0 as [|y l0]; [discriminate|]. injection H as <- <- <-. destruct (IH y l0 r0 eq_refl) as (b' & -> & Lb & F). exists b'. rewrite F. auto.
Qed.
Lemma lines_join s : concat (map (fun x => x ++ [nl]) (fst (lines s))) ++ snd (lines s) = s.
Proof.
  induction s as [|c s IH]; [reflexivity|]. cbn [lines]. destruct (lines s) as [l r]. cbn [fst snd] in *. destruct (Ascii.eqb c nl) eqn:E.
  - apply Ascii.eqb_eq in E. subst c. cbn. rewrite IH. reflexivity.
  - destruct l as [|x l]; cbn in *; rewrite IH; reflexivity.
Qed.
Lemma lines_app t b : lines ((t ++ [nl]) ++ b) = (fst (lines (t ++ [nl])) ++ fst (lines b), snd (lines b)) /\ snd (lines (t ++ [nl])) = [] /\ fst (lines (t ++ [nl])) <> [].
Proof.
  induction t as [|c t (IH & R & N)]; cbn [app lines].
  - destruct (lines b) as [l r]. repeat split. discriminate.
  - cbn [app] in *. rewrite IH. destruct (lines (t ++ [nl])) as [l r]. cbn [fst snd] in *. destruct (Ascii.eqb c nl); [repeat split; [exact R|discriminate]|].
    destruct l as [|x l]; [congruence|]. cbn. repeat split; [exact R|discriminate].
Qed.
Lemma shifted_app k a b : whole a -> shifted k (a ++ b) = shifted k a ++ shifted k b.
Proof.
  intros [t ->]. destruct (lines_app t b) as (E & R & _). unfold shifted. rewrite E. destruct (lines (t ++ [nl])) as [l r]. cbn [fst snd] in *. subst r. destruct (lines b) as [l2 r2]. cbn [fst snd].
  rewrite map_app, concat_app, app_nil_r, app_assoc. reflexivity.
Qed.
Lemma shifted_0 s : shifted 0 s = s.
Proof.
  unfold shifted. rewrite <- (lines_join s) at 2. destruct (lines s) as [l r]. cbn. f_equal. destruct r; reflexivity.
Qed.
Lemma shifted_nil k : shifted k [] = []. Proof. reflexivity. Qed.
Lemma whole_app a b : whole b -> whole (a ++ b). Proof. intros [t ->]. exists (a ++ t). rewrite app_assoc. reflexivity. Qed.

(** ** _IndentString *)
Lemma find_skip a b : find_nl (a ++ b) (length a) = option_map (plus (length a)) (find_nl b 0).
Proof. induction a as [|c a IH]; cbn [app length find_nl]; [destruct (find_nl b 0); reflexivity|]. rewrite IH. destruct (find_nl b 0); reflexivity. Qed.
Lemma find_blanks k b : find_nl (repeat sp k ++ b) 0 = option_map (plus k) (find_nl b 0).
Proof. induction k as [|k IH]; cbn [repeat app]; [destruct (find_nl b 0); reflexivity|]. cbn [find_nl]. change (Ascii.eqb sp nl) with false. cbn iota. rewrite IH. destruct (find_nl b 0); reflexivity. Qed.
Lemma insert_at a b t : insert (a ++ b) (length a) t = a ++ t ++ b.
Proof. unfold insert. rewrite firstn_app, Nat.sub_diag, firstn_all, firstn_O, app_nil_r, skipn_app, Nat.sub_diag, skipn_all. reflexivity. Qed.
Definition body (sind : str) (b : str) : str := let '(l, r) := lines b in concat (map (fun x => sind ++ x ++ [nl]) l) ++ match r with [] => [] | _ => sind ++ r end.
Lemma loop_ok m l : forall n p b r, lines b = (l, r) -> (length l + 2 <= n)%nat ->
  indent_loop n (repeat sp m) (p ++ nl :: b) (Some (length p)) = Ok (p ++ nl :: body (repeat sp m) b).
Proof.
  set (sind := repeat sp m). induction l as [|x l IH]; intros n p b r L N; (destruct n as [|n]; [lia|]); cbn [indent_loop].
  - destruct (lines_none b r L) as [-> F]. unfold body. rewrite L. cbn [map concat app].
    destruct b as [|c b]; [rewrite (proj2 (Nat.ltb_ge _ _)) by (rewrite app_length; cbn; lia); reflexivity|].
    rewrite (proj2 (Nat.ltb_lt _ _)) by (rewrite app_length; cbn; lia).
    replace (p ++ nl :: c :: b) with ((p ++ [nl]) ++ c :: b) by (rewrite <- app_assoc; reflexivity). replace (length p + 1)%nat with (length (p ++ [nl])) by (rewrite app_length; reflexivity). rewrite insert_at.
    rewrite (proj2 (Nat.leb_gt _ _)) by (rewrite !app_length; cbn; lia). rewrite find_skip. unfold sind. rewrite find_blanks, F. cbn [option_map]. destruct n as [|n]; [cbn in N; lia|]. cbn [indent_loop]. rewrite <- app_assoc. reflexivity.
  - destruct (lines_some b x l r L) as (b' & Eb & Lb & F). unfold body. rewrite L.
    assert (Nb : (0 < length b)%nat) by (rewrite Eb, app_length; cbn; lia).
    rewrite (proj2 (Nat.ltb_lt _ _)) by (rewrite app_length; cbn; lia).
    replace (p ++ nl :: b) with ((p ++ [nl]) ++ b) by (rewrite <- app_assoc; reflexivity). replace (length p + 1)%nat with (length (p ++ [nl])) by (rewrite app_length; reflexivity). rewrite insert_at.
    rewrite (proj2 (Nat.leb_gt _ _)) by (rewrite !app_length; cbn; lia). rewrite find_skip. rewrite (find_blanks m b : find_nl (sind ++ b) 0 = _), F. cbn [option_map].
    specialize (IH n ((p ++ [nl]) ++ sind ++ x) b' r Lb ltac:(cbn in N; lia)).
    replace (length ((p ++ [nl]) ++ sind ++ x)) with (length (p ++ [nl]) + (m + length x))%nat in IH by (unfold sind; rewrite !app_length, repeat_length; cbn; lia).
    rewrite Eb. replace ((p ++ [nl]) ++ sind ++ x ++ nl :: b') with (((p ++ [nl]) ++ sind ++ x) ++ nl :: b') by (rewrite !app_assoc; reflexivity). rewrite IH. f_equal. unfold body. rewrite Lb. cbn [map concat]. rewrite <- !app_assoc. cbn. reflexivity.
Qed.
Lemma lines_short s : (length (fst (lines s)) <= length s)%nat.
Proof. induction s as [|c s IH]; [cbn; lia|]. cbn [lines]. destruct (lines s) as [l r]. cbn [fst] in IH. destruct (Ascii.eqb c nl); [cbn; lia|]. destruct l; cbn in *; lia. Qed.
Lemma indent_ok k s : indent_string k s = Ok (match s with [] => repeat sp (Z.to_nat (k * 2)) | _ => shifted (k * 2) s end).
Proof.
  unfold indent_string. set (m := Z.to_nat (k * 2)). change (insert s 0 (repeat sp m)) with (repeat sp m ++ s). rewrite find_blanks. pose proof (lines_short s) as Sh. change (shifted (k * 2) s) with (body (repeat sp m) s).
  destruct (lines s) as [[|x l] r] eqn:L.
  - destruct (lines_none s r L) as [-> F]. rewrite F. cbn [option_map]. replace (length s + 2)%nat with (S (length s + 1)) by lia. cbn [indent_loop]. unfold body. rewrite L. destruct s; [rewrite app_nil_r; reflexivity|reflexivity].
  - destruct (lines_some s x l r L) as (b' & Eb & Lb & F). rewrite F. cbn [option_map]. cbn [fst length] in Sh.
    assert (X : repeat sp m ++ s = (repeat sp m ++ x) ++ nl :: b') by (rewrite Eb at 1; rewrite app_assoc; reflexivity). rewrite X.
    replace (m + length x)%nat with (length (repeat sp m ++ x)) by (rewrite app_length, repeat_length; reflexivity). rewrite (loop_ok m l (length s + 2) (repeat sp m ++ x) b' r Lb) by lia.
    f_equal. destruct s as [|c s]; [destruct x; discriminate Eb|]. unfold body at 2. rewrite L. unfold body. rewrite Lb. cbn [map concat]. rewrite <- !app_assoc. reflexivity.
Qed.
Lemma indent_fits k s : k = 0 \/ whole s -> indent_string k s = Ok (shifted (k * 2) s).
Proof.
  intros H. rewrite indent_ok. destruct s as [|c s]; [|reflexivity]. destruct H as [-> |[t X]]; [reflexivity|]. destruct t; discriminate X.
Qed.

(** ** texts in parts *)
Lemma lines_snd s : s <> [] -> ends s true = match snd (lines s) with [] => true | _ => false end.
Proof.
  induction s as [|c s IH]; [congruence|]. intros _. cbn [lines]. destruct s as [|d s].
  - cbn. destruct (Ascii.eqb c nl); reflexivity.
  - specialize (IH ltac:(discriminate)). destruct (lines (d :: s)) as [l r] eqn:L. cbn [snd] in IH. change (ends (c :: d :: s) true) with (ends (d :: s) true). rewrite IH. destruct (Ascii.eqb c nl); [reflexivity|].
    destruct l as [|x l]; [|reflexivity]. cbn [snd]. destruct (lines_none _ _ L) as [-> _]. reflexivity.
Qed.
Lemma lines_cat s b : lines (s ++ b) = match fst (lines b) with
  | [] => (fst (lines s), snd (lines s) ++ snd (lines b))
  | x :: l => (fst (lines s) ++ (snd (lines s) ++ x) :: l, snd (lines b)) end.
Proof.
  induction s as [|c s IH]; cbn [app].
  - cbn [lines fst snd app]. destruct (lines b) as [[|x l] r]; reflexivity.
  - cbn [lines]. rewrite IH. destruct (lines b) as [[|x l] r]; cbn [fst snd]; destruct (lines s) as [l1 r1]; cbn [fst snd]; (destruct (Ascii.eqb c nl); [reflexivity|]); destruct l1; reflexivity.
Qed.
Lemma skip_blanks m (t : str) : skipn m (repeat sp m ++ t) = t.
Proof. induction m as [|m IH]; [reflexivity|exact IH]. Qed.
Lemma from_cat k s b : shifted k (s ++ b) = shifted k s ++ from (ends s true) k b.
Proof.
  destruct s as [|c s]; [reflexivity|]. assert (N : c :: s <> []) by discriminate. rewrite (lines_snd _ N). revert N. generalize (c :: s). clear c s. intros s N. unfold shifted at 1 2. rewrite lines_cat. destruct (lines s) as [l r]. cbn [fst snd]. set (bl := repeat sp (Z.to_nat k)).
  destruct r as [|c r].
  - cbn [app from]. unfold shifted. fold bl. destruct (lines b) as [[|x l2] r2]; cbn [fst snd]; rewrite ?map_app, ?concat_app, ?app_nil_r, <- ?app_assoc; reflexivity.
  - cbn [from]. unfold shifted. fold bl. destruct (lines b) as [[|x l2] r2]; cbn [fst snd].
    + destruct r2 as [|c2 r2]; [rewrite app_nil_r; cbn [map concat app]; rewrite skipn_nil, app_nil_r; reflexivity|]. cbn [map concat app]. unfold bl at 4. rewrite skip_blanks. cbn [app]. rewrite <- !app_assoc. cbn [app]. reflexivity.
    + cbn [map concat]. rewrite map_app, concat_app. cbn [map concat]. assert (E : forall t u : str, skipn (Z.to_nat k) ((bl ++ t) ++ u) = t ++ u) by (intros t u; rewrite <- app_assoc; unfold bl; apply skip_blanks). replace ((bl ++ x ++ [nl]) ++ concat (map (fun x0 => bl ++ x0 ++ [nl]) l2)) with (bl ++ (x ++ [nl]) ++ concat (map (fun x0 => bl ++ x0 ++ [nl]) l2)) by (rewrite <- !app_assoc; reflexivity).
      rewrite E. rewrite <- !app_assoc. cbn [app]. rewrite <- ?app_assoc. reflexivity.
Qed.
Lemma from_0 b s : from b 0 s = s.
Proof. destruct b; cbn [from]; rewrite ?shifted_0; reflexivity. Qed.
Lemma last_app_cons (s : str) c b d : last (s ++ c :: b) d = last (c :: b) d.
Proof. induction s as [|x s IH]; [reflexivity|]. cbn [app]. rewrite <- IH. destruct (s ++ c :: b) eqn:E; [destruct s; discriminate E|reflexivity]. Qed.
Lemma ends_cat s b : ends (s ++ b) true = ends b (ends s true).
Proof. destruct b as [|c b]; [rewrite app_nil_r; reflexivity|]. unfold ends at 1. destruct (s ++ c :: b) eqn:E; [destruct s; discriminate E|]. rewrite <- E, last_app_cons. reflexivity. Qed.

(** ** programs *)
Section Run.
  Variable opens : str -> bool.
  (** q: the stream last written to, 0 after a flush.  With indentation texts are not empty and lines are complete when the streams are changed, at a flush, and when
      the indentation is changed; nothing waits when debug output or the place is changed *)
  Definition start (v : view) : Prop := v_ind v = 0 \/ v_bol v = true.
  Fixpoint tidy (q : Z) (v : view) (ops : list op) : Prop :=
    match ops with
    | [] => True
    | o :: ops =>
      let v' := fst (see opens o v) in
      match o with
      | Out s => (v_ind v = 0 \/ s <> []) /\ (q = 1 \/ start v) /\ tidy 1 v' ops
      | Dbg s => (v_ind v = 0 \/ s <> []) /\ (q = 2 \/ start v) /\ tidy 2 v' ops
      | Flush | FileClose => start v /\ tidy 0 v' ops
      | SetIndent n => if 0 <=? n then v_bol v = true /\ tidy 0 v' ops else tidy q v' ops
      | IndentInc => v_bol v = true /\ tidy 0 v' ops
      | IndentDec => if 0 <? v_ind v then v_bol v = true /\ tidy 0 v' ops else tidy q v' ops
      | Debug _ | FileOutput _ | SetRedirect _ | ConsoleOutput => q = 0 /\ tidy 0 v' ops
      | SetLineLength _ => tidy q v' ops
      | Supress _ | Header _ _ => False
      end
    end.
  Definition pend (l : log) : events :=
    if l_last l =? 1 then [(l_sink l, shifted (l_ind l * 2) (l_out l))]
    else if (l_last l =? 2) && l_debug l then [(l_sink l, shifted (l_ind l * 2) (l_dbg l))] else [].
  Definition inv (q : Z) (l : log) (v : view) : Prop :=
    l_sup l = false /\ l_ind l = v_ind v /\ 0 <= v_ind v /\ l_debug l = v_debug v /\ l_sink l = v_sink v /\ (match l_file l with Some _ => true | None => false end) = v_file v /\ l_last l = q /\
    ((q = 0 /\ l_out l = [] /\ l_dbg l = [] /\ start v) \/
     (q = 1 /\ l_dbg l = [] /\ (v_ind v = 0 \/ (l_out l <> [] /\ v_bol v = ends (l_out l) true))) \/
     (q = 2 /\ l_out l = [] /\ (v_ind v = 0 \/ (l_dbg l <> [] /\ v_bol v = if v_debug v then ends (l_dbg l) true else true)))).
  Lemma at_app p e e' : at_sink p (e ++ e') = at_sink p e ++ at_sink p e'.
  Proof. unfold at_sink. rewrite filter_app, map_app, concat_app. reflexivity. Qed.
  Lemma at_one p k s t : at_sink p [(k, s ++ t)] = at_sink p [(k, s)] ++ at_sink p [(k, t)].
  Proof. unfold at_sink. cbn. destruct (p k); cbn; rewrite ?app_nil_r; reflexivity. Qed.
  Lemma indent_some k s : k = 0 \/ s <> [] -> indent_string k s = Ok (shifted (k * 2) s).
  Proof. intros H. rewrite indent_ok. destruct s as [|c s]; [|reflexivity]. destruct H as [-> |H]; [reflexivity|congruence]. Qed.
  Lemma flush_ok q l v : inv q l v -> exists l', flush l = Ok (l', pend l) /\ l_last l' = 0 /\ (start v -> inv 0 l' v).
  Proof.
    intros (S & I & P & D & K & Fl & L & C). unfold flush, pend. rewrite S, L.
    destruct C as [(-> & O & G & B)|[(-> & G & Ft)|(-> & O & Ft)]]; cbn [Z.eqb Pos.eqb andb bind].
    - eexists. split; [reflexivity|]. split; [reflexivity|]. intros B'. repeat split; cbn; auto.
    - rewrite indent_some by (rewrite I; destruct Ft as [Ft|[Ft _]]; auto). cbn [bind app]. eexists. split; [reflexivity|]. split; [reflexivity|]. intros B'. repeat split; cbn; auto.
    - rewrite indent_some by (rewrite I; destruct Ft as [Ft|[Ft _]]; auto). cbn [bind app]. destruct (l_debug l) eqn:LD; (eexists; split; [reflexivity|]; split; [reflexivity|]; intros B'; repeat split; cbn; auto).
  Qed.
  Lemma more v a b : v_ind v = 0 \/ v_bol v = ends a true -> shifted (v_ind v * 2) (a ++ b) = shifted (v_ind v * 2) a ++ from (v_bol v) (v_ind v * 2) b.
  Proof. intros [E|E]; [rewrite E; change (0 * 2) with 0; rewrite !shifted_0, from_0; reflexivity|rewrite E; apply from_cat]. Qed.
  Lemma first v b : start v -> shifted (v_ind v * 2) b = from (v_bol v) (v_ind v * 2) b.
  Proof. intros [E|E]; rewrite E; [change (0 * 2) with 0; rewrite from_0, shifted_0; reflexivity|reflexivity]. Qed.
  Definition next (q : Z) (v : view) (o : op) (ops : list op) (l : log) : Prop :=
    exists q' l' e b, step opens o l = Ok (l', e, b) /\ tidy q' (fst (see opens o v)) ops /\ inv q' l' (fst (see opens o v)) /\ forall p, at_sink p (e ++ pend l') = at_sink p (pend l ++ snd (see opens o v)).
  Lemma step_out q v s ops l : tidy q v (Out s :: ops) -> inv q l v -> next q v (Out s) ops l.
  Proof.
    intros (Ns & Qs & T) I. exists 1. unfold next. cbn [step]. destruct (l_last l =? 1) eqn:E1.
    - cbn [bind fst snd]. eexists _, _, _. split; [reflexivity|]. split; [exact T|]. apply Z.eqb_eq in E1. destruct I as (S & I & P & D & K & Fl & L & C). destruct C as [(Q & _)|[(Q & G & Fo)|(Q & _)]]; try congruence.
      cbn [see fst snd]. split; [repeat split; cbn; auto; right; left; repeat split; auto|].
      + destruct Fo as [Fo|[N B]]; [left; exact Fo|right]. split; [destruct (l_out l); [congruence|discriminate]|]. rewrite B. symmetry. apply ends_cat.
      + intros p. rewrite at_app. unfold pend. cbn [put_out l_last l_sink l_ind l_out]. rewrite E1. cbn [Z.eqb Pos.eqb]. rewrite I, (more v) by (destruct Fo as [Fo|[_ Fo]]; auto). rewrite at_app, at_one, K. reflexivity.
    - destruct (flush_ok q l v I) as (l1 & E & L1 & I1). assert (St : start v). { destruct Qs as [Qs|Qs]; [|exact Qs]. destruct I as (_ & _ & _ & _ & _ & _ & L & _). rewrite L, Qs in E1. discriminate E1. }
      specialize (I1 St). rewrite E. cbn [bind fst snd]. eexists _, _, _. split; [reflexivity|]. split; [exact T|]. destruct I1 as (S & I1 & P & D & K & Fl & L & C). destruct C as [(_ & O & G & _)|[(Q & _)|(Q & _)]]; try discriminate.
      cbn [see fst snd]. split; [repeat split; cbn; auto; right; left; repeat split; auto|].
      + rewrite O. cbn [app]. destruct Ns as [Ns|Ns]; [left; exact Ns|]. destruct St as [St|St]; [left; exact St|right]. split; [exact Ns|rewrite St; reflexivity].
      + intros p. rewrite !at_app. f_equal. unfold pend. cbn [put_out put_last l_last l_sink l_ind l_out Z.eqb Pos.eqb]. rewrite O, I1, K. cbn [app]. rewrite (first v) by exact St. reflexivity.
  Qed.
  Lemma step_dbg q v s ops l : tidy q v (Dbg s :: ops) -> inv q l v -> next q v (Dbg s) ops l.
  Proof.
    intros (Ns & Qs & T) I. exists 2. unfold next. cbn [step]. destruct (l_last l =? 2) eqn:E1.
    - cbn [bind fst snd]. eexists _, _, _. split; [reflexivity|]. split; [exact T|]. apply Z.eqb_eq in E1. destruct I as (S & I & P & D & K & Fl & L & C). destruct C as [(Q & _)|[(Q & _)|(Q & G & Fo)]]; try congruence.
      cbn [see fst snd]. destruct (v_debug v) eqn:VD; cbn [fst snd].
      + split; [repeat split; cbn; auto; right; right; repeat split; auto|].
        * destruct Fo as [Fo|[N B]]; [left; exact Fo|right]. split; [destruct (l_dbg l); [congruence|discriminate]|]. rewrite B. symmetry. apply ends_cat.
        * intros p. rewrite !at_app. unfold pend. cbn [put_dbg l_last l_sink l_ind l_dbg l_debug]. rewrite E1. cbn [Z.eqb Pos.eqb andb]. rewrite D. rewrite I, (more v) by (destruct Fo as [Fo|[_ Fo]]; auto). rewrite at_one, K. reflexivity.
      + split; [repeat split; cbn; auto; try congruence; right; right; repeat split; auto|].
        * destruct Fo as [Fo|[N B]]; [left; exact Fo|right]. rewrite VD. split; [destruct (l_dbg l); [congruence|discriminate]|exact B].
        * intros p. rewrite app_nil_r. unfold pend. cbn [put_dbg l_last l_sink l_ind l_dbg l_debug]. rewrite E1, D. reflexivity.
    - destruct (flush_ok q l v I) as (l1 & E & L1 & I1). assert (St : start v). { destruct Qs as [Qs|Qs]; [|exact Qs]. destruct I as (_ & _ & _ & _ & _ & _ & L & _). rewrite L, Qs in E1. discriminate E1. }
      specialize (I1 St). rewrite E. cbn [bind fst snd]. eexists _, _, _. split; [reflexivity|]. split; [exact T|]. destruct I1 as (S & I1 & P & D & K & Fl & L & C). destruct C as [(_ & O & G & _)|[(Q & _)|(Q & _)]]; try discriminate.
      cbn [see fst snd]. destruct (v_debug v) eqn:VD; cbn [fst snd].
      + split; [repeat split; cbn; auto; right; right; repeat split; auto|].
        * rewrite G. cbn [app]. destruct Ns as [Ns|Ns]; [left; exact Ns|]. destruct St as [St|St]; [left; exact St|right]. split; [exact Ns|rewrite St; reflexivity].
        * intros p. rewrite !at_app. f_equal. unfold pend. cbn [put_dbg put_last l_last l_sink l_ind l_dbg l_debug Z.eqb Pos.eqb andb]. rewrite G, I1, K, D. cbn [app]. rewrite (first v) by exact St. reflexivity.
      + split; [repeat split; cbn; auto; try congruence; right; right; repeat split; auto|].
        * rewrite G, VD. cbn [app]. destruct Ns as [Ns|Ns]; [left; exact Ns|]. destruct St as [St|St]; [left; exact St|right]. split; [exact Ns|exact St].
        * intros p. rewrite !at_app. f_equal. unfold pend. cbn [put_dbg put_last l_last l_sink l_ind l_dbg l_debug Z.eqb Pos.eqb andb]. rewrite D. reflexivity.
  Qed.
  Ltac fin := repeat split; cbn; auto; try lia.
  Lemma step_ok q v o ops l : tidy q v (o :: ops) -> inv q l v -> next q v o ops l.
  Proof.
    intros T I. destruct o as [s|s| |b|b|n| | |n|f| |k| |ti ty]; try (apply step_out; assumption); try (apply step_dbg; assumption); cbn [tidy] in T; unfold next; cbn [step].
    - destruct T as [St T]. exists 0. destruct (flush_ok q l v I) as (l1 & E & L1 & I1). specialize (I1 St). rewrite E. cbn [bind]. eexists _, _, _. split; [reflexivity|]. split; [exact T|]. split; [exact I1|]. intros p. cbn [see snd]. unfold pend at 2. rewrite L1. reflexivity.
    - destruct T.
    - destruct T as [-> T]. exists 0. eexists _, _, _. split; [reflexivity|]. split; [exact T|]. destruct I as (S & I & P & D & K & Fl & L & [C|[(Q & _)|(Q & _)]]); try discriminate.
      split; [fin|]. intros p. cbn [see snd]. unfold pend. cbn [put_debug l_last l_debug]. rewrite L. reflexivity.
    - destruct (0 <=? n) eqn:N.
      + destruct T as [B T]. exists 0. cbn [see fst] in *. rewrite N in *. destruct (flush_ok q l v I) as (l1 & E & L1 & I1). specialize (I1 (or_intror B)). rewrite E. cbn [bind fst snd]. eexists _, _, _. split; [reflexivity|]. split; [exact T|].
        destruct I1 as (S & I1 & P & D & K & Fl & L & [(C1 & C2 & C3 & _)|[(Q & _)|(Q & _)]]); try discriminate. apply Z.leb_le in N. split; [fin; left; fin; right; exact B|]. intros p. cbn [snd]. unfold pend at 2. cbn [put_ind l_last]. rewrite L1. reflexivity.
      + exists q. cbn [see fst] in *. rewrite N in *. eexists _, _, _. split; [reflexivity|]. split; [exact T|]. split; [exact I|]. intros p. cbn [snd app]. rewrite app_nil_r. reflexivity.
    - destruct T as [B T]. exists 0. destruct (flush_ok q l v I) as (l1 & E & L1 & I1). specialize (I1 (or_intror B)). rewrite E. cbn [bind fst snd]. eexists _, _, _. split; [reflexivity|]. split; [exact T|].
      destruct I as (_ & Iv & Pv & _). destruct I1 as (S & I1 & P & D & K & Fl & L & [(C1 & C2 & C3 & _)|[(Q & _)|(Q & _)]]); try discriminate. split; [fin; left; fin; right; exact B|]. intros p. cbn [see snd]. unfold pend at 2. cbn [put_ind l_last]. rewrite L1. reflexivity.
    - pose proof I as (_ & Iv & Pv & _). rewrite Iv. cbn [see fst snd] in *. destruct (0 <? v_ind v) eqn:N.
      + destruct T as [B T]. apply Z.ltb_lt in N. exists 0. destruct (flush_ok q l v I) as (l1 & E & L1 & I1). specialize (I1 (or_intror B)). rewrite E. cbn [bind fst snd]. eexists _, _, _. split; [reflexivity|]. split; [exact T|].
        destruct I1 as (S & I1 & P & D & K & Fl & L & [(C1 & C2 & C3 & _)|[(Q & _)|(Q & _)]]); try discriminate. split; [fin; left; fin; right; exact B|]. intros p. unfold pend at 2. cbn [put_ind l_last]. rewrite L1. reflexivity.
      + apply Z.ltb_ge in N. assert (V : mkView (Z.max 0 (v_ind v - 1)) (v_debug v) (v_sink v) (v_file v) (v_bol v) = v) by (destruct v; cbn in *; f_equal; lia). rewrite V in *. exists q. eexists _, _, _. split; [reflexivity|]. split; [exact T|]. split; [exact I|].
        intros p. cbn [app]. rewrite app_nil_r. reflexivity.
    - exists q. eexists _, _, _. split; [reflexivity|]. split; [exact T|]. split; [exact I|]. intros p. cbn [see snd app]. rewrite app_nil_r. reflexivity.
    - destruct T as [-> T]. exists 0. cbn [see fst snd] in *. pose proof I as I0. destruct I as (S & I & P & D & K & Fl & L & [(C1 & C2 & C3 & _)|[(Q & _)|(Q & _)]]); try discriminate.
      destruct (l_file l) as [g|] eqn:G.
      + rewrite <- Fl in *. eexists _, _, _. split; [reflexivity|]. split; [exact T|]. split; [exact I0|]. intros p. rewrite app_nil_r. reflexivity.
      + rewrite <- Fl in *. destruct (opens f).
        * eexists _, _, _. split; [reflexivity|]. split; [exact T|]. split; [fin; left; fin; right; reflexivity|]. intros p. unfold pend. cbn [put_sink l_last l_debug]. rewrite L. reflexivity.
        * eexists _, _, _. split; [reflexivity|]. split; [exact T|]. split; [exact I0|]. intros p. rewrite app_nil_r. reflexivity.
    - destruct T as [St T]. exists 0. unfold file_close. destruct (flush_ok q l v I) as (l1 & E & L1 & I1). specialize (I1 St). rewrite E. cbn [bind fst snd]. eexists _, _, _. split; [reflexivity|]. split; [exact T|].
      destruct I1 as (S & I1 & P & D & K & Fl & L & [(C1 & C2 & C3 & _)|[(Q & _)|(Q & _)]]); try discriminate. split; [fin; left; fin; right; reflexivity|]. intros p. cbn [see snd]. unfold pend at 2. cbn [put_sink l_last l_debug]. rewrite L1. reflexivity.
    - destruct T as [-> T]. exists 0. destruct I as (S & I & P & D & K & Fl & L & [(C1 & C2 & C3 & _)|[(Q & _)|(Q & _)]]); try discriminate. eexists _, _, _. split; [reflexivity|]. split; [exact T|].
      split; [fin; left; fin; right; reflexivity|]. intros p. cbn [see snd]. unfold pend. cbn [put_sink l_last l_debug]. rewrite L. reflexivity.
    - destruct T as [-> T]. exists 0. assert (St : start v) by (destruct I as (_ & _ & _ & _ & _ & _ & _ & [(_ & _ & _ & St)|[(Q & _)|(Q & _)]]); [exact St|discriminate|discriminate]). destruct (l_file l) as [g|] eqn:G.
      + unfold file_close. destruct (flush_ok 0 l v I) as (l1 & E & L1 & I1). specialize (I1 St). rewrite E. cbn [bind fst snd]. eexists _, _, _. split; [reflexivity|]. split; [exact T|].
        destruct I1 as (S & I1 & P & D & K & Fl & L & [(C1 & C2 & C3 & _)|[(Q & _)|(Q & _)]]); try discriminate. split; [fin; left; fin; right; reflexivity|]. intros p. cbn [see snd]. unfold pend at 2. cbn [put_sink l_last l_debug]. rewrite L1. reflexivity.
      + cbn [bind fst snd]. destruct I as (S & I & P & D & K & Fl & L & [(C1 & C2 & C3 & _)|[(Q & _)|(Q & _)]]); try discriminate. eexists _, _, _. split; [reflexivity|]. split; [exact T|].
        split; [fin; [rewrite G; reflexivity|left; fin; right; reflexivity]|]. intros p. cbn [see snd]. unfold pend. cbn [put_sink l_last l_debug]. rewrite L. reflexivity.
    - destruct T.
  Qed.
  Lemma run_ok ops : forall q v l, tidy q v ops -> inv q l v -> exists l' e, run opens (ops ++ [Flush]) l = Ok (l', e) /\ l_last l' = 0 /\ forall p, at_sink p e = at_sink p (pend l ++ expected opens ops v).
  Proof.
    induction ops as [|o ops IH]; intros q v l T I; cbn [app run].
    - destruct (flush_ok q l v I) as (l1 & E & L1 & _). cbn [step]. rewrite E. cbn [bind fst snd run]. eexists _, _. split; [reflexivity|]. split; [exact L1|]. intros p. reflexivity.
    - destruct (step_ok q v o ops l T I) as (q' & l1 & e1 & b & E & T1 & I1 & A). rewrite E. cbn [bind fst snd]. destruct (IH q' _ l1 T1 I1) as (l2 & e2 & E2 & L2 & A2). rewrite E2. cbn [bind fst snd]. eexists _, _. split; [reflexivity|]. split; [exact L2|].
      intros p. cbn [expected]. specialize (A p). destruct (see opens o v) as [v1 ev]. cbn [fst snd] in *. rewrite at_app, A2, at_app. rewrite !at_app in A. rewrite at_app, at_app, !app_assoc, A. reflexivity.
  Qed.
  (** ** while output is suppressed *)
  Definition silent (o : op) : Prop := match o with Supress b => b = true | Header _ _ => False | _ => True end.
  Lemma flush_sup l : l_sup l = true -> exists l', flush l = Ok (l', []) /\ l_sup l' = true.
  Proof. intros S. unfold flush. rewrite S. eexists. split; [reflexivity|reflexivity]. Qed.
  Lemma silent_run ops : forall l, Forall silent ops -> l_sup l = true -> exists l', run opens ops l = Ok (l', []) /\ l_sup l' = true.
  Proof.
    induction ops as [|o ops IH]; intros l F S; [eexists; split; [reflexivity|exact S]|]. inversion F as [|? ? Fo Fs]; subst. cbn [run].
    assert (H : exists l1 b, step opens o l = Ok (l1, [], b) /\ l_sup l1 = true).
    { destruct (flush_sup l S) as (l1 & E & S1). destruct o as [s|s| |b|b|n| | |n|f| |k| |ti ty]; cbn [step silent] in *; try (destruct Fo; fail); unfold file_close; try rewrite E; cbn [bind fst snd].
      - destruct (l_last l =? 1); cbn [bind fst snd]; eexists _, _; (split; [reflexivity|assumption]).
      - destruct (l_last l =? 2); cbn [bind fst snd]; eexists _, _; (split; [reflexivity|assumption]).
      - eexists _, _; (split; [reflexivity|assumption]).
      - eexists _, _; (split; [reflexivity|exact Fo]).
      - eexists _, _; (split; [reflexivity|assumption]).
      - destruct (0 <=? n); eexists _, _; (split; [reflexivity|assumption]).
      - eexists _, _; (split; [reflexivity|assumption]).
      - destruct (0 <? l_ind l); eexists _, _; (split; [reflexivity|assumption]).
      - eexists _, _; (split; [reflexivity|assumption]).
      - destruct (l_file l); [|destruct (opens f)]; eexists _, _; (split; [reflexivity|assumption]).
      - eexists _, _; (split; [reflexivity|assumption]).
      - eexists _, _; (split; [reflexivity|assumption]).
      - destruct (l_file l); cbn [bind fst snd]; eexists _, _; (split; [reflexivity|assumption]). }
    destruct H as (l1 & b & E & S1). rewrite E. cbn [bind fst snd]. destruct (IH l1 Fs S1) as (l2 & E2 & S2). rewrite E2. eexists. split; [reflexivity|exact S2].
  Qed.
End Run.

Lemma run_last opens b ops : forall l l' e, run opens (ops ++ [Flush]) l = Ok (l', e) -> run opens (ops ++ [Supress b]) l = Ok (put_sup l' b, e).
Proof.
  induction ops as [|o ops IH]; intros l l' e; cbn [app run].
  - cbn [step]. destruct (flush l) as [[l1 e1]| |]; cbn [bind fst snd]; try discriminate. intros H. injection H as <- <-. reflexivity.
  - destruct (step opens o l) as [[[l1 e1] b1]| |]; cbn [bind fst snd]; try discriminate. destruct (run opens (ops ++ [Flush]) l1) as [[l2 e2]| |] eqn:E; cbn [bind fst snd]; try discriminate.
    intros H. injection H as <- <-. rewrite (IH _ _ _ E). reflexivity.
Qed.
Lemma run_header opens t ty ops : forall l l' e, run opens (ops ++ [Flush]) l = Ok (l', e) -> run opens (ops ++ [Header t ty]) l = Ok (l', e ++ [(l_sink l', header_text (l_len l') t ty)]).
Proof.
  induction ops as [|o ops IH]; intros l l' e; cbn [app run].
  - cbn [step]. destruct (flush l) as [[l1 e1]| |]; cbn [bind fst snd]; try discriminate. intros H. injection H as <- <-. rewrite !app_nil_r. reflexivity.
  - destruct (step opens o l) as [[[l1 e1] b1]| |]; cbn [bind fst snd]; try discriminate. destruct (run opens (ops ++ [Flush]) l1) as [[l2 e2]| |] eqn:E; cbn [bind fst snd]; try discriminate.
    intros H. injection H as <- <-. rewrite (IH _ _ _ E). cbn [bind fst snd]. rewrite app_assoc. reflexivity.
Qed.
Lemma inv_new : inv 0 new_log new_view.
Proof. repeat split; cbn; auto; try lia. left. repeat split; auto. right. reflexivity. Qed.

(** ** Header *)
Lemma lines_line a b : ~ In nl a -> lines (a ++ nl :: b) = (a :: fst (lines b), snd (lines b)).
Proof.
  induction a as [|c a IH]; intros N; cbn [app lines].
  - change (Ascii.eqb nl nl) with true. cbn iota. destruct (lines b); reflexivity.
  - rewrite IH by (intros X; apply N; right; exact X). destruct (Ascii.eqb c nl) eqn:E; [apply Ascii.eqb_eq in E; exfalso; apply N; left; exact E|reflexivity].
Qed.
Lemma chars_clean c n : c <> nl -> ~ In nl (chars c n).
Proof. intros N X. apply repeat_spec in X. congruence. Qed.
Lemma zlen_chars c n : 0 <= n -> zlen (chars c n) = n.
Proof. intros N. unfold zlen, chars. rewrite repeat_length. lia. Qed.
Lemma u64_small z : 0 <= z < 2 ^ 64 -> u64 z = z.
Proof. intros H. apply Z.mod_small, H. Qed.
Definition head_lines (len : Z) (t : str) (ty : section) : list str :=
  let half := u64 (len - zlen t) / 2 in
  match ty with
  | Chapter => [[]; []; chars star len; chars sp half ++ t; chars star len; []]
  | Section_ => [[]; (star :: chars star (u64 (half - 2))) ++ [sp] ++ t ++ [sp] ++ chars star (u64 (half - 2)); []]
  | SubSection => [star :: sp :: t; []]
  end.
Lemma header_lines len t ty : ~ In nl t -> lines (header_text len t ty) = (head_lines len t ty, []).
Proof.
  intros N. assert (E1 : lines [nl; nl] = ([[]; []], [])) by reflexivity. assert (E2 : lines [nl] = ([[]], [])) by reflexivity. assert (A : star <> nl) by discriminate. assert (B : sp <> nl) by discriminate.
  unfold header_text, head_lines. destruct ty.
  - set (h := u64 (len - zlen t) / 2). set (X := chars star len). set (Y := chars sp h).
    assert (NX : ~ In nl X) by (apply chars_clean, A). assert (NY : ~ In nl (Y ++ t)) by (intros I; apply in_app_or in I; destruct I as [I|I]; [exact (chars_clean sp h B I)|exact (N I)]).
    change ([nl; nl] ++ X ++ [nl] ++ Y ++ t ++ [nl] ++ X ++ [nl; nl]) with ([] ++ nl :: [] ++ nl :: X ++ nl :: Y ++ t ++ nl :: X ++ nl :: [nl]).
    rewrite (lines_line [] _) by (intros []). rewrite (lines_line [] _) by (intros []). rewrite (lines_line X _ NX). rewrite (app_assoc Y t). rewrite (lines_line (Y ++ t) _ NY), (lines_line X _ NX), E2. reflexivity.
  - set (h := u64 (u64 (len - zlen t) / 2 - 2)). set (X := chars star h). assert (NX : ~ In nl X) by (apply chars_clean, A).
    assert (NY : ~ In nl ((star :: X) ++ [sp] ++ t ++ [sp] ++ X)). { cbn [app]. intros [I|I]; [discriminate I|]. apply in_app_or in I. destruct I as [I|[I|I]]; [exact (NX I)|discriminate I|]. apply in_app_or in I. destruct I as [I|[I|I]]; [exact (N I)|discriminate I|exact (NX I)]. }
    assert (EQ : [nl; star] ++ X ++ [sp] ++ t ++ [sp] ++ X ++ [nl; nl] = [] ++ nl :: ((star :: X) ++ [sp] ++ t ++ [sp] ++ X) ++ nl :: [nl]) by (cbn [app]; repeat (rewrite <- !app_assoc; cbn [app]); reflexivity).
    rewrite EQ, (lines_line [] _) by (intros []). rewrite (lines_line _ _ NY), E2. reflexivity.
  - change ([star; sp] ++ t ++ [nl; nl]) with ((star :: sp :: t) ++ nl :: [nl]). rewrite lines_line, E2; [reflexivity|]. intros [I|[I|I]]; [discriminate I|discriminate I|exact (N I)].
Qed.
Lemma zlen_cat {A} (a b : list A) : zlen (a ++ b) = zlen a + zlen b. Proof. unfold zlen. rewrite app_length. lia. Qed.
Lemma zlen_cons {A} (x : A) (b : list A) : zlen (x :: b) = 1 + zlen b. Proof. unfold zlen. cbn [length]. lia. Qed.
Lemma zlen_pos {A} (a : list A) : 0 <= zlen a. Proof. unfold zlen. lia. Qed.
Lemma zlen_nil {A} : zlen (@nil A) = 0. Proof. reflexivity. Qed.
Lemma header_fits len t ty : 0 <= len < 2 ^ 31 -> match ty with Chapter => zlen t <= len | Section_ => zlen t + 4 <= len | SubSection => zlen t + 2 <= len end ->
  Forall (fun x => zlen x <= len) (head_lines len t ty).
Proof.
  intros L T. pose proof (zlen_pos t) as P. unfold head_lines. rewrite (u64_small (len - zlen t)) by (destruct ty; lia).
  assert (D := Z.div_pos (len - zlen t) 2). assert (M := Z.mul_div_le (len - zlen t) 2 ltac:(lia)).
  destruct ty; repeat (apply Forall_cons || apply Forall_nil); rewrite ?zlen_nil; try lia.
  - rewrite zlen_chars; lia.
  - rewrite zlen_cat, zlen_chars; lia.
  - rewrite zlen_chars; lia.
  - assert (X : 2 <= (len - zlen t) / 2) by (apply Z.div_le_lower_bound; lia). rewrite u64_small by lia.
    rewrite !zlen_cat, !zlen_cons, !zlen_chars by lia. rewrite !zlen_nil. lia.
  - rewrite !zlen_cons. lia.
Qed.
(** titles that are too long *)
Lemma section_long len t : 0 <= len < 2 ^ 31 -> len - 3 <= zlen t <= len -> forall x, nth_error (head_lines len t Section_) 1 = Some x -> 2 ^ 65 - 1 <= zlen x.
Proof.
  intros L T x E. cbn [head_lines nth_error] in E. injection E as <-. pose proof (zlen_pos t) as P. rewrite (u64_small (len - zlen t)) by lia.
  assert (D0 : 0 <= (len - zlen t) / 2) by (apply Z.div_pos; lia). assert (D1 : (len - zlen t) / 2 < 2) by (apply Z.div_lt_upper_bound; lia).
  assert (U : 2 ^ 64 - 2 <= u64 ((len - zlen t) / 2 - 2)). { unfold u64. replace ((len - zlen t) / 2 - 2) with (2 ^ 64 + ((len - zlen t) / 2 - 2) + (-1) * 2 ^ 64) by lia. rewrite Z.mod_add by lia. rewrite Z.mod_small by lia. lia. }
  rewrite ?zlen_cons, ?zlen_cat, ?zlen_cons, ?zlen_cat, ?zlen_cons. rewrite !zlen_chars by lia. lia.
Qed.
Lemma chapter_long len t : 0 <= len < 2 ^ 31 -> len < zlen t < 2 ^ 62 -> forall x, nth_error (head_lines len t Chapter) 3 = Some x -> 2 ^ 62 <= zlen x.
Proof.
  intros L T x E. cbn [head_lines nth_error] in E. injection E as <-. pose proof (zlen_pos t) as P.
  assert (U : u64 (len - zlen t) = 2 ^ 64 + (len - zlen t)). { unfold u64. replace (len - zlen t) with (2 ^ 64 + (len - zlen t) + (-1) * 2 ^ 64) at 1 by lia. rewrite Z.mod_add by lia. apply Z.mod_small. lia. }
  assert (D : 2 ^ 62 <= u64 (len - zlen t) / 2) by (apply Z.div_le_lower_bound; lia).
  rewrite zlen_cat, zlen_chars by lia. lia.
Qed.
Lemma section_huge len t : 0 <= len < 2 ^ 31 -> len - 3 <= zlen t <= len -> exists x, In x (head_lines len t Section_) /\ 2 ^ 65 - 1 <= zlen x.
Proof. intros L T. destruct (nth_error (head_lines len t Section_) 1) as [x|] eqn:E; [|discriminate E]. exists x. split; [apply nth_error_In in E; exact E|exact (section_long len t L T x E)]. Qed.
Lemma chapter_huge len t : 0 <= len < 2 ^ 31 -> len < zlen t < 2 ^ 62 -> exists x, In x (head_lines len t Chapter) /\ 2 ^ 62 <= zlen x.
Proof. intros L T. destruct (nth_error (head_lines len t Chapter) 3) as [x|] eqn:E; [|discriminate E]. exists x. split; [apply nth_error_In in E; exact E|exact (chapter_long len t L T x E)]. Qed.
