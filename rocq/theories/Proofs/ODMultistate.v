(** Proofs for Model/ODMultistate.v. *)
From Coq Require Import List ZArith Lia Bool Ring.
From Verif Require Import Base Arrays Algebra Complex Ordered Model.ODMultistate Spec.ODMultistate.
Import ListNotations.
Open Scope Z_scope.

(** * Tables *)
Lemma zlen_upto n : 0 <= n -> zlen (upto 0 n) = n.
Proof. intros H. unfold zlen. rewrite upto_length. lia. Qed.
Lemma zlen_mapto {A} (f : Z -> A) n : 0 <= n -> zlen (map f (upto 0 n)) = n.
Proof. intros H. rewrite zlen_map. apply zlen_upto, H. Qed.
Lemma rd_mapto {A} (f : Z -> A) n i : 0 <= i < n -> rd (map f (upto 0 n)) i = Ok (f i).
Proof. intros H. rewrite rd_map, rd_upto by lia. reflexivity. Qed.
Lemma mapto_ext {A} (f g : Z -> A) n : (forall i, 0 <= i < n -> f i = g i) -> map f (upto 0 n) = map g (upto 0 n).
Proof. intros H. apply map_ext_in. intros i Hi. apply in_upto in Hi. apply H. lia. Qed.
Lemma wr_mapto {A} (f : Z -> A) n i x : 0 <= i < n -> wr (map f (upto 0 n)) i x = Ok (map (fun j => if j =? i then x else f j) (upto 0 n)).
Proof.
  intros H. rewrite wr_ok by (rewrite zlen_mapto; lia). f_equal. apply rd_ext.
  - rewrite zlen_upd, !zlen_mapto by lia. reflexivity.
  - intros j Hj. rewrite zlen_upd, zlen_mapto in Hj by lia. rewrite rd_upd by (rewrite zlen_mapto; lia).
    rewrite !rd_mapto by lia. destruct (j =? i); reflexivity.
Qed.
Lemma nth_mapto {A} (f : Z -> A) n i d : 0 <= i < n -> nth (Z.to_nat i) (map f (upto 0 n)) d = f i.
Proof.
  intros H. pose proof (rd_mapto f n i H) as E. rewrite (rd_nth _ _ d) in E by (rewrite zlen_mapto; lia). congruence.
Qed.
Lemma table_ext {A} n size (f g : Z -> Z -> A) : (forall s i, 0 <= s < n -> 0 <= i < size -> f s i = g s i) -> table n size f = table n size g.
Proof. intros H. unfold table. apply mapto_ext. intros s Hs. apply mapto_ext. intros i Hi. apply H; assumption. Qed.
Lemma table_rd {A} n size (f : Z -> Z -> A) s : 0 <= s < n -> rd (table n size f) s = Ok (map (f s) (upto 0 size)).
Proof. intros H. unfold table. rewrite rd_mapto by assumption. reflexivity. Qed.
Lemma table_zlen {A} n size (f : Z -> Z -> A) : 0 <= n -> zlen (table n size f) = n.
Proof. intros H. apply zlen_mapto, H. Qed.
Lemma each_ok {A B} (f : A -> outcome B) (g : A -> B) l : (forall a, In a l -> f a = Ok (g a)) -> each f l = Ok (map g l).
Proof.
  induction l as [|a t IH]; intros H; [reflexivity|]. cbn. rewrite (H a) by (left; reflexivity). cbn.
  rewrite IH; [reflexivity|]. intros b Hb. apply H. right; exact Hb.
Qed.
Lemma each_upto {B} (f : Z -> outcome B) (g : Z -> B) n : (forall i, 0 <= i < n -> f i = Ok (g i)) -> each f (upto 0 n) = Ok (map g (upto 0 n)).
Proof. intros H. apply each_ok. intros i Hi. apply in_upto in Hi. apply H. lia. Qed.
Lemma rows_write {A} n size (g : Z -> Z -> A) i (h : Z -> A) : 0 <= n -> 0 <= i < size ->
  foldM (fun wf s => let* st := rd wf s in let* st := wr st i (h s) in wr wf s st) (upto 0 n) (table n size g) =
  Ok (table n size (fun s j => if j =? i then h s else g s j)).
Proof.
  intros Hn Hi.
  destruct (foldM_upto (fun wf s => let* st := rd wf s in let* st := wr st i (h s) in wr wf s st)
    (fun k wf => wf = table n size (fun s j => if (s <? k) && (j =? i) then h s else g s j)) 0 n (table n size g)) as (w & E & P).
  - exact Hn.
  - apply table_ext. intros s j Hs Hj. destruct (Z.ltb_spec s 0); [lia|]. reflexivity.
  - intros k w Hk ->. rewrite table_rd by lia. cbn [bind]. rewrite wr_mapto by lia. cbn [bind]. unfold table at 1.
    rewrite wr_mapto by lia. eexists; split; [reflexivity|]. unfold table. apply mapto_ext. intros s Hs.
    destruct (Z.eqb_spec s k) as [->|N].
    + apply mapto_ext. intros j Hj. destruct (Z.ltb_spec k (k + 1)); [|lia]. destruct (Z.ltb_spec k k); [lia|]. cbn.
      destruct (j =? i); reflexivity.
    + apply mapto_ext. intros j Hj. destruct (Z.ltb_spec s (k + 1)), (Z.ltb_spec s k); try lia; reflexivity.
  - rewrite E, P. f_equal. apply table_ext. intros s j Hs Hj. destruct (Z.ltb_spec s n); [|lia]. reflexivity.
Qed.

Lemma flat_pairs n : flat_map (fun i => map (pair i) (upto 0 n)) (upto 0 n) = pairs (upto 0 n) (upto 0 n).
Proof. reflexivity. Qed.
Lemma in_sq n i j : In (i, j) (pairs (upto 0 n) (upto 0 n)) <-> 0 <= i < n /\ 0 <= j < n.
Proof. rewrite in_pairs, !in_upto. tauto. Qed.
Lemma zz_dec (p q : Z * Z) : {p = q} + {p <> q}.
Proof. destruct p as [a b], q as [c d]. destruct (Z.eq_dec a c), (Z.eq_dec b d); [left|right|right|right]; congruence. Qed.

Section ODM.
  Variable F : ofld.
  Notation C := (Cx F).
  Variable cexp : C -> C.
  Notation fmat := (Z -> Z -> F).
  Variable eig : Z -> fmat -> fmat * (Z -> F).
  Variable junk : F.
  Add Ring ODr : (cr_th F).
  Add Ring ODc : (cr_th (Cx F)).
  Notation elem := (elem F).
  Notation omat := (Z -> Z -> option elem).
  Notation odm := (odm F).
  Notation step := (od_step F cexp eig junk).

  (** * Init *)
  Definition bad (m : omat) (i j : Z) : Prop := exists e, m i j = Some e /\ (el_ods F e = false \/ el_t F e <> None /\ i <> j).
  Definition t_at (m : omat) (i : Z) : option (trafo F) := match m i i with Some e => el_t F e | None => None end.
  Definition plain_diag (m : omat) (p : Z * Z) : Prop := forall e, m (fst p) (snd p) = Some e -> fst p = snd p /\ el_t F e = None.
  Lemma test_pairs (m : omat) (ps : list (Z * Z)) : forall ext full (T : list (slot F)),
    (forall p, In p ps -> 0 <= fst p < zlen T /\ 0 <= snd p < zlen T) ->
    (exists p, In p ps /\ bad m (fst p) (snd p)) /\ foldM (fun r p => test F m r (fst p) (snd p)) ps (ext, full, T) = Throw \/
    (forall p, In p ps -> ~ bad m (fst p) (snd p)) /\ exists ext' full' T',
      foldM (fun r p => test F m r (fst p) (snd p)) ps (ext, full, T) = Ok (ext', full', T') /\ zlen T' = zlen T /\
      (ext' = true <-> ext = true \/ exists p e, In p ps /\ m (fst p) (snd p) = Some e /\ el_t F e <> None) /\
      (full' = true <-> full = true /\ forall p, In p ps -> plain_diag m p) /\
      (forall i t, In (i, i) ps -> t_at m i = Some t -> rd T' i = Ok (Ptr F t)) /\
      (forall i, ~ In (i, i) ps \/ t_at m i = None -> rd T' i = rd T i).
  Proof.
    clear cexp eig junk.
    induction ps as [|[i j] ps IH]; intros ext full T B.
    - right. split; [intros p []|]. exists ext, full, T. cbn. split; [reflexivity|]. split; [reflexivity|]. split; [|split; [|split]].
      + split; [intros H; left; exact H|]. intros [H|(p & e & [] & _)]; exact H.
      + split; [intros H; split; [exact H|intros p []]|]. intros [H _]; exact H.
      + intros i t [].
      + intros i _. reflexivity.
    - cbn [foldM fst snd]. unfold test at 1 3. destruct (B (i, j)) as [Bi Bj]; [left; reflexivity|]. cbn [fst snd] in *.
      destruct (m i j) as [e|] eqn:E.
      2: { cbn [bind]. destruct (IH ext full T) as [[(p & Hp & Hb) Et]|(Hn & ext' & full' & T' & Et & L & H1 & H2 & H3 & H4)].
           { intros p Hp. apply B. right; exact Hp. }
           - left. split; [exists p; split; [right; exact Hp|exact Hb]|exact Et].
           - right. split. { intros p [<-|Hp]; [|apply Hn, Hp]. cbn. intros (e & X & _). congruence. }
             exists ext', full', T'. split; [exact Et|]. split; [exact L|]. split; [|split; [|split]].
             + rewrite H1. split; (intros [H|(p & e & Hp & Hm & Ht)]; [left; exact H|right; exists p, e]).
               * split; [right; exact Hp|split; assumption].
               * destruct Hp as [<-|Hp]; [cbn in Hm; congruence|]. split; [exact Hp|split; assumption].
             + rewrite H2. split; (intros [H K]; split; [exact H|]).
               * intros p [<-|Hp]; [|apply K, Hp]. intros e X. cbn in X. congruence.
               * intros p Hp. apply K. right; exact Hp.
             + intros a t [Hp|Hp] X; [|apply H3; assumption]. inversion Hp; subst. unfold t_at in X. rewrite E in X. discriminate.
             + intros a [Ha|Ha]; apply H4; [left|right; exact Ha]. intros Hp. apply Ha. right; exact Hp. }
      destruct (el_ods F e) eqn:O; cbn [negb].
      2: { left. split; [|reflexivity]. exists (i, j). split; [left; reflexivity|]. exists e. split; [exact E|left; exact O]. }
      destruct (el_t F e) as [t|] eqn:T0.
      + destruct (Z.eqb_spec i j) as [<-|N]; cbn [negb].
        2: { left. split; [|reflexivity]. exists (i, j). split; [left; reflexivity|]. exists e. split; [exact E|right]. split; [congruence|exact N]. }
        rewrite wr_ok by exact Bi. cbn [bind].
        destruct (IH true false (upd T (Z.to_nat i) (Ptr F t))) as [[(p & Hp & Hb) Et]|(Hn & ext' & full' & T' & Et & L & H1 & H2 & H3 & H4)].
        { intros p Hp. rewrite zlen_upd. apply B. right; exact Hp. }
        * left. split; [exists p; split; [right; exact Hp|exact Hb]|exact Et].
        * right. split. { intros p [<-|Hp]; [|apply Hn, Hp]. cbn. intros (e' & X & [Y|[_ Y]]); [congruence|apply Y; reflexivity]. }
          exists ext', full', T'. split; [exact Et|]. split; [rewrite L; apply zlen_upd|]. split; [|split; [|split]].
          -- split; [intros _|intros _; apply H1; left; reflexivity]. right. exists (i, i), e. split; [left; reflexivity|]. split; [exact E|congruence].
          -- split; [intros X; apply H2 in X; destruct X; discriminate|]. intros [_ K].
             destruct (K (i, i) (or_introl eq_refl) e E) as [_ X]. congruence.
          -- intros a t' Hin X. destruct (in_dec zz_dec (a, a) ps) as [Hp|Hp]; [apply H3; assumption|].
             destruct Hin as [Hin|Hin]; [|contradiction]. inversion Hin; subst. unfold t_at in X. rewrite E in X.
             rewrite H4 by (left; exact Hp). rewrite rd_upd, Z.eqb_refl by exact Bi. congruence.
          -- intros a Ha. assert (Na : a <> i).
             { intros ->. destruct Ha as [Ha|Ha]; [apply Ha; left; reflexivity|]. unfold t_at in Ha. rewrite E in Ha. congruence. }
             rewrite H4. { rewrite rd_upd by exact Bi. destruct (Z.eqb_spec a i); [contradiction|reflexivity]. }
             destruct Ha as [Ha|Ha]; [left|right; exact Ha]. intros Hp. apply Ha. right; exact Hp.
      + cbn [bind].
        destruct (IH ext (if i =? j then full else false) T) as [[(p & Hp & Hb) Et]|(Hn & ext' & full' & T' & Et & L & H1 & H2 & H3 & H4)].
        { intros p Hp. apply B. right; exact Hp. }
        * left. split; [exists p; split; [right; exact Hp|exact Hb]|exact Et].
        * right. split. { intros p [<-|Hp]; [|apply Hn, Hp]. cbn. intros (e' & X & [Y|[Y _]]); congruence. }
          exists ext', full', T'. split; [exact Et|]. split; [exact L|]. split; [|split; [|split]].
          -- rewrite H1. split; (intros [H|(p & e' & Hp & Hm & Ht)]; [left; exact H|right; exists p, e']).
             ++ split; [right; exact Hp|split; assumption].
             ++ destruct Hp as [<-|Hp]; [cbn in Hm; congruence|]. split; [exact Hp|split; assumption].
          -- rewrite H2. destruct (Z.eqb_spec i j) as [<-|N].
             ++ split; (intros [H K]; split; [exact H|]).
                ** intros p [<-|Hp]; [|apply K, Hp]. intros e' X. cbn in *. split; [reflexivity|congruence].
                ** intros p Hp. apply K. right; exact Hp.
             ++ split; [intros [X _]; discriminate|]. intros [_ K]. exfalso. apply N.
                apply (K (i, j) (or_introl eq_refl) e E).
          -- intros a t [Hp|Hp] X; [|apply H3; assumption]. inversion Hp; subst. unfold t_at in X. rewrite E in X. congruence.
          -- intros a [Ha|Ha]; apply H4; [left|right; exact Ha]. intros Hp. apply Ha. right; exact Hp.
  Qed.
  Lemma init_exact n (m : omat) sizes : 1 <= n -> zlen sizes = n ->
    (exists i j, 0 <= i < n /\ 0 <= j < n /\ bad m i j) /\ od_init F n m sizes = Throw \/
    (forall i j, 0 <= i < n -> 0 <= j < n -> ~ bad m i j) /\ exists s, od_init F n m sizes = Ok s /\ od_n F s = n /\ rd sizes 0 = Ok (od_size F s) /\ od_d F s = None /\
      (od_full F s = true <-> forall i j e, 0 <= i < n -> 0 <= j < n -> m i j = Some e -> i = j /\ el_t F e = None) /\
      match od_t F s with
      | None => forall i, 0 <= i < n -> t_at m i = None
      | Some T => zlen T = n /\ (exists i, 0 <= i < n /\ t_at m i <> None) /\
                  forall i, 0 <= i < n -> rd T i = Ok (match t_at m i with Some t => Ptr F t | None => Unset F end)
      end.
  Proof.
    clear cexp eig junk. intros Hn Hs. unfold od_init. destruct (proj1 (rd_ok sizes 0)) as [s0 E0]; [lia|]. rewrite E0. cbn [bind].
    assert (L : foldM (fun (_ : unit) (_ : Z) => if negb (s0 =? s0) then Throw else Ok tt) (upto 1 n) tt = Ok tt).
    { generalize (upto 1 n) as l. induction l as [|a t IH]; [reflexivity|]. rewrite Z.eqb_refl in *. cbn [negb] in *. exact IH. }
    rewrite L. cbn [bind].
    rewrite (foldM_nested (fun r i j => test F m r i j) (upto 0 n) (fun _ => upto 0 n)). rewrite flat_pairs.
    assert (ZT : zlen (map (fun _ : Z => Unset F) (upto 0 n)) = n) by (apply zlen_mapto; lia).
    destruct (test_pairs m (pairs (upto 0 n) (upto 0 n)) false true (map (fun _ : Z => Unset F) (upto 0 n)))
      as [[([i j] & Hp & Hb) Et]|(Hg & ext & full & T & Et & LT & H1 & H2 & H3 & H4)].
    { rewrite ZT. intros [i j] Hp. apply in_sq in Hp. exact Hp. }
    - left. apply in_sq in Hp. split; [exists i, j; tauto|]. rewrite Et. reflexivity.
    - right. split. { intros i j Hi Hj. apply (Hg (i, j)). apply in_sq. tauto. }
      rewrite Et. cbn [bind]. eexists. split; [reflexivity|]. cbn [od_n od_size od_d od_full od_t].
      split; [reflexivity|]. split; [reflexivity|]. split; [reflexivity|]. split.
      + rewrite H2. split.
        * intros [_ K] i j e Hi Hj. apply (K (i, j)). apply in_sq. tauto.
        * intros K. split; [reflexivity|]. intros [i j] Hp e. apply in_sq in Hp. apply K; tauto.
      + destruct ext.
        * split; [lia|]. split.
          -- destruct (proj1 H1 eq_refl) as [X|([i j] & e & Hp & Hm & Ht)]; [discriminate|]. pose proof (proj1 (in_sq n i j) Hp) as [Hi Hj]. cbn in Hm.
             assert (E : i = j).
             { destruct (Z.eq_dec i j) as [E|N]; [exact E|]. exfalso. apply (Hg (i, j) Hp). exists e. split; [exact Hm|right; split; assumption]. }
             subst j. exists i. split; [exact Hi|]. unfold t_at. rewrite Hm. exact Ht.
          -- intros i Hi. assert (Hp : In (i, i) (pairs (upto 0 n) (upto 0 n))) by (apply in_sq; tauto).
             destruct (t_at m i) as [t|] eqn:E; [apply H3; assumption|]. rewrite H4 by (right; exact E). rewrite rd_mapto by lia. reflexivity.
        * intros i Hi. unfold t_at. destruct (m i i) as [e|] eqn:E; [|reflexivity]. destruct (el_t F e) as [t|] eqn:T0; [|reflexivity].
          exfalso. assert (X : false = true); [|discriminate]. apply H1. right. exists (i, i), e. split; [apply in_sq; tauto|]. split; [exact E|congruence].
  Qed.

  (** * Grid of matrices *)
  (** value of element (k,l) at point [i], zero without an element *)
  Definition valm (m : omat) (i k l : Z) : F := match m k l with Some e => nth (Z.to_nat i) (el_d F e) c0 | None => c0 end.
  Definition upm (m : omat) (i : Z) : fmat := fun k l => valm m i (Z.min k l) (Z.max k l).
  Definition covered (n size : Z) (m : omat) : Prop := forall k l e, 0 <= k < n -> 0 <= l < n -> m k l = Some e -> size <= zlen (el_d F e).
  Lemma point_ok (s : odm) m i : covered (od_n F s) (od_size F s) m -> 0 <= i < od_size F s ->
    point F s m i = Ok (table (od_n F s) (od_n F s) (valm m i)).
  Proof.
    clear cexp eig junk. intros Hc Hi. unfold point, table. apply each_upto. intros k Hk. apply each_upto. intros l Hl. unfold valm.
    destruct (m k l) as [e|] eqn:E; [|reflexivity]. apply rd_nth. pose proof (Hc k l e Hk Hl E). lia.
  Qed.
  Lemma upper_agree n m i : agree F n (upper F (table n n (valm m i))) (upm m i).
  Proof.
    clear cexp eig junk. intros k l Hk Hl. unfold upper, table, upm. rewrite nth_mapto by lia. rewrite nth_mapto by lia. reflexivity.
  Qed.
  (** what LAPACK is asked and what it answers at point [i] *)
  Definition Mq (n : Z) m i : fmat := upper F (table n n (valm m i)).
  Definition Xq n m i : fmat := fst (eig n (Mq n m i)).
  Definition Eq n m i : Z -> F := snd (eig n (Mq n m i)).
  (** a state with its data in place *)
  Definition ready (s : odm) (n size : Z) (X : Z -> fmat) (ev : Z -> Z -> F) : Prop :=
    od_n F s = n /\ od_size F s = size /\ od_full F s = false /\ od_t F s = None /\
    od_d F s = Some (table n size (fun j i => ev i j), map X (upto 0 size)).
  Lemma init_ready (s : odm) m n size : od_n F s = n -> od_size F s = size -> od_full F s = false -> od_t F s = None -> 0 <= n -> 0 <= size -> covered n size m ->
    exists s', init_dspace F eig junk s m = Ok s' /\ ready s' n size (Xq n m) (Eq n m).
  Proof.
    clear cexp. intros En Es Ef Et Hn Hs Hc. unfold init_dspace. rewrite Ef, Et, En, Es. cbn [bind].
    destruct (foldM_upto (diagonalize F eig s m)
      (fun i r => r = (table n size (fun j p => if p <? i then Eq n m p j else junk), map (Xq n m) (upto 0 i))) 0 size
      (map (fun _ => map (fun _ => junk) (upto 0 size)) (upto 0 n), [])) as (r & E & P).
    - exact Hs.
    - f_equal. change (table n size (fun _ _ => junk) = table n size (fun j p => if p <? 0 then Eq n m p j else junk)).
      apply table_ext. intros j p Hj Hp. destruct (Z.ltb_spec p 0); [lia|reflexivity].
    - intros i r Hi ->. unfold diagonalize. rewrite point_ok by (rewrite ?En, ?Es; assumption). cbn [bind]. rewrite En.
      change (upper F (table n n (valm m i))) with (Mq n m i).
      destruct (eig n (Mq n m i)) as [X ev] eqn:Eg. cbn [fst snd]. rewrite rows_write by lia. cbn [bind].
      eexists; split; [reflexivity|]. f_equal.
      + apply table_ext. intros j p Hj Hp. destruct (Z.eqb_spec p i) as [->|N].
        * destruct (Z.ltb_spec i (i + 1)); [|lia]. unfold Eq. rewrite Eg. reflexivity.
        * destruct (Z.ltb_spec p (i + 1)), (Z.ltb_spec p i); try lia; reflexivity.
      + rewrite upto_snoc by lia. rewrite map_app. cbn [map]. f_equal. f_equal. unfold Xq. rewrite Eg. reflexivity.
    - rewrite E, P. cbn [bind]. eexists; split; [reflexivity|]. unfold ready. cbn [od_n od_size od_full od_t od_d].
      repeat split. f_equal. f_equal. apply table_ext. intros j p Hj Hp. destruct (Z.ltb_spec p size); [|lia]. reflexivity.
  Qed.

  Lemma rotate_table f n size Xs (g : Z -> Z -> C) i X : 0 <= n -> 0 <= i < size -> rd Xs i = Ok X ->
    rotate F f n Xs (table n size g) i = Ok (table n size (fun s j => if j =? i then f n X (map (fun s => g s i) (upto 0 n)) s else g s j)).
  Proof.
    clear cexp eig junk. intros Hn Hi EX. unfold rotate.
    rewrite (each_upto _ (fun s => g s i)). 2: { intros s Hs. rewrite table_rd by lia. cbn [bind]. rewrite rd_mapto by lia. reflexivity. }
    cbn [bind]. rewrite EX. cbn [bind]. apply rows_write; assumption.
  Qed.
  Lemma transform_table gx f (s : odm) n size X ev (g : Z -> Z -> C) : ready s n size X ev -> 1 <= n -> 0 <= size ->
    transform F gx f s (table n size g) = Ok (table n size (fun k i => f n (X i) (map (fun s => g s i) (upto 0 n)) k)).
  Proof.
    clear cexp eig junk. intros (En & Es & Ef & Et & Ed) Hn Hs. unfold transform. rewrite Et, Ed. rewrite table_rd by lia. cbn [bind snd].
    rewrite zlen_mapto, table_zlen by lia.
    destruct (foldM_upto (rotate F f n (map X (upto 0 size)))
      (fun i wf => wf = table n size (fun k j => if j <? i then f n (X j) (map (fun s => g s j) (upto 0 n)) k else g k j)) 0 size (table n size g)) as (w & E & P).
    - exact Hs.
    - apply table_ext. intros k j Hk Hj. destruct (Z.ltb_spec j 0); [lia|reflexivity].
    - intros i w Hi ->. rewrite (rotate_table _ _ _ _ _ _ (X i)) by (try lia; apply rd_mapto; lia).
      eexists; split; [reflexivity|]. apply table_ext. intros k j Hk Hj. destruct (Z.eqb_spec j i) as [->|N].
      + destruct (Z.ltb_spec i (i + 1)); [|lia]. f_equal. apply mapto_ext. intros s' Hs'. destruct (Z.ltb_spec i i); [lia|reflexivity].
      + destruct (Z.ltb_spec j (i + 1)), (Z.ltb_spec j i); try lia; reflexivity.
    - rewrite E, P. f_equal. apply table_ext. intros k j Hk Hj. destruct (Z.ltb_spec j size); [|lia]. reflexivity.
  Qed.
  Lemma combine_mapto {A B D} (f : Z -> A) (g : Z -> B) (h : A * B -> D) (l : list Z) : map h (combine (map f l) (map g l)) = map (fun i => h (f i, g i)) l.
  Proof. induction l as [|a t IH]; [reflexivity|]. cbn. rewrite IH. reflexivity. Qed.
  Lemma vmul2_table n size (f g : Z -> Z -> C) : vmul2 F (table n size f) (table n size g) = table n size (fun s i => cmul (f s i) (g s i)).
  Proof.
    clear cexp eig junk. unfold vmul2, table. rewrite combine_mapto. apply mapto_ext. intros s Hs. cbn [fst snd]. rewrite combine_mapto. reflexivity.
  Qed.
  Lemma map_map_table {A B} n size (f : Z -> Z -> A) (h : A -> B) : map (map h) (table n size f) = table n size (fun s i => h (f s i)).
  Proof. unfold table. rewrite map_map. apply mapto_ext. intros s Hs. rewrite map_map. reflexivity. Qed.
  (** component [j] in the eigenbasis, and the result of a step *)
  Definition comp n (X : fmat) (w : Z -> C) (j : Z) : C := lsum (fun k => cmul (cx_of (X k j)) (w k)) (upto 0 n).
  Definition result n (X : fmat) (ev : Z -> F) (c : C) (w : Z -> C) (s : Z) : C :=
    lsum (fun j => cmul (cx_of (X s j)) (cmul (comp n X w j) (cexp (cmul (cx_of (ev j)) c)))) (upto 0 n).
  Lemma exp_table n size (d : Z -> Z -> F) c : 0 <= n -> 0 <= size ->
    each (fun k => let* x := rd (table n size d) k in exp_elements F cexp size x c) (upto 0 n) = Ok (table n size (fun k i => cexp (cmul (cx_of (d k i)) c))).
  Proof.
    clear eig junk. intros Hn Hs. unfold table at 2. apply each_upto. intros k Hk. rewrite table_rd by lia. cbn [bind]. unfold exp_elements. apply each_upto.
    intros i Hi. rewrite rd_mapto by lia. reflexivity.
  Qed.
  Lemma mvt_comp n X (w : Z -> C) j : mvt F n X (map w (upto 0 n)) j = comp n X w j.
  Proof.
    clear cexp eig junk. unfold mvt, comp. apply lsum_ext. intros k Hk. apply in_upto in Hk. rewrite nth_mapto by lia. reflexivity.
  Qed.
  Lemma step_ready (s : odm) m n size X ev c (g : Z -> Z -> C) : ready s n size X ev -> 1 <= n -> 0 <= size ->
    step s m c (table n size g) = Ok (s, table n size (fun k i => result n (X i) (ev i) c (fun s => g s i) k)).
  Proof.
    intros R Hn Hs. pose proof R as (En & Es & Ef & Et & Ed). unfold od_step, init_exponential, no_trafo. rewrite Et, Ed. cbn [bind].
    rewrite Ed. cbn [fst]. rewrite Es, En. rewrite exp_table by lia. cbn [bind]. rewrite Ef. unfold normalization. rewrite Et. cbn [bind].
    unfold forward. rewrite (transform_table _ _ _ _ _ _ _ _ R) by assumption. cbn [bind]. rewrite map_map_table, vmul2_table.
    unfold backward. rewrite (transform_table _ _ _ _ _ _ _ _ R) by assumption. cbn [bind]. f_equal. f_equal. apply table_ext.
    intros k i Hk Hi. unfold mv, result. apply lsum_ext. intros j Hj. apply in_upto in Hj. f_equal. rewrite nth_mapto by lia.
    rewrite mvt_comp. f_equal. change (cx_of (c1 : F)) with (c1 : C). ring.
  Qed.
  Lemma step_fresh (s : odm) m n size c (g : Z -> Z -> C) : od_n F s = n -> od_size F s = size -> od_full F s = false -> od_t F s = None -> od_d F s = None ->
    1 <= n -> 0 <= size -> covered n size m ->
    exists s', ready s' n size (Xq n m) (Eq n m) /\ step s m c (table n size g) = Ok (s', table n size (fun k i => result n (Xq n m i) (Eq n m i) c (fun s => g s i) k)).
  Proof.
    intros En Es Ef Et Ed Hn Hs Hc. destruct (init_ready s m n size) as (s' & E & R); try assumption; try lia.
    exists s'. split; [exact R|]. rewrite <- (step_ready s' m n size _ _ c g R Hn Hs).
    pose proof R as (_ & _ & _ & Et' & Ed'). unfold od_step, init_exponential. rewrite Et, Ed, Et', Ed', E. reflexivity.
  Qed.

  (** * Algebra of one point *)
  Section Point.
    Variable n : Z.
    Variable X : fmat.
    Hypothesis HX : orthonormal F n X.
    Lemma cx_of_lsum {A} (f : A -> F) l : cx_of (lsum f l) = lsum (fun a => cx_of (f a) : C) l.
    Proof. clear. induction l as [|a t IH]; [reflexivity|]. cbn [lsum]. rewrite <- IH. apply cx_eq; cbn; ring. Qed.
    Lemma cx_of_mul (a b : F) : (cx_of (cmul a b) : C) = cmul (cx_of a) (cx_of b).
    Proof. clear. apply cx_eq; cbn; ring. Qed.
    Lemma delta_sum (w : Z -> C) i : 0 <= i < n -> lsum (fun k => cmul (cx_of (delta F i k)) (w k)) (upto 0 n) = w i.
    Proof.
      clear X HX. intros Hi. rewrite (upto_app 0 i n) by lia. rewrite lsum_app. rewrite (upto_cons i n) by lia. cbn [lsum].
      rewrite (lsum_zero _ _ (upto 0 i)). 2: { intros k Hk. apply in_upto in Hk. unfold delta. destruct (Z.eqb_spec i k); [lia|]. apply cx_eq; cbn; ring. }
      rewrite (lsum_zero _ _ (upto (i + 1) n)). 2: { intros k Hk. apply in_upto in Hk. unfold delta. destruct (Z.eqb_spec i k); [lia|]. apply cx_eq; cbn; ring. }
      unfold delta. rewrite Z.eqb_refl. apply cx_eq; cbn; ring.
    Qed.
    (** back and forth between the bases *)
    Lemma comp_inv (v : Z -> C) j : 0 <= j < n -> comp n X (fun s => lsum (fun k => cmul (cx_of (X s k)) (v k)) (upto 0 n)) j = v j.
    Proof.
      intros Hj. unfold comp. rewrite (lsum_ext _ _ (fun k => lsum (fun l => cmul (cmul (cx_of (X k j)) (cx_of (X k l))) (v l)) (upto 0 n))).
      2: { intros k _. rewrite <- lsum_mul. apply lsum_ext. intros l _. ring. }
      rewrite lsum_swap. rewrite (lsum_ext _ _ (fun l => cmul (cx_of (delta F j l)) (v l))); [apply delta_sum, Hj|].
      intros l Hl. apply in_upto in Hl. rewrite <- (proj1 HX) by lia. rewrite cx_of_lsum.
      rewrite (lsum_ext _ _ (fun k => cmul (v l) (cx_of (cmul (X k j) (X k l))))); [rewrite lsum_mul; ring|]. intros k _. rewrite cx_of_mul. ring.
    Qed.
    Lemma comp_back (w : Z -> C) s : 0 <= s < n -> lsum (fun j => cmul (cx_of (X s j)) (comp n X w j)) (upto 0 n) = w s.
    Proof.
      intros Hs. unfold comp. rewrite (lsum_ext _ _ (fun j => lsum (fun k => cmul (cmul (cx_of (X s j)) (cx_of (X k j))) (w k)) (upto 0 n))).
      2: { intros j _. rewrite <- lsum_mul. apply lsum_ext. intros k _. ring. }
      rewrite lsum_swap. rewrite (lsum_ext _ _ (fun k => cmul (cx_of (delta F s k)) (w k))); [apply delta_sum, Hs|].
      intros k Hk. apply in_upto in Hk. rewrite <- (proj2 HX) by lia. rewrite cx_of_lsum.
      rewrite (lsum_ext _ _ (fun j => cmul (w k) (cx_of (cmul (X s j) (X k j))))); [rewrite lsum_mul; ring|]. intros j _. rewrite cx_of_mul. ring.
    Qed.
    Lemma comp_ext (w w' : Z -> C) j : (forall k, 0 <= k < n -> w k = w' k) -> comp n X w j = comp n X w' j.
    Proof. clear HX. intros H. unfold comp. apply lsum_ext. intros k Hk. apply in_upto in Hk. rewrite H by lia. reflexivity. Qed.
    Lemma result_comp ev c w j : 0 <= j < n -> comp n X (result n X ev c w) j = cmul (comp n X w j) (cexp (cmul (cx_of (ev j)) c)).
    Proof. intros Hj. unfold result. apply (comp_inv (fun j => cmul (comp n X w j) (cexp (cmul (cx_of (ev j)) c))) j Hj). Qed.
    (** the sum of squares in the eigenbasis *)
    Lemma weight_comp (w : Z -> C) : lsum (fun s => cmul (cx_conj (w s)) (w s)) (upto 0 n) = lsum (fun j => cmul (cx_conj (comp n X w j)) (comp n X w j)) (upto 0 n).
    Proof.
      rewrite (lsum_ext _ _ (fun s => lsum (fun j => cmul (cmul (cx_conj (w s)) (cx_of (X s j))) (comp n X w j)) (upto 0 n))).
      2: { intros s Hs. apply in_upto in Hs. rewrite <- (comp_back w s) at 2 by lia. rewrite <- lsum_mul. apply lsum_ext. intros j _. ring. }
      rewrite lsum_swap. apply lsum_ext. intros j _. rewrite (lsum_ext _ _ (fun s => cmul (comp n X w j) (cmul (cx_of (X s j)) (cx_conj (w s))))).
      2: { intros s _. ring. }
      rewrite lsum_mul. unfold comp at 2. rewrite conj_lsum.
      rewrite (lsum_ext _ (fun a => cx_conj (cmul (cx_of (X a j)) (w a))) (fun s => cmul (cx_of (X s j)) (cx_conj (w s)))); [ring|].
      intros s _. rewrite conj_mul. f_equal. apply cx_eq; cbn; ring.
    Qed.
  End Point.
  (** components of an eigenvector belong to its eigenvalue *)
  Lemma eig_comp n (H X : fmat) ev lam (w : Z -> C) j : symmetric F n H -> eigenbasis F n H X ev -> eigvec F n H lam w -> 0 <= j < n ->
    cmul (cx_of (ev j)) (comp n X w j) = cmul (cx_of lam) (comp n X w j).
  Proof.
    clear cexp eig junk. intros HS [HX HE] Hw Hj. unfold comp. rewrite <- !lsum_mul.
    rewrite (lsum_ext _ (fun a => cmul (cx_of lam) (cmul (cx_of (X a j)) (w a))) (fun k => lsum (fun l => cmul (cx_of (cmul (H l k) (X k j))) (w l)) (upto 0 n))).
    2: { intros k Hk. apply in_upto in Hk. transitivity (cmul (cx_of (X k j)) (cmul (cx_of lam) (w k))); [ring|]. rewrite <- Hw by lia. rewrite <- lsum_mul.
         apply lsum_ext. intros l Hl. apply in_upto in Hl. rewrite (HS k l) by lia. rewrite cx_of_mul. ring. }
    rewrite lsum_swap. apply lsum_ext. intros l Hl. apply in_upto in Hl.
    rewrite (lsum_ext _ _ (fun k => cmul (w l) (cx_of (cmul (H l k) (X k j))))); [|intros k _; ring].
    rewrite lsum_mul, <- cx_of_lsum, HE by lia. rewrite cx_of_mul. ring.
  Qed.
  Lemma scale_cancel (a b : F) (z : C) : cmul (cx_of a) z = cmul (cx_of b) z -> a = b \/ z = c0.
  Proof.
    clear cexp eig junk. intros E. destruct z as [x y]. assert (Ex : cmul (csub a b) x = c0).
    { apply (f_equal fst) in E. cbn in E. transitivity (csub (csub (cmul a x) (cmul c0 y)) (csub (cmul b x) (cmul c0 y))); [ring|]. rewrite E. ring. }
    assert (Ey : cmul (csub a b) y = c0).
    { apply (f_equal snd) in E. cbn in E. transitivity (csub (cadd (cmul a y) (cmul c0 x)) (cadd (cmul b y) (cmul c0 x))); [ring|]. rewrite E. ring. }
    destruct (mul_eq0 F _ _ Ex) as [D| ->].
    - left. transitivity (cadd (csub a b) b); [ring|]. rewrite D. ring.
    - destruct (mul_eq0 F _ _ Ey) as [D| ->]; [|right; reflexivity]. left. transitivity (cadd (csub a b) b); [ring|]. rewrite D. ring.
  Qed.
  Lemma result_eigvec n (H X : fmat) ev lam (w : Z -> C) c k : symmetric F n H -> eigenbasis F n H X ev -> eigvec F n H lam w -> 0 <= k < n ->
    result n X ev c w k = cmul (cexp (cmul (cx_of lam) c)) (w k).
  Proof.
    intros HS HE Hw Hk. unfold result. rewrite <- (comp_back n X (proj1 HE) w k Hk). rewrite <- lsum_mul. apply lsum_ext. intros j Hj.
    apply in_upto in Hj. destruct (scale_cancel _ _ _ (eig_comp n H X ev lam w j HS HE Hw ltac:(lia))) as [->| ->]; ring.
  Qed.
  (** * The theorems *)
  Definition els (m : omat) : Z -> Z -> option (F * list F) := fun k l => option_map (fun e => (el_sc F e, el_d F e)) (m k l).
  Notation H u m := (op_matrix F u (els m)).
  Definition on_grid (n : Z) (m : omat) : Prop := forall k l e, 0 <= k < n -> 0 <= l < n -> m k l = Some e -> el_t F e = None.
  Definition couples (n : Z) (m : omat) : Prop := exists k l e, 0 <= k < n /\ 0 <= l < n /\ k <> l /\ m k l = Some e.
  Definition unscaled (n : Z) (m : omat) : Prop := forall k l e, 0 <= k < n -> 0 <= l < n -> m k l = Some e -> el_sc F e = c1.
  Definition diagonal_given (n : Z) (m : omat) : Prop := forall k, 0 <= k < n -> m k k <> None.

  Lemma init_grid n (m : omat) sizes size s : 1 <= n -> zlen sizes = n -> od_init F n m sizes = Ok s -> rd sizes 0 = Ok size -> on_grid n m -> couples n m ->
    od_n F s = n /\ od_size F s = size /\ od_full F s = false /\ od_t F s = None /\ od_d F s = None.
  Proof.
    clear cexp eig junk. intros Hn Hs E E0 HT (k & l & e & Hk & Hl & N & Em).
    destruct (init_exact n m sizes Hn Hs) as [[_ X]|(_ & s' & X & En & Es & Ed & Ef & Et)]; [congruence|].
    assert (s' = s) by congruence. subst s'. split; [exact En|]. split; [congruence|]. split; [|split; [|exact Ed]].
    - destruct (od_full F s); [|reflexivity]. exfalso. apply N. apply (proj1 Ef eq_refl k l e Hk Hl Em).
    - destruct (od_t F s) as [T|]; [|reflexivity]. destruct Et as (_ & (i & Hi & Ht) & _). exfalso. apply Ht. unfold t_at.
      destruct (m i i) as [e'|] eqn:E'; [|reflexivity]. apply (HT i i e' Hi Hi E').
  Qed.
  Lemma agree_H n m u i : unscaled n m -> symmetric F n (H u m i) -> u = false \/ diagonal_given n m -> agree F n (Mq n m i) (H u m i).
  Proof.
    clear cexp eig junk. intros Hsc Hsy Hu k l Hk Hl. unfold Mq. rewrite (upper_agree n m i k l Hk Hl). unfold upm.
    assert (V : forall a b, 0 <= a < n -> 0 <= b < n -> valm m i a b = H u m i a b).
    { intros a b Ha Hb. unfold valm, op_matrix, els. destruct (m a b) as [e|] eqn:E; cbn [option_map].
      - rewrite (Hsc a b e Ha Hb E). ring.
      - destruct Hu as [->|Hd]; [reflexivity|]. destruct (Z.eqb_spec a b) as [->|N]; [exfalso; exact (Hd b Hb E)|]. rewrite andb_false_r. reflexivity. }
    rewrite V by lia. destruct (Z.le_ge_cases k l).
    - rewrite Z.min_l, Z.max_r by lia. reflexivity.
    - rewrite Z.min_r, Z.max_l by lia. apply Hsy; assumption.
  Qed.

  Section Main.
    Variables (n size : Z) (m : omat) (sizes : list Z) (s : odm).
    Hypothesis Hn : 1 <= n.
    Hypothesis Hsize : 0 <= size.
    Hypothesis Hzs : zlen sizes = n.
    Hypothesis Hinit : od_init F n m sizes = Ok s.
    Hypothesis Hs0 : rd sizes 0 = Ok size.
    Hypothesis Hgrid : on_grid n m.
    Hypothesis Hcpl : couples n m.
    Hypothesis Hcov : covered n size m.
    Lemma main_step c g : exists s', ready s' n size (Xq n m) (Eq n m) /\
      step s m c (table n size g) = Ok (s', table n size (fun k i => result n (Xq n m i) (Eq n m i) c (fun s => g s i) k)).
    Proof. destruct (init_grid n m sizes size s) as (A & B & D & E & G); try assumption. apply step_fresh; assumption. Qed.
    Lemma main_linear c (a b : C) g g' : exists s' h h', step s m c (table n size g) = Ok (s', table n size h) /\ step s m c (table n size g') = Ok (s', table n size h') /\
      step s m c (table n size (fun k i => cadd (cmul a (g k i)) (cmul b (g' k i)))) = Ok (s', table n size (fun k i => cadd (cmul a (h k i)) (cmul b (h' k i)))).
    Proof.
      destruct (main_step c g) as (s1 & R1 & E1). destruct (main_step c g') as (s2 & R2 & E2).
      destruct (main_step c (fun k i => cadd (cmul a (g k i)) (cmul b (g' k i)))) as (s3 & R3 & E3).
      assert (U : forall x y, ready x n size (Xq n m) (Eq n m) -> ready y n size (Xq n m) (Eq n m) -> x = y).
      { intros [x1 x2 x3 x4 x5] [y1 y2 y3 y4 y5] (A & B & D & E & G) (A' & B' & D' & E' & G'). cbn in *. congruence. }
      rewrite (U s2 s1 R2 R1) in E2. rewrite (U s3 s1 R3 R1) in E3. exists s1. do 2 eexists. split; [exact E1|]. split; [exact E2|]. rewrite E3. f_equal. f_equal.
      apply table_ext. intros k i Hk Hi. unfold result. rewrite <- !lsum_mul, <- lsum_add. apply lsum_ext. intros j _. unfold comp.
      rewrite (lsum_ext _ _ (fun l => cadd (cmul a (cmul (cx_of (Xq n m i l j)) (g l i))) (cmul b (cmul (cx_of (Xq n m i l j)) (g' l i))))); [|intros l _; ring].
      rewrite lsum_add, !lsum_mul. ring.
    Qed.
    Section Good.
      Variable u : bool.
      Hypothesis Hsc : unscaled n m.
      Hypothesis Hu : u = false \/ diagonal_given n m.
      Hypothesis Hsy : forall i, 0 <= i < size -> symmetric F n (H u m i).
      Hypothesis Hla : forall i, 0 <= i < size -> lapack F eig n (H u m i).
      Lemma basis i : 0 <= i < size -> eigenbasis F n (H u m i) (Xq n m i) (Eq n m i).
      Proof. intros Hi. apply (Hla i Hi). apply agree_H; auto. Qed.
      Lemma main_eigen c g : exists s' h, step s m c (table n size g) = Ok (s', table n size h) /\
        forall i lam, 0 <= i < size -> eigvec F n (H u m i) lam (fun k => g k i) -> forall k, 0 <= k < n -> h k i = cmul (cexp (cmul (cx_of lam) c)) (g k i).
      Proof.
        destruct (main_step c g) as (s' & R & E). exists s'. eexists. split; [exact E|]. intros i lam Hi Hw k Hk. cbv beta.
        apply (result_eigvec n (H u m i) _ _ lam (fun k => g k i) c k (Hsy i Hi) (basis i Hi) Hw Hk).
      Qed.
      Lemma main_norm c g : (forall x : F, cmul (cx_conj (cexp (cmul (cx_of x) c))) (cexp (cmul (cx_of x) c)) = (c1 : C)) ->
        exists s' h, step s m c (table n size g) = Ok (s', table n size h) /\ forall i, 0 <= i < size -> weight F n h i = weight F n g i.
      Proof.
        intros Hc. destruct (main_step c g) as (s' & R & E). exists s'. eexists. split; [exact E|]. intros i Hi. unfold weight.
        pose proof (proj1 (basis i Hi)) as O. rewrite (weight_comp n _ O (fun k => g k i)).
        rewrite (weight_comp n _ O (fun k => result n (Xq n m i) (Eq n m i) c (fun s => g s i) k)). apply lsum_ext. intros j Hj. apply in_upto in Hj.
        rewrite (comp_ext n _ _ (result n (Xq n m i) (Eq n m i) c (fun s => g s i))) by reflexivity.
        rewrite result_comp by (try exact O; lia). rewrite conj_mul. set (z := comp n (Xq n m i) (fun s => g s i) j). set (e := cexp (cmul (cx_of (Eq n m i j)) c)).
        transitivity (cmul (cmul (cx_conj e) e) (cmul (cx_conj z) z)); [ring|]. unfold e. rewrite Hc. ring.
      Qed.
      Lemma main_add c c' g : (forall x y, cexp (cadd x y) = cmul (cexp x) (cexp y)) ->
        exists s' h h', step s m c (table n size g) = Ok (s', table n size h) /\ step s' m c' (table n size h) = Ok (s', table n size h') /\
          step s m (cadd c c') (table n size g) = Ok (s', table n size h').
      Proof.
        intros Hc. destruct (main_step c g) as (s' & R & E). destruct (main_step (cadd c c') g) as (s2 & R2 & E2).
        assert (U : s2 = s').
        { revert R R2. clear. destruct s' as [x1 x2 x3 x4 x5], s2 as [y1 y2 y3 y4 y5]. intros (A & B & D & E & G) (A' & B' & D' & E' & G'). cbn in *. congruence. }
        rewrite U in E2. exists s'. do 2 eexists. split; [exact E|]. split; [apply (step_ready s' m n size _ _ c' _ R Hn Hsize)|]. rewrite E2. f_equal. f_equal.
        apply table_ext. intros k i Hk Hi. unfold result at 1 2. apply lsum_ext. intros j Hj. apply in_upto in Hj. f_equal.
        rewrite (comp_ext n _ (fun s0 => result n (Xq n m i) (Eq n m i) c (fun s => g s i) s0) (result n (Xq n m i) (Eq n m i) c (fun s => g s i))) by reflexivity.
        rewrite result_comp by (try exact (proj1 (basis i Hi)); lia).
        replace (cmul (cx_of (Eq n m i j)) (cadd c c')) with (cadd (cmul (cx_of (Eq n m i j)) c) (cmul (cx_of (Eq n m i j)) c')) by ring. rewrite Hc. ring.
      Qed.
      Lemma main_undo c g : (forall x, cmul (cexp x) (cexp (copp x)) = c1) ->
        exists s' h, step s m c (table n size g) = Ok (s', table n size h) /\ step s' m (copp c) (table n size h) = Ok (s', table n size g).
      Proof.
        intros Hc. destruct (main_step c g) as (s' & R & E). exists s'. eexists. split; [exact E|].
        rewrite (step_ready s' m n size _ _ (copp c) _ R Hn Hsize). f_equal. f_equal. apply table_ext. intros k i Hk Hi.
        rewrite <- (comp_back n (Xq n m i) (proj1 (basis i Hi)) (fun k => g k i) k Hk). unfold result at 1. apply lsum_ext. intros j Hj. apply in_upto in Hj. f_equal.
        rewrite (comp_ext n _ (fun s0 => result n (Xq n m i) (Eq n m i) c (fun s => g s i) s0) (result n (Xq n m i) (Eq n m i) c (fun s => g s i))) by reflexivity.
        rewrite result_comp by (try exact (proj1 (basis i Hi)); lia). set (x := cmul (cx_of (Eq n m i j)) c).
        replace (cmul (cx_of (Eq n m i j)) (copp c)) with (copp x) by (unfold x; ring).
        transitivity (cmul (comp n (Xq n m i) (fun s => g s i) j) (cmul (cexp x) (cexp (copp x)))); [ring|]. rewrite Hc. ring.
      Qed.
    End Good.
    (** later changes of the elements have no effect *)
    Lemma main_cached m' c c' g g' : exists s' h h', step s m c (table n size g) = Ok (s', table n size h) /\
      step s' m' c' (table n size g') = Ok (s', table n size h') /\ step s m c' (table n size g') = Ok (s', table n size h').
    Proof.
      destruct (main_step c g) as (s' & R & E). destruct (main_step c' g') as (s2 & R2 & E2).
      assert (U : s2 = s').
      { revert R R2. clear. destruct s' as [x1 x2 x3 x4 x5], s2 as [y1 y2 y3 y4 y5]. intros (A & B & D & E & G) (A' & B' & D' & E' & G'). cbn in *. congruence. }
      rewrite U in E2. exists s'. do 2 eexists. split; [exact E|]. split; [|exact E2]. apply (step_ready s' m' n size _ _ c' _ R Hn Hsize).
    Qed.
  End Main.

  (** * Diagonal matrices *)
  Definition diagonal (n : Z) (m : omat) : Prop := forall i j e, 0 <= i < n -> 0 <= j < n -> m i j = Some e -> i = j /\ el_t F e = None.
  Lemma init_diag n (m : omat) sizes size s : 1 <= n -> zlen sizes = n -> od_init F n m sizes = Ok s -> rd sizes 0 = Ok size -> diagonal n m ->
    od_n F s = n /\ od_size F s = size /\ od_full F s = true /\ od_t F s = None /\ od_d F s = None.
  Proof.
    clear cexp eig junk. intros Hn Hs E E0 Hd.
    destruct (init_exact n m sizes Hn Hs) as [[_ X]|(_ & s' & X & En & Es & Ed & Ef & Et)]; [congruence|].
    assert (s' = s) by congruence. subst s'. split; [exact En|]. split; [congruence|]. split; [apply Ef, Hd|split; [|exact Ed]].
    destruct (od_t F s) as [T|]; [|reflexivity]. destruct Et as (_ & (i & Hi & Ht) & _). exfalso. apply Ht. unfold t_at.
    destruct (m i i) as [e'|] eqn:E'; [|reflexivity]. apply (Hd i i e' Hi Hi E').
  Qed.
  Lemma copy_diag_ok (s : odm) (m : omat) (es : Z -> elem) (d : Z -> Z -> F) : 0 <= od_n F s -> 0 <= od_size F s ->
    (forall k, 0 <= k < od_n F s -> m k k = Some (es k) /\ zlen (el_d F (es k)) = od_size F s) ->
    copy_diag F s m (table (od_n F s) (od_size F s) d) = Ok (table (od_n F s) (od_size F s) (fun k i => nth (Z.to_nat i) (el_d F (es k)) c0)).
  Proof.
    clear cexp eig junk. intros Hn Hsz He. unfold copy_diag. set (n := od_n F s) in *. set (size := od_size F s) in *.
    match goal with |- foldM ?f _ _ = _ => destruct (foldM_upto f
      (fun k w => w = table n size (fun j i => if j <? k then nth (Z.to_nat i) (el_d F (es j)) c0 else d j i)) 0 n (table n size d)) as (w & E & P) end.
    - exact Hn.
    - apply table_ext. intros j i Hj Hi. destruct (Z.ltb_spec j 0); [lia|reflexivity].
    - intros k w Hk ->. destruct (He k Hk) as [-> L]. unfold stride_copy. rewrite L, Z.eqb_refl. cbn [negb bind]. unfold table at 1. rewrite wr_mapto by lia. cbn [bind fst].
      eexists; split; [reflexivity|]. unfold table. apply mapto_ext. intros j Hj. destruct (Z.eqb_spec j k) as [->|N].
      + destruct (Z.ltb_spec k (k + 1)); [|lia]. apply rd_ext; [rewrite zlen_mapto by lia; exact L|]. intros i Hi. rewrite rd_mapto by lia. apply rd_nth. exact Hi.
      + destruct (Z.ltb_spec j (k + 1)), (Z.ltb_spec j k); try lia; reflexivity.
    - rewrite E, P. f_equal. apply table_ext. intros j i Hj Hi. destruct (Z.ltb_spec j n); [|lia]. reflexivity.
  Qed.
  Lemma diag_step n size (m : omat) sizes s (es : Z -> elem) c g : 1 <= n -> 0 <= size -> zlen sizes = n -> od_init F n m sizes = Ok s -> rd sizes 0 = Ok size -> diagonal n m ->
    (forall k, 0 <= k < n -> m k k = Some (es k) /\ zlen (el_d F (es k)) = size) ->
    exists s', step s m c (table n size g) = Ok (s', table n size (fun k i => cmul (g k i) (cexp (cmul (cx_of (nth (Z.to_nat i) (el_d F (es k)) c0)) c)))).
  Proof.
    intros Hn Hsz Hzs E E0 Hd He. destruct (init_diag n m sizes size s Hn Hzs E E0 Hd) as (En & Es & Ef & Et & Ed).
    eexists. unfold od_step, init_exponential, init_dspace. rewrite Et, Ed, Ef, En, Es.
    change (map (fun _ : Z => map (fun _ : Z => junk) (upto 0 size)) (upto 0 n)) with (table n size (fun _ _ : Z => junk)).
    rewrite <- En, <- Es. rewrite (copy_diag_ok s m es) by (rewrite ?En, ?Es; try lia; assumption). cbn [bind od_d fst od_n od_size]. rewrite ?En, ?Es.
    rewrite exp_table by lia. cbn [bind]. unfold no_trafo. cbn [od_full]. rewrite vmul2_table. reflexivity.
  Qed.
  Lemma copy_diag_missing (s : odm) (m : omat) d k : 0 <= od_n F s -> 0 <= k < od_n F s -> m k k = None -> (forall l e, m l l = Some e -> zlen d = od_n F s) -> zlen d = od_n F s ->
    copy_diag F s m d = UB.
  Proof.
    clear cexp eig junk. intros Hn Hk E _ Hd. unfold copy_diag. rewrite (upto_app 0 k (od_n F s)) by lia. rewrite foldM_app.
    set (f := fun (d0 : list (list F)) (k0 : Z) => match m k0 k0 with Some e => let* r := stride_copy (od_size F s) d0 (el_d F e) k0 in Ok (fst r) | None => UB end).
    assert (G : forall l d0, (forall x, In x l -> 0 <= x < od_n F s) -> zlen d0 = od_n F s -> (exists d1, foldM f l d0 = Ok d1) \/ foldM f l d0 = UB).
    { induction l as [|a t IH]; intros d0 Ha Hd0; [left; eexists; reflexivity|]. cbn [foldM]. unfold f at 1 3. destruct (m a a) as [e|]; [|right; reflexivity].
      unfold stride_copy. destruct (zlen (el_d F e) =? od_size F s); cbn [negb bind fst].
      - rewrite wr_ok by (rewrite Hd0; apply Ha; left; reflexivity). cbn [bind fst]. apply IH; [intros x Hx; apply Ha; right; exact Hx|]. rewrite zlen_upd. exact Hd0.
      - apply IH; [intros x Hx; apply Ha; right; exact Hx|exact Hd0]. }
    destruct (G (upto 0 k) d) as [[d1 ->]| ->]; [intros x Hx; apply in_upto in Hx; lia|exact Hd| |reflexivity].
    cbn [bind]. rewrite upto_cons by lia. cbn [foldM]. unfold f at 1. rewrite E. reflexivity.
  Qed.
  Lemma diag_missing n size (m : omat) sizes s k c wf : 1 <= n -> 0 <= size -> zlen sizes = n -> od_init F n m sizes = Ok s -> rd sizes 0 = Ok size -> diagonal n m ->
    0 <= k < n -> m k k = None -> step s m c wf = UB.
  Proof.
    intros Hn Hsz Hzs E E0 Hd Hk Em. destruct (init_diag n m sizes size s Hn Hzs E E0 Hd) as (En & Es & Ef & Et & Ed).
    unfold od_step, init_exponential, init_dspace. rewrite Et, Ed, Ef. rewrite (copy_diag_missing s m _ k); [reflexivity|lia|lia|exact Em| |]; intros; rewrite zlen_mapto; lia.
  Qed.

  (** * External transformations *)
  Definition ext_state (n : Z) (s : odm) (m : omat) (size : Z) : Prop := exists T, od_t F s = Some T /\ od_n F s = n /\ od_size F s = size /\ od_full F s = false /\
    zlen T = n /\ forall i, 0 <= i < n -> rd T i = Ok (match t_at m i with Some t => Ptr F t | None => Unset F end).
  Lemma init_ext n (m : omat) sizes size s : 1 <= n -> zlen sizes = n -> od_init F n m sizes = Ok s -> rd sizes 0 = Ok size ->
    (exists i, 0 <= i < n /\ t_at m i <> None) -> ext_state n s m size.
  Proof.
    clear cexp eig junk. intros Hn Hs E E0 (i & Hi & Ht).
    destruct (init_exact n m sizes Hn Hs) as [[_ X]|(_ & s' & X & En & Es & Ed & Ef & Et)]; [congruence|].
    assert (s' = s) by congruence. subst s'. destruct (od_t F s) as [T|] eqn:ET; [|exfalso; apply Ht, Et, Hi].
    destruct Et as (L & _ & K). exists T. split; [exact ET|]. split; [exact En|]. split; [congruence|]. split; [|split; [exact L|exact K]].
    destruct (od_full F s); [|reflexivity]. exfalso. apply Ht. unfold t_at. destruct (m i i) as [e|] eqn:Em; [|reflexivity]. apply (proj1 Ef eq_refl i i e Hi Hi Em).
  Qed.
  Lemma external_all g (T : list (slot F)) (ts : Z -> trafo F) (wf : list (list C)) : (forall i, 0 <= i < zlen wf -> rd T i = Ok (Ptr F (ts i))) ->
    exists wf', foldM (external F g T) (upto 0 (zlen wf)) wf = Ok wf' /\ zlen wf' = zlen wf /\
      forall i st, rd wf i = Ok st -> rd wf' i = Ok (g (ts i) st).
  Proof.
    clear cexp eig junk. intros HT.
    destruct (foldM_upto (external F g T) (fun k w => zlen w = zlen wf /\ forall i st, rd wf i = Ok st -> rd w i = Ok (if i <? k then g (ts i) st else st)) 0 (zlen wf) wf)
      as (w & E & L & P).
    - unfold zlen. lia.
    - split; [reflexivity|]. intros i st Ei. pose proof (rd_bounds _ _ _ Ei). destruct (Z.ltb_spec i 0); [lia|exact Ei].
    - intros k w Hk [L P]. unfold external. rewrite HT by lia. cbn [bind]. destruct (proj1 (rd_ok wf k) ltac:(lia)) as [st Est].
      pose proof (P k st Est) as Pk. rewrite Z.ltb_irrefl in Pk. rewrite Pk. cbn [bind]. rewrite wr_ok by lia. eexists; split; [reflexivity|]. split; [rewrite zlen_upd; exact L|].
      intros i sti Ei. rewrite rd_upd by lia. pose proof (P i sti Ei) as Pi. destruct (Z.eqb_spec i k) as [->|N].
      + destruct (Z.ltb_spec k (k + 1)); [|lia]. congruence.
      + destruct (Z.ltb_spec i (k + 1)), (Z.ltb_spec i k); try lia; exact Pi.
    - exists w. split; [exact E|]. split; [exact L|]. intros i st Ei. rewrite (P i st Ei). pose proof (rd_bounds _ _ _ Ei). destruct (Z.ltb_spec i (zlen wf)); [reflexivity|lia].
  Qed.
  (** one state of the result: the transformation there, exponentials times the normalisation of the first state, the transformation back *)
  Definition ext_result (size : Z) (k0 : F) (t : trafo F) (e : elem) (c : C) (st : list C) : list C :=
    t_bwd F t (map (fun q => cmul (fst q) (snd q)) (combine (t_fwd F t st)
      (map (fun i => cmul (cx_of k0) (cexp (cmul (cx_of (nth (Z.to_nat i) (el_d F e) c0)) (cmul (cx_of (el_sc F e)) c)))) (upto 0 size)))).
  Lemma rd_combine {A B} (a : list A) (b : list B) i x y : rd a i = Ok x -> rd b i = Ok y -> rd (combine a b) i = Ok (x, y).
  Proof.
    clear. intros Ha Hb. pose proof (rd_bounds _ _ _ Ha) as [Hi _]. unfold rd in *. destruct (0 <=? i); [|discriminate].
    assert (G : forall j (a : list A) (b : list B), nth_error a j = Some x -> nth_error b j = Some y -> nth_error (combine a b) j = Some (x, y)).
    { induction j as [|j IH]; intros [|a0 a'] [|b0 b'] X Y; cbn in *; try discriminate; [congruence|apply IH; assumption]. }
    destruct (nth_error a (Z.to_nat i)) eqn:Ea; [|discriminate]. destruct (nth_error b (Z.to_nat i)) eqn:Eb; [|discriminate].
    rewrite (G _ _ _ ltac:(rewrite Ea; f_equal; congruence) ltac:(rewrite Eb; f_equal; congruence)). reflexivity.
  Qed.
  Lemma rd_vmul2 (a b : list (list C)) i x y : rd a i = Ok x -> rd b i = Ok y -> rd (vmul2 F a b) i = Ok (map (fun q => cmul (fst q) (snd q)) (combine x y)).
  Proof. clear. intros Ha Hb. unfold vmul2. rewrite rd_map, (rd_combine _ _ _ _ _ Ha Hb). reflexivity. Qed.
  Lemma zlen_vmul2 (a b : list (list C)) : zlen a = zlen b -> zlen (vmul2 F a b) = zlen a.
  Proof. clear. intros H. unfold vmul2. rewrite zlen_map. unfold zlen in *. rewrite combine_length. lia. Qed.
  Lemma ext_exp (s : odm) n size (m : omat) (es : Z -> elem) c : ext_state n s m size -> 0 <= size ->
    (forall k, 0 <= k < n -> m k k = Some (es k) /\ size <= zlen (el_d F (es k))) ->
    init_exponential F cexp eig junk s m c = Ok (s, table n size (fun k i => cexp (cmul (cx_of (nth (Z.to_nat i) (el_d F (es k)) c0)) (cmul (cx_of (el_sc F (es k))) c)))).
  Proof.
    intros (T & ET & En & Es & _) Hs He. unfold init_exponential. rewrite ET, En, Es. unfold table.
    rewrite (each_upto _ (fun k => map (fun i => cexp (cmul (cx_of (nth (Z.to_nat i) (el_d F (es k)) c0)) (cmul (cx_of (el_sc F (es k))) c))) (upto 0 size))); [reflexivity|].
    intros k Hk. destruct (He k Hk) as [-> L]. unfold exp_elements. apply each_upto. intros i Hi. rewrite (rd_nth _ _ c0) by lia. reflexivity.
  Qed.
  Lemma ext_step (s : odm) n size (m : omat) (es : Z -> elem) (ts : Z -> trafo F) c wf : 1 <= n -> ext_state n s m size -> 0 <= size -> zlen wf = n ->
    (forall k, 0 <= k < n -> m k k = Some (es k) /\ size <= zlen (el_d F (es k)) /\ el_t F (es k) = Some (ts k)) ->
    exists wf', step s m c wf = Ok (s, wf') /\ zlen wf' = n /\
      forall k st, rd wf k = Ok st -> rd wf' k = Ok (ext_result size (t_norm F (ts 0)) (ts k) (es k) c st).
  Proof.
    intros Hn HE Hs Hw He. unfold od_step. rewrite (ext_exp s n size m es c HE Hs) by (intros k Hk; destruct (He k Hk) as (A & B & _); split; assumption).
    cbn [bind]. destruct HE as (T & ET & En & Es & Ef & LT & HT). unfold no_trafo. rewrite Ef.
    assert (HP : forall i, 0 <= i < n -> rd T i = Ok (Ptr F (ts i))).
    { intros i Hi. rewrite HT by exact Hi. unfold t_at. destruct (He i Hi) as (-> & _ & ->). reflexivity. }
    unfold normalization. rewrite ET. rewrite HP by lia. cbn [bind]. unfold forward, backward, transform. rewrite ET.
    destruct (external_all (t_fwd F) T ts wf) as (w1 & E1 & L1 & P1). { intros i Hi. apply HP. lia. }
    rewrite E1. cbn [bind]. set (ex := map _ _).
    assert (Lex : zlen ex = n) by (unfold ex; rewrite zlen_map; apply table_zlen; lia).
    assert (L2 : zlen (vmul2 F w1 ex) = n) by (rewrite zlen_vmul2; lia).
    destruct (external_all (t_bwd F) T ts (vmul2 F w1 ex)) as (w2 & E2 & L3 & P2). { intros i Hi. apply HP. lia. }
    rewrite E2. cbn [bind]. exists w2. split; [reflexivity|]. split; [lia|]. intros k st Ek. pose proof (rd_bounds _ _ _ Ek) as Bk.
    unfold ext_result. erewrite P2; [reflexivity|]. apply rd_vmul2; [apply P1, Ek|]. unfold ex. rewrite rd_map, table_rd by lia. cbn [bind]. rewrite map_map. reflexivity.
  Qed.
  (** a state whose diagonal element has no transformation of its own *)
  Lemma ext_unset (s : odm) n size (m : omat) (es : Z -> elem) c wf k : 1 <= n -> ext_state n s m size -> 0 <= size -> zlen wf = n ->
    (forall k, 0 <= k < n -> m k k = Some (es k) /\ size <= zlen (el_d F (es k))) -> 0 <= k < n -> el_t F (es k) = None -> step s m c wf = UB.
  Proof.
    intros Hn HE Hs Hw He Hk Ht. unfold od_step. rewrite (ext_exp s n size m es c HE Hs He). cbn [bind].
    destruct HE as (T & ET & En & Es & Ef & LT & HT). unfold no_trafo. rewrite Ef. unfold normalization. rewrite ET.
    destruct (rd T 0) as [t0| |] eqn:E0; [|rewrite HT in E0 by lia; discriminate|reflexivity]. cbn [bind]. destruct t0 as [|t0]; [reflexivity|]. cbn [bind].
    unfold forward, transform at 1. rewrite ET.
    assert (G : foldM (external F (t_fwd F) T) (upto 0 (zlen wf)) wf = UB).
    { rewrite Hw. rewrite (upto_app 0 k n) by lia. rewrite foldM_app.
      assert (K : forall l w, (forall x, In x l -> 0 <= x < n) -> zlen w = n -> (exists w', foldM (external F (t_fwd F) T) l w = Ok w') \/ foldM (external F (t_fwd F) T) l w = UB).
      { induction l as [|a l IH]; intros w Hl Lw; [left; eexists; reflexivity|]. cbn [foldM]. unfold external at 1 3. rewrite HT by (apply Hl; left; reflexivity). cbn [bind].
        destruct (t_at m a); [|right; reflexivity]. destruct (proj1 (rd_ok w a)) as [st ->]; [rewrite Lw; apply Hl; left; reflexivity|]. cbn [bind].
        rewrite wr_ok by (rewrite Lw; apply Hl; left; reflexivity). cbn [bind]. apply IH; [intros x Hx; apply Hl; right; exact Hx|rewrite zlen_upd; exact Lw]. }
      destruct (K (upto 0 k) wf) as [[w' ->]| ->]; [intros x Hx; apply in_upto in Hx; lia|exact Hw| |reflexivity]. cbn [bind]. rewrite upto_cons by lia. cbn [foldM].
      unfold external at 1. rewrite HT by exact Hk. unfold t_at. rewrite (proj1 (He k Hk)), Ht. reflexivity. }
    rewrite G. reflexivity.
  Qed.
  (** elements beside the diagonal have no effect *)
  Lemma ext_dropped (s : odm) n size (m m' : omat) c wf : ext_state n s m size -> (forall k, 0 <= k < n -> m k k = m' k k) -> step s m c wf = step s m' c wf.
  Proof.
    intros (T & ET & En & Es & Ef & LT & HT) Hd. unfold od_step. assert (E : init_exponential F cexp eig junk s m c = init_exponential F cexp eig junk s m' c).
    { unfold init_exponential. rewrite ET, En. assert (X : forall (f g : Z -> outcome (list C)) l, (forall a, In a l -> f a = g a) -> each f l = each g l).
      { intros f g l. induction l as [|a t IH]; intros K; [reflexivity|]. cbn [each]. rewrite (K a) by (left; reflexivity). rewrite IH; [reflexivity|]. intros b Hb. apply K. right; exact Hb. }
      erewrite X; [reflexivity|]. intros k Hk. apply in_upto in Hk. cbv beta. rewrite Hd by lia. reflexivity. }
    rewrite E. reflexivity.
  Qed.
  (** without exponent the step is the identity if all transformations have the same normalisation *)
  Lemma ext_identity (s : odm) n size (m : omat) (es : Z -> elem) (ts : Z -> trafo F) wf : 1 <= n -> ext_state n s m size -> 0 <= size -> zlen wf = n -> cexp c0 = c1 ->
    (forall k, 0 <= k < n -> m k k = Some (es k) /\ size <= zlen (el_d F (es k)) /\ el_t F (es k) = Some (ts k)) ->
    (forall k, 0 <= k < n -> t_norm F (ts k) = t_norm F (ts 0)) ->
    (forall k st, 0 <= k < n -> rd wf k = Ok st -> zlen (t_fwd F (ts k) st) = size /\ t_bwd F (ts k) (map (cmul (cx_of (t_norm F (ts k)))) (t_fwd F (ts k) st)) = st) ->
    step s m c0 wf = Ok (s, wf).
  Proof.
    intros Hn HE Hs Hw Hc He Hno Hinv. destruct (ext_step s n size m es ts c0 wf Hn HE Hs Hw He) as (w & E & L & P). rewrite E. f_equal. f_equal. apply rd_ext; [lia|].
    intros k Hk. destruct (proj1 (rd_ok wf k)) as [st Est]; [lia|]. rewrite (P k st Est), Est. f_equal. unfold ext_result.
    destruct (Hinv k st ltac:(lia) Est) as [Lf Hi]. transitivity (t_bwd F (ts k) (map (cmul (cx_of (t_norm F (ts k)))) (t_fwd F (ts k) st))); [|exact Hi]. f_equal.
    apply rd_ext. { rewrite !zlen_map. unfold zlen in *. rewrite combine_length, map_length, upto_length. lia. }
    intros i Hi'. rewrite zlen_map in Hi'. assert (Bi : 0 <= i < size). { unfold zlen in *. rewrite combine_length, map_length, upto_length in Hi'. lia. }
    destruct (proj1 (rd_ok (t_fwd F (ts k) st) i)) as [z Ez]; [lia|]. rewrite !rd_map, Ez.
    erewrite rd_combine; [|exact Ez|apply rd_mapto; lia]. cbn [bind fst snd]. f_equal. rewrite (Hno k) by lia.
    replace (cmul (cx_of (nth (Z.to_nat i) (el_d F (es k)) c0)) (cmul (cx_of (el_sc F (es k))) (c0 : C))) with (c0 : C) by ring. rewrite Hc. ring.
  Qed.
End ODM.
