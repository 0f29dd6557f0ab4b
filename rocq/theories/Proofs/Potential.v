(** Proofs about potentials read from files (C88). *)
From Coq Require Import Ascii String List ZArith Lia Bool Arith.
From Verif Require Import Base Arrays Algebra Complex Ordered Model.Potential Spec.Potential.
Import ListNotations.
Open Scope Z_scope.

Section Proofs.
  Variable F : ofld.
  Add Ring PFr : (cr_th F).
  Add Ring PCr : (cr_th (Cx F)).
  Open Scope cr_scope.

  Lemma less_t (a b : F) : less a b = true -> olt a b.
  Proof. unfold less. destruct (ocmp a b) as [[H|H]|H]; [intros; exact H|discriminate 1..]. Qed.
  Lemma less_f (a b : F) : less a b = false -> ole b a.
  Proof. unfold less. destruct (ocmp a b) as [[H|H]|H]; [discriminate 1|right; symmetry; exact H|left; exact H]. Qed.
  Lemma less_lt (a b : F) : olt a b -> less a b = true.
  Proof. intros H. unfold less. destruct (ocmp a b) as [[X|X]|X]; [reflexivity| |]; exfalso; [subst; exact (olt_irr F _ H)|exact (asym F _ _ H X)]. Qed.
  Lemma less_ge (a b : F) : ole b a -> less a b = false.
  Proof.
    intros H. unfold less. destruct (ocmp a b) as [[X|X]|X]; [exfalso|reflexivity..].
    destruct H as [H|H]; [exact (asym F _ _ H X)|subst; exact (olt_irr F _ X)].
  Qed.
  Lemma same_t (a b : F) : same a b = true -> a = b.
  Proof. unfold same. destruct (ocmp a b) as [[H|H]|H]; [discriminate 1|intros; exact H|discriminate 1]. Qed.
  Lemma ole_tr (a b c : F) : ole a b -> ole b c -> ole a c.
  Proof. intros [H|<-] [H'|<-]; [left; exact (olt_tr F _ _ _ H H')|left; exact H|left; exact H'|right; reflexivity]. Qed.
  Lemma ole_add (a b c : F) : ole a b -> ole (a + c) (b + c).
  Proof. intros [H|<-]; [left; apply olt_add, H|right; reflexivity]. Qed.
  Lemma ole_add2 (a b c d : F) : ole a b -> ole c d -> ole (a + c) (b + d).
  Proof. intros H H'. apply (ole_tr _ (b + c)); [apply ole_add, H|]. replace (b + c) with (c + b) by ring. replace (b + d) with (d + b) by ring. apply ole_add, H'. Qed.
  Lemma ole_mul (a b c : F) : ole 0 c -> ole a b -> ole (a * c) (b * c).
  Proof.
    intros [H|<-] [H'|<-]; [|right; reflexivity|right; ring|right; reflexivity].
    left. apply sub_pos in H'. pose proof (olt_mul F _ _ H' H) as X. apply (olt_add F _ _ (a * c)) in X.
    replace (0 + a * c) with (a * c) in X by ring. replace ((b - a) * c + a * c) with (b * c) in X by ring. exact X.
  Qed.

  Lemma min_fold (t : list F) : forall a, lowest (a :: t) (fold_left (fun d x => if less x d then x else d) t a).
  Proof.
    induction t as [|b t IH]; intros a; [split; [left; reflexivity|intros x [<-|[]]; right; reflexivity]|].
    cbn [fold_left]. destruct (less b a) eqn:E.
    - destruct (IH b) as [I L]. split; [right; exact I|]. intros x [<-|H]; [|exact (L x H)].
      apply (ole_tr _ b); [apply L; left; reflexivity|left; apply less_t, E].
    - destruct (IH a) as [I L]. split; [destruct I as [I|I]; [left; exact I|right; right; exact I]|].
      intros x [<-|[<-|H]]; [apply L; left; reflexivity| |apply L; right; exact H].
      apply (ole_tr _ a); [apply L; left; reflexivity|apply less_f, E].
  Qed.
  Lemma max_fold (t : list F) : forall a, highest (a :: t) (fold_left (fun d x => if less d x then x else d) t a).
  Proof.
    induction t as [|b t IH]; intros a; [split; [left; reflexivity|intros x [<-|[]]; right; reflexivity]|].
    cbn [fold_left]. destruct (less a b) eqn:E.
    - destruct (IH b) as [I L]. split; [right; exact I|]. intros x [<-|H]; [|exact (L x H)].
      apply (ole_tr _ b); [left; apply less_t, E|apply L; left; reflexivity].
    - destruct (IH a) as [I L]. split; [destruct I as [I|I]; [left; exact I|right; right; exact I]|].
      intros x [<-|[<-|H]]; [apply L; left; reflexivity| |apply L; right; exact H].
      apply (ole_tr _ a); [apply less_f, E|apply L; left; reflexivity].
  Qed.
  Lemma vec_min_ok (v : list F) : v <> [] -> exists m, vec_min v = Ok m /\ lowest v m.
  Proof. destruct v as [|a t]; [intros []; reflexivity|]. intros _. eexists. split; [reflexivity|apply min_fold]. Qed.
  Lemma vec_max_ok (v : list F) : v <> [] -> exists m, vec_max v = Ok m /\ highest v m.
  Proof. destruct v as [|a t]; [intros []; reflexivity|]. intros _. eexists. split; [reflexivity|apply max_fold]. Qed.
  Lemma lowest_unique (v : list F) m m' : lowest v m -> lowest v m' -> m = m'.
  Proof.
    intros [I L] [I' L']. destruct (L _ I') as [H|H]; [|exact H]. destruct (L' _ I) as [H'|H']; [|symmetry; exact H'].
    exfalso. exact (asym F _ _ H H').
  Qed.

  Lemma points_fold (g : list (axis F)) : forall s, fold_left (fun s a => (s * ax_n a)%Z) g s = (s * volume g)%Z.
  Proof. induction g as [|a g IH]; intros s; cbn [fold_left volume]; [lia|]. rewrite IH. lia. Qed.
  Lemma points_volume (g : list (axis F)) : g <> [] -> points g = volume g.
  Proof. intros H. destruct g; [contradiction|]. unfold points. rewrite points_fold. lia. Qed.
  Lemma volume_pos (g : list (axis F)) : (forall a, In a g -> good_axis a) -> (1 <= volume g)%Z.
  Proof.
    induction g as [|a g IH]; intros H; cbn [volume]; [lia|]. pose proof (proj1 (H a (or_introl eq_refl))).
    specialize (IH (fun b Hb => H b (or_intror Hb))). nia.
  Qed.
  Lemma diff_pos (a b : F) : olt a b -> less c0 (csub b a) = true.
  Proof. intros H. apply less_lt, sub_pos, H. Qed.
  Lemma read_axes_good (g : list (axis F)) : (forall a, In a g -> good_axis a) -> read_axes (length g) g = (g, true).
  Proof.
    induction g as [|a g IH]; intros H; [reflexivity|]. cbn [length read_axes]. destruct (H a (or_introl eq_refl)) as [N L].
    destruct (ax_n a <? 1)%Z eqn:E; [lia|]. rewrite (diff_pos _ _ L). cbn [negb].
    rewrite IH by (intros b Hb; apply H; right; exact Hb). reflexivity.
  Qed.
  Lemma init_grid_good (V : pot F) h g : good_grid g -> p_dims h = zlen g -> p_axes h = g ->
    init_grid V h = (mkPot (po_par V) g (resize (po_data V) (volume g)) (po_init V), Ok tt).
  Proof.
    intros [L G] D A. unfold init_grid. rewrite D, A.
    replace ((4 <? zlen g) || (zlen g <? 0))%Z with false by lia.
    destruct g as [|a g]; [cbn in L; lia|]. rewrite <- points_volume by discriminate.
    replace (Z.to_nat (zlen (a :: g))) with (length (a :: g)) by (unfold zlen; lia). rewrite read_axes_good by exact G. reflexivity.
  Qed.
  Lemma resize_len (v : list F) n : (0 <= n)%Z -> zlen (resize v n) = n.
  Proof. intros H. unfold resize. destruct (zlen v =? n)%Z eqn:E; [lia|]. unfold zlen. rewrite repeat_length. lia. Qed.

  Variable fs : str -> option (file F).

  Lemma read_ok (V : pot F) name f g d : fs name = Some f -> complete f g d ->
    exists V', read_file F fs V name = (V', Ok tt) /\ po_grid V' = g /\ po_data V' = d /\ po_init V' = po_init V /\
      po_par V' = match f with Raw h _ => h | Strm _ _ => po_par V end.
  Proof.
    intros E (H & G & L). unfold read_file. rewrite E. pose proof (volume_pos g (proj2 G)) as P. destruct H as [h g d D A|g d].
    - rewrite (init_grid_good _ _ _ G D A). cbn [po_data set_par po_par po_init]. rewrite resize_len by lia.
      replace ((volume g <=? 0) || (zlen d <? volume g))%Z with false by lia.
      eexists. split; [reflexivity|]. cbn. repeat split.
      pose proof (resize_len (po_data V) (volume g) ltac:(lia)) as R. rewrite firstn_all2; [reflexivity|]. unfold zlen in *. lia.
    - assert (N : g <> []) by (destruct g; [destruct G as [G _]; cbn in G; lia|discriminate]).
      rewrite points_volume by exact N. replace (zlen d <? volume g)%Z with false by lia.
      eexists. split; [reflexivity|]. cbn. repeat split. apply firstn_all2. unfold zlen in *. lia.
  Qed.

  Definition shift (p : pars F) (m : F) (d : list F) : list F :=
    let d := if p_setzero p then map (fun x => csub x m) d else d in
    let d := if same (p_offset p) c0 then d else map (fun x => cadd x (p_offset p)) d in
    let s := match p_scale p with Some s => s | None => c1 end in
    if same s c1 then d else map (fun x => cmul x s) d.
  Lemma map_id_ext {A} (f : A -> A) l : (forall x, f x = x) -> l = map f l.
  Proof. intros H. induction l as [|a t IH]; [reflexivity|]. cbn. rewrite H, <- IH. reflexivity. Qed.
  Lemma shift_map (p : pars F) (m : F) d : (p_setzero p = false -> m = 0) ->
    shift p m d = map (fun v => (v - m + p_offset p) * match p_scale p with Some s => s | None => 1 end) d.
  Proof.
    intros M. unfold shift. set (s := match p_scale p with Some s => s | None => c1 end).
    set (d1 := if p_setzero p then map (fun x => csub x m) d else d).
    assert (E1 : d1 = map (fun x => x - m) d).
    { subst d1. destruct (p_setzero p); [reflexivity|]. rewrite M by reflexivity. apply map_id_ext. intros x. ring. }
    assert (E2 : (if same (p_offset p) c0 then d1 else map (fun x => cadd x (p_offset p)) d1) = map (fun x => x - m + p_offset p) d).
    { rewrite E1. destruct (same (p_offset p) c0) eqn:S; [|apply map_map]. apply same_t in S. rewrite S. apply map_ext. intros x. ring. }
    rewrite E2. destruct (same s c1) eqn:S; [|apply map_map]. apply same_t in S. apply map_ext. intros x. fold s. rewrite S. ring.
  Qed.

  (** a complete file is loaded, whatever the operator was before *)
  Lemma load_ok (V : pot F) p f g d : po_init V = false -> names p -> fs (p_file p) = Some f -> complete f g d ->
    exists V', pot_init F fs vec_min V p = (V', Ok tt) /\ po_grid V' = g /\ po_init V' = false /\ asked p d (po_data V') /\
      po_par V' = match f with Raw h _ => h | Strm _ _ => p end.
  Proof.
    intros I [D N] E C. unfold pot_init. cbn [set_par po_init]. rewrite I.
    replace ((p_dims p <=? 0)%Z && negb (str_eqb (p_file p) []) && negb false) with true
      by (apply str_eqb_false in N; rewrite N; destruct (p_dims p <=? 0)%Z eqn:X; [reflexivity|lia]).
    destruct (read_ok (set_init F (set_par F V p) true) _ f g d E C) as (V1 & E1 & G1 & D1 & _ & P1). cbv zeta. rewrite E1.
    assert (ND : d <> []).
    { destruct C as (_ & G & L). pose proof (volume_pos g (proj2 G)). intros ->. cbn in L. lia. }
    assert (M : exists m, (if p_setzero p then vec_min (po_data V1) else Ok c0) = Ok m /\ if p_setzero p then lowest d m else m = 0).
    { rewrite D1. destruct (p_setzero p); [exact (vec_min_ok d ND)|exists 0; split; reflexivity]. }
    destruct M as (m & -> & M). eexists. split; [reflexivity|]. cbn [po_grid set_init set_data po_init po_data po_par].
    split; [exact G1|]. split; [reflexivity|]. split; [|exact P1]. exists m. split; [exact M|]. rewrite D1. apply (shift_map p m d).
    intros Z. rewrite Z in M. exact M.
  Qed.

  (** what happens otherwise *)
  Lemma init_grid_keeps (V : pot F) h : po_init (fst (init_grid V h)) = po_init V /\ po_par (fst (init_grid V h)) = po_par V.
  Proof.
    unfold init_grid. destruct ((4 <? p_dims h) || (p_dims h <? 0))%Z; [split; reflexivity|].
    destruct (match p_axes h with [] => _ | _ => _ end) as [g ok]. destruct ok; split; reflexivity.
  Qed.
  Lemma read_keeps (V : pot F) name : po_init (fst (read_file F fs V name)) = po_init V.
  Proof.
    unfold read_file. destruct (fs name) as [[h d|g d]|]; [| |reflexivity].
    - pose proof (init_grid_keeps (set_par F V h) h) as [K _]. destruct (init_grid (set_par F V h) h) as [V1 r]. cbn [fst] in K.
      destruct r; [|exact K..]. destruct ((zlen (po_data V1) <=? 0) || (zlen d <? zlen (po_data V1)))%Z; exact K.
    - destruct (zlen d <? points g)%Z; reflexivity.
  Qed.
  Lemma fail_init em (V V1 : pot F) p r : po_init V = false -> names p -> pot_init F fs em V p = (V1, r) -> r <> Ok tt -> po_init V1 = true.
  Proof.
    intros I [D N] E NR. unfold pot_init in E. cbn [set_par po_init] in E. rewrite I in E. apply str_eqb_false in N. rewrite N in E.
    destruct (p_dims p <=? 0)%Z eqn:X; [|lia]. cbn [andb negb] in E. cbv zeta in E.
    pose proof (read_keeps (set_init F (set_par F V p) true) (p_file p)) as K.
    destruct (read_file F fs (set_init F (set_par F V p) true) (p_file p)) as [V2 r2]. cbn [fst set_init po_init] in K.
    destruct r2.
    - destruct (if p_setzero p then em (po_data V2) else Ok c0) in E; inversion E; subst; [contradiction NR; reflexivity|exact K..].
    - inversion E; subst. exact K.
    - inversion E; subst. exact K.
  Qed.
  (** an operator that failed once reads no file any more *)
  Lemma stuck em (V : pot F) p : po_init V = true -> p_dims p = 0%Z ->
    pot_init F fs em V p = (mkPot p (if p_axes p then [] else []) (resize (po_data V) 0) true, Ok tt).
  Proof.
    intros I D. unfold pot_init. cbn [set_par po_init]. rewrite I, andb_false_r. unfold init_grid. rewrite D. cbn [Z.ltb Z.compare orb Z.to_nat].
    destruct (p_axes p); cbn; rewrite I; reflexivity.
  Qed.
  Lemma resize0 (v : list F) : resize v 0 = [].
  Proof. unfold resize. destruct (zlen v =? 0)%Z eqn:E; [|reflexivity]. destruct v; [reflexivity|unfold zlen in E; cbn in E; lia]. Qed.
  Lemma stuck_code em (V V1 : pot F) p p' r : po_init V = false -> names p -> pot_init F fs em V p = (V1, r) -> r <> Ok tt -> p_dims p' = 0%Z ->
    exists V2, pot_init F fs em V1 p' = (V2, Ok tt) /\ po_grid V2 = [] /\ po_data V2 = [] /\ po_init V2 = true.
  Proof.
    intros I N E NR D. pose proof (fail_init em V V1 p r I N E NR) as K. eexists. split; [exact (stuck em V1 p' K D)|].
    cbn. split; [destruct (p_axes p'); reflexivity|]. split; [apply resize0|reflexivity].
  Qed.

  (** ** files that are refused *)
  Lemma read_axes_bad (g : list (axis F)) : forall n, (0 < n)%nat -> ((length g < n)%nat \/ exists a, In a (firstn n g) /\ ~ good_axis a) ->
    snd (read_axes n g) = false.
  Proof.
    induction g as [|a g IH]; intros n P B.
    - destruct n; [lia|]. destruct B as [B|[a [H _]]]; [reflexivity|]. rewrite firstn_nil in H. destruct H.
    - destruct n as [|n]; [lia|]. cbn [read_axes]. destruct (ax_n a <? 1)%Z eqn:E; [reflexivity|].
      destruct (less c0 (csub (ax_hi a) (ax_lo a))) eqn:L; [|reflexivity]. cbn [negb].
      assert (GA : good_axis a).
      { split; [lia|]. apply less_t in L. apply (olt_add F _ _ (ax_lo a)) in L.
        replace (c0 + ax_lo a) with (ax_lo a) in L by ring. replace (ax_hi a - ax_lo a + ax_lo a) with (ax_hi a) in L by ring. exact L. }
      destruct n as [|n].
      { exfalso. destruct B as [B|(x & [<-|H] & NB)]; [cbn in B; lia|exact (NB GA)|destruct H]. }
      assert (R : snd (read_axes (S n) g) = false).
      { apply IH; [lia|]. destruct B as [B|(x & [<-|H] & NB)]; [left; cbn in B; lia|contradiction|right; exists x; split; assumption]. }
      destruct (read_axes (S n) g) as [r ok]. exact R.
  Qed.
  Lemma names_branch em (V : pot F) p : po_init V = false -> names p -> pot_init F fs em V p =
    let '(V1, r) := read_file F fs (set_init F (set_par F V p) true) (p_file p) in
      match r with
      | Ok _ => match (if p_setzero p then em (po_data V1) else Ok c0) with
        | Ok m => (set_init F (set_data F V1 (shift p m (po_data V1))) false, Ok tt)
        | Throw => (V1, Throw) | UB => (V1, UB) end
      | r => (V1, r) end.
  Proof.
    intros I [D N]. unfold pot_init. cbn [set_par po_init]. rewrite I. apply str_eqb_false in N. rewrite N.
    destruct (p_dims p <=? 0)%Z eqn:X; [|lia]. reflexivity.
  Qed.
  Lemma refused em (V : pot F) p : po_init V = false -> names p ->
    (fs (p_file p) = None \/ exists h d, fs (p_file p) = Some (Raw h d) /\
       ((p_dims h < 1 \/ 4 < p_dims h)%Z \/ (exists a, In a (firstn (Z.to_nat (p_dims h)) (p_axes h)) /\ ~ good_axis a) \/
        (zlen (p_axes h) < p_dims h)%Z \/ (zlen d < volume (firstn (Z.to_nat (p_dims h)) (p_axes h)))%Z)) ->
    exists V1, pot_init F fs em V p = (V1, Throw).
  Proof.
    intros I N B. rewrite (names_branch em V p I N).
    assert (R : exists V1, read_file F fs (set_init F (set_par F V p) true) (p_file p) = (V1, Throw)).
    2:{ destruct R as (V1 & ->). exists V1. reflexivity. }
    unfold read_file. destruct B as [->|(h & d & -> & B)]; [eexists; reflexivity|].
    set (W := set_par F (set_init F (set_par F V p) true) h). clearbody W.
    destruct ((4 <? p_dims h) || (p_dims h <? 0))%Z eqn:DD.
    { unfold init_grid. rewrite DD. eexists. reflexivity. }
    unfold init_grid. rewrite DD. destruct (p_axes h) as [|a l] eqn:A.
    { cbn [po_data]. assert (PZ : points (repeat (@no_axis F) (Z.to_nat (p_dims h))) = 0%Z).
      { destruct (Z.to_nat (p_dims h)) as [|n]; [reflexivity|]. cbn [repeat]. unfold points. rewrite points_fold. cbn [volume no_axis ax_n]. lia. }
      rewrite PZ, resize0. cbn [zlen length Z.of_nat Z.leb Z.compare orb]. eexists. reflexivity. }
    destruct (Z.to_nat (p_dims h)) as [|n] eqn:En.
    { cbn [read_axes]. cbn [po_data points]. rewrite resize0. eexists. reflexivity. }
    destruct (read_axes (S n) (a :: l)) as [g ok] eqn:RA.
    destruct ok; [|eexists; reflexivity].
    assert (GG : forall a0, In a0 (firstn (S n) (a :: l)) -> ~ ~ good_axis a0).
    { intros x Hx NB. pose proof (read_axes_bad (a :: l) (S n) ltac:(lia) (or_intror (ex_intro _ x (conj Hx NB)))) as X.
      rewrite RA in X. discriminate X. }
    assert (LL : ~ (length (a :: l) < S n)%nat).
    { intros Hx. pose proof (read_axes_bad (a :: l) (S n) ltac:(lia) (or_introl Hx)) as X. rewrite RA in X. discriminate X. }
    assert (EG : forall m l0, snd (read_axes m l0) = true -> (m <= length l0)%nat -> fst (read_axes m l0) = firstn m (l0 : list (axis F))).
    { clear. induction m as [|m IH]; intros l0 H L; [reflexivity|]. destruct l0 as [|x l0]; [cbn in L; lia|]. cbn [read_axes firstn] in *.
      destruct (ax_n x <? 1)%Z; [discriminate H|]. destruct (negb (less c0 (csub (ax_hi x) (ax_lo x)))); [discriminate H|].
      specialize (IH l0). destruct (read_axes m l0) as [r ok]. cbn [fst snd] in *. rewrite IH; [reflexivity|exact H|cbn in L; lia]. }
    specialize (EG (S n) (a :: l)). rewrite RA in EG. cbn [fst snd] in EG. specialize (EG eq_refl ltac:(lia)).
    destruct B as [B|[(x & Hx & NB)|[B|B]]]; [lia|exfalso; exact (GG x Hx NB)|exfalso; apply LL; unfold zlen in B; lia|].
    cbn [po_data]. rewrite <- EG in B. assert (NG : g <> []) by (rewrite EG; discriminate). rewrite points_volume by exact NG.
    assert (0 <= volume g)%Z by (unfold zlen in B; lia). rewrite resize_len by lia.
    replace ((volume g <=? 0) || (zlen d <? volume g))%Z with true by lia. eexists. reflexivity.
  Qed.

  (** ** writing and reading again *)
  Lemma asked_len p (d e : list F) : asked p d e -> zlen e = zlen d.
  Proof. intros (m & _ & ->). unfold zlen. rewrite map_length. reflexivity. Qed.
  Lemma asked_plain p (d e : list F) : plain p -> asked p d e -> e = d.
  Proof.
    intros (Z & O & S) (m & M & ->). rewrite Z in M. rewrite O, S, M. symmetry. apply map_id_ext. intros x. ring.
  Qed.
  Lemma rewrite_raw (V V1 : pot F) p f g d h : po_init V = false -> names p -> fs (p_file p) = Some f -> complete f g d -> f = Raw h d ->
    pot_init F fs vec_min V p = (V1, Ok tt) -> complete (write_raw V1) g (po_data V1).
  Proof.
    intros I N E C R EV. destruct (load_ok V p f g d I N E C) as (V' & E' & G & _ & A & P). rewrite EV in E'. injection E' as <-.
    subst f. destruct C as (H & GG & L). unfold write_raw. split; [|split; [exact GG|rewrite (asked_len _ _ _ A); exact L]].
    rewrite P. inversion H; subst. apply holds_raw; assumption.
  Qed.
  Lemma rewrite_stream (V V1 : pot F) p f g d : po_init V = false -> names p -> fs (p_file p) = Some f -> complete f g d ->
    pot_init F fs vec_min V p = (V1, Ok tt) -> complete (write_stream V1) g (po_data V1).
  Proof.
    intros I N E C EV. destruct (load_ok V p f g d I N E C) as (V' & E' & G & _ & A & P). rewrite EV in E'. injection E' as <-.
    destruct C as (_ & GG & L). unfold write_stream. rewrite G. split; [constructor|]. split; [exact GG|]. rewrite (asked_len _ _ _ A). exact L.
  Qed.
End Proofs.

Section Energy.
  Variable F : ofld.
  Add Ring EFr : (cr_th F).
  Open Scope cr_scope.

  Lemma csq_nonneg (c : Cx F) : ole 0 (csq c).
  Proof. unfold csq. replace (0 : F) with (0 + 0 : F) by ring. apply ole_add2; apply sq_nonneg. Qed.
  Lemma braket_im (d : list F) : forall psi, snd (braket psi (mult d psi)) = 0.
  Proof.
    induction d as [|x d IH]; intros [|c psi]; try reflexivity.
    cbn [mult braket]. transitivity (snd (cx_conj c * cx_scale x c : Cx F) + snd (braket psi (mult d psi))); [reflexivity|].
    rewrite IH. cbn. ring.
  Qed.
  Lemma braket_re_cons x c (d : list F) psi :
    fst (braket (c :: psi) (mult (x :: d) (c :: psi))) = x * csq c + fst (braket psi (mult d psi)).
  Proof. cbn [mult braket]. transitivity (fst (cx_conj c * cx_scale x c : Cx F) + fst (braket psi (mult d psi))); [reflexivity|]. unfold csq. cbn. ring. Qed.
  Lemma norm2_cons (c : Cx F) psi : norm2 (c :: psi) = csq c + norm2 psi.
  Proof. reflexivity. Qed.
  Lemma energy_low m : forall (d : list F) psi, length psi = length d -> (forall x, In x d -> ole m x) ->
    ole (m * norm2 psi) (fst (braket psi (mult d psi))).
  Proof.
    induction d as [|x d IH]; intros [|c psi] L H; try (cbn in L; lia).
    - right. unfold norm2. cbn. ring.
    - rewrite braket_re_cons, norm2_cons. replace (m * (csq c + norm2 psi)) with (m * csq c + m * norm2 psi) by ring.
      apply ole_add2; [apply ole_mul; [apply csq_nonneg|apply H; left; reflexivity]|].
      apply IH; [injection L as L; exact L|]. intros y Hy. apply H. right. exact Hy.
  Qed.
  Lemma energy_high m : forall (d : list F) psi, length psi = length d -> (forall x, In x d -> ole x m) ->
    ole (fst (braket psi (mult d psi))) (m * norm2 psi).
  Proof.
    induction d as [|x d IH]; intros [|c psi] L H; try (cbn in L; lia).
    - right. unfold norm2. cbn. ring.
    - rewrite braket_re_cons, norm2_cons. replace (m * (csq c + norm2 psi)) with (m * csq c + m * norm2 psi) by ring.
      apply ole_add2; [apply ole_mul; [apply csq_nonneg|apply H; left; reflexivity]|].
      apply IH; [injection L as L; exact L|]. intros y Hy. apply H. right. exact Hy.
  Qed.
  Definition zeros (n : nat) : list (Cx F) := repeat c0 n.
  Lemma zeros_norm n : norm2 (zeros n) = 0.
  Proof. induction n as [|n IH]; [reflexivity|]. unfold zeros in *. cbn [repeat]. rewrite norm2_cons, IH. unfold csq. cbn. ring. Qed.
  Lemma zeros_braket (d : list F) : fst (braket (zeros (length d)) (mult d (zeros (length d)))) = 0.
  Proof. induction d as [|x d IH]; [reflexivity|]. unfold zeros in *. cbn [length repeat]. rewrite braket_re_cons, IH. unfold csq. cbn. ring. Qed.
  (** every value of the potential is the energy of a state on one grid point *)
  Lemma attained (d : list F) : forall m, In m d -> exists psi, length psi = length d /\ norm2 psi = 1 /\
    fst (braket psi (mult d psi)) = m.
  Proof.
    induction d as [|x d IH]; intros m H; [destruct H|]. destruct H as [<-|H].
    - exists ((c1 : Cx F) :: zeros (length d)). split; [cbn; unfold zeros; rewrite repeat_length; reflexivity|].
      rewrite norm2_cons, braket_re_cons, zeros_norm, zeros_braket. unfold csq. cbn. split; ring.
    - destruct (IH m H) as (psi & L & N & B). exists ((c0 : Cx F) :: psi). split; [exact (f_equal S L)|].
      rewrite norm2_cons, braket_re_cons, N, B. unfold csq. cbn. split; ring.
  Qed.
  Lemma mult_len (d : list F) : forall psi, length psi = length d -> length (mult d psi) = length d.
  Proof. induction d as [|x d IH]; intros [|c psi] L; try discriminate L; [reflexivity|]. injection L as L. exact (f_equal S (IH psi L)). Qed.
  Lemma mult_add_spec (d : list F) : forall dest psi, length psi = length d -> length dest = length d ->
    mult_add dest d psi = map (fun yc => fst yc + snd yc)%cr (combine dest (mult d psi)).
  Proof. induction d as [|x d IH]; intros [|y dest] [|c psi] L L'; try discriminate L; try discriminate L'; [reflexivity|]. injection L as L. injection L' as L'. cbn [mult mult_add combine map]. rewrite IH by assumption. reflexivity. Qed.
  (** the operator is Hermitian *)
  Lemma mult_sym (d : list F) : forall a b, length a = length d -> length b = length d -> braket (mult d a) b = braket a (mult d b).
  Proof.
    induction d as [|x d IH]; intros [|y a] [|c b] L L'; try discriminate L; try discriminate L'; [reflexivity|]. cbn [mult braket].
    injection L as L. injection L' as L'. rewrite IH by assumption. f_equal. apply cx_eq; cbn; ring.
  Qed.

  (** asking for a minimum of zero *)
  Lemma setzero_min p (d e : list F) : p_setzero p = true -> ole 0 (match p_scale p with Some s => s | None => 1 end) ->
    asked p d e -> lowest e (p_offset p * match p_scale p with Some s => s | None => 1 end).
  Proof.
    intros Z S (m & M & ->). rewrite Z in M. set (s := match p_scale p with Some s => s | None => 1 end) in *. destruct M as [I L]. split.
    - apply in_map_iff. exists m. split; [ring|exact I].
    - intros x H. apply in_map_iff in H. destruct H as (v & <- & H). apply ole_mul; [exact S|].
      specialize (L v H). apply (ole_add F _ _ (- m)) in L. replace (m + - m) with (0 : F) in L by ring.
      apply (ole_add F _ _ (p_offset p)) in L. replace (0 + p_offset p) with (p_offset p) in L by ring.
      replace (v - m) with (v + - m) by ring. exact L.
  Qed.

  (** ** fitting of grids *)
  Lemma near_close eps a b : ole 0 eps -> near F eps a b = true <-> close eps a b.
  Proof.
    intros P. unfold near, close, oabs. split; intros H.
    - apply negb_true_iff in H. apply less_f in H. destruct (ocmp (a - b) 0) as [[X|X]|X].
      + split.
        * apply (ole_add F _ _ (a - b - eps)) in H. replace (- (a - b) + (a - b - eps)) with (- eps) in H by ring.
          replace (eps + (a - b - eps)) with (a - b) in H by ring. exact H.
        * apply (ole_tr F _ 0); [left; exact X|exact P].
      + rewrite X. split; [|exact P]. apply (ole_add F _ _ (- eps)) in P. replace (0 + - eps) with (- eps) in P by ring.
        replace (eps + - eps) with (0 : F) in P by ring. exact P.
      + split; [|exact H]. apply (ole_tr F _ 0); [|left; exact X]. apply (ole_add F _ _ (- eps)) in P. replace (0 + - eps) with (- eps) in P by ring.
        replace (eps + - eps) with (0 : F) in P by ring. exact P.
    - apply negb_true_iff, less_ge. destruct H as [H1 H2]. destruct (ocmp (a - b) 0) as [[X|X]|X]; [|exact H2..].
      apply (ole_add F _ _ (eps - (a - b))) in H1. replace (- eps + (eps - (a - b))) with (- (a - b)) in H1 by ring.
      replace (a - b + (eps - (a - b))) with eps in H1 by ring. exact H1.
  Qed.
  Lemma grid_eqb_fits eps (P : ole 0 eps) : forall g h, grid_eqb F eps g h = true <-> fits eps g h.
  Proof.
    induction g as [|a g IH]; intros [|b h]; cbn [grid_eqb].
    - split; [constructor|reflexivity].
    - split; [discriminate 1|intros H; inversion H].
    - split; [discriminate 1|intros H; inversion H].
    - rewrite !andb_true_iff, !(near_close eps _ _ P), IH, Z.eqb_eq. split.
      + intros [[[N L] R] T]. constructor; [auto|exact T].
      + intros H. inversion H as [|x y l l' (N & L & R) T]; subst. auto.
  Qed.
End Energy.
