(** Property C102: the compression program qdz. *)
From Coq Require Import QArith Qcanon.
From Coq Require Import Ascii String List NArith ZArith Lia Bool Arith.
From Verif Require Import Base Arrays Algebra Ordered Model.Getopt Model.RawFile Model.Qdz Spec.Params Spec.Getopt Spec.Qdz Proofs.Params Proofs.Getopt Proofs.Qdz.
Import ListNotations.
Open Scope Z_scope.

(** One file: it is converted as asked for and nothing else changes; if it cannot be opened for writing the stream is closed through a null
    pointer. *)
Theorem C102_single : forall (F : ofld) V R (reduce : F -> V -> R) restore scan open fuel opts argv oi fname st o,
  asked opts argv oi fname -> request scan opts o -> ~ given opts "s"%char -> readable restore st (single_name fname) -> open (single_name fname) = true ->
  exists st', qdz reduce restore scan open fuel opts argv oi st = Some (Ok (st', true)) /\ converted reduce restore o st st' (eq (single_name fname)).
Proof. intros until 4. intros O. pose proof (single_run F V R reduce restore scan open fuel opts argv oi fname st o H H0 H1 H2) as Q. rewrite O in Q. exact Q. Qed.
Print Assumptions C102_single.
Theorem C102_readonly_code : forall (F : ofld) V R (reduce : F -> V -> R) restore scan open fuel opts argv oi fname st o,
  asked opts argv oi fname -> request scan opts o -> ~ given opts "s"%char -> readable restore st (single_name fname) -> open (single_name fname) = false ->
  qdz reduce restore scan open fuel opts argv oi st = Some UB.
Proof. intros until 4. intros O. pose proof (single_run F V R reduce restore scan open fuel opts argv oi fname st o H H0 H1 H2) as Q. rewrite O in Q. exact Q. Qed.
Print Assumptions C102_readonly_code.
(** A series: the elements before the first that cannot be read are converted and nothing else changes. *)
Theorem C102_series : forall (F : ofld) V R (reduce : F -> V -> R) restore scan open fuel opts argv oi fname st o n,
  asked opts argv oi fname -> request scan opts o -> given opts "s"%char -> run_of restore st fname (Z.of_nat n) -> (0 < n)%nat -> Z.of_nat n <= 2147483647 -> (n <= fuel)%nat ->
  (forall k, 0 <= k < Z.of_nat n -> open (elem_name fname k) = true) ->
  exists st', qdz reduce restore scan open fuel opts argv oi st = Some (Ok (st', true)) /\ converted reduce restore o st st' (elements fname (Z.of_nat n)).
Proof. exact series_run. Qed.
Print Assumptions C102_series.
(** Without the first file nothing happens and the status says so, likewise for options that are refused. *)
Theorem C102_missing : forall (F : ofld) V R (reduce : F -> V -> R) restore scan open fuel opts argv oi fname st o,
  asked opts argv oi fname -> request scan opts o -> (given opts "s"%char -> ~ readable restore st (elem_name fname 0)) -> (~ given opts "s"%char -> ~ readable restore st (single_name fname)) ->
  qdz reduce restore scan open fuel opts argv oi st = Some (Ok (st, false)).
Proof. exact first_no. Qed.
Print Assumptions C102_missing.
Theorem C102_refused : forall (F : ofld) V R (reduce : F -> V -> R) restore scan open fuel opts argv oi fname st,
  asked opts argv oi fname -> refused scan opts -> qdz reduce restore scan open fuel opts argv oi st = Some (Ok (st, false)).
Proof. exact refused_run. Qed.
Print Assumptions C102_refused.
(** The program ends: with this much fuel the loop over a series does not run out of it. *)
Theorem C102_ends : forall (F : ofld) V R (reduce : F -> V -> R) restore scan open opts argv oi st fuel,
  (length st <= fuel)%nat -> Z.of_nat (length st) <= 2147483647 -> qdz reduce restore scan open fuel opts argv oi st <> None.
Proof. exact ends. Qed.
Print Assumptions C102_ends.
Theorem C102_run_exists : forall V R (restore : R -> V) st fname, exists n, (n <= length st)%nat /\ run_of restore st fname (Z.of_nat n).
Proof. intros V R restore st fname. exact (run_exists Qco V R restore (fun _ => None) (fun _ => true) st fname). Qed.
Print Assumptions C102_run_exists.
(** Decompression loses nothing, compression what reducing loses. *)
Theorem C102_lossless : forall (F : ofld) V R (reduce : F -> V -> R) restore (st st' : list (str * content V R)) names n v,
  converted reduce restore None st st' names -> (names n \/ ~ names n) -> (holds restore st n v <-> holds restore st' n v).
Proof. exact lossless. Qed.
Print Assumptions C102_lossless.
Theorem C102_lossy : forall (F : ofld) V R (reduce : F -> V -> R) restore (st st' st'' : list (str * content V R)) names n v tol,
  converted reduce restore (Some tol) st st' names -> converted reduce restore None st' st'' names -> names n -> holds restore st n v ->
  holds restore st' n (restore (reduce tol v)) /\ mget scmp st'' n = Some (Plain (restore (reduce tol v))).
Proof.
  intros F V R reduce restore st st' st'' names n v tol C D N H. pose proof (read_back F V R reduce restore _ _ _ _ _ _ C H N) as Q. split; [exact Q|].
  destruct (proj1 D n N) as (w & W & E). rewrite E. cbn. f_equal. f_equal. exact (holds_fun V R restore _ _ _ _ W Q).
Qed.
Print Assumptions C102_lossy.
(** Level and method make no difference. *)
Theorem C102_level_code : forall (F : ofld) V R (reduce : F -> V -> R) restore scan open fuel opts opts' argv oi argv' oi' fname st o,
  asked opts argv oi fname -> asked opts' argv' oi' fname -> request scan opts o -> request scan opts' o -> (given opts "s"%char <-> given opts' "s"%char) ->
  qdz reduce restore scan open fuel opts argv oi st = qdz reduce restore scan open fuel opts' argv' oi' st.
Proof. exact same_request. Qed.
Print Assumptions C102_level_code.
(** A tolerance that is no number is used uninitialised. *)
Theorem C102_number_code : forall (F : ofld) V R (reduce : F -> V -> R) restore scan open fuel opts argv oi fname st t,
  asked opts argv oi fname -> ~ given opts "d"%char -> option_text cmdline opts "t"%char t -> scan t = None -> qdz reduce restore scan open fuel opts argv oi st = Some UB.
Proof. exact no_number. Qed.
Print Assumptions C102_number_code.
(** Help, or no file name: nothing happens. *)
Theorem C102_nothing_code : forall (F : ofld) V R (reduce : F -> V -> R) restore scan open fuel opts argv oi st,
  given opts "h"%char \/ nth_error (skipn oi argv) 0 = None -> qdz reduce restore scan open fuel opts argv oi st = Some (Ok (st, true)).
Proof. exact not_asked. Qed.
Print Assumptions C102_nothing_code.

(** * What the help text says *)
(** the defaults can be used: method zlib, tolerance 1e-5 *)
Definition C102_default : Prop := forall (F : ofld) V R (reduce : F -> V -> R) restore scan open fuel fname st tol,
  scan (lit "1e-5") = Some tol -> olt c0 tol -> olt tol c1 -> readable restore st (single_name fname) -> open (single_name fname) = true ->
  exists st', qdz reduce restore scan open fuel [] [lit "qdz"; fname] 1 st = Some (Ok (st', true)) /\ converted reduce restore (Some tol) st st' (eq (single_name fname)).
(** method j is bzip2 *)
Definition C102_bzip : Prop := forall (F : ofld) V R (reduce : F -> V -> R) restore scan open fuel opts argv oi fname st o,
  asked opts argv oi fname -> ~ given opts "d"%char -> ~ given opts "s"%char -> option_text cmdline opts "m"%char (lit "j") -> request scan opts o -> readable restore st (single_name fname) -> open (single_name fname) = true ->
  exists st' r, qdz reduce restore scan open fuel opts argv oi st = Some (Ok (st', true)) /\ mget scmp st' (single_name fname) = Some (Packed Bzip r).
(** level 0 is no compression *)
Definition C102_level0 : Prop := forall (F : ofld) V R (reduce : F -> V -> R) restore scan open fuel opts argv oi fname st tol,
  asked opts argv oi fname -> ~ given opts "d"%char -> ~ given opts "s"%char -> option_text cmdline opts "m"%char (lit "z") -> numbers scan opts tol 0 -> ~ olt c1 tol -> readable restore st (single_name fname) -> open (single_name fname) = true ->
  exists st', qdz reduce restore scan open fuel opts argv oi st = Some (Ok (st', true)).
(** a tolerance larger than one is not used *)
Definition C102_tolerance : Prop := forall (F : ofld) V R (reduce : F -> V -> R) restore scan open fuel opts argv oi fname st st' v,
  asked opts argv oi fname -> ~ given opts "d"%char -> ~ given opts "s"%char -> holds restore st (single_name fname) v ->
  qdz reduce restore scan open fuel opts argv oi st = Some (Ok (st', true)) ->
  exists tol, ole tol c1 /\ mget scmp st' (single_name fname) = Some (Packed Zlib (reduce tol v)).
(** with status 0 everything asked for was done *)
Definition C102_status : Prop := forall (F : ofld) V R (reduce : F -> V -> R) restore scan open fuel opts argv oi st st',
  ~ given opts "h"%char -> qdz reduce restore scan open fuel opts argv oi st = Some (Ok (st', true)) -> exists fname, asked opts argv oi fname.
Definition C102_complete : Prop := forall (F : ofld) V R (reduce : F -> V -> R) restore scan open fuel opts argv oi fname st st' o k,
  asked opts argv oi fname -> request scan opts o -> given opts "s"%char -> qdz reduce restore scan open fuel opts argv oi st = Some (Ok (st', true)) ->
  0 <= k -> mget scmp st (elem_name fname k) <> None -> exists v, holds restore st (elem_name fname k) v /\ mget scmp st' (elem_name fname k) = Some (stored reduce o v).

(** Wave functions are numbers, reducing keeps the tolerance. *)
Definition zx_reduce (t : Qco) (v : Z) : Qco * Z := (t, v).
Definition zx_restore (r : Qco * Z) : Z := snd r.
Definition zx_small : Qco := fdiv c1 (cadd c1 c1).
Definition zx_five : Qco := cadd (cadd (cadd (cadd c1 c1) c1) c1) c1.
Definition zx_scan (s : str) : option Qco := if str_eqb s (lit "-5") then Some (copp zx_five) else if str_eqb s (lit "1e-5") then Some zx_small else None.
Definition zx_open (s : str) : bool := true.
Definition zx_disk : list (str * content Z (Qco * Z)) := [(lit "psi.wf", Plain 7); (lit "psi_0.wf", Packed Bzip (zx_small, 8)); (lit "psi_1.wf", Bad); (lit "psi_2.wf", Packed Zlib (zx_small, 9))].
Notation zx_qdz := (qdz zx_reduce zx_restore zx_scan zx_open).
Definition zx_m (m : string) : list (ascii * str) := [("m"%char, lit m)].
Lemma zx_last c s : last_value [(c, s)] c s.
Proof. apply (lv_here [] [] c s). intros (v & []). Qed.
Lemma zx_not c d s : c <> d -> ~ given [(c, s)] d.
Proof. intros N (v & [E|[]]). injection E as E _. contradiction. Qed.
Lemma zx_default opts c : ~ given opts c -> option_text cmdline opts c (getd (defs cmdline) c).
Proof. intros N. right. auto. Qed.
Lemma zx_pos : olt c0 zx_small.
Proof. apply inv_pos, two_pos. Qed.
Lemma zx_lt : olt zx_small c1.
Proof. reflexivity. Qed.
Lemma zx_le : ~ olt c1 zx_small.
Proof. intros H. exact (olt_irr _ _ (olt_tr _ _ _ _ H zx_lt)). Qed.
Lemma zx_asked opts f : ~ given opts "h"%char -> asked opts [lit "qdz"; f] 1 f.
Proof. intros N. split; [exact N|reflexivity]. Qed.
Lemma zx_four : begins_with_int (lit "4") 4.
Proof. exact (dec_print_Z_begins 4 [] ltac:(discriminate)). Qed.
Lemma zx_numbers opts : ~ given opts "t"%char -> ~ given opts "l"%char -> numbers zx_scan opts zx_small 4.
Proof.
  intros A B. split; [exists (lit "1e-5"); split; [apply (zx_default opts "t"%char A)|reflexivity]|]. exists (lit "4"). split; [apply (zx_default opts "l"%char B)|]. split; [apply zx_four|]. unfold int32. lia.
Qed.
Lemma zx_request m : lit m = lit "z" \/ lit m = lit "j" -> request zx_scan (zx_m m) (Some (oabs zx_small)).
Proof.
  intros M. apply (rq_pack Qco zx_scan (zx_m m) zx_small 4 (lit m)); [apply zx_not; discriminate|apply zx_numbers; apply zx_not; discriminate|exact zx_le|lia| |exact M].
  left. exists (lit m). split; [apply zx_last|]. split; [|reflexivity]. destruct M as [-> | ->]; discriminate.
Qed.
Lemma zx_psi : readable zx_restore zx_disk (single_name (lit "psi")).
Proof. exists 7. left. reflexivity. Qed.

(** Compressing with method z; a series of which the second file cannot be read. *)
Example C102_single_ex : exists st', zx_qdz 0 (zx_m "z") [lit "qdz"; lit "psi"] 1 zx_disk = Some (Ok (st', true)) /\ converted zx_reduce zx_restore (Some (oabs zx_small)) zx_disk st' (eq (lit "psi.wf")).
Proof.
  apply (C102_single Qco Z (Qco * Z) zx_reduce zx_restore zx_scan zx_open 0 (zx_m "z") [lit "qdz"; lit "psi"] 1 (lit "psi")); [apply zx_asked, zx_not; discriminate|apply zx_request; auto|apply zx_not; discriminate|apply zx_psi|reflexivity].
Qed.
Definition zx_ds : list (ascii * str) := [("d"%char, []); ("s"%char, [])].
Lemma zx_run : run_of zx_restore zx_disk (lit "psi") 1.
Proof.
  split.
  - intros k K. assert (k = 0) by lia. subst k. exists 8. right. exists Bzip, (zx_small, 8). split; reflexivity.
  - intros (v & [E|(m & r & E & _)]); vm_compute in E; discriminate E.
Qed.
Lemma zx_ds_asked : asked zx_ds [lit "qdz"; lit "psi"] 1 (lit "psi").
Proof. apply zx_asked. intros (v & [E|[E|[]]]); discriminate E. Qed.
Lemma zx_ds_request : request zx_scan zx_ds None.
Proof. apply rq_plain. exists []. left. reflexivity. Qed.
Lemma zx_ds_s : given zx_ds "s"%char.
Proof. exists []. right. left. reflexivity. Qed.
Example C102_series_ex : exists st', zx_qdz 5 zx_ds [lit "qdz"; lit "psi"] 1 zx_disk = Some (Ok (st', true)) /\ converted zx_reduce zx_restore None zx_disk st' (elements (lit "psi") 1).
Proof.
  apply (C102_series Qco Z (Qco * Z) zx_reduce zx_restore zx_scan zx_open 5 zx_ds [lit "qdz"; lit "psi"] 1 (lit "psi") zx_disk None 1); [apply zx_ds_asked|apply zx_ds_request|apply zx_ds_s|apply zx_run|lia|lia|lia|reflexivity].
Qed.
Example C102_refused_ex : refused zx_scan [] /\ zx_qdz 0 [] [lit "qdz"; lit "psi"] 1 zx_disk = Some (Ok (zx_disk, false)).
Proof.
  assert (H : refused zx_scan []) by (apply (rf_method Qco zx_scan [] zx_small 4 (lit "m")); [intros (v & [])|apply zx_numbers; intros (v & [])|apply (zx_default [] "m"%char); intros (v & [])|discriminate|discriminate]).
  split; [exact H|]. eapply refused_run; [|exact H]. apply zx_asked. intros (v & []).
Qed.

(** Findings. *)
Theorem C102_default_refuted : ~ C102_default.
Proof.
  intros H. destruct (H Qco Z (Qco * Z)%type zx_reduce zx_restore zx_scan zx_open 0%nat (lit "psi") zx_disk zx_small eq_refl zx_pos zx_lt zx_psi eq_refl) as (st' & E & _).
  rewrite (proj2 C102_refused_ex) in E. discriminate E.
Qed.
Print Assumptions C102_default_refuted.
Theorem C102_bzip_refuted : ~ C102_bzip.
Proof.
  intros H. destruct (H Qco Z (Qco * Z)%type zx_reduce zx_restore zx_scan zx_open 0%nat (zx_m "j") [lit "qdz"; lit "psi"] 1%nat (lit "psi") zx_disk (Some (oabs zx_small))) as (st' & r & E & G);
    [apply zx_asked, zx_not; discriminate|apply zx_not; discriminate|apply zx_not; discriminate| |apply zx_request; auto|apply zx_psi|reflexivity|].
  - left. exists (lit "j"). split; [apply zx_last|]. split; [discriminate|reflexivity].
  - destruct (C102_single Qco Z (Qco * Z) zx_reduce zx_restore zx_scan zx_open 0 (zx_m "j") [lit "qdz"; lit "psi"] 1 (lit "psi") zx_disk (Some (oabs zx_small))) as (st2 & E2 & C & _);
      [apply zx_asked, zx_not; discriminate|apply zx_request; auto|apply zx_not; discriminate|apply zx_psi|reflexivity|].
    rewrite E in E2. injection E2 as <-. destruct (C _ eq_refl) as (v & _ & G2). rewrite G in G2. discriminate G2.
Qed.
Print Assumptions C102_bzip_refuted.
Definition zx_zero : list (ascii * str) := [("l"%char, lit "0"); ("m"%char, lit "z")].
Lemma zx_zero_not c : c <> "l"%char -> c <> "m"%char -> ~ given zx_zero c.
Proof. intros A B (v & [E|[E|[]]]); injection E as E _; congruence. Qed.
Lemma zx_zero_numbers : numbers zx_scan zx_zero zx_small 0.
Proof.
  split; [exists (lit "1e-5"); split; [apply (zx_default zx_zero "t"%char), zx_zero_not; discriminate|reflexivity]|]. exists (lit "0"). split.
  - left. exists (lit "0"). split; [apply (lv_here [] [("m"%char, lit "z")] "l"%char), zx_not; discriminate|]. split; [discriminate|reflexivity].
  - split; [exact (dec_print_Z_begins 0 [] ltac:(discriminate))|unfold int32; lia].
Qed.
Theorem C102_level0_refuted : ~ C102_level0.
Proof.
  intros H. assert (A : asked zx_zero [lit "qdz"; lit "psi"] 1 (lit "psi")) by (apply zx_asked, zx_zero_not; discriminate).
  destruct (H Qco Z (Qco * Z)%type zx_reduce zx_restore zx_scan zx_open 0%nat zx_zero [lit "qdz"; lit "psi"] 1%nat (lit "psi") zx_disk zx_small A) as (st' & E);
    [apply zx_zero_not; discriminate|apply zx_zero_not; discriminate| |apply zx_zero_numbers|apply zx_le|apply zx_psi|reflexivity|].
  - left. exists (lit "z"). split; [apply (lv_here [("l"%char, lit "0")] [] "m"%char); intros (v & [])|]. split; [discriminate|reflexivity].
  - rewrite (C102_refused Qco Z (Qco * Z) zx_reduce zx_restore zx_scan zx_open 0 zx_zero _ _ _ zx_disk A) in E; [discriminate E|].
    apply (rf_level Qco zx_scan zx_zero zx_small 0); [apply zx_zero_not; discriminate|apply zx_zero_numbers|lia].
Qed.
Print Assumptions C102_level0_refuted.
Definition zx_minus : list (ascii * str) := [("t"%char, lit "-5"); ("m"%char, lit "z")].
Lemma zx_minus_not c : c <> "t"%char -> c <> "m"%char -> ~ given zx_minus c.
Proof. intros A B (v & [E|[E|[]]]); injection E as E _; congruence. Qed.
Lemma zx_minus_le : ~ olt c1 (copp zx_five).
Proof. intros H. discriminate H. Qed.
Lemma zx_minus_request : request zx_scan zx_minus (Some (oabs (copp zx_five))).
Proof.
  apply (rq_pack Qco zx_scan zx_minus (copp zx_five) 4 (lit "z")); [apply zx_minus_not; discriminate| |exact zx_minus_le|lia| |auto].
  - split; [exists (lit "-5"); split; [|reflexivity]|].
    + left. exists (lit "-5"). split; [apply (lv_here [] [("m"%char, lit "z")] "t"%char), zx_not; discriminate|]. split; [discriminate|reflexivity].
    + exists (lit "4"). split; [apply (zx_default zx_minus "l"%char), zx_minus_not; discriminate|]. split; [apply zx_four|unfold int32; lia].
  - left. exists (lit "z"). split; [apply (lv_here [("t"%char, lit "-5")] [] "m"%char); intros (v & [])|]. split; [discriminate|reflexivity].
Qed.
Lemma zx_abs_five : olt c1 (oabs (copp zx_five)).
Proof. unfold oabs. destruct (ocmp (copp zx_five) c0) as [[H|H]|H]; [reflexivity| |]; discriminate H. Qed.
Theorem C102_tolerance_refuted : ~ C102_tolerance.
Proof.
  intros H. assert (A : asked zx_minus [lit "qdz"; lit "psi"] 1 (lit "psi")) by (apply zx_asked, zx_minus_not; discriminate).
  assert (Ns : ~ given zx_minus "s"%char) by (apply zx_minus_not; discriminate).
  destruct (C102_single Qco Z (Qco * Z) zx_reduce zx_restore zx_scan zx_open 0 zx_minus _ _ _ zx_disk _ A zx_minus_request Ns zx_psi eq_refl) as (st' & E & C & _).
  destruct (C _ eq_refl) as (v & Hv & G).
  destruct (H Qco Z (Qco * Z)%type zx_reduce zx_restore zx_scan zx_open 0%nat zx_minus _ _ _ zx_disk st' v A) as (tol & L & G2); [apply zx_minus_not; discriminate|exact Ns|exact Hv|exact E|].
  rewrite G2 in G. injection G as G. subst tol. pose proof zx_abs_five as Lt. destruct L as [L|L].
  - exact (olt_irr _ _ (olt_tr _ _ _ _ L Lt)).
  - rewrite <- L in Lt at 1. exact (olt_irr _ _ Lt).
Qed.
Print Assumptions C102_tolerance_refuted.
Theorem C102_status_refuted : ~ C102_status.
Proof.
  intros H. destruct (H Qco Z (Qco * Z)%type zx_reduce zx_restore zx_scan zx_open 0%nat [] [lit "qdz"] 1%nat zx_disk zx_disk) as (f & _ & E); [intros (v & [])|apply not_asked; right; reflexivity|discriminate E].
Qed.
Print Assumptions C102_status_refuted.
Theorem C102_complete_refuted : ~ C102_complete.
Proof.
  intros H. destruct C102_series_ex as (st' & E & _).
  destruct (H Qco Z (Qco * Z)%type zx_reduce zx_restore zx_scan zx_open 5%nat zx_ds _ _ _ zx_disk st' None 1 zx_ds_asked zx_ds_request zx_ds_s E) as (v & Hv & _); [lia|vm_compute; discriminate|].
  destruct zx_run as [_ N]. apply N. exists v. exact Hv.
Qed.
Print Assumptions C102_complete_refuted.
