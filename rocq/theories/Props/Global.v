(** C112: the configuration files. *)
From Coq Require Import Ascii String List ZArith Lia Bool Arith.
From Verif Require Import Base Model.Params Spec.Params Model.Global Spec.Global Proofs.Global.
From Verif Require Proofs.Params.
Import ListNotations.
Open Scope list_scope.

(** [starts home fs r]: the first call of Instance ends with r, home being the variable HOME and fs the files; [settings f c]: f has the settings c, none if there is
    no such file; [layered c own home]: c has the settings own and, where those are silent, home; [Regular read write text] *)

Definition file_of (k v : string) : file := Regular true true (lit k ++ lit " = " ++ lit v ++ [nl]).
Definition both : filesystem := fun n => if str_eqb n (lit "/h/.qdconfig") then file_of "nthreads" "4" else if str_eqb n here then file_of "debug" "yes" else Absent.
Definition one (k v : string) : container := set_value empty_c (lit k) (lit v) t_undef.
Lemma reads k v fuel c : parse fuel empty_c None (stream_of (lit k ++ lit " = " ++ lit v ++ [nl])) = Some (Ok c) -> parses_to (lit k ++ lit " = " ++ lit v ++ [nl]) None (Ok (fst c)).
Proof. intros H. exists fuel, (Ok c). split; [exact H|]. destruct c. reflexivity. Qed.

(** ** Settings of the current directory go before those of the home directory *)
Definition C112_layers : Prop := forall h fs own home, settings (fs here) own -> settings (fs (in_home h)) home -> may_write (fs here) -> may_write (fs (in_home h)) ->
  exists c, starts (Some h) fs (Ok c) /\ layered c own home.
(** reading the second file removes the settings of the first *)
Theorem C112_layers_refuted : ~ C112_layers.
Proof.
  intros H. assert (A : settings (both here) (one "debug" "yes")) by (apply (reads "debug" "yes" 4 (one "debug" "yes", mkIS [] true true)); vm_compute; reflexivity).
  assert (B : settings (both (in_home (lit "/h"))) (one "nthreads" "4")) by (apply (reads "nthreads" "4" 4 (one "nthreads" "4", mkIS [] true true)); vm_compute; reflexivity).
  destruct (H (lit "/h") both _ _ A B eq_refl eq_refl) as (c & S & L).
  assert (E : starts (Some (lit "/h")) both (Ok (one "debug" "yes"))) by (exists 4; vm_compute; reflexivity).
  pose proof (starts_det _ _ _ _ S E) as K. injection K as ->. specialize (L (lit "nthreads")). vm_compute in L. discriminate.
Qed.
Print Assumptions C112_layers_refuted.
(** with one of the files, or if the one in the current directory sets everything *)
Theorem C112_layers_partial : forall h fs own home, settings (fs here) own -> settings (fs (in_home h)) home -> may_write (fs here) -> may_write (fs (in_home h)) ->
  (no_file (fs here) \/ forall k, get_value home k <> None -> get_value own k <> None) -> exists c, starts (Some h) fs (Ok c) /\ layered c own home.
Proof. exact layers. Qed.
Print Assumptions C112_layers_partial.
Definition home_file : filesystem := fun n => if str_eqb n (lit "/h/.qdconfig") then file_of "nthreads" "4" else Absent.
Example C112_layers_ex : settings (home_file here) empty_c /\ settings (home_file (in_home (lit "/h"))) (one "nthreads" "4") /\ no_file (home_file here) /\ starts (Some (lit "/h")) home_file (Ok (one "nthreads" "4")).
Proof.
  split; [reflexivity|]. split; [apply (reads "nthreads" "4" 4 (one "nthreads" "4", mkIS [] true true)); vm_compute; reflexivity|]. split; [left; reflexivity|]. exists 4. vm_compute. reflexivity.
Qed.
(** the outcome is always that of the file in the current directory alone *)
Theorem C112_local_code : forall h fs home text r, settings (fs (in_home h)) home -> may_write (fs (in_home h)) -> fs here = Regular true true text -> parses_to text None r -> starts (Some h) fs r.
Proof. exact local_wins. Qed.
Print Assumptions C112_local_code.
Theorem C112_home : forall h fs text r, fs (in_home h) = Regular true true text -> parses_to text None r -> no_file (fs here) -> starts (Some h) fs r.
Proof. exact home_only. Qed.
Print Assumptions C112_home.
Theorem C112_nothing : forall h fs, no_file (fs (in_home h)) -> no_file (fs here) -> starts (Some h) fs (Ok empty_c).
Proof. exact nothing. Qed.
Print Assumptions C112_nothing.
Example C112_nothing_ex : let fs n := if str_eqb n here then NotRegular else Absent in no_file (fs (in_home (lit "/h"))) /\ no_file (fs here). Proof. split; [left|right]; reflexivity. Qed.
(** there is one outcome *)
Theorem C112_one : forall h fs r r', starts h fs r -> starts h fs r' -> r = r'.
Proof. exact starts_det. Qed.
Print Assumptions C112_one.

(** ** A file that can be read is read *)
Definition C112_read : Prop := forall h fs own, settings (fs here) own -> no_file (fs (in_home h)) -> starts (Some h) fs (Ok own).
(** not if it must not be written *)
Theorem C112_read_refuted : ~ C112_read.
Proof.
  intros H. pose (fs := fun n => if str_eqb n here then Regular true false (lit "debug" ++ lit " = " ++ lit "yes" ++ [nl]) else Absent).
  assert (A : settings (fs here) (one "debug" "yes")) by (apply (reads "debug" "yes" 4 (one "debug" "yes", mkIS [] true true)); vm_compute; reflexivity).
  assert (E : starts (Some (lit "/h")) fs (Ok empty_c)) by (exists 4; vm_compute; reflexivity).
  pose proof (starts_det _ _ _ _ (H (lit "/h") fs _ A (or_introl eq_refl)) E) as K. discriminate.
Qed.
Print Assumptions C112_read_refuted.
Theorem C112_read_partial : forall h fs own, settings (fs here) own -> may_write (fs here) -> no_file (fs (in_home h)) -> starts (Some h) fs (Ok own).
Proof.
  intros h fs own S W N. destruct (fs here) as [| | |[|] w t] eqn:E; cbn in S, W; try contradiction; subst.
  - apply nothing; [exact N|left; exact E].
  - apply nothing; [exact N|right; exact E].
  - apply (local_wins h fs empty_c t (Ok own)); [destruct N as [-> | ->]; reflexivity|destruct N as [-> | ->]; exact I|exact E|exact S].
Qed.
Print Assumptions C112_read_partial.
(** such files are passed over without a word *)
Theorem C112_ignored_code : forall fs n fuel c r w t, fs n = Regular r w t -> r && w = false -> look fuel fs n c = Some (Ok c).
Proof. intros fs n fuel c r w t. apply look_ignored. Qed.
Print Assumptions C112_ignored_code.
Example C112_ignored_ex : look 4 (fun _ => Regular true false (lit "a = b")) here (one "k" "v") = Some (Ok (one "k" "v")). Proof. reflexivity. Qed.

(** ** Starting is defined *)
Definition C112_defined : Prop := forall h fs, ~ starts h fs UB.
(** not without the variable HOME *)
Theorem C112_defined_refuted : ~ C112_defined.
Proof. intros H. apply (H None (fun _ => Absent)). exists 0. reflexivity. Qed.
Print Assumptions C112_defined_refuted.
Theorem C112_unset_code : forall fs r, starts None fs r <-> r = UB.
Proof. intros fs r. split; [intros (f & E); cbn in E; congruence|intros ->; exists 0; reflexivity]. Qed.
Print Assumptions C112_unset_code.
Theorem C112_defined_partial : forall h fs, ~ starts (Some h) fs UB.
Proof. exact defined. Qed.
Print Assumptions C112_defined_partial.
(** a directory that cannot be looked at ends the program *)
Theorem C112_broken_code : forall h fs, fs (in_home h) = Broken -> starts (Some h) fs Throw.
Proof. intros h fs E. exists 0. unfold instance. rewrite names, look_broken by exact E. reflexivity. Qed.
Print Assumptions C112_broken_code.
Example C112_broken_ex : starts (Some (lit "/dev/null")) (fun n => if str_eqb n (lit "/dev/null/.qdconfig") then Broken else Absent) Throw.
Proof. apply C112_broken_code. reflexivity. Qed.

(** ** Everybody sees the same parameters until they are destroyed, whatever happens to the files *)
Theorem C112_once : forall fuel h fs l c, (forall o, In o l -> o <> Destroy) -> instance fuel h fs None = Some (Ok c) ->
  calls fuel (Instance h fs :: l) None = Some (Ok (repeat c (S (length l)))).
Proof. intros fuel h fs l c N E. cbn [calls]. rewrite E, (later fuel l c N). reflexivity. Qed.
Print Assumptions C112_once.
Example C112_once_ex : calls 4 [Instance (Some (lit "/h")) home_file; Instance None both; Destroy; Instance (Some (lit "/h")) both] None = Some (Ok [one "nthreads" "4"; one "nthreads" "4"; one "debug" "yes"]).
Proof. vm_compute. reflexivity. Qed.
(** afterwards they are read anew *)
Theorem C112_again : forall fuel l ref, calls fuel (Destroy :: l) ref = calls fuel l None.
Proof. reflexivity. Qed.
Print Assumptions C112_again.
