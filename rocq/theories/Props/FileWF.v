(** Property C24: multi state wave functions survive the stream format. *)
From Coq Require Import List ZArith Lia Bool.
From Verif Require Import Base Arrays Model.Serial Model.FileWF Spec.FileWF Proofs.FileWF.
Import ListNotations.
Open Scope Z_scope.

(** The full property: every wave function that is written comes back when it is read into a wave function of the same classes and numbers
    of states, and the stream is left after it. *)
Definition C24_full : Prop := forall D C cls ser des enc dec, coded D C cls ser des enc dec -> forall w, stated D w ->
  exists e, write D C cls ser enc w false fresh_out = Ok (mkOut e false) /\
    forall w0 m rest, like D C cls w0 w -> exists m', read D C cls des dec w0 (at_start C (e ++ rest) m) = Ok (w, at_start C rest m').
(** It holds when only last states are multi state wave functions themselves. *)
Theorem C24_read_partial : forall D C cls ser des (blank : C -> D) enc dec, coded D C cls ser des enc dec -> forall w, spine D w ->
  exists e, write D C cls ser enc w false fresh_out = Ok (mkOut e false) /\
    forall w0 m rest, like D C cls w0 w -> exists m', read D C cls des dec w0 (at_start C (e ++ rest) m) = Ok (w, at_start C rest m').
Proof. exact round_read. Qed.
Print Assumptions C24_read_partial.
(** Loaded without a target: fewer than 64 states, none with more than one stride. *)
Theorem C24_load_partial : forall D C cls ser des blank enc dec, coded D C cls ser des enc dec -> forall w, spine D w -> addable D w ->
  exists e n0, write D C cls ser enc w false fresh_out = Ok (mkOut e false) /\
    forall n m rest, (n0 <= n)%nat -> exists m', load D C des blank dec n (at_start C (e ++ rest) m) = Ok (Some (w, at_start C rest m')).
Proof. exact round_load. Qed.
Print Assumptions C24_load_partial.
(** In particular any multi state wave function made of 1 to 63 single ones. *)
Theorem C24_flat : forall D w, flat D w -> spine D w /\ addable D w.
Proof. exact flat_spine. Qed.
Print Assumptions C24_flat.
(** Wave functions written one after the other into the same stream are read back one after the other. *)
Theorem C24_sequence : forall D C cls ser des (blank : C -> D) enc dec, coded D C cls ser des enc dec -> forall l, Forall (spine D) l -> forall p,
  exists e, write_seq D C cls ser enc l (mkOut p false) = Ok (mkOut (p ++ e) false) /\
    forall l0 m rest, Forall2 (like D C cls) l0 l -> exists m', read_seq D C cls des dec l0 (at_start C (e ++ rest) m) = Ok (l, at_start C rest m').
Proof. exact seq_read. Qed.
Print Assumptions C24_sequence.
(** A target with too few states: the states missing are accessed all the same. *)
Theorem C24_target_code : forall D C cls ser des (blank : C -> D) enc dec, coded D C cls ser des enc dec -> forall l k m rest e, spine D (Multi D l) -> Forall (is_single D) k ->
  (0 < length k < length l)%nat -> Forall2 (like D C cls) k (firstn (length k) l) ->
  write D C cls ser enc (Multi D l) false fresh_out = Ok (mkOut e false) -> read D C cls des dec (Multi D k) (at_start C (e ++ rest) m) = UB.
Proof. exact target_short. Qed.
Print Assumptions C24_target_code.
(** A wave function without states is refused by both. *)
Theorem C24_empty_code : forall D C cls ser des enc dec more s s', write D C cls ser enc (Multi D []) more s = Throw /\ read D C cls des dec (Multi D []) s' = Throw.
Proof. split; reflexivity. Qed.
Print Assumptions C24_empty_code.
(** The empty stream passes the test of the intro. *)
Theorem C24_intro_code : forall C m, check_intro C (at_start C [] m) = Ok (mkIn C [] true m).
Proof. reflexivity. Qed.
Print Assumptions C24_intro_code.

(** Otherwise it is exact: the text with its zero and version 1. *)
Theorem C24_intro : forall C b m s, 16 <= zlen b ->
  (check_intro C (at_start C b m) = Ok s <-> s = mkIn C (skipn 16 b) true m /\ firstn 12 b = (magic ++ [0])%list /\ unle (firstn 4 (skipn 12 b)) = 1).
Proof. exact intro_exact. Qed.
Print Assumptions C24_intro.
(** A stream that ends within a header: what is missing is taken from uninitialised memory. *)
Theorem C24_truncated_code : forall D C cls des (enc : header C -> list byte) dec, (forall h, zlen (enc h) < 256 ^ 4) -> forall d h k m, (k < length (enc h))%nat ->
  read D C cls des dec (Single D d) (at_start C (intro ++ le 4 (zlen (enc h)) ++ firstn k (enc h)) m) = UB.
Proof. exact header_cut. Qed.
Print Assumptions C24_truncated_code.

(** Wave functions of one byte. *)
Definition fx_cls (_ : Z) : unit := tt.
Definition fx_ser (d : Z) : list byte := [d].
Definition fx_des (_ : unit) (l : list byte) : outcome (Z * list byte) := match l with [] => Throw | b :: t => Ok (b, t) end.
Definition fx_enc (h : header unit) : list byte := [if h_more unit h then 1 else 0; match h_class unit h with Some _ => 1 | None => 0 end; h_size unit h].
Definition fx_dec (l : list byte) : option (header unit) := match l with [a; b; c] => Some (mkH unit (a =? 1) (if b =? 1 then Some tt else None) c) | _ => None end.
Lemma fx_coded : coded Z unit fx_cls fx_ser fx_des fx_enc fx_dec.
Proof.
  split; [|split; [|split]].
  - intros [[] [[]|] n]; reflexivity.
  - intros h. vm_compute. reflexivity.
  - reflexivity.
  - intros d. vm_compute. reflexivity.
Qed.
Notation fx_write := (write Z unit fx_cls fx_ser fx_enc).
Notation fx_read := (read Z unit fx_cls fx_des fx_dec).
Notation fx_load := (load Z unit fx_des (fun _ => 0) fx_dec).
Definition fx_m : header unit := mkH unit false None 0.
Notation fx_s := (Single Z).
Notation fx_mm := (Multi Z).
(** A state of two states in front of another state: everything after the inner states is taken for a state of the inner one. *)
Theorem C24_nested_refuted : ~ C24_full.
Proof.
  intros H. destruct (H Z unit fx_cls fx_ser fx_des fx_enc fx_dec fx_coded (fx_mm [fx_mm [fx_s 5]; fx_s 7])) as (e & W & R).
  - cbn. repeat split; discriminate.
  - assert (E : fx_write (fx_mm [fx_mm [fx_s 5]; fx_s 7]) false fresh_out = Ok (mkOut e false)) by exact W. vm_compute in E. injection E; intros <-. clear E W.
    destruct (R (fx_mm [fx_mm [fx_s 0]; fx_s 0]) fx_m []) as (m' & E); [cbn; repeat split; reflexivity|]. vm_compute in E. discriminate E.
Qed.
Print Assumptions C24_nested_refuted.
(** Loading it throws or reads another wave function. *)
Theorem C24_nested_load_code : match fx_write (fx_mm [fx_mm [fx_s 5]; fx_s 7]) false fresh_out with Ok o => fx_load 20 (at_start unit (o_bytes o) fx_m) = Throw | _ => False end.
Proof. vm_compute. reflexivity. Qed.
Print Assumptions C24_nested_load_code.
Example C24_ex_stream : fx_write (fx_mm [fx_s 5; fx_s 7]) false fresh_out = Ok (mkOut (intro ++ [3; 0; 0; 0; 1; 0; 4; 2; 0; 0; 0] ++ [3; 0; 0; 0; 1; 1; 1; 5] ++ [3; 0; 0; 0; 0; 1; 1; 7]) false).
Proof. vm_compute. reflexivity. Qed.
Example C24_ex_read : match fx_write (fx_mm [fx_s 5; fx_mm [fx_s 9; fx_s 8]]) false fresh_out with
  | Ok o => fx_read (fx_mm [fx_s 0; fx_mm [fx_s 0; fx_s 0]]) (at_start unit (o_bytes o ++ [42]) fx_m) = Ok (fx_mm [fx_s 5; fx_mm [fx_s 9; fx_s 8]], at_start unit [42] (mkH unit false (Some tt) 1))
  | _ => False end.
Proof. vm_compute. reflexivity. Qed.
Example C24_ex_spine : spine Z (fx_mm [fx_s 5; fx_mm [fx_s 9; fx_s 8]]) /\ flat Z (fx_mm [fx_s 9; fx_s 8]).
Proof. split; [cbn; tauto|]. split; [discriminate|]. split; [reflexivity|]. repeat constructor. Qed.
Example C24_ex_load : match fx_write (fx_mm [fx_s 5; fx_s 7]) false fresh_out with
  | Ok o => fx_load 5 (at_start unit (o_bytes o ++ [42]) fx_m) = Ok (Some (fx_mm [fx_s 5; fx_s 7], at_start unit [42] (mkH unit false (Some tt) 1)))
  | _ => False end.
Proof. vm_compute. reflexivity. Qed.
Example C24_ex_target : match fx_write (fx_mm [fx_s 5; fx_s 7]) false fresh_out with
  | Ok o => fx_read (fx_mm [fx_s 0]) (at_start unit (o_bytes o) fx_m) = UB
  | _ => False end.
Proof. vm_compute. reflexivity. Qed.
Example C24_ex_intro : check_intro unit (at_start unit (magic ++ [0; 2; 0; 0; 0]) fx_m) = Throw /\ check_intro unit (at_start unit (magic ++ [32; 1; 0; 0; 0]) fx_m) = Throw /\
  check_intro unit (at_start unit (magic ++ [0; 1; 0; 0; 0; 9]) fx_m) = Ok (mkIn unit [9] true fx_m).
Proof. vm_compute. repeat split. Qed.
