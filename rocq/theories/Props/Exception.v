(** C111: the messages of errors. *)
From Coq Require Import Ascii String List ZArith QArith Qabs Lia Bool.
From Verif Require Import Base Model.Doubles Model.Exception Spec.Exception Spec.Params Spec.Doubles Proofs.Exception.
Import ListNotations.
Open Scope Z_scope.
Open Scope list_scope.

(** [told x]: the texts the error x was made from; [in_order m l]: the texts of l occur in m one after the other; [readable x]: the texts have no zero characters *)

(** ** Every text an error is made from is in its message *)
Definition C111_shown : Prop := forall x, readable x -> in_order (message x) (told x).
(** the missing parameters are kept where nobody can read them *)
Theorem C111_shown_refuted : ~ C111_shown.
Proof.
  intros H. specialize (H (Missing [(lit "size", [])] None)). destruct H as (a & b & E & _).
  - constructor; [|constructor]. apply lacks_lit. reflexivity.
  - cbn [message] in E. symmetry in E. apply app_eq_nil in E. destruct E as [_ E]. discriminate.
Qed.
Print Assumptions C111_shown_refuted.
(** all others *)
Theorem C111_shown_partial : forall x, readable x -> names_none x -> in_order (message x) (told x).
Proof. exact shown. Qed.
Print Assumptions C111_shown_partial.
Example C111_shown_ex : let x := Incompatible2 (lit "Incompatible in assignment") (lit "WFLevel") (lit "WFGridCartesian") in
  readable x /\ names_none x /\ message x = lit "Incompatible in assignment: WFLevel <-> WFGridCartesian".
Proof. split; [repeat constructor; apply lacks_lit; reflexivity|]. split; [exact I|]. reflexivity. Qed.
(** the names of the missing parameters change nothing *)
Theorem C111_missing_code : forall l l' m, message (Missing l m) = message (Missing l' m).
Proof. reflexivity. Qed.
Print Assumptions C111_missing_code.
Example C111_missing_ex : message (Missing [(lit "size", [])] (Some (lit "Missing size"))) = lit "Missing size". Proof. reflexivity. Qed.

(** ** The texts can be told from each other *)
Theorem C111_file : forall m f m' f', lacks "000"%char m -> lacks "000"%char m' -> lacks ":"%char m -> lacks ":"%char m' -> message (IOFile m f) = message (IOFile m' f') -> m = m' /\ f = f'.
Proof. exact file_unique. Qed.
Print Assumptions C111_file.
Example C111_file_ex : lacks "000"%char (lit "Can not open file") /\ lacks ":"%char (lit "Can not open file") /\ message (IOFile (lit "Can not open file") (lit "a: b")) = lit "Can not open file: a: b".
Proof. split; [apply lacks_lit; reflexivity|]. split; [apply lacks_lit; reflexivity|reflexivity]. Qed.
Theorem C111_incompatible : forall m n m' n', readable (Incompatible m n) -> readable (Incompatible m' n') -> lacks ":"%char m -> lacks ":"%char m' ->
  message (Incompatible m n) = message (Incompatible m' n') -> m = m' /\ n = n'.
Proof. exact incomp_unique. Qed.
Print Assumptions C111_incompatible.
Theorem C111_incompatible2 : forall m a b m' a' b', readable (Incompatible2 m a b) -> readable (Incompatible2 m' a' b') -> lacks ":"%char m -> lacks ":"%char m' -> lacks "<"%char a -> lacks "<"%char a' ->
  message (Incompatible2 m a b) = message (Incompatible2 m' a' b') -> m = m' /\ a = a' /\ b = b'.
Proof. exact incomp2_unique. Qed.
Print Assumptions C111_incompatible2.
Example C111_incompatible_ex : let m := lit "Can't copy" in let a := lit "OSum" in let b := lit "OSIL" in
  readable (Incompatible m a) /\ readable (Incompatible2 m a b) /\ lacks ":"%char m /\ lacks "<"%char a /\ message (Incompatible m a) = lit "Can't copy: OSum" /\ message (Incompatible2 m a b) = lit "Can't copy: OSum <-> OSIL".
Proof. cbv zeta. split; [repeat constructor; apply lacks_lit; reflexivity|]. split; [repeat constructor; apply lacks_lit; reflexivity|]. split; [apply lacks_lit; reflexivity|]. split; [apply lacks_lit; reflexivity|]. split; reflexivity. Qed.
Theorem C111_class : forall t n t' n', readable (WrongClass t n) -> readable (WrongClass t' n') -> lacks ":"%char t -> lacks ":"%char t' ->
  message (WrongClass t n) = message (WrongClass t' n') -> t = t' /\ n = n'.
Proof. exact class_unique. Qed.
Print Assumptions C111_class.
Example C111_class_ex : readable (WrongClass (lit "OGridPML") (lit "OSum")) /\ lacks ":"%char (lit "OGridPML") /\ message (WrongClass (lit "OGridPML") (lit "OSum")) = lit "Class not of type OGridPML: OSum".
Proof. split; [repeat constructor; apply lacks_lit; reflexivity|]. split; [apply lacks_lit; reflexivity|reflexivity]. Qed.
(** a parameter's text follows without anything in between *)
Definition C111_param : Prop := forall m r m' r', readable (ParamText m r) -> readable (ParamText m' r') -> lacks ":"%char m -> lacks ":"%char m' -> message (ParamText m r) = message (ParamText m' r') -> m = m' /\ r = r'.
Theorem C111_param_refuted : ~ C111_param.
Proof.
  intros H. destruct (H (lit "Unknown laser type") (lit "s2") (lit "Unknown laser types") (lit "2")) as [E _]; [repeat constructor; apply lacks_lit; reflexivity..|apply lacks_lit; reflexivity|apply lacks_lit; reflexivity|reflexivity|discriminate].
Qed.
Print Assumptions C111_param_refuted.
Theorem C111_param_partial : forall m r r', message (ParamText m r) = message (ParamText m r') -> r = r'.
Proof. exact text_unique. Qed.
Print Assumptions C111_param_partial.
Example C111_param_ex : message (ParamText (lit "Unknown laser type") (lit "pulse")) = lit "Unknown laser typepulse". Proof. reflexivity. Qed.

(** ** Numbers *)
Theorem C111_int : forall m z, exists a s, message (ParamInt m z) = a ++ s /\ begins_with_int s z.
Proof. exact int_shown. Qed.
Print Assumptions C111_int.
Theorem C111_int_unique : forall m z m' z', int32 z -> int32 z' -> lacks "000"%char m -> lacks "000"%char m' -> lacks ":"%char m -> lacks ":"%char m' ->
  message (ParamInt m z) = message (ParamInt m' z') -> m = m' /\ z = z'.
Proof. exact int_unique. Qed.
Print Assumptions C111_int_unique.
Example C111_int_ex : int32 (-3) /\ message (ParamInt (lit "Invalid FD derivative") (-3)) = lit "Invalid FD derivative: -3".
Proof. split; [split; discriminate|reflexivity]. Qed.
(** doubles: the closest number with six digits *)
Theorem C111_double : forall m x, is_double x -> exists a s q, message (ParamDouble m x) = a ++ s /\ numeral s q /\ six_digits q /\ (forall r, six_digits r -> Qabs (value x - q) <= Qabs (value x - r))%Q.
Proof. exact double_shown. Qed.
Print Assumptions C111_double.
Example C111_double_ex : is_double (mkD true (5 * 2 ^ 50) (-51)) /\ message (ParamDouble (lit "Laser field got a non-sense dt: ") (mkD true (5 * 2 ^ 50) (-51))) = lit "Laser field got a non-sense dt: : -2.5".
Proof. split; [left; vm_compute; split; split; discriminate || reflexivity|vm_compute; reflexivity]. Qed.
Definition C111_double_unique : Prop := forall m x x', is_double x -> is_double x' -> message (ParamDouble m x) = message (ParamDouble m x') -> x = x'.
(** 1000001 is told as 1e+06 *)
Theorem C111_double_refuted : ~ C111_double_unique.
Proof.
  intros H. specialize (H [] (mkD false (1000001 * 2 ^ 33) (-33)) (mkD false (1000000 * 2 ^ 33) (-33))).
  assert (E : mkD false (1000001 * 2 ^ 33) (-33) = mkD false (1000000 * 2 ^ 33) (-33)).
  { apply H; [left; vm_compute; split; split; discriminate || reflexivity..|]. vm_compute. reflexivity. }
  apply (f_equal d_m) in E. vm_compute in E. discriminate.
Qed.
Print Assumptions C111_double_refuted.

(** ** Errors of the system *)
Definition C111_errno : Prop := forall e n e' n', message (IOSys e n) = message (IOSys e' n') -> e = e' /\ n = n'.
(** a file that is missing (2) and one that is a directory (21) *)
Theorem C111_errno_refuted : ~ C111_errno.
Proof. intros H. destruct (H 2 (lit "f") 21 (lit "f") eq_refl) as [E _]. discriminate. Qed.
Print Assumptions C111_errno_refuted.
(** exactly the errors with a text of their own are told from others; the file always is *)
Theorem C111_errno_code : forall e n e' n', message (IOSys e n) = message (IOSys e' n') <-> n = n' /\ (e = e' \/ (~ In e io_known /\ ~ In e' io_known)).
Proof. exact io_unique. Qed.
Print Assumptions C111_errno_code.
Example C111_errno_ex : map (fun e => message (IOSys e (lit "f"))) [2; 5; 13; 17; 20; 28; 30; 36] =
  map lit ["Error in accessing file: f"; "I/O read error: f"; "Access denied: f"; "File exists: f"; "Path does not exist: f"; "No space left on device: f"; "Access to read-only fs: f"; "File name too long: f"]%string.
Proof. reflexivity. Qed.
Theorem C111_memory_code : forall e e' m, message (MemSys e m) = message (MemSys e' m) <-> e = e' \/ (~ In e mem_known /\ ~ In e' mem_known).
Proof. exact mem_unique. Qed.
Print Assumptions C111_memory_code.
Example C111_memory_ex : map (fun e => message (MemSys e (lit "map"))) [12; 22; 13] = map lit ["map - Out of memory"; "map - EINVAL"; "map - Error in system call"]%string.
Proof. reflexivity. Qed.

(** ** Zero characters end a name that is passed on as a pointer, and only those *)
Theorem C111_cut_code : forall m a b, lacks "000"%char m -> lacks "000"%char a ->
  message (Incompatible m (a ++ "000"%char :: b)) = message (Incompatible m a) /\ message (IOFile m (a ++ "000"%char :: b)) = message (IOFile m a) ++ "000"%char :: b.
Proof.
  intros m a b M A. cbn [message]. rewrite !(c_str_id m M). split; [|rewrite <- !app_assoc; reflexivity].
  assert (Z : lacks "000"%char (m ++ lit ": " ++ a)) by (apply lacks_app; [exact M|apply lacks_app; [apply lacks_lit; reflexivity|exact A]]).
  rewrite (c_str_id _ Z). rewrite !app_assoc. rewrite <- (app_assoc m). apply (c_str_cut _ b Z).
Qed.
Print Assumptions C111_cut_code.
Example C111_cut_ex : message (Incompatible (lit "m") (lit "a" ++ "000"%char :: lit "b")) = lit "m: a". Proof. reflexivity. Qed.
