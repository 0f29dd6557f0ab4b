From Coq Require Import Ascii String List ZArith QArith Qabs Lia Bool.
From Verif Require Import Base Model.Doubles Model.Exception Spec.Exception Spec.Params Spec.Doubles.
From Verif Require Proofs.Params Proofs.Doubles.
Import ListNotations.
Open Scope Z_scope.
Open Scope list_scope.

Lemma c_str_id s : lacks "000"%char s -> c_str s = s.
Proof.
  unfold lacks. induction s as [|c t IH]; intros H; [reflexivity|]. cbn [c_str]. destruct (Ascii.eqb_spec c zero_chr) as [->|N]; [elim H; left; reflexivity|].
  rewrite IH; [reflexivity|]. intros K. apply H. right. exact K.
Qed.
Lemma c_str_cut a b : lacks "000"%char a -> c_str (a ++ zero_chr :: b) = a.
Proof.
  unfold lacks. induction a as [|c t IH]; intros H; [reflexivity|]. cbn [c_str app]. destruct (Ascii.eqb_spec c zero_chr) as [->|N]; [elim H; left; reflexivity|].
  rewrite IH; [reflexivity|]. intros K. apply H. right. exact K.
Qed.
Lemma lacks_app c a b : lacks c a -> lacks c b -> lacks c (a ++ b).
Proof. unfold lacks. intros A B H. apply in_app_or in H. tauto. Qed.
Lemma lacks_lit c s : forallb (fun d => negb (Ascii.eqb c d)) (lit s) = true -> lacks c (lit s).
Proof. unfold lacks. rewrite forallb_forall. intros H K. apply H in K. rewrite Ascii.eqb_refl in K. discriminate. Qed.

(** the first occurrence of a character splits *)
Lemma first_split c a b a' b' : lacks c a -> lacks c a' -> a ++ c :: b = a' ++ c :: b' -> a = a' /\ b = b'.
Proof.
  unfold lacks. revert a'. induction a as [|x a IH]; intros [|y a'] H H' E; cbn in E.
  - injection E as ->. split; reflexivity.
  - injection E as -> _. elim H'. left. reflexivity.
  - injection E as -> _. elim H. left. reflexivity.
  - injection E as -> E. destruct (IH a') as [-> ->]; [intros K; apply H; right; exact K|intros K; apply H'; right; exact K|exact E|]. split; reflexivity.
Qed.
Lemma colon_split a b a' b' : lacks ":"%char a -> lacks ":"%char a' -> a ++ lit ": " ++ b = a' ++ lit ": " ++ b' -> a = a' /\ b = b'.
Proof. intros A A' E. destruct (first_split ":"%char a (" "%char :: b) a' (" "%char :: b') A A' E) as [-> K]. injection K as ->. split; reflexivity. Qed.
Lemma arrow_split a b a' b' : lacks "<"%char a -> lacks "<"%char a' -> a ++ lit " <-> " ++ b = a' ++ lit " <-> " ++ b' -> a = a' /\ b = b'.
Proof.
  intros A A' E. assert (K : (a ++ [" "%char]) ++ "<"%char :: lit "-> " ++ b = (a' ++ [" "%char]) ++ "<"%char :: lit "-> " ++ b') by (rewrite <- !app_assoc; exact E).
  apply first_split in K; [|apply lacks_app; [assumption|intros [H|[]]; discriminate]..]. destruct K as [K L]. apply app_inj_tail in K. destruct K as [-> _]. injection L as ->. split; reflexivity.
Qed.
Lemma c_str_lacks c s : lacks c s -> lacks c (c_str s).
Proof.
  unfold lacks. intros H K. apply H. clear H. induction s as [|x t IH]; [exact K|]. cbn [c_str] in K. destruct (Ascii.eqb x zero_chr); [elim K|].
  destruct K as [->|K]; [left; reflexivity|right; apply IH, K].
Qed.

Lemma shown x : readable x -> names_none x -> in_order (message x) (told x).
Proof.
  unfold readable, names_none. intros R N.
  assert (Z1 : lacks "000"%char (lit ": ")) by (apply lacks_lit; reflexivity).
  assert (Z2 : lacks "000"%char (lit " <-> ")) by (apply lacks_lit; reflexivity).
  assert (Z3 : lacks "000"%char (lit "Class not of type ")) by (apply lacks_lit; reflexivity).
  destruct x as [m| |l m|m r|m r|m r|e m|m f|e n|m n|m a b|t n]; cbn [told message in_order] in *.
  - inversion_clear R. rewrite c_str_id by assumption. exists [], []. rewrite app_nil_r. split; reflexivity || exact I.
  - exact I.
  - subst l. destruct m as [m|]; cbn in *; [|exact I]. inversion_clear R. rewrite c_str_id by assumption. exists [], []. rewrite app_nil_r. split; reflexivity || exact I.
  - inversion_clear R. rewrite c_str_id by assumption. exists [], r. split; [reflexivity|]. exists [], []. rewrite app_nil_r. split; reflexivity || exact I.
  - inversion_clear R. rewrite c_str_id by assumption. exists []. eexists. split; [reflexivity|exact I].
  - inversion_clear R. rewrite c_str_id by assumption. exists []. eexists. split; [reflexivity|exact I].
  - inversion_clear R. rewrite c_str_id by assumption. exists []. eexists. split; [reflexivity|exact I].
  - inversion_clear R. rewrite c_str_id by assumption. exists []. eexists. split; [reflexivity|]. exists (lit ": "), []. rewrite app_nil_r. split; reflexivity || exact I.
  - exists (io_text e ++ lit ": "), []. rewrite app_nil_r, app_assoc. split; reflexivity || exact I.
  - inversion_clear R as [|? ? A R']. inversion_clear R' as [|? ? B _]. rewrite (c_str_id m) by assumption. rewrite c_str_id by (repeat apply lacks_app; assumption).
    exists []. eexists. split; [reflexivity|]. exists (lit ": "), []. rewrite app_nil_r. split; reflexivity || exact I.
  - inversion_clear R as [|? ? A R']. inversion_clear R' as [|? ? B R]. inversion_clear R as [|? ? C _]. rewrite (c_str_id m) by assumption. rewrite c_str_id by (repeat apply lacks_app; assumption).
    exists []. eexists. split; [reflexivity|]. exists (lit ": "). eexists. split; [reflexivity|]. exists (lit " <-> "), []. rewrite app_nil_r. split; reflexivity || exact I.
  - inversion_clear R as [|? ? A R']. inversion_clear R' as [|? ? B _]. rewrite (c_str_id t) by assumption. rewrite c_str_id by (repeat apply lacks_app; assumption).
    exists (lit "Class not of type "). eexists. split; [reflexivity|]. exists (lit ": "), []. rewrite app_nil_r. split; reflexivity || exact I.
Qed.

Lemma file_unique m f m' f' : lacks "000"%char m -> lacks "000"%char m' -> lacks ":"%char m -> lacks ":"%char m' -> message (IOFile m f) = message (IOFile m' f') -> m = m' /\ f = f'.
Proof. cbn [message]. intros A B C D. rewrite !c_str_id by assumption. apply colon_split; assumption. Qed.
Lemma incomp_unique m n m' n' : readable (Incompatible m n) -> readable (Incompatible m' n') -> lacks ":"%char m -> lacks ":"%char m' ->
  message (Incompatible m n) = message (Incompatible m' n') -> m = m' /\ n = n'.
Proof.
  unfold readable. cbn [told message]. intros R R' C D. inversion_clear R as [|? ? A S]. inversion_clear S as [|? ? B _]. inversion_clear R' as [|? ? A' S]. inversion_clear S as [|? ? B' _].
  assert (Z1 : lacks "000"%char (lit ": ")) by (apply lacks_lit; reflexivity).
  rewrite (c_str_id m), (c_str_id m') by assumption. rewrite !c_str_id by (repeat apply lacks_app; assumption). apply colon_split; assumption.
Qed.
Lemma incomp2_unique m a b m' a' b' : readable (Incompatible2 m a b) -> readable (Incompatible2 m' a' b') -> lacks ":"%char m -> lacks ":"%char m' -> lacks "<"%char a -> lacks "<"%char a' ->
  message (Incompatible2 m a b) = message (Incompatible2 m' a' b') -> m = m' /\ a = a' /\ b = b'.
Proof.
  unfold readable. cbn [told message]. intros R R' C D P Q. inversion_clear R as [|? ? A S]. inversion_clear S as [|? ? B S']. inversion_clear S' as [|? ? G _].
  inversion_clear R' as [|? ? A' S]. inversion_clear S as [|? ? B' S']. inversion_clear S' as [|? ? G' _].
  assert (Z1 : lacks "000"%char (lit ": ")) by (apply lacks_lit; reflexivity). assert (Z2 : lacks "000"%char (lit " <-> ")) by (apply lacks_lit; reflexivity).
  rewrite (c_str_id m), (c_str_id m') by assumption. rewrite !c_str_id by (repeat apply lacks_app; assumption). intros E.
  apply colon_split in E; [|assumption..]. destruct E as [-> E]. apply arrow_split in E; [|assumption..]. destruct E as [-> ->]. repeat split.
Qed.
Lemma class_unique t n t' n' : readable (WrongClass t n) -> readable (WrongClass t' n') -> lacks ":"%char t -> lacks ":"%char t' ->
  message (WrongClass t n) = message (WrongClass t' n') -> t = t' /\ n = n'.
Proof.
  unfold readable. cbn [told message]. intros R R' C D. inversion_clear R as [|? ? A S]. inversion_clear S as [|? ? B _]. inversion_clear R' as [|? ? A' S]. inversion_clear S as [|? ? B' _].
  assert (Z1 : lacks "000"%char (lit ": ")) by (apply lacks_lit; reflexivity). assert (Z3 : lacks "000"%char (lit "Class not of type ")) by (apply lacks_lit; reflexivity).
  rewrite (c_str_id t), (c_str_id t') by assumption. rewrite !c_str_id by (repeat apply lacks_app; assumption). intros E. apply app_inv_head in E. apply colon_split in E; assumption.
Qed.
Lemma text_unique m r r' : message (ParamText m r) = message (ParamText m r') -> r = r'.
Proof. cbn [message]. apply app_inv_head. Qed.

(** numbers *)
Lemma int_shown m z : exists a s, message (ParamInt m z) = a ++ s /\ begins_with_int s z.
Proof. exists (c_str m ++ lit ": "), (dec_print_Z z). split; [cbn [message]; rewrite <- app_assoc; reflexivity|]. rewrite <- (app_nil_r (dec_print_Z z)). apply Proofs.Params.dec_print_Z_begins. discriminate. Qed.
Lemma dec_inj z z' : int32 z -> int32 z' -> dec_print_Z z = dec_print_Z z' -> z = z'.
Proof. intros A B E. apply Proofs.Params.scan_print in A, B. rewrite E, B in A. injection A as ->. reflexivity. Qed.
Lemma int_unique m z m' z' : int32 z -> int32 z' -> lacks "000"%char m -> lacks "000"%char m' -> lacks ":"%char m -> lacks ":"%char m' -> message (ParamInt m z) = message (ParamInt m' z') -> m = m' /\ z = z'.
Proof. cbn [message]. intros I I' A B C D. rewrite !c_str_id by assumption. intros E. apply colon_split in E; [|assumption..]. destruct E as [-> E]. split; [reflexivity|apply dec_inj; assumption]. Qed.
Lemma double_shown m x : is_double x -> exists a s q, message (ParamDouble m x) = a ++ s /\ numeral s q /\ six_digits q /\ (forall r, six_digits r -> Qabs (value x - q) <= Qabs (value x - r))%Q.
Proof. intros H. destruct (Proofs.Doubles.print_spec x H) as (q & N & S & B). exists (c_str m ++ lit ": "), (print_g x), q. split; [cbn [message]; rewrite <- app_assoc; reflexivity|]. split; [exact N|split; [exact S|exact B]]. Qed.

(** system errors *)
Lemma io_text_colon e : lacks ":"%char (io_text e).
Proof. unfold io_text. repeat match goal with |- context [if ?b then _ else _] => destruct b end; apply lacks_lit; reflexivity. Qed.
Lemma io_text_eq e e' : io_text e = io_text e' <-> e = e' \/ (~ In e io_known /\ ~ In e' io_known).
Proof.
  unfold io_text, io_known, EACCES, EIO, EEXIST, ENOTDIR, ENOSPC, ENAMETOOLONG, EROFS. cbn [In].
  repeat match goal with |- context [?x =? ?y] => destruct (Z.eqb_spec x y) end; subst; split; intros H; try lia; try reflexivity; try (vm_compute in H; discriminate H); try (left; reflexivity); try (right; lia); exfalso; lia.
Qed.
Lemma io_unique e n e' n' : message (IOSys e n) = message (IOSys e' n') <-> n = n' /\ (e = e' \/ (~ In e io_known /\ ~ In e' io_known)).
Proof.
  cbn [message]. rewrite <- io_text_eq. split.
  - intros E. apply colon_split in E; [|apply io_text_colon..]. tauto.
  - intros [-> ->]. reflexivity.
Qed.
Lemma mem_unique e e' m : message (MemSys e m) = message (MemSys e' m) <-> e = e' \/ (~ In e mem_known /\ ~ In e' mem_known).
Proof.
  cbn [message]. unfold mem_text, mem_known, EINVAL, ENOMEM. cbn [In]. split.
  - intros E. apply app_inv_head, app_inv_head in E. revert E.
    repeat match goal with |- context [?x =? ?y] => destruct (Z.eqb_spec x y) end; intros H; subst; try (vm_compute in H; discriminate H); try (left; reflexivity); right; lia.
  - intros H. repeat match goal with |- context [?x =? ?y] => destruct (Z.eqb_spec x y) end; subst; try reflexivity; exfalso; lia.
Qed.
