(** C74: vectors, strides, references and their storage. *)
From Coq Require Import List ZArith Lia Bool Arith.
From Verif Require Import Base Arrays Model.Vec Spec.Vec Proofs.Vec Proofs.VecOps Proofs.VecRetire Proofs.VecLeak Proofs.VecLaws.
Import ListNotations.
Open Scope Z_scope.

(** Whatever the sequence of calls that respects the interface, nothing undefined happens, and when all vectors are gone so is all storage. *)
Definition C74_full (A : Type) (junk : nat -> Z -> A) (add mul : A -> A -> A) : Prop :=
  forall l, legal_run A junk add mul (start A) l = true ->
  exists s rs, run A junk add mul (start A) l = Ok (s, rs) /\ (living (s_vecs A s) = 0 -> freed (s_heap A s) /\ s_arrays A s = 0).

(** Every sequence of proper calls ([astep]), of any length on any number of vectors: no access outside of the storage, no use of freed storage, no
    double free, every answer is the one of the calculation with plain values, and with the last vector the last block is gone. *)
Theorem C74_partial (A : Type) (junk : nat -> Z -> A) (add mul : A -> A -> A) l a rs : arun A add mul [] l = Some (a, rs) ->
  exists s rs', run A junk add mul (start A) l = Ok (s, rs') /\ Forall2 (fits A) rs rs' /\ ((forall i, alive A a i = None) -> freed (s_heap A s)).
Proof.
  intros E. destruct (run_good junk add mul l (start A) [] a rs start_R E) as (s & rs' & Er & H & F). exists s, rs'. split; [exact Er|]. split; [exact F|]. intros D b Hb. apply In_nth_error in Hb. destruct Hb as [k Hk].
  destruct (no_leak s a H D k); congruence.
Qed.
Print Assumptions C74_partial.

(** The laws of the plain values: what was written is read back, and only that changed; *)
Theorem C74_read_back (A : Type) (junk : nat -> Z -> A) (add mul : A -> A -> A) l (a a' : abs A) rs i k k' v r u : arun A add mul [] l = Some (a, rs) ->
  astep A add mul a (Set_ A i k v) = Some (a', r) -> astep A add mul a (Get A i k') = Some (a, AVal A u) ->
  astep A add mul a' (Get A i k') = Some (a', AVal A (if k =? k' then Some v else u)).
Proof. intros E. destruct (reach junk add mul l a rs E) as [s H]. apply (set_get_same add mul s a a' i k k' v r u H). Qed.
Print Assumptions C74_read_back.
(** vectors with storage of their own do not change together; *)
Theorem C74_apart (A : Type) (junk : nat -> Z -> A) (add mul : A -> A -> A) l (a a' : abs A) rs i j k k' v r u x y : arun A add mul [] l = Some (a, rs) -> i <> j ->
  alive A a i = Some x -> alive A a j = Some y -> is_own A x = true -> is_own A y = true ->
  astep A add mul a (Set_ A i k v) = Some (a', r) -> astep A add mul a (Get A j k') = Some (a, AVal A u) -> astep A add mul a' (Get A j k') = Some (a', AVal A u).
Proof. intros E. destruct (reach junk add mul l a rs E) as [s H]. intros N. apply (set_get_other add mul s a a' i j k k' v r u x y H N). Qed.
Print Assumptions C74_apart.
(** a vector of references writes into the vector its stride refers to. *)
Theorem C74_shared (A : Type) (junk : nat -> Z -> A) (add mul : A -> A -> A) l (a a' : abs A) rs i k v r lk n ms q j : arun A add mul [] l = Some (a, rs) ->
  alive A a i = Some (Ref A lk n ms q) -> nth_error ms (Z.to_nat k / n) = Some (Some j) ->
  astep A add mul a (Set_ A i k v) = Some (a', r) -> astep A add mul a' (Get A j (Z.of_nat (Z.to_nat k mod n))) = Some (a', AVal A (Some v)).
Proof. intros E. destruct (reach junk add mul l a rs E) as [s H]. apply (set_get_master add mul s a a' i k v r lk n ms q j H). Qed.
Print Assumptions C74_shared.

(** Without references no pointer array is lost, proper calls or not: there are as many as vectors alive. *)
Theorem C74_arrays (A : Type) (junk : nat -> Z -> A) (add mul : A -> A -> A) l s rs : Forall no_ref l -> run A junk add mul (start A) l = Ok (s, rs) -> s_arrays A s = living (s_vecs A s).
Proof. intros F E. apply (run_inv junk add mul l (start A) s rs F start_inv E). Qed.
Print Assumptions C74_arrays.

(** ** examples *)
Definition junkZ (b : nat) (k : Z) : Z := 1000 + 10 * Z.of_nat b + k.
Notation runZ l := (run Z junkZ Z.add Z.mul (start Z) l).
Notation legalZ l := (legal_run Z junkZ Z.add Z.mul (start Z) l).
Definition answers (r : outcome (st Z * list (res Z))) : outcome (list (res Z)) := let* (_, rs) := r in Ok rs.
Definition left_over (r : outcome (st Z * list (res Z))) : outcome (Z * Z) := let* (s, _) := r in Ok (living (s_heap Z s), s_arrays Z s).
Definition aanswers (r : option (abs Z * list (ares Z))) : option (list (ares Z)) := match r with Some (_, rs) => Some rs | None => None end.

(** two vectors of two strides, sums, copies, a retired vector and its return; then everything is deleted *)
Definition tour : list (op Z) :=
  [New Z 4 2; Fill Z 0 3; Set_ Z 0 2 5; Clone Z 0; Scale Z 1 2; AddTo Z 0 1; Get Z 0 2; Get Z 0 3; Swap Z 0 1; Get Z 0 2; Retire Z 1; Reaquire Z 1; Fill Z 1 7; StrideCopy Z 0 1 0 1; Get Z 0 3; New Z 6 1; CopySub Z 1 2 2 4; Delete Z 0; Delete Z 1; Delete Z 2].
Example C74_ex : aanswers (arun Z Z.add Z.mul [] tour) = Some [ANone Z; ANone Z; ANone Z; ANone Z; ANone Z; ANone Z; AVal Z (Some 15); AVal Z (Some 9); ABool Z true; AVal Z (Some 10); ANone Z; ANone Z; ANone Z; ABool Z true; AVal Z (Some 7); ANone Z; ANone Z; ANone Z; ANone Z; ANone Z] /\
  answers (runZ tour) = Ok [RNone Z; RNone Z; RNone Z; RNone Z; RNone Z; RNone Z; RVal Z 15; RVal Z 9; RBool Z true; RVal Z 10; RNone Z; RNone Z; RNone Z; RBool Z true; RVal Z 7; RNone Z; RNone Z; RNone Z; RNone Z; RNone Z] /\ left_over (runZ tour) = Ok (0, 0).
Proof. vm_compute. auto. Qed.
(** a vector of two references: it shares the elements with its masters, gives the storage of the masters away and takes it back *)
Definition tour_ref : list (op Z) :=
  [New Z 3 1; New Z 3 1; New Z 2 2; Fill Z 0 1; Fill Z 1 2; StrideRef Z 2 0 0 0; StrideRef Z 2 1 0 1; Get Z 2 4; Set_ Z 2 4 9; Get Z 1 1; Retire Z 2; Reaquire Z 2; Fill Z 2 8; Get Z 0 2; Delete Z 2; Delete Z 0; Delete Z 1].
Example C74_ex_ref : aanswers (arun Z Z.add Z.mul [] tour_ref) = Some [ANone Z; ANone Z; ANone Z; ANone Z; ANone Z; ABool Z true; ABool Z true; AVal Z (Some 2); ANone Z; AVal Z (Some 9); ANone Z; ANone Z; ANone Z; AVal Z (Some 8); ANone Z; ANone Z; ANone Z] /\
  left_over (runZ tour_ref) = Ok (0, 0).
Proof. vm_compute. auto. Qed.

(** ** what goes wrong *)
(** StrideCopy accepts the number of strides as a stride (Vector.h:605): it writes behind the array of pointers. *)
Definition bad_stride : list (op Z) := [New Z 4 2; New Z 2 1; Fill Z 1 0; StrideCopy Z 0 1 0 2].
Theorem C74_stride_copy_refuted : legalZ bad_stride = true /\ runZ bad_stride = UB.
Proof. vm_compute. auto. Qed.
Print Assumptions C74_stride_copy_refuted.
Theorem C74_refuted : ~ C74_full Z junkZ Z.add Z.mul.
Proof. intros F. destruct (F bad_stride) as (s & rs & E & _); [vm_compute; reflexivity|]. vm_compute in E. discriminate. Qed.
Print Assumptions C74_refuted.
(** a size that the strides do not divide (Vector.h:106): the last element lies in a stride that does not exist *)
Theorem C74_divide_refuted : let l := [New Z 5 2; Fill Z 0 1; Get Z 0 4] in legalZ l = true /\ runZ l = UB.
Proof. vm_compute. auto. Qed.
Print Assumptions C74_divide_refuted.
(** downsize changes the size but not the stride size (Vector.h:248-251): the next assignment of that size reads behind the source *)
Theorem C74_downsize_refuted : let l := [New Z 4 1; New Z 2 1; Fill Z 1 0; Downsize Z 0 2; Assign Z 0 1] in legalZ l = true /\ runZ l = UB.
Proof. vm_compute. auto. Qed.
Print Assumptions C74_downsize_refuted.
(** swap compares the sizes only (Vector.h:366): with fewer strides the second vector is read behind its end, *)
Theorem C74_swap_strides_refuted : let l := [New Z 4 2; New Z 4 1; Swap Z 0 1] in legalZ l = true /\ runZ l = UB.
Proof. vm_compute. auto. Qed.
Print Assumptions C74_swap_strides_refuted.
(** and swapping a vector of references with an owner mixes up who frees what: the master's storage is freed twice *)
Theorem C74_swap_ref_refuted : let l := [New Z 2 1; New Z 2 1; New Z 2 1; StrideRef Z 2 0 0 0; Swap Z 1 2; Delete Z 0; Delete Z 1] in legalZ l = true /\ runZ l = UB.
Proof. vm_compute. auto. Qed.
Print Assumptions C74_swap_ref_refuted.
(** CopySub with a range given backwards (its length is taken with labs, Vector.h:620) runs over the end of the source, *)
Theorem C74_copysub_backwards_refuted : let l := [New Z 1 1; New Z 4 1; Fill Z 1 0; CopySub Z 0 1 3 1] in legalZ l = true /\ runZ l = UB.
Proof. vm_compute. auto. Qed.
Print Assumptions C74_copysub_backwards_refuted.
(** and with several strides it copies the whole length out of each of them *)
Theorem C74_copysub_strides_refuted : let l := [New Z 1 1; New Z 4 2; Fill Z 1 0; CopySub Z 0 1 0 3] in legalZ l = true /\ runZ l = UB.
Proof. vm_compute. auto. Qed.
Print Assumptions C74_copysub_strides_refuted.
(** retiring a master leaves the references dangling, even if it is taken back into use *)
Theorem C74_retire_master_refuted : let l := [New Z 2 1; New Z 2 1; Fill Z 0 1; StrideRef Z 1 0 0 0; Retire Z 0; Reaquire Z 0; Get Z 1 0] in legalZ l = true /\ runZ l = UB.
Proof. vm_compute. auto. Qed.
Print Assumptions C74_retire_master_refuted.
(** a vector of references takes a stride that does not exist: only owners are checked (Vector.h:218-219) *)
Theorem C74_strideref_refuted : let l := [New Z 2 1; New Z 2 1; New Z 2 1; StrideRef Z 2 0 0 0; StrideRef Z 2 1 0 1] in legalZ l = true /\ runZ l = UB.
Proof. vm_compute. auto. Qed.
Print Assumptions C74_strideref_refuted.
(** FastCopy has no guard against copying a vector onto itself, operator= has one *)
Theorem C74_fastcopy_self_refuted : let l := [New Z 2 1; Fill Z 0 1; FastCopy Z 0 0] in legalZ l = true /\ runZ l = UB.
Proof. vm_compute. auto. Qed.
Print Assumptions C74_fastcopy_self_refuted.
(** Leaks: an assignment to a vector of references forgets its pointer arrays (Vector.h:580); *)
Theorem C74_assign_leak_refuted : let l := [New Z 2 1; New Z 2 1; New Z 4 1; Fill Z 2 0; StrideRef Z 1 0 0 0; Assign Z 1 2; Delete Z 0; Delete Z 1; Delete Z 2] in legalZ l = true /\ left_over (runZ l) = Ok (0, 1).
Proof. vm_compute. auto. Qed.
Print Assumptions C74_assign_leak_refuted.
(** so does the first reference of an empty vector (Vector.h:222) - the way such vectors are made *)
Theorem C74_strideref_leak_refuted : let l := [New Z 2 1; New Z 0 1; StrideRef Z 1 0 0 0; Delete Z 0; Delete Z 1] in legalZ l = true /\ left_over (runZ l) = Ok (0, 1).
Proof. vm_compute. auto. Qed.
Print Assumptions C74_strideref_leak_refuted.
(** newsize(N) promises one stride but keeps several when the size is the same (Vector.h:524) *)
Theorem C74_newsize_refuted : let l := [New Z 4 2; Newsize1 Z 0 4] in legalZ l = true /\ match runZ l with Ok (s, _) => match nth_error (s_vecs Z s) 0 with Some (Some v) => v_str v = 2 | _ => False end | _ => False end.
Proof. vm_compute. auto. Qed.
Print Assumptions C74_newsize_refuted.
