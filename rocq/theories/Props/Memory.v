(** Properties C09-C12: the block allocator (src/tools/Memory.cpp). *)
From Coq Require Import Ascii String List NArith ZArith Lia Bool Arith.
From Verif Require Import Base Model.Memory Spec.Memory Proofs.Memory.
Import ListNotations.
Local Open Scope N_scope.

(** ** C09: in every state reachable by any history, in the release (nd = true) and the debug build *)
Theorem C09_alloc_never_in_use : forall nd limit m owned held, reach nd limit m owned held ->
  (forall size os m' p cs, os_fresh owned os -> align nd m size os = Ok (m', p, cs) ->
     ~ In p held /\
     (size + block_size nd <= two64 -> exists b, In (p, b) (os_run owned cs) /\ size <= b)) /\
  (forall p, In p held -> In p (map fst owned)) /\ NoDup held /\
  used m = wrap (total owned).
Proof. exact alloc_safe. Qed.
Print Assumptions C09_alloc_never_in_use.

(** memory given back to the system is owned by the process and not held by the client *)
Theorem C09_system_free_safe : forall nd limit m owned held, reach nd limit m owned held ->
  (forall p m' cs, In p held -> free_mem nd m p = (m', cs) ->
     forall q, In (OsFree q) cs -> In q (map fst owned) /\ ~ In q (remove N.eq_dec p held)) /\
  (forall m' cs, cleanup nd m = (m', cs) ->
     forall q, In (OsFree q) cs -> In q (map fst owned) /\ ~ In q held).
Proof. exact os_free_safe. Qed.
Print Assumptions C09_system_free_safe.

(** a history: allocate 100 bytes, allocate 5000, free the first, allocate 50 (gets the cached block), clean up *)
Example C09_example : exists m, reach true 1000000 m [(32, 8192); (16, 4096)] [16; 32] /\ used m = 12288.
Proof.
  eexists. split.
  - eapply R_cleanup with (cs := []).
    + eapply R_alloc with (held := [32]) (owned := [(32, 8192); (16, 4096)]) (size := 50) (os := None) (p := 16) (cs := []).
      * eapply R_free with (held := [32; 16]) (owned := [(32, 8192); (16, 4096)]) (p := 16) (cs := []).
        -- eapply R_alloc with (held := [16]) (owned := [(16, 4096)]) (size := 5000) (os := Some 32) (p := 32) (cs := [OsAlloc 32 8192]).
           ++ eapply R_alloc with (held := []) (owned := []) (size := 100) (os := Some 16) (p := 16) (cs := [OsAlloc 16 4096]).
              ** apply R_init.
              ** intros p _ [].
              ** vm_compute. reflexivity.
           ++ intros p [= <-]. cbn. intuition discriminate.
           ++ vm_compute. reflexivity.
        -- right; left; reflexivity.
        -- vm_compute. reflexivity.
      * intros p H; discriminate.
      * vm_compute. reflexivity.
    + vm_compute. reflexivity.
  - reflexivity.
Qed.

(** ** C10 *)
Definition C10_full : Prop := forall nd limit m owned held,
  limit < two64 -> reach nd limit m owned held -> total owned <= limit.

(** holds when the limit is a whole number of blocks (always true in the debug build, where a block is one byte) *)
Theorem C10_limit_partial : forall nd limit m owned held,
  reach nd limit m owned held -> limit < two64 -> limit mod block_size nd = 0 ->
  total owned <= limit /\ total owned mod block_size nd = 0.
Proof. exact reach_limit. Qed.
Print Assumptions C10_limit_partial.
Example C10_example : 1024 * 1024 mod block_size true = 0 /\ 1024 * 1024 < two64.
Proof. vm_compute. auto. Qed.

(** limit 5000, one request of 4097 bytes: 8192 bytes are reserved *)
Theorem C10_limit_refuted : ~ C10_full.
Proof.
  intros H. assert (R : reach true 5000 (mkMem [mkSlot 16 2 false] [] 8192 5000) [(16, 8192)] [16]).
  { eapply R_alloc with (held := []) (owned := []) (size := 4097) (os := Some 16) (p := 16) (cs := [OsAlloc 16 8192]).
    - apply R_init.
    - intros p _ [].
    - vm_compute. reflexivity. }
  apply H in R; [vm_compute in R; congruence|reflexivity].
Qed.
Print Assumptions C10_limit_refuted.

(** and from then on the remaining space wraps around: practically any request is granted *)
Theorem C10_limit_disabled_afterwards :
  let m := mkMem [mkSlot 16 2 false] [] 8192 5000 in
  reach true 5000 m [(16, 8192)] [16] /\ avail m = 18446744073709548424 /\
  exists m', align true m 1000000000000 (Some 9999) = Ok (m', 9999, [OsAlloc 9999 1000000000000]).
Proof.
  intros m. split; [|split].
  - eapply R_alloc with (held := []) (owned := []) (size := 4097) (os := Some 16) (p := 16) (cs := [OsAlloc 16 8192]).
    + apply R_init.
    + intros p _ [].
    + vm_compute. reflexivity.
  - vm_compute. reflexivity.
  - eexists. vm_compute. reflexivity.
Qed.
Print Assumptions C10_limit_disabled_afterwards.

(** ** C11 *)
(** freeing p twice in a row is the same as freeing it once *)
Definition C11_full : Prop := forall nd limit m owned held p,
  reach nd limit m owned held -> In p held ->
  let m1 := fst (free_mem nd m p) in
  let m2 := fst (free_mem nd m1 p) in
  forall s1 s2 os1 os2 m3 m4 p1 p2 c3 c4,
    os_fresh owned os1 -> os_fresh owned os2 -> (forall x, os1 = Some x -> os2 <> Some x) ->
    align nd m2 s1 os1 = Ok (m3, p1, c3) -> align nd m3 s2 os2 = Ok (m4, p2, c4) -> p1 <> p2.

(** in the debug build the second free has no effect at all *)
Theorem C11_double_free_partial : forall limit m owned held p,
  reach false limit m owned held -> In p held ->
  let m1 := fst (free_mem false m p) in
  free_mem false m1 p = (m1, []).
Proof.
  intros limit m owned held p H Hp. pose proof (reach_inv _ _ _ _ _ H) as I.
  apply (i_held _ _ _ _ _ I) in Hp. destruct Hp as (s & S1 & S2 & S3).
  unfold free_mem. destruct (find_slot (slots m) p) as [t|] eqn:E.
  - cbn [fst slots]. destruct (find_slot (erase_slot (slots m) p) p) as [u|] eqn:E2; [|reflexivity].
    apply find_slot_some in E2. destruct E2 as [E2 E3]. unfold erase_slot in E2. apply filter_In in E2.
    destruct E2 as [_ E2]. rewrite E3, N.eqb_refl in E2. discriminate.
  - cbn [fst]. rewrite E. reflexivity.
Qed.
Print Assumptions C11_double_free_partial.

(** in the release build both later allocations get the same block *)
Theorem C11_double_free_refuted : ~ C11_full.
Proof.
  intros H.
  assert (R : reach true 1000000 (mkMem [mkSlot 16 1 false] [] 4096 1000000) [(16, 4096)] [16]).
  { eapply R_alloc with (held := []) (owned := []) (size := 100) (os := Some 16) (p := 16) (cs := [OsAlloc 16 4096]).
    - apply R_init.
    - intros p _ [].
    - vm_compute. reflexivity. }
  assert (Q := H _ _ _ _ _ 16 R (or_introl eq_refl) 10 10 None None).
  eapply Q.
  - intros p E; discriminate.
  - intros p E; discriminate.
  - intros x E; discriminate.
  - vm_compute. reflexivity.
  - vm_compute. reflexivity.
  - reflexivity.
Qed.
Print Assumptions C11_double_free_refuted.

(** ** C12 *)
Theorem C12_size_strings : forall s,
  (forall n, size_string s n -> n < two64 -> read_from_string s = Ok n) /\
  (forall n, read_from_string s = Ok n -> exists m, size_string s m /\ n = wrap m).
Proof. intros s. split; [exact (read_size s)|exact (read_ok s)]. Qed.
Print Assumptions C12_size_strings.
Example C12_example : size_string (lit "12MB") (12 * 2 ^ 20) /\ read_from_string (lit "12MB") = Ok 12582912 /\
  read_from_string (lit "12X") = Throw /\ read_from_string (lit "B") = UB.
Proof.
  split; [|vm_compute; auto]. exists (lit "12"), (lit "M"), (2^20), (lit "B").
  repeat split; auto; try discriminate; [|constructor]. repeat constructor.
Qed.
