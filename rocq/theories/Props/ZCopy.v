(** Property C56: chunked copies. *)
From Coq Require Import List ZArith Lia Bool Arith.
From Verif Require Import Base Model.ZCopy Proofs.ZCopy.
Import ListNotations.

(** for every stream with room for the block *)
Definition C56_full : Prop := forall B (junk : nat -> B) o buffer, length buffer <= list_sum (o_next o) ->
  exists o' used, write_z junk o buffer = Ok o' /\ o_data o' = o_data o ++ buffer /\ o_next o = used ++ o_next o'.

(** Writing a block that is not empty appends exactly its bytes. *)
Theorem C56_write_partial : forall B (junk : nat -> B) o buffer, buffer <> [] -> length buffer <= list_sum (o_next o) ->
  exists o' used, write_z junk o buffer = Ok o' /\ o_data o' = o_data o ++ buffer /\ o_next o = used ++ o_next o'.
Proof. exact @write_exact. Qed.
Print Assumptions C56_write_partial.

Theorem C56_write_short : forall B (junk : nat -> B) o buffer, list_sum (o_next o) < length buffer -> write_z junk o buffer = Throw.
Proof. exact @write_short. Qed.
Print Assumptions C56_write_short.

(** Reading yields the next bytes and leaves the stream right behind them. *)
Theorem C56_read : forall B (is : list (list B)) size, size <= length (concat is) ->
  exists is', read_z is size = Ok (firstn size (concat is), is') /\ concat is' = skipn size (concat is).
Proof. exact @read_exact. Qed.
Print Assumptions C56_read.

Theorem C56_read_short : forall B (is : list (list B)) size, length (concat is) < size -> read_z is size = Throw.
Proof. exact @read_short. Qed.
Print Assumptions C56_read_short.

(** buffers of size 2, 0, 3, 4 *)
Example C56_example :
  write_z (fun _ => 99) (mkOut [1] [2; 0; 3; 4]) [10; 11; 12; 13] = Ok (mkOut [1; 10; 11; 12; 13] [4]) /\
  read_z [[1; 2]; []; [3; 4; 5]; [6]] 4 = Ok ([1; 2; 3; 4], [[5]; [6]]) /\
  read_z [[1; 2]; []; [3; 4; 5]; [6]] 0 = Ok ([], [[1; 2]; []; [3; 4; 5]; [6]]).
Proof. vm_compute. auto. Qed.

(** An empty block reads the uninitialised buffer size. *)
Theorem C56_empty_refuted : ~ C56_full.
Proof.
  intros H. destruct (H nat (fun _ => 0) (mkOut [] [8]) [] (Nat.le_0_l _)) as (o' & used & E & _). discriminate E.
Qed.
Print Assumptions C56_empty_refuted.
