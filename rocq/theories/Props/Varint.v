(** Property C46: variable length integers. *)
From Coq Require Import List NArith ZArith Lia Bool.
From Verif Require Import Base Model.Varint Proofs.Varint.
Import ListNotations.
Open Scope N_scope.

(** Every value is written as bytes; read anywhere in a buffer by a reader for w bit integers it comes back modulo 2^w,
    with the number of bytes written. *)
Theorem C46_round_trip : forall w v pre post, exists bs, write_varint v = Some bs /\ (forall b, In b bs -> b < 256) /\
  (7 <= w -> read_varint w (pre ++ bs ++ post) (S (length pre)) = Ok (v mod 2 ^ w, N.of_nat (length bs))).
Proof. exact read_written. Qed.
Print Assumptions C46_round_trip.

(** 64 bit values read by the 64 bit reader are unchanged. *)
Theorem C46_round_trip_64 : forall v pre post, v < 2 ^ 64 -> exists bs, write_varint v = Some bs /\
  read_varint 64 (pre ++ bs ++ post) (S (length pre)) = Ok (v, N.of_nat (length bs)).
Proof. exact round_trip_64. Qed.
Print Assumptions C46_round_trip_64.

(** The predicted size is the number of bytes, and the preallocated buffer suffices. *)
Theorem C46_size : forall v bs, v < 2 ^ 64 -> write_varint v = Some bs -> length bs = varint_size v /\ (length bs <= prealloc v)%nat.
Proof. exact size_exact. Qed.
Print Assumptions C46_size.

Example C46_example : write_varint 300 = Some [172; 2] /\ read_varint 64 [9; 172; 2; 7] 2 = Ok (300, 2) /\
  write_varint (2 ^ 64 - 1) = Some [255; 255; 255; 255; 255; 255; 255; 255; 255; 1] /\
  read_varint 64 [255; 255; 255; 255; 255; 255; 255; 255; 255; 1] 1 = Ok (2 ^ 64 - 1, 10) /\
  read_varint 32 [255; 255; 255; 255; 255; 255; 255; 255; 255; 1] 1 = Ok (2 ^ 32 - 1, 10) /\
  varint_size (2 ^ 63) = 10%nat /\ varint_size (2 ^ 63 - 1) = 9%nat /\ read_varint 64 [172] 1 = Throw.
Proof. vm_compute. repeat split. Qed.
