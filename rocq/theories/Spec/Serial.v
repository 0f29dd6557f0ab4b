(** What a serialisation has to satisfy. *)
From Coq Require Import List ZArith.
From Verif Require Import Base Arrays Model.Serial.
Import ListNotations.
Open Scope Z_scope.

Definition is_byte (b : Z) : Prop := 0 <= b < 256.
(** a vector whose block has exactly the bytes of its elements; sizes are ints *)
Definition vec_ok (elem : Z) (v : vec) : Prop := 0 <= v_size v < 2147483648 /\ zlen (v_bytes v) = v_size v * elem.
(** writing gives bytes; reading them back, whatever follows, gives the same object and leaves what follows *)
Definition round_trip {A} (ser : A -> outcome (list byte)) (des : list byte -> outcome (A * list byte)) (x : A) : Prop :=
  exists bs, ser x = Ok bs /\ forall rest, des (bs ++ rest) = Ok (x, rest).
(** reading arbitrary bytes stays within the memory allocated *)
Definition safe {A} (des : list byte -> outcome (A * list byte)) (s : list byte) : Prop := des s <> UB.
