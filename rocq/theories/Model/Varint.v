(** Model of the variable length integers in src/matlab/pblib_*varint*.m (MATLAB).

    Values are non negative integers of the class given by its width in bits; bitshift drops bits beyond the width.
    The preallocated buffer of pblib_write_varint is only a hint: assignments behind its end enlarge it and the result is
    cut to the bytes written.  Reading behind the end of a buffer is an error ([Throw]). *)
From Coq Require Import List NArith ZArith Lia Bool.
From Verif Require Import Base.
Import ListNotations.
Open Scope N_scope.

(** pblib_write_varint.m:74-82; [None]: out of fuel *)
Fixpoint write_bytes (fuel : nat) (value : N) : option (list N) :=
  match fuel with
  | O => None
  | S fuel =>
    if 127 <? value then
      match write_bytes fuel (N.shiftr value 7) with
      | Some t => Some (N.setbit (N.land value 127) 7 :: t)
      | None => None
      end
    else Some [value]
  end.
Definition write_varint (value : N) : option (list N) := write_bytes (S (N.size_nat value)) value.

(** pblib_write_varint.m:45-73: size of the preallocated buffer *)
Definition prealloc (value : N) : nat :=
  if value <? 268435456 then
    if value <? 16384 then (if value <? 128 then 1%nat else 2%nat) else (if value <? 2097152 then 3%nat else 4%nat)
  else if value <? 4398046511104 then (if value <? 34359738368 then 5%nat else 6%nat)
  else (if value <? 72057594037927936 then 8%nat else 10%nat).

(** pblib_encoded_varint_size.m:41-77 *)
Definition varint_size (value : N) : nat :=
  if value <? 268435456 then
    if value <? 16384 then (if value <? 128 then 1%nat else 2%nat) else (if value <? 2097152 then 3%nat else 4%nat)
  else if value <? 4398046511104 then (if value <? 34359738368 then 5%nat else 6%nat)
  else if value <? 72057594037927936 then (if value <? 562949953421312 then 7%nat else 8%nat)
  else (if value <? 9223372036854775808 then 9%nat else 10%nat).

(** bitshift(x, n) of an unsigned class with w bits *)
Definition bitshift (w : N) (x n : N) : N := N.land (N.shiftl x n) (N.ones w).
(** bitset(x, 8, 0) *)
Definition clear8 (x : N) : N := N.clearbit x 7.

(** pblib_read_varint64.m:38-46 (w = 64) and pblib_read_varint32.m:38-46 (w = 32); [rest]: bytes behind the current one *)
Fixpoint read_loop (w : N) (rest : list N) (current num index : N) : outcome (N * N) :=
  if 127 <? current then
    match rest with
    | [] => Throw
    | b :: rest => read_loop w rest b (N.lor (bitshift w (clear8 b) (7 * index)) num) (index + 1)
    end
  else Ok (num, index).

(** offset counts from 1 *)
Definition read_varint (w : N) (buffer : list N) (offset : nat) : outcome (N * N) :=
  match offset with
  | O => Throw
  | S o =>
    match skipn o buffer with
    | [] => Throw
    | b :: rest => read_loop w rest b (clear8 b) 1
    end
  end.
