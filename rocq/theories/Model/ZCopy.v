(** Model of src/tools/ZCopyStream.cpp on top of protobuf's zero copy streams.

    An output stream is the bytes written so far and the sizes of the buffers it will offer; a buffer handed out counts
    as written (with arbitrary contents, here [junk]) until BackUp removes it.  An input stream is the list of the
    buffers still to come.  Next fails when no buffer is left. *)
From Coq Require Import List ZArith Lia Bool Arith.
From Verif Require Import Base.
Import ListNotations.

Section Z.
  Context {B : Type}.
  Variable junk : nat -> B.

  Record ostream := mkOut { o_data : list B; o_next : list nat }.

  (** ZCopyStream.cpp:25-35: one pass copies into the buffer of size n just obtained.  Returns stream, bytes written,
      buf_size and len *)
  Fixpoint write_loop (data : list B) (next : list nat) (buffer : list B) (written : nat) (buf_size : option nat) (len : nat)
    : outcome (ostream * option nat * nat) :=
    if written <? length buffer then
      match next with
      | [] => Throw
      | n :: next' =>
        let len := if length buffer - written <? n then length buffer - written else n in
        let data' := data ++ firstn len (skipn written buffer) ++ map junk (seq len (n - len)) in
        write_loop data' next' buffer (written + len) (Some n) len
      end
    else Ok (mkOut data next, buf_size, len).

  (** BackUp *)
  Definition back_up (o : ostream) (n : nat) : ostream := mkOut (firstn (length (o_data o) - n) (o_data o)) (o_next o).

  (** ZCopyStream.cpp:19-38; buf_size is not initialised, reading it without a buffer is UB *)
  Definition write_z (o : ostream) (buffer : list B) : outcome ostream :=
    let* (o, buf_size, len) := write_loop (o_data o) (o_next o) buffer 0 None 0 in
    match buf_size with
    | None => UB
    | Some n => Ok (if n - len =? 0 then o else back_up o (n - len))
    end.

  (** ZCopyStream.cpp:46-56 *)
  Fixpoint read_loop (is : list (list B)) (acc : list B) (size : nat) (buf : list B) (len : nat)
    : outcome (list (list B) * list B * list B * nat) :=
    if length acc <? size then
      match is with
      | [] => Throw
      | b :: is' =>
        let len := if size - length acc <? length b then size - length acc else length b in
        read_loop is' (acc ++ firstn len b) size b len
      end
    else Ok (is, acc, buf, len).

  (** ZCopyStream.cpp:40-60: the unread rest of the last buffer becomes the next buffer *)
  Definition read_z (is : list (list B)) (size : nat) : outcome (list B * list (list B)) :=
    let* (is, acc, buf, len) := read_loop is [] size [] 0 in
    Ok (acc, if length buf - len =? 0 then is else skipn len buf :: is).
End Z.
Arguments ostream : clear implicits.
