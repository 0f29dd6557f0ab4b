(** Model of the binary formats of wave functions, laser fields and matrix operators.

    A stream is the list of bytes still to be read (bytes are integers 0..255, the machine is little endian).  Vector
    elements are kept as their bytes: 16 per complex and 8 per real number.  [lint] is int (src/math/typedefs.h:16).
    [fresh n]: content of n newly allocated bytes.  Allocating a negative size throws; an allocation that is too large for
    the machine is not modelled. *)
From Coq Require Import List ZArith Lia Bool.
From Verif Require Import Base Arrays.
Import ListNotations.
Open Scope Z_scope.

Definition byte := Z.
(** n bytes of an unsigned integer in memory order *)
Fixpoint le (n : nat) (x : Z) : list byte :=
  match n with O => [] | S n => x mod 256 :: le n (x / 256) end.
Fixpoint unle (l : list byte) : Z :=
  match l with [] => 0 | b :: t => b + 256 * unle t end.
(** conversion to int *)
Definition to_int (x : Z) : Z := (x + 2147483648) mod 4294967296 - 2147483648.
Definition two64 : Z := 18446744073709551616.
Definition two32 : Z := 4294967296.

(** os.write(p, n) from a block of memory: reading behind its end is undefined *)
Definition put_mem (mem : list byte) (n : Z) : outcome (list byte) :=
  if n <=? zlen mem then Ok (firstn (Z.to_nat n) mem) else UB.
(** is.read(&x, n) into an uninitialised variable that is used afterwards *)
Definition get_num (n : nat) (s : list byte) : outcome (Z * list byte) :=
  if (Nat.leb n (length s)) then Ok (unle (firstn n s), skipn n s) else UB.

Section Serial.
  Variable fresh : Z -> list byte.

  (** is.read(p, n) into a newly allocated block of [cap] bytes; a short read keeps the rest of the block *)
  Definition get_mem (cap n : Z) (s : list byte) : outcome (list byte * list byte) :=
    let k := Z.min n (zlen s) in
    if cap <? k then UB
    else Ok (firstn (Z.to_nat k) s ++ skipn (Z.to_nat k) (fresh cap), skipn (Z.to_nat k) s).

  (** a vector with one stride: number of elements, bytes *)
  Record vec := mkVec { v_size : Z; v_bytes : list byte }.

  (** Vector.h:523-531 with initialize 96-126: size of the new block; a negative size throws *)
  Definition newsize (elem n : Z) : outcome Z := if n <? 0 then Throw else Ok (elem * n).

  (** WFLevel.cpp:136-146 *)
  Definition ser_level (v : vec) : outcome (list byte) :=
    let* data := put_mem (v_bytes v) (v_size v * 16) in
    Ok (le 8 (v_size v) ++ le 8 (v_size v * 16) ++ data).
  (** WFLevel.cpp:148-161 *)
  Definition des_level (s : list byte) : outcome (vec * list byte) :=
    let* h1 := get_num 8 s in
    let* h2 := get_num 8 (snd h1) in
    if negb ((fst h1 * 16) mod two64 =? fst h2) then Throw
    else
      let* cap := newsize 16 (to_int (fst h1)) in
      let* d := get_mem cap (fst h2) (snd h2) in
      Ok (mkVec (to_int (fst h1)) (fst d), snd d).

  (** a double given by its bits is <= 0: not NaN and negative or a zero *)
  Definition le_zero (bits : Z) : bool :=
    let mag := bits mod 9223372036854775808 in
    negb (9218868437227405312 <? mag) && ((9223372036854775808 <=? bits) || (mag =? 0)).

  Record laser := mkLaser { f_dt : Z; f_vec : vec }.
  (** Laser.cpp:206-217 *)
  Definition ser_laser (f : laser) : outcome (list byte) :=
    if v_size (f_vec f) =? 0 then Ok []
    else
      let* data := put_mem (v_bytes (f_vec f)) (v_size (f_vec f) * 8) in
      Ok (le 8 (v_size (f_vec f)) ++ le 8 (f_dt f) ++ data).
  (** Laser.cpp:219-239 *)
  Definition des_laser (s : list byte) : outcome (laser * list byte) :=
    let* h1 := get_num 8 s in
    if fst h1 =? 0 then Throw
    else
      let* h2 := get_num 8 (snd h1) in
      if le_zero (fst h2) then Throw
      else
        let* cap := newsize 8 (to_int (fst h1)) in
        let* d := get_mem cap cap (snd h2) in
        Ok (mkLaser (fst h2) (mkVec (to_int (fst h1)) (fst d)), snd d).

  Record matrix := mkMat { x_rows : Z; x_cols : Z; x_bytes : list byte }.
  (** OHermitianMatrix.cpp:279-289 *)
  Definition ser_matrix (m : matrix) : outcome (list byte) :=
    let* data := put_mem (x_bytes m) (x_rows m * x_cols m * 8) in
    Ok (le 4 (x_rows m) ++ le 4 (x_rows m) ++ data).
  (** Matrix.h:76-92, 140-146: m*n is computed in int; a negative number of columns throws *)
  Definition mat_newsize (n : Z) : outcome Z :=
    if 2147483648 <=? n * n then UB else if n <? 0 then Throw else Ok (n * n * 8).
  (** OHermitianMatrix.cpp:291-302: both header words are read into the same variable *)
  Definition des_matrix (s : list byte) : outcome (matrix * list byte) :=
    let* h1 := get_num 4 s in
    let* h2 := get_num 4 (snd h1) in
    let n := to_int (fst h2) in
    let* cap := mat_newsize n in
    let* d := get_mem cap cap (snd h2) in
    Ok (mkMat n n (fst d), snd d).

  (** Grid wave functions: the header is a protocol buffers message; [encode] and [decode] are SerializeToOstream and
      ParseFromArray, [grid_size] is GridSystem::Size, [set_size] sets the field data_size. *)
  Variable H : Type.
  Variable encode : H -> list byte.
  Variable decode : list byte -> option H.
  Variable grid_size : H -> Z.
  Variable set_size : Z -> H -> H.
  Record gwf := mkGwf { g_head : H; g_vec : vec }.
  (** WFGridSystem.cpp:140-156 *)
  Definition ser_grid (w : gwf) : outcome (list byte) :=
    let h := encode (set_size (v_size (g_vec w) * 16) (g_head w)) in
    let* data := put_mem (v_bytes (g_vec w)) (v_size (g_vec w) * 16) in
    Ok (le 4 (zlen h) ++ h ++ data).
  (** WFGridSystem.cpp:158-178; a short header leaves the rest of [buf] as allocated *)
  Definition des_grid (s : list byte) : outcome (gwf * list byte) :=
    let* h1 := get_num 4 s in
    let* b := get_mem (fst h1) (fst h1) (snd h1) in
    match decode (fst b) with
    | None => Throw
    | Some h =>
      let* cap := newsize 16 (grid_size h) in
      let* d := get_mem cap cap (snd b) in
      Ok (mkGwf (set_size (grid_size h * 16) h) (mkVec (grid_size h) (fst d)), snd d)
    end.

  (** WFMultistate.cpp:279-286, 288-293: [l]: the states of the wave function.  The number of states is written and read;
      the states are neither written nor read. *)
  Definition ser_multi (l : list vec) : outcome (list byte) := Ok (le 4 (zlen l)).
  Definition des_multi (l : list vec) (s : list byte) : outcome (list vec * list byte) := Ok (l, skipn 4 s).
End Serial.
