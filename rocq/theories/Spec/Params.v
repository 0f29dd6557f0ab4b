(** Specification vocabulary for parameter containers; independent of the functions of Model/Params.v except the
    observers [get_value], [get_type] and the state type. *)
From Coq Require Import Ascii String List NArith ZArith Bool Arith.
From Verif Require Import Base Model.Params.
Import ListNotations.

(** blank: space or tab *)
Definition blank (c : ascii) : Prop := c = " "%char \/ c = "009"%char.

(** [r] is [s] without its leading and trailing blanks *)
Definition stripped (s r : str) : Prop :=
  exists a b, s = a ++ r ++ b /\ Forall blank a /\ Forall blank b /\
              (forall c t, r = c :: t -> ~ blank c) /\ (forall c t, r = t ++ [c] -> ~ blank c).

(** no blank at either end *)
Definition unpadded (s : str) : Prop :=
  (forall c t, s = c :: t -> ~ blank c) /\ (forall c t, s = t ++ [c] -> ~ blank c).

(** keys / values that a line of a parameter file can carry *)
Definition good_key (k : str) : Prop :=
  k <> [] /\ unpadded k /\ (forall t, k <> "#"%char :: t) /\
  ~ In "="%char k /\ ~ In "["%char k /\ ~ In "010"%char k /\ ~ In "000"%char k.
Definition good_value (v : str) : Prop :=
  unpadded v /\ ~ In "010"%char v /\ ~ In "000"%char v.

(** a container as the C++ maps can represent it: no key twice, and values and type tags for the same keys *)
Definition consistent (c : container) : Prop :=
  NoDup (map fst (params c)) /\ NoDup (map fst (types c)).

(** every line of the file fits the parser's buffer *)
Definition lines_fit (s : str) : Prop :=
  forall a l b, s = a ++ l ++ b -> ~ In "010"%char l -> (N.of_nat (length l) < 2048)%N.

(** parsing the byte sequence [s] with end marker [eof] ends with outcome [r] *)
Definition parses_to (s : str) (eof : option str) (r : outcome container) : Prop :=
  exists fuel o, parse fuel empty_c eof (stream_of s) = Some o /\
    match o, r with Ok (c, _), Ok c' => c = c' | Throw, Throw => True | UB, UB => True | _, _ => False end.
Definition parse_terminates (s : str) : Prop := exists r, parses_to s None r.

(** text [s] begins with the decimal integer [z] (optional white space and sign in front, no digit following) *)
Definition white (c : ascii) : Prop := In (N_of_ascii c) [32; 9; 10; 11; 12; 13]%N.
Definition digit (c : ascii) : Prop := (48 <= N_of_ascii c <= 57)%N.
Fixpoint number_rev (r : str) : Z :=      (* digits, least significant first *)
  match r with [] => 0 | c :: t => Z.of_N (N_of_ascii c) - 48 + 10 * number_rev t end%Z.
Definition begins_with_int (s : str) (z : Z) : Prop :=
  exists w sg ds tl, s = w ++ sg ++ ds ++ tl /\ Forall white w /\ Forall digit ds /\ ds <> [] /\
    (forall c t, tl = c :: t -> ~ digit c) /\
    ((sg = [] \/ sg = lit "+") /\ z = number_rev (rev ds) \/ sg = lit "-" /\ z = (- number_rev (rev ds))%Z).

Definition int32 (z : Z) : Prop := (-2147483648 <= z <= 2147483647)%Z.

(** a line other than [mark] that fits the parser's buffer *)
Definition text_line (mark l : str) : Prop := ~ In "010"%char l /\ ~ In "000"%char l /\ l <> mark /\ (N.of_nat (length l) < 2048)%N.

(** words separated by commas *)
Fixpoint commas (ws : list str) : str :=
  match ws with [] => [] | w :: ws' => match ws' with [] => w | _ => w ++ ","%char :: commas ws' end end.
