(** What a chain of filters is meant to do. *)
From Coq Require Import Ascii String List NArith ZArith Bool.
From Verif Require Import Base Arrays Algebra Model.Filters.
Import ListNotations.
Open Scope Z_scope.

Section S.
  Variable C : fld.
  Variable X : Type.
  Variable norm2 : X -> C.
  Variable normalize : X -> X.
  Variable nstates : X -> option Z.
  Variable overlap : X -> Z -> Z -> C.
  Variable dt : C.
  Notation filt := (filt C X).
  (** the wave function after a filter, after a list of filters *)
  Definition acts_on (f : filt) (x : X) : X :=
    match f_action C X f, f_op C X f with
    | Expec, Some o | Apply, Some o => o_apply C X o x
    | Normalize, _ => normalize x
    | _, _ => x
    end.
  Definition after (fs : list filt) (x : X) : X := fold_left (fun x f => acts_on f x) fs x.
  (** the value a filter reports for the wave function it sees *)
  Definition value (renorm : bool) (f : filt) (x : X) : option C :=
    match f_action C X f, f_op C X f with
    | Expec, Some o | Expeconly, Some o => Some (if renorm then fdiv (o_matel C X o x) (norm2 x) else o_matel C X o x)
    | Rho, _ => Some (overlap x (f_ms0 C X f) (f_ms1 C X f))
    | _, _ => None
    end.
  (** the numbers reported by a list of filters: each value is taken from the wave function left by the filters before it *)
  Fixpoint told (renorm : bool) (fs : list filt) (x : X) : list C :=
    match fs with
    | [] => []
    | f :: t => (match value renorm f x with Some v => [if f_int C X f then cadd (f_sum C X f) (cmul v dt) else v] | None => [] end ++ told renorm t (acts_on f x))%list
    end.
  (** filter i of the list can be evaluated on the wave function it sees *)
  Definition fits (f : filt) (x : X) : Prop :=
    match f_action C X f with
    | Normalize => True
    | Rho => exists n, nstates x = Some n /\ 0 <= f_ms0 C X f < n /\ 0 <= f_ms1 C X f < n
    | _ => f_op C X f <> None
    end.
  Definition all_fit (fs : list filt) (x : X) : Prop := forall i f, nth_error fs i = Some f -> fits f (after (firstn i fs) x).
  (** the filter that a node defines in a fresh list *)
  Definition defines (n : node C X) (f : filt) : Prop :=
    parse_action (n_name C X n) = Some (f_action C X f) /\ f_int C X f = n_int C X n /\ f_sum C X f = c0 /\
    (match f_action C X f with Normalize | Rho => True | _ => f_op C X f = Some (n_op C X n) end) /\
    (n_ms C X n = [f_ms0 C X f; f_ms1 C X f] \/ (n_ms C X n = [] /\ f_ms0 C X f = -1 /\ f_ms1 C X f = -1)).
  (** a definition that can be used with a wave function, and operators that do not change the number of states *)
  Definition usable (x : X) (n : node C X) : Prop :=
    match n_ms C X n with
    | [] => n_name C X n <> lit "rho"
    | [i; j] => exists k, nstates x = Some k /\ 0 <= i < k /\ 0 <= j < k
    | _ => False
    end.
  Definition keeps (n : node C X) : Prop := forall y, nstates (o_apply C X (n_op C X n) y) = nstates y.
  (** the filters in use *)
  Definition active (s : flist C X) : list filt := firstn (Z.to_nat (l_size C X s)) (l_f C X s).
  (** applications to a sequence of wave functions, one after the other *)
  Inductive applied : flist C X -> list X -> flist C X -> Prop :=
  | ap_nil s : applied s [] s
  | ap_cons s x xs s1 y out s2 : l_apply C X norm2 normalize nstates overlap dt s x = Ok (s1, y, out) -> applied s1 xs s2 -> applied s (x :: xs) s2.
End S.
