(** Model of the translation of the simplified input to XML: src/simpleXml/grammar.yy and src/simpleXml/SyntacticTreeModel.h.

    The input is a sequence of tokens (the scanner, simpleXml.ll, is in Model/SimpleLex.v).  [R]: doubles; [parse]: sscanf "%lf", [show]: sprintf "%g" and
    operator<< (which print alike), [add]: addition, [count]: the bound int(fabs((begin-end)/step)) of the loop, [format]: snprintf with a
    format given in the input, the value of a variable being converted according to its last letter.  One call of yyparse; texts have no
    zero bytes. *)
From Coq Require Import Ascii String List NArith ZArith Lia Bool Arith.
From Verif Require Import Base.
Import ListNotations.
Open Scope Z_scope.

(** grammar.yy:118-121 *)
Inductive token := TokId (s : str) | QString (s : str) | VarDef (s : str) | VarExp (s : str) | Fmt (s : str) | For | BeginSec | EndSec | Equal | Concat | Comment | Quote.
(** parts of a varstring, SyntacticTreeModel.h:51-60 *)
Inductive part := PText (s : str) | PVar (v fmt : str).
Definition varstring := list part.

(** EscapeString, grammar.yy:56-88 *)
Definition escape_char (c : ascii) : str :=
  if Ascii.eqb c "<" then lit "&lt;" else if Ascii.eqb c ">" then lit "&gt;" else if Ascii.eqb c "&" then lit "&amp;" else [c].
Definition escape (s : str) : str := flat_map escape_char s.

Section Simple.
  Variable R : Type.
  Variable parse : str -> option R.
  Variable show : R -> str.
  Variable one : R.
  Variable add : R -> R -> R.
  Variable count : R -> R -> R -> outcome Z.
  Variable format : str -> str -> outcome str.

  (** * The tree *)
  Inductive kind := Xml (name : str) (attrs : list (str * varstring)) | Loop (var : str) (b e s : R).
  Inductive tree := Node (k : kind) (children : list tree).
  Definition vars := list (str * str).
  (** varlist[s]: entries that are missing are created empty *)
  Definition value (env : vars) (v : str) : str := match mget scmp env v with Some x => x | None => [] end.
  (** SIMPLEXML_BUF_SIZE *)
  Definition cut (s : str) : str := firstn 1023 s.
  (** SyntacticTreeModel.h:106-132 *)
  Definition print_part (env : vars) (p : part) : outcome str :=
    match p with
    | PText s => Ok (cut s)
    | PVar v f => if str_eqb f (lit "%s") then Ok (cut (value env v)) else let* s := format f (value env v) in Ok (cut s)
    end.
  Fixpoint print_parts (env : vars) (l : varstring) : outcome str :=
    match l with
    | [] => Ok []
    | p :: t => let* a := print_part env p in let* b := print_parts env t in Ok (a ++ b)%list
    end.
  (** SyntacticTreeModel.h:169-173 *)
  Fixpoint indentation (depth : nat) : str := match depth with O => [] | S n => (lit "   " ++ indentation n)%list end.
  Definition nl : str := ["010"%char].
  Definition quote : str := ["034"%char].
  (** SyntacticTreeModel.h:278-287 *)
  Fixpoint print_attrs (env : vars) (l : list (str * varstring)) : outcome str :=
    match l with
    | [] => Ok []
    | (a, v) :: t => let* x := print_parts env v in let* r := print_attrs env t in Ok (lit " " ++ cut a ++ lit "=" ++ quote ++ x ++ quote ++ r)%list
    end.
  (** the loop of SyntacticTreeModel.h:244-250 *)
  Fixpoint iterate (n : nat) (var : str) (d s : R) (body : vars -> outcome (str * vars)) (env : vars) : outcome (str * vars) :=
    match n with
    | O => Ok ([], env)
    | S n => let* r := body (mset scmp env var (show d)) in let* r2 := iterate n var (add d s) s body (snd r) in Ok (fst r ++ fst r2, snd r2)%list
    end.
  (** SyntacticTreeModel.h:178-182, 239-251, 278-297 *)
  Fixpoint execute (t : tree) (depth : nat) (env : vars) : outcome (str * vars) :=
    let all := fix all (l : list tree) (env : vars) : outcome (str * vars) :=
      match l with
      | [] => Ok ([], env)
      | x :: l => let* r := execute x (S depth) env in let* r2 := all l (snd r) in Ok (fst r ++ fst r2, snd r2)%list
      end in
    match t with
    | Node (Xml name attrs) l =>
        let* a := print_attrs env attrs in
        match l with
        | [] => Ok (indentation depth ++ lit "<" ++ name ++ a ++ lit "/>" ++ nl, env)%list
        | _ => let* r := all l env in
            Ok (indentation depth ++ lit "<" ++ name ++ a ++ lit ">" ++ nl ++ fst r ++ indentation depth ++ lit "</" ++ name ++ lit ">" ++ nl, snd r)%list
        end
    | Node (Loop v b e s) l =>
        let* n := count b e s in
        let* r := iterate (S (Z.to_nat n)) v b s (all l) env in
        Ok (indentation depth ++ lit "<!-- for " ++ v ++ lit " = " ++ show b ++ lit " " ++ show e ++ lit " " ++ show s ++ lit " -->" ++ nl ++ fst r, snd r)%list
    end.
  Definition execute_all (l : list tree) (depth : nat) (env : vars) : outcome (str * vars) :=
    (fix all (l : list tree) (env : vars) : outcome (str * vars) :=
      match l with
      | [] => Ok ([], env)
      | x :: l => let* r := execute x depth env in let* r2 := all l (snd r) in Ok (fst r ++ fst r2, snd r2)%list
      end) l env.

  (** * The parser *)
  (** the blocks that are open, the innermost first, without the root, and the children of the root *)
  Record frame := mkFrame { f_kind : kind; f_children : list tree }.
  (** root is NULL, exists, or has been deleted *)
  Inductive place := NoRoot | Open (stack : list frame) (top : list tree) | Freed.
  Record state := mkState { s_place : place; s_vars : vars; s_out : str }.
  (** grammar.yy:104-110, 143-178: CheckRoot and AddChild *)
  Definition enter (k : kind) (s : state) : outcome state :=
    match s_place s with
    | NoRoot => Ok (mkState (Open [mkFrame k []] []) (s_vars s) (s_out s))
    | Open st top => Ok (mkState (Open (mkFrame k [] :: st) top) (s_vars s) (s_out s))
    | Freed => UB
    end.
  (** grammar.yy:180-195 *)
  Definition attribute (a : str) (v : varstring) (s : state) : outcome state :=
    match s_place s with
    | NoRoot => Throw
    | Freed => UB
    | Open [] _ => Throw
    | Open (f :: st) top =>
        match f_kind f with
        | Xml n l => Ok (mkState (Open (mkFrame (Xml n (l ++ [(a, v)])) (f_children f) :: st) top) (s_vars s) (s_out s))
        | Loop _ _ _ _ => Throw
        end
    end.
  (** grammar.yy:197-208: level is NULL or deleted without an open block *)
  Definition leave (s : state) : outcome state :=
    match s_place s with
    | NoRoot | Freed | Open [] _ => UB
    | Open (f :: st) top =>
        let t := Node (f_kind f) (f_children f) in
        match st with
        | g :: st => Ok (mkState (Open (mkFrame (f_kind g) (f_children g ++ [t]) :: st) top) (s_vars s) (s_out s))
        | [] => let* r := execute_all (top ++ [t])%list 0 (s_vars s) in Ok (mkState Freed (snd r) (s_out s ++ fst r)%list)
        end
    end.
  (** grammar.yy:219-225: the text and the semantic value, which is the one of the first token *)
  Fixpoint strexp (l : list token) : option (varstring * str * list token) :=
    let more (p : part) (v : str) (r : list token) :=
      match r with
      | Concat :: r => match strexp r with Some (ps, _, r) => Some (p :: ps, v, r) | None => None end
      | _ => Some ([p], v, r)
      end in
    match l with
    | TokId s :: r => more (PText s) s r
    | QString s :: r => more (PText (escape s)) s r
    | VarExp v :: Fmt f :: Concat :: r => match strexp r with Some (ps, _, r) => Some (PVar v f :: ps, v, r) | None => None end
    | VarExp v :: Fmt f :: r => Some ([PVar v f], v, r)
    | VarExp v :: r => more (PVar v (lit "%s")) v r
    | _ => None
    end.
  (** grammar.yy:127-217: one line; a syntax error throws *)
  Definition line (l : list token) (s : state) : outcome (state * list token) :=
    match l with
    | Comment :: r => Ok (s, r)
    | VarDef v :: Equal :: r =>
        match strexp r with
        | Some (_, x, r) => Ok (mkState (s_place s) (mset scmp (s_vars s) v x) (s_out s), r)
        | None => Throw
        end
    | For :: VarDef v :: Equal :: TokId b :: TokId e :: BeginSec :: r =>
        match parse b, parse e with
        | Some b, Some e => let* s := enter (Loop v b e one) s in Ok (s, r)
        | _, _ => Throw
        end
    | For :: VarDef v :: Equal :: TokId b :: TokId e :: TokId p :: BeginSec :: r =>
        match parse b, parse e, parse p with
        | Some b, Some e, Some p => let* s := enter (Loop v b e p) s in Ok (s, r)
        | _, _, _ => Throw
        end
    | TokId n :: BeginSec :: r => let* s := enter (Xml n []) s in Ok (s, r)
    | TokId a :: Equal :: r =>
        match strexp r with
        | Some (v, _, r) => let* s := attribute a v s in Ok (s, r)
        | None => Throw
        end
    | EndSec :: r => let* s := leave s in Ok (s, r)
    | _ => Throw
    end.
  (** lines until the end of the input; every line consumes a token *)
  Fixpoint lines (n : nat) (l : list token) (s : state) : outcome state :=
    match l, n with
    | [], _ => Ok s
    | _, O => Throw
    | _, S n => let* r := line l s in lines n (snd r) (fst r)
    end.
  (** Parse and Convert, Simple2Xml.cpp:84-124 *)
  Definition translate (l : list token) : outcome str := let* s := lines (length l) l (mkState NoRoot [] []) in Ok (s_out s).
End Simple.

(** * The number of iterations, SyntacticTreeModel.h:244 *)
From Coq Require Import QArith Qabs Qround SpecFloat.
From Verif Require Import Model.Clock.
(** with exact arithmetic; a step of zero or too many iterations: the conversion to int is undefined *)
Definition count_q (b e s : Q) : outcome Z :=
  if Qeq_bool s 0 then UB else
  let n := Qfloor (Qabs ((b - e) / s)) in
  if 2147483647 <? n then UB else Ok n.
(** with doubles *)
Definition d_trunc (x : spec_float) : option Z :=
  match x with
  | S754_zero _ => Some 0
  | S754_finite s m e =>
    let sg z := if s then - z else z in
    if 0 <=? e then Some (sg (Z.pos m * 2 ^ e)) else Some (sg (Z.pos m / 2 ^ (- e)))
  | _ => None
  end.
Definition count_d (b e s : spec_float) : outcome Z :=
  match d_trunc (SFabs (d_div (SFsub 53 1024 b e) s)) with
  | Some n => if 2147483647 <? n then UB else Ok n
  | None => UB
  end.
