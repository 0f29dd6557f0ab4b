(** What the translation of the simplified input is meant to do: a syntax with its meaning, and an XML reader. *)
From Coq Require Import Ascii String List NArith ZArith Lia Bool Arith.
From Verif Require Import Base Model.Simple.
Import ListNotations.
Open Scope Z_scope.

(** * Elements, as an XML reader sees them *)
Inductive elem := Elem (name : str) (attrs : list (str * str)) (children : list elem).

(** * An XML reader: one step per character.  Comments and white space between elements are skipped, duplicate attributes, text and anything
      that is not well-formed are refused, tabs and line ends in attribute values are normalised to spaces. *)
Definition code (c : ascii) : N := N_of_ascii c.
Definition is_letter (c : ascii) : bool := ((65 <=? code c) && (code c <=? 90) || (97 <=? code c) && (code c <=? 122))%N%bool.
Definition name_start (c : ascii) : bool := is_letter c || Ascii.eqb c "_" || Ascii.eqb c ":".
Definition name_char (c : ascii) : bool := name_start c || is_digit c || Ascii.eqb c "-" || Ascii.eqb c ".".
Definition space (c : ascii) : bool := Ascii.eqb c " " || Ascii.eqb c "009" || Ascii.eqb c "010" || Ascii.eqb c "013".
Inductive mode :=
  | Text | Lt | Bang (n : nat) | Com (n : nat) | Close (a : str) | CloseSp (a : str)
  | Name (a : str) | Tag (n : str) (l : list (str * str)) (spaced : bool) | Attr (n : str) (l : list (str * str)) (a : str)
  | Eq (n : str) (l : list (str * str)) (a : str) | Val (n : str) (l : list (str * str)) (a v : str) | Ent (n : str) (l : list (str * str)) (a v e : str)
  | Slash (n : str) (l : list (str * str)) | Bad.
Record reader := mkReader { r_mode : mode; r_stack : list (str * list (str * str) * list elem); r_done : list elem }.
Definition emit (e : elem) (st : list (str * list (str * str) * list elem)) (top : list elem) : reader :=
  match st with
  | [] => mkReader Text [] (top ++ [e])
  | (n, l, c) :: st => mkReader Text ((n, l, c ++ [e])%list :: st) top
  end.
Definition bad : reader := mkReader Bad [] [].
Definition close (a : str) (st : list (str * list (str * str) * list elem)) (top : list elem) : reader :=
  match st with
  | [] => bad
  | (n, l, c) :: st => if str_eqb a n then emit (Elem n l c) st top else bad
  end.
Definition unescape (e : str) : option ascii :=
  if str_eqb e (lit "lt") then Some "<"%char else if str_eqb e (lit "gt") then Some ">"%char else if str_eqb e (lit "amp") then Some "&"%char else
  if str_eqb e (lit "quot") then Some "034"%char else if str_eqb e (lit "apos") then Some "'"%char else None.
Definition step (r : reader) (c : ascii) : reader :=
  let st := r_stack r in let top := r_done r in
  let go m := mkReader m st top in
  match r_mode r with
  | Bad => bad
  | Text => if space c then go Text else if Ascii.eqb c "<" then go Lt else bad
  | Lt => if Ascii.eqb c "/" then go (Close []) else if Ascii.eqb c "!" then go (Bang 0) else if name_start c then go (Name [c]) else bad
  | Bang n => if Ascii.eqb c "-" then go (match n with O => Bang 1 | _ => Com 0 end) else bad
  | Com n => match n with
             | 0%nat => go (if Ascii.eqb c "-" then Com 1 else Com 0)
             | 1%nat => go (if Ascii.eqb c "-" then Com 2 else Com 0)
             | _ => if Ascii.eqb c ">" then go Text else bad
             end
  | Close a => if name_char c then go (Close (a ++ [c])%list) else if space c then go (CloseSp a) else if Ascii.eqb c ">" then close a st top else bad
  | CloseSp a => if space c then go (CloseSp a) else if Ascii.eqb c ">" then close a st top else bad
  | Name a => if name_char c then go (Name (a ++ [c])%list) else if space c then go (Tag a [] true) else if Ascii.eqb c "/" then go (Slash a []) else
              if Ascii.eqb c ">" then mkReader Text ((a, [], []) :: st) top else bad
  | Tag n l sp => if space c then go (Tag n l true) else if Ascii.eqb c "/" then go (Slash n l) else if Ascii.eqb c ">" then mkReader Text ((n, l, []) :: st) top else
                  if sp && name_start c then go (Attr n l [c]) else bad
  | Attr n l a => if name_char c then go (Attr n l (a ++ [c])%list) else if Ascii.eqb c "=" then go (Eq n l a) else bad
  | Eq n l a => if Ascii.eqb c "034" then go (Val n l a []) else bad
  | Val n l a v => if Ascii.eqb c "034" then (if existsb (fun x => str_eqb (fst x) a) l then bad else go (Tag n (l ++ [(a, v)])%list false)) else
                   if Ascii.eqb c "<" then bad else if Ascii.eqb c "&" then go (Ent n l a v []) else if space c then go (Val n l a (v ++ [" "%char])%list) else go (Val n l a (v ++ [c])%list)
  | Ent n l a v e => if Ascii.eqb c ";" then match unescape e with Some x => go (Val n l a (v ++ [x])%list) | None => bad end else if Ascii.eqb c "034" then bad else go (Ent n l a v (e ++ [c])%list)
  | Slash n l => if Ascii.eqb c ">" then emit (Elem n l []) st top else bad
  end.
Definition start : reader := mkReader Text [] [].
Definition read_xml (s : str) : option (list elem) :=
  match fold_left step s start with mkReader Text [] l => Some l | _ => None end.

(** * The simplified input *)
Inductive piece := EId (s : str) | EStr (s : str) | EVar (v : str) | EFmt (v f : str).
Inductive stmt :=
  | SComment | SSet (v : str) (e : list piece) | SAttr (a : str) (e : list piece) | SNode (n : str) (body : list stmt)
  | SFor (v b e : str) (s : option str) (body : list stmt).
Definition piece_toks (p : piece) : list token :=
  match p with EId s => [TokId s] | EStr s => [QString s] | EVar v => [VarExp v] | EFmt v f => [VarExp v; Fmt f] end.
Fixpoint exp_toks (e : list piece) : list token :=
  match e with [] => [] | p :: t => match t with [] => piece_toks p | _ => (piece_toks p ++ Concat :: exp_toks t)%list end end.
Fixpoint toks (s : stmt) : list token :=
  let all := fix all (l : list stmt) : list token := match l with [] => [] | x :: l => (toks x ++ all l)%list end in
  match s with
  | SComment => [Comment]
  | SSet v e => VarDef v :: Equal :: exp_toks e
  | SAttr a e => TokId a :: Equal :: exp_toks e
  | SNode n body => (TokId n :: BeginSec :: all body ++ [EndSec])%list
  | SFor v b e s body => (For :: VarDef v :: Equal :: TokId b :: TokId e :: match s with Some p => [TokId p] | None => [] end ++ BeginSec :: all body ++ [EndSec])%list
  end.
Definition toks_all (l : list stmt) : list token := flat_map toks l.

Section Meaning.
  Variable R : Type.
  Variable parse : str -> option R.
  Variable show : R -> str.
  Variable one : R.
  Variable add : R -> R -> R.
  Variable count : R -> R -> R -> outcome Z.
  Variable format : str -> str -> outcome str.
  (** the values of a loop *)
  Fixpoint values (n : nat) (d s : R) : list R := match n with O => [] | S n => d :: values n (add d s) s end.
  Definition eval_piece (env : vars) (p : piece) : outcome str :=
    match p with
    | EId s => Ok s
    | EStr s => Ok s
    | EVar v => Ok (value env v)
    | EFmt v f => if str_eqb f (lit "%s") then Ok (value env v) else format f (value env v)
    end.
  Fixpoint eval (env : vars) (e : list piece) : outcome str :=
    match e with [] => Ok [] | p :: t => let* a := eval_piece env p in let* b := eval env t in Ok (a ++ b)%list end.
  (** statements one after the other: attributes for the element around, elements, variables *)
  Record meaning := mkM { m_attrs : list (str * str); m_elems : list elem; m_env : vars }.
  Fixpoint mean (s : stmt) (env : vars) : outcome meaning :=
    let all := fix all (l : list stmt) (env : vars) : outcome meaning :=
      match l with
      | [] => Ok (mkM [] [] env)
      | x :: l => let* a := mean x env in let* b := all l (m_env a) in Ok (mkM (m_attrs a ++ m_attrs b) (m_elems a ++ m_elems b) (m_env b))%list
      end in
    match s with
    | SComment => Ok (mkM [] [] env)
    | SSet v e => let* x := eval env e in Ok (mkM [] [] (mset scmp env v x))
    | SAttr a e => let* x := eval env e in Ok (mkM [(a, x)] [] env)
    | SNode n body => let* m := all body env in Ok (mkM [] [Elem n (m_attrs m) (m_elems m)] (m_env m))
    | SFor v b e s body =>
        match parse b, parse e, match s with Some p => parse p | None => Some one end with
        | Some b, Some e, Some p =>
            let* n := count b e p in
            (fix loop (l : list R) (env : vars) : outcome meaning :=
              match l with
              | [] => Ok (mkM [] [] env)
              | d :: l => let* a := all body (mset scmp env v (show d)) in let* r := loop l (m_env a) in Ok (mkM [] (m_elems a ++ m_elems r) (m_env r))%list
              end) (values (S (Z.to_nat n)) b p) env
        | _, _, _ => Throw
        end
    end.
  Fixpoint mean_all (l : list stmt) (env : vars) : outcome meaning :=
    match l with
    | [] => Ok (mkM [] [] env)
    | x :: l => let* a := mean x env in let* b := mean_all l (m_env a) in Ok (mkM (m_attrs a ++ m_attrs b) (m_elems a ++ m_elems b) (m_env b))%list
    end.

  (** what the grammar allows: [el] directly in an element *)
  Fixpoint formed (el : bool) (s : stmt) : Prop :=
    let all := fun el => fix all (l : list stmt) : Prop := match l with [] => True | x :: l => formed el x /\ all l end in
    match s with
    | SComment => True
    | SSet _ e => e <> []
    | SAttr _ e => el = true /\ e <> []
    | SNode _ body => all true body
    | SFor _ _ _ _ body => all false body
    end.
  (** * Inputs that are translated faithfully *)
  Definition is_name (s : str) : Prop := match s with [] => False | c :: t => name_start c = true /\ Forall (fun c => name_char c = true) t end.
  (** characters that an XML reader takes as they are *)
  Definition clean_char (c : ascii) : bool := negb (Ascii.eqb c "<" || Ascii.eqb c "&" || Ascii.eqb c "034" || Ascii.eqb c "009" || Ascii.eqb c "010" || Ascii.eqb c "013").
  Definition clean (s : str) : Prop := Forall (fun c => clean_char c = true) s.
  (** quoted strings may have the reserved characters as well *)
  Definition quotable (s : str) : Prop := Forall (fun c => clean_char c = true \/ c = "<"%char \/ c = "&"%char) s.
  Definition fits (s : str) : Prop := (length s < 1024)%nat.
  Definition good_piece (p : piece) : Prop :=
    match p with EId s => clean s /\ fits s | EStr s => quotable s /\ fits (escape s) | EVar _ | EFmt _ _ => True end.
  (** values of variables that are printed as they are *)
  Definition good_env (env : vars) : Prop := forall v, clean (value env v) /\ fits (value env v).
  (** allowed in a comment *)
  Definition no_dashes (s : str) : Prop := forall a b, s <> (a ++ "-"%char :: "-"%char :: b)%list.
  (** bodies: attributes first, with different names, no definitions, attributes only directly in elements *)
  Definition attr_names (l : list stmt) : list str := flat_map (fun s => match s with SAttr a _ => [a] | _ => [] end) l.
  Definition no_attr (s : stmt) : Prop := match s with SAttr _ _ => False | _ => True end.
  Definition attrs_first (l : list stmt) : Prop := exists a b, l = (a ++ b)%list /\ Forall (fun s => match s with SAttr _ _ | SComment => True | _ => False end) a /\ Forall no_attr b.
  Fixpoint good (s : stmt) : Prop :=
    let all := fix all (l : list stmt) : Prop := match l with [] => True | x :: l => good x /\ all l end in
    match s with
    | SComment => True
    | SSet _ _ => False
    | SAttr a e => is_name a /\ fits a /\ e <> [] /\ Forall good_piece e
    | SNode n body => is_name n /\ attrs_first body /\ NoDup (attr_names body) /\ all body
    | SFor v _ _ _ body => no_dashes v /\ Forall no_attr body /\ all body
    end.
  (** definitions in front of the block: of a single text without reserved characters *)
  Definition good_def (s : stmt) : Prop :=
    match s with
    | SComment => True
    | SSet _ [EId x] | SSet _ [EStr x] => clean x /\ fits x
    | _ => False
    end.
  Definition is_block (s : stmt) : Prop := match s with SNode _ _ | SFor _ _ _ _ _ => True | _ => False end.
  (** numbers are printed without reserved characters; formatting is too *)
  Definition good_oracles : Prop := (forall d, clean (show d) /\ fits (show d) /\ no_dashes (show d)) /\
    (forall f x y, clean x -> format f x = Ok y -> clean y /\ fits y).
End Meaning.

From Coq Require Import QArith.
(** a value of a loop: reached from the begin with steps, not beyond the end *)
Definition loop_value (b e s d : Q) : Prop := exists k : Z, (0 <= k)%Z /\ d == b + inject_Z k * s /\ (b <= d <= e \/ e <= d <= b).
Open Scope Z_scope.
