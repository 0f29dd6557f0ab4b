(** What the scanner rules and the handling of input files mean. *)
From Coq Require Import Ascii String List NArith ZArith Lia Bool Arith.
From Verif Require Import Base Model.Simple Model.SimpleLex Spec.Simple.
Import ListNotations.

(** * Regular expressions and the longest match *)
Inductive re := Cls (p : ascii -> bool) | Cat (a b : re) | Star (a : re).
Inductive matches : re -> str -> Prop :=
  | m_cls p c : p c = true -> matches (Cls p) [c]
  | m_cat a b s t : matches a s -> matches b t -> matches (Cat a b) (s ++ t)
  | m_none a : matches (Star a) []
  | m_more a s t : matches a s -> matches (Star a) t -> matches (Star a) (s ++ t).
Definition Chr (c : ascii) : re := Cls (Ascii.eqb c).
Definition Plus (a : re) : re := Cat a (Star a).
(** a pattern with what has to follow it, and the token made of the matched text *)
Record rule := mkRule { pat : re; trail : str; make : str -> option token }.
Definition inner (n : nat) (s : str) : str := firstn (length s - n - 1) (skipn n s).
(** simpleXml.ll:11-34, rule by rule *)
Definition rules : list rule := [
  mkRule (Cat (Chr "#") (Star (Cls no_nl))) ["010"%char] (fun _ => Some Comment);
  mkRule (Cat (Chr "f") (Cat (Chr "o") (Chr "r"))) [] (fun _ => Some For);
  mkRule (Cat (Chr "$") (Plus (Cls word_char))) [] (fun s => Some (VarDef (tl s)));
  mkRule (Cat (Chr "$") (Cat (Chr "(") (Cat (Plus (Cls word_char)) (Chr ")")))) [] (fun s => Some (VarExp (inner 2 s)));
  mkRule (Cat (Chr "%") (Plus (Cls fmt_char))) [] (fun s => Some (Fmt s));
  mkRule (Plus (Cls tok_char)) [] (fun s => Some (TokId s));
  mkRule (Cat (Chr "034") (Cat (Plus (Cls str_char)) (Chr "034"))) [] (fun s => Some (QString (inner 1 s)));
  mkRule (Chr "{") [] (fun _ => Some BeginSec);
  mkRule (Chr "}") [] (fun _ => Some EndSec);
  mkRule (Chr "=") [] (fun _ => Some Equal);
  mkRule (Chr "034") [] (fun _ => Some Quote);
  mkRule (Chr "~") [] (fun _ => Some Concat);
  mkRule (Chr "010") [] (fun _ => None);
  mkRule (Cls (fun c => Ascii.eqb c " " || Ascii.eqb c "009")%bool) [] (fun _ => None)].
(** rule [i] applies to the input with the text [a] *)
Definition applies (i : nat) (r : rule) (s a : str) : Prop := nth_error rules i = Some r /\ matches (pat r) a /\ exists b, s = (a ++ trail r ++ b)%list.
(** it is the longest one, counting what has to follow, and the first of these *)
Definition selected (i : nat) (r : rule) (s a : str) : Prop :=
  applies i r s a /\ forall j q b, applies j q s b -> (length b + length (trail q) < length a + length (trail r) \/ length b + length (trail q) = length a + length (trail r) /\ i <= j)%nat.
(** tokens of an input and the characters without a rule *)
Inductive scans : str -> list token -> str -> Prop :=
  | sc_end : scans [] [] []
  | sc_tok i r a s t l o : a <> [] -> selected i r (a ++ s) a -> make r a = Some t -> scans s l o -> scans (a ++ s) (t :: l) o
  | sc_skip i r a s l o : a <> [] -> selected i r (a ++ s) a -> make r a = None -> scans s l o -> scans (a ++ s) l o
  | sc_echo c s l o : (forall i r a, ~ applies i r (c :: s) a) -> scans s l o -> scans (c :: s) l (c :: o).

(** * Writing tokens *)
Definition all_of (p : ascii -> bool) (s : str) : Prop := Forall (fun c => p c = true) s.
(** tokens that can be written *)
Definition writable (t : token) : Prop :=
  match t with
  | TokId s => s <> [] /\ all_of tok_char s /\ s <> lit "for"
  | QString s => s <> [] /\ all_of str_char s
  | VarDef s | VarExp s => s <> [] /\ all_of word_char s
  | Fmt f => exists s, f = "%"%char :: s /\ s <> [] /\ all_of fmt_char s
  | Quote => False
  | _ => True
  end.
(** the text of a token; [com]: the text of a comment *)
Definition token_text (com : str) (t : token) : str :=
  match t with
  | TokId s => s
  | QString s => ("034" :: s ++ ["034"])%char%list
  | VarDef s => "$"%char :: s
  | VarExp s => ("$" :: "(" :: s ++ [")"])%char%list
  | Fmt f => f
  | For => lit "for"
  | BeginSec => lit "{"
  | EndSec => lit "}"
  | Equal => lit "="
  | Concat => lit "~"
  | Comment => ("#"%char :: com ++ ["010"%char])%list
  | Quote => ["034"%char]
  end.
(** a blank is needed between these *)
Definition word_like (t : token) : bool := match t with TokId _ | For => true | _ => false end.
Definition open_end (t : token) : bool := match t with TokId _ | For | VarDef _ | Fmt _ => true | _ => false end.
(** a written input: tokens with the texts of comments, each followed by blanks *)
Inductive written : list token -> str -> Prop :=
  | w_nil : written [] []
  | w_cons t com sep l s : writable t -> all_of no_nl com -> all_of blank sep -> written l s ->
      (sep = [] -> open_end t = true -> match l with u :: _ => word_like u = false | [] => True end) ->
      written (t :: l) (token_text com t ++ sep ++ s).
(** with blanks in front *)
Definition document (l : list token) (s : str) : Prop := exists pre t, all_of blank pre /\ written l t /\ s = (pre ++ t)%list.
(** characters without a rule *)
Definition stray (c : ascii) : Prop := tok_char c = false /\ blank c = false /\ ~ In c (lit "#$%{}=~") /\ c <> "034"%char.

(** * Input files *)
Definition no_zero (s : str) : Prop := Forall (fun c => c <> "000"%char) s.
Definition contains (p s : str) : Prop := exists a b, s = (a ++ p ++ b)%list.
(** an XML document with at least one element *)
Definition is_xml (s : str) : Prop := exists e l, read_xml s = Some (e :: l).
(** an input of the simplified format with at least one block *)
Definition is_simple (s : str) : Prop := exists p, Forall (formed false) p /\ Exists is_block p /\ document (toks_all p) s.
(** what tells XML from the simplified format *)
Definition closes (s : str) : Prop := contains (lit "/>") s \/ contains (lit "</") s.
