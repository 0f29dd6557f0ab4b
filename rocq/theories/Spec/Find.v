(** Where the operators of a type are in a tree of operators. *)
From Coq Require Import Ascii String List ZArith Lia Bool.
From Verif Require Import Base Arrays Model.Find.
Import ListNotations.
Open Scope Z_scope.

(** a place: which elements of which multistate operators, how many lists *)
Inductive hop := InList | InState (i j : Z).
Definition place := list hop.
Definition occ := (place * Z)%type.
Definition within (h : hop) (l : list occ) : list occ := map (fun t => (h :: fst t, snd t)) l.

(** element (i, j) for 0 <= i, j < states *)
Definition at_ {A} (m : list (list (option A))) (i j : Z) : option A := nth (Z.to_nat j) (nth (Z.to_nat i) m []) None.
Definition upto_pairs (n : Z) : list (Z * Z) := flat_map (fun i => map (fun j => (i, j)) (upto 0 n)) (upto 0 n).

(** All occurrences in a tree.  In a multistate operator a pointer which is entered in both places of a pair is one
    occurrence, in the lower one (this is how hermitian multistate operators are stored after Init). *)
Fixpoint terms (o : op) : list occ :=
  match o with
  | Wanted id => [([], id)]
  | Plain _ => []
  | OL _ l => flat_map (fun o => within InList (terms o)) l
  | MS _ m =>
      let t := map (map (option_map (fun o => (pid o, terms o)))) m in
      flat_map (fun ij =>
        let '(i, j) := ij in
        match at_ t i j with
        | None => []
        | Some (p, ts) =>
            match at_ t j i with
            | Some (p', _) => if (i <? j) && (p =? p') then [] else within (InState i j) ts
            | None => within (InState i j) ts
            end
        end) (upto_pairs (zlen m))
  end.
(** all occurrences in a package *)
Fixpoint pterms (p : pk) : list occ :=
  match p with
  | PLeaf id => [([], id)]
  | PList l => flat_map (fun p => within InList (pterms p)) l
  | PMS _ l => flat_map (fun e => within (InState (fst (fst e)) (snd (fst e))) (pterms (snd e))) l
  end.

Section Lab.
  Variable lab : Z -> str -> bool.
  Variable label : option str.
  Definition wanted (t : occ) : bool := match label with None => true | Some l => lab (snd t) l end.
  (** the occurrences asked for *)
  Definition asked (o : op) : list occ := filter wanted (terms o).

  (** What is looked at: in multistate operators the elements below the diagonal, and the element opposite to one
      with something in it, if that is another operator. *)
  Fixpoint searched (o : op) : list occ :=
    match o with
    | Wanted id => if wanted ([], id) then [([], id)] else []
    | Plain _ => []
    | OL _ l => flat_map (fun o => within InList (searched o)) l
    | MS _ m =>
        let t := map (map (option_map (fun o => (pid o, searched o)))) m in
        flat_map (fun i => flat_map (fun j =>
          match at_ t i j with
          | None => []
          | Some (p, []) => []
          | Some (p, ts) =>
              within (InState i j) ts ++
              match at_ t j i with
              | Some (p', ts') => if p =? p' then [] else within (InState j i) ts'
              | None => []
              end
          end) (upto 0 i)) (upto 0 (zlen m))
    end.
  (** The label is printed, though there is none: somewhere an element with something in it has an opposite one
      which is another operator. *)
  Fixpoint prints (o : op) : bool :=
    match o with
    | Wanted _ | Plain _ => false
    | OL _ l => existsb prints l
    | MS _ m =>
        let t := map (map (option_map (fun o => (pid o, (negb (zlen (searched o) =? 0), prints o))))) m in
        existsb (fun i => existsb (fun j =>
          match at_ t i j with
          | None => false
          | Some (p, (some, pr)) =>
              pr || (some && match at_ t j i with
                             | Some (p', _) => negb (p =? p')
                             | None => false
                             end)
          end) (upto 0 i)) (upto 0 (zlen m))
    end.
  (** Trees in which everything asked for is looked at: no multistate operator has it on the diagonal, and above the
      diagonal only if there is something below. *)
  Fixpoint lower (o : op) : Prop :=
    match o with
    | Wanted _ | Plain _ => True
    | OL _ l => fold_right (fun o P => lower o /\ P) True l
    | MS _ m =>
        fold_right (fun r P => fold_right (fun e P => match e with Some o => lower o /\ P | None => P end) True r /\ P) True m /\
        (forall i o, 0 <= i < zlen m -> at_ m i i = Some o -> asked o = []) /\
        (forall i j o, 0 <= j < i -> i < zlen m -> at_ m j i = Some o -> asked o <> [] -> exists o', at_ m i j = Some o' /\ asked o' <> [])
    end.
End Lab.
