(** Model of the search for operators of a type, src/ChainLoader.h:48-160 (FindOperatorType), and of its use by the
    optimal control program, src/ProgOCT.cpp:915-950.

    An operator is a pointer: nodes carry an identity, which is what pointers are compared by.  The arrays of
    results hold None where nothing was written; reading such an entry is undefined, as is leaving the array.
    Left out: the messages, the flags which OList::Add and OMultistate::Add keep (hermitian, time dependent,
    conjugation), and their exceptions, which a package cannot raise: it is never larger than what is searched. *)
From Coq Require Import Ascii String List ZArith Lia Bool.
From Verif Require Import Base Arrays.
Import ListNotations.
Open Scope Z_scope.

(** the operators: of the type looked for; lists (OSum, OProduct, ...); multistate operators with their matrix;
    all others *)
Inductive op := Wanted (id : Z) | Plain (id : Z) | OL (id : Z) (l : list op) | MS (id : Z) (m : list (list (option op))).
Definition pid (o : op) : Z := match o with Wanted i | Plain i | OL i _ | MS i _ => i end.
(** the package returned: new lists and multistate operators around the operators found *)
Inductive pk := PLeaf (id : Z) | PList (l : list pk) | PMS (states : Z) (l : list (Z * Z * pk)).

(** OMultistate::State (OMultistate.cpp:60-66): NULL behind the number of states *)
Definition elem {A} (m : list (list (option A))) (i j : Z) : option A :=
  if (i <? zlen m) && (j <? zlen m) then nth (Z.to_nat j) (nth (Z.to_nat i) m []) None else None.
(** i from 0, j < i *)
Definition below (n : Z) : list (Z * Z) := flat_map (fun i => map (fun j => (i, j)) (upto 0 i)) (upto 0 n).

Section Find.
  (** GlobalOpList::CheckLabel and the argument label *)
  Variable lab : Z -> str -> bool.
  Variable label : option str.
  (** arguments found, n, index; result, found and n afterwards *)
  Definition res := (option pk * (list (option Z) * Z))%type.
  Definition call := list (option Z) -> Z -> Z -> outcome res.

  (** ChainLoader.h:80-87, 115-121, 131-137; the flag says that the limit was reached *)
  Definition copy_found (sop found : list (option Z)) (n index nops max : Z) : outcome (list (option Z) * bool) :=
    foldM (fun (x : list (option Z) * bool) k =>
      if snd x then Ok x else
      let* c := rd sop (index + nops + k) in
      match c with
      | None => UB
      | Some _ => let* f := wr (fst x) (index + nops + k) c in Ok (f, n <=? nops + k)
      end) (upto 0 max) (found, false).

  (** ChainLoader.h:70-99 *)
  Fixpoint list_loop (cs : list call) (sop found : list (option Z)) (n index : Z) (package : list pk) (nops : Z) : outcome res :=
    match cs with
    | [] => Ok (if nops =? 0 then None else Some (PList package), (found, nops))
    | c :: t =>
        let* (r, s) := c sop n (index + nops) in
        match r with
        | None => list_loop t (fst s) found n index package nops
        | Some r =>
            let* (found, stop) := copy_found (fst s) found n index nops (snd s) in
            if stop then Ok (Some r, (found, n))
            else list_loop t (fst s) found n index (package ++ [r]) (nops + snd s)
        end
    end.

  (** ChainLoader.h:102-160.  [m]: identity and search of the elements *)
  Fixpoint ms_loop (m : list (list (option (Z * call)))) (ps : list (Z * Z)) (sop found : list (option Z)) (n index : Z) (package : list (Z * Z * pk)) (nops : Z) : outcome res :=
    match ps with
    | [] => Ok (if nops =? 0 then None else Some (PMS (zlen m) package), (found, nops))
    | (i, j) :: t =>
        match elem m i j with
        | None => ms_loop m t sop found n index package nops
        | Some (p, c) =>
            let* (r, s) := c sop n (index + nops) in
            match r with
            | None =>
                if n <? nops then Ok (Some (PMS (zlen m) package), (found, nops))
                else ms_loop m t (fst s) found n index package nops
            | Some r =>
                let package := package ++ [(i, j, r)] in
                let* (found, stop) := copy_found (fst s) found n index nops (snd s) in
                if stop then Ok (Some (PMS (zlen m) package), (found, n)) else
                let nops := nops + snd s in
                match elem m j i with
                | Some (p', c') =>
                    if p =? p' then
                      if n <? nops then Ok (Some (PMS (zlen m) package), (found, nops))
                      else ms_loop m t (fst s) found n index package nops
                    else
                    match label with
                    | None => UB  (* cout << *label *)
                    | Some _ =>
                        let* (r', s) := c' (fst s) n (index + nops) in
                        match r' with
                        | None =>
                            if n <? nops then Ok (Some (PMS (zlen m) package), (found, nops))
                            else ms_loop m t (fst s) found n index package nops
                        | Some r' =>
                            let package := package ++ [(j, i, r')] in
                            let* (found, stop) := copy_found (fst s) found n index nops (snd s) in
                            if stop then Ok (Some (PMS (zlen m) package), (found, n)) else
                            let nops := nops + snd s in
                            if n <? nops then Ok (Some (PMS (zlen m) package), (found, nops))
                            else ms_loop m t (fst s) found n index package nops
                        end
                    end
                | None =>
                    if n <? nops then Ok (Some (PMS (zlen m) package), (found, nops))
                    else ms_loop m t (fst s) found n index package nops
                end
            end
        end
    end.

  (** ChainLoader.h:55-68: with a label given only operators with this label count *)
  Definition counts (id : Z) : bool := match label with None => true | Some l => lab id l end.
  Definition leaf (id : Z) : call := fun found n index =>
    if counts id then let* found := wr found index (Some id) in Ok (Some (PLeaf id), (found, 1)) else Ok (None, (found, n)).
  (** new C*[n] *)
  Definition fresh (n : Z) : list (option Z) := repeat None (Z.to_nat n).
  Fixpoint find (o : op) : call :=
    match o with
    | Wanted id => leaf id
    | Plain _ => fun found n index => Ok (None, (found, 0))
    | OL _ l => fun found n index => list_loop (map find l) (fresh n) found n index [] 0
    | MS _ m => fun found n index =>
        ms_loop (map (map (option_map (fun o => (pid o, find o)))) m) (below (zlen m)) (fresh n) found n index [] 0
    end.
End Find.

(** ProgOCT.h:20: MAX_LASERS *)
Definition max_lasers : Z := 16.
(** ProgOCT.cpp:915-950: labelled lasers first, otherwise all; CoupOLaser[l]->GetLaser() for each; none is an error *)
Definition choose (lab : Z -> str -> bool) (H : op) : outcome (list Z) :=
  let* x := find lab (Some (lit "OptLaser")) H (fresh max_lasers) max_lasers 0 in
  let* y := if snd (snd x) =? 0 then find lab None H (fst (snd x)) max_lasers 0 else Ok x in
  if snd (snd y) =? 0 then Throw else
  foldM (fun ls l => let* c := rd (fst (snd y)) l in match c with Some c => Ok (ls ++ [c]) | None => UB end) (upto 0 (snd (snd y))) [].
