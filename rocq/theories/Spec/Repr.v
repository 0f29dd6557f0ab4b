(** What the two representations of a wave function are meant to be: two vectors of numbers, in position and in momentum space,
    one of them current.  No storage, no pointers, no plans.  A content that is not determined is [None]. *)
From Coq Require Import List ZArith Bool Arith.
From Verif Require Import Base Arrays Model.Grid Model.Repr.
Import ListNotations.
Open Scope Z_scope.

Section Spec.
  Variable A : Type.
  Variable trans : bool -> list Z -> option nat -> list A -> list A.

  (** r_made: the representation in which the wave function was when it was transformed for the first time *)
  Record rep := mkR { r_dims : list Z; r_pos : option (list A); r_mom : option (list A); r_k : bool; r_ret : bool; r_made : option bool }.
  Definition active (r : rep) : option (list A) := if r_k r then r_mom r else r_pos r.
  Definition set_active (r : rep) (x : option (list A)) : rep :=
    if r_k r then mkR (r_dims r) (r_pos r) x true (r_ret r) (r_made r) else mkR (r_dims r) x (r_mom r) false (r_ret r) (r_made r).
  Definition made_now (r : rep) : option bool := match r_made r with Some c => Some c | None => Some (r_k r) end.
  (** forward: momentum space from position space; backward: the reverse *)
  Definition s_trans (fw : bool) (od : option nat) (r : rep) : rep :=
    if fw then mkR (r_dims r) (r_pos r) (option_map (trans true (r_dims r) od) (r_pos r)) true (r_ret r) (made_now r)
    else mkR (r_dims r) (option_map (trans false (r_dims r) od) (r_mom r)) (r_mom r) false (r_ret r) (made_now r).

  Definition state : Type := nat -> option rep.
  Definition live (s : state) (i : nat) : option rep :=
    match s i with Some r => if r_ret r then None else Some r | None => None end.
  Definition dim_ok (r : rep) (od : option nat) : bool := match od with None => true | Some d => (d <? length (r_dims r))%nat end.
  Definition sset (s : state) (i : nat) (r : rep) : state := fupd s i (Some r).
  Definition dims_eqb (a b : list Z) : bool := if list_eq_dec Z.eq_dec a b then true else false.
  Definition lift2 (g : list A -> list A -> list A) (a b : option (list A)) : option (list A) :=
    match a, b with Some x, Some y => Some (g x y) | _, _ => None end.

  (** one step; None: not a legal use (no such wave function, retired, sizes differ, no such dimension) *)
  Definition s_step (s : state) (c : cmd A) : option state :=
    match c with
    | CNew _ i ds =>
      match s i with
      | Some _ => None
      | None => if forallb (Z.ltb 0) ds then Some (sset s i (mkR ds None None false false None)) else None
      end
    | CWrite _ i l =>
      match live s i with
      | Some r => if zlen l =? grid_size (r_dims r) then Some (sset s i (set_active r (Some l))) else None
      | None => None
      end
    | CMap _ i j g =>
      match live s i, live s j with
      | Some r, Some q => if grid_size (r_dims r) =? grid_size (r_dims q)
                          then Some (sset s i (set_active r (option_map g (active q)))) else None
      | _, _ => None
      end
    | COp _ i j g =>
      match live s i, live s j with
      | Some r, Some q => if grid_size (r_dims r) =? grid_size (r_dims q)
                          then Some (sset s i (set_active r (lift2 g (active r) (active q)))) else None
      | _, _ => None
      end
    | CSwitch _ i k =>
      match live s i with
      | Some r => Some (sset s i (mkR (r_dims r) (r_pos r) (r_mom r) k false (r_made r)))
      | None => None
      end
    | CTrans _ fw i od =>
      match live s i with
      | Some r => if dim_ok r od then Some (sset s i (s_trans fw od r)) else None
      | None => None
      end
    | CAssign _ i j =>
      match live s i, live s j with
      | Some r, Some q => Some (sset s i (set_active (mkR (r_dims q) None None (r_k q) false (r_made r)) (active q)))
      | _, _ => None
      end
    | CRestore _ i j =>
      match live s i, live s j with
      | Some r, Some q =>
        if (i =? j)%nat then None
        else Some (sset s i (s_trans false None (mkR (r_dims q) None (active q) true false (r_made r))))
      | _, _ => None
      end
    | CReduce _ x i g =>
      match s x, live s i with
      | None, Some r =>
        let r1 := s_trans true None r in
        Some (sset (sset s x (mkR (r_dims r) (option_map g (r_mom r1)) None false false None)) i
                (mkR (r_dims r) (r_pos r) (r_mom r1) false false (made_now r)))
      | _, _ => None
      end
    | CRetire _ i =>
      match s i with
      | Some r => Some (sset s i (mkR (r_dims r) None None (r_k r) true (r_made r)))
      | None => None
      end
    | CReaquire _ i =>
      match s i with
      | Some r => Some (sset s i (mkR (r_dims r) (r_pos r) (r_mom r) (r_k r) false (r_made r)))
      | None => None
      end
    end.
  Fixpoint s_run (s : state) (cs : list (cmd A)) : option state :=
    match cs with [] => Some s | c :: t => match s_step s c with Some s' => s_run s' t | None => None end end.
  Definition nothing : state := fun _ => None.

  (** operations keep the number of elements *)
  Definition keeps (c : cmd A) : Prop :=
    match c with
    | CMap _ _ _ g => forall y, zlen (g y) = zlen y
    | COp _ _ _ g => forall x y, zlen x = zlen y -> zlen (g x y) = zlen x
    | CReduce _ _ _ g => forall y, zlen (g y) = zlen y
    | _ => True
    end.

  (** ** Careful use.
      [prep ds od]: plans for this shape and dimension cost nothing (made before, or wisdom for them). *)
  Definition prepared : Type := list Z -> option nat -> bool.
  Definition od_eqb (a b : option nat) : bool :=
    match a, b with None, None => true | Some x, Some y => (x =? y)%nat | _, _ => false end.
  Definition padd (p : prepared) (ds : list Z) (od : option nat) : prepared :=
    fun es oe => dims_eqb es ds && od_eqb oe od || p es oe.
  (** a new shape is first transformed forward; a new dimension is transformed first from the representation that the object was
      made in (forward) or from the other one (backward); a wave function that was transformed keeps its shape *)
  Definition careful (p : prepared) (s : state) (c : cmd A) : bool :=
    match c with
    | CTrans _ fw i od =>
      match live s i with
      | Some r =>
        (match r_made r with None => fw || p (r_dims r) None | Some _ => true end) &&
        (match od with
         | None => true
         | Some d => p (r_dims r) (Some d) ||
                     Bool.eqb fw (Bool.eqb (match r_made r with Some c => c | None => r_k r end) (r_k r))
         end)
      | None => true
      end
    | CAssign _ i j =>
      match live s i, live s j with
      | Some r, Some q => match r_made r with None => true | Some _ => dims_eqb (r_dims r) (r_dims q) end
      | _, _ => true
      end
    | CRestore _ i j =>
      match live s i, live s j with
      | Some r, Some q => match r_made r with None => p (r_dims q) None | Some _ => dims_eqb (r_dims r) (r_dims q) end
      | _, _ => true
      end
    | _ => true
    end.
  Definition p_step (p : prepared) (s : state) (c : cmd A) : prepared :=
    match c with
    | CTrans _ _ i od =>
      match live s i with Some r => padd (padd p (r_dims r) None) (r_dims r) od | None => p end
    | CReduce _ _ i _ => match live s i with Some r => padd p (r_dims r) None | None => p end
    | _ => p
    end.
  Fixpoint careful_run (p : prepared) (s : state) (cs : list (cmd A)) : Prop :=
    match cs with
    | [] => True
    | c :: t => careful p s c = true /\ match s_step s c with Some s' => careful_run (p_step p s c) s' t | None => True end
    end.
End Spec.

(** ** What planning costs.
    Where there is no wisdom, planning overwrites what it cannot save; [None] in place of what is lost. *)
Section Cost.
  Variable A : Type.
  Variable trans : bool -> list Z -> option nat -> list A -> list A.
  Variable flag : lvl.
  Notation rep := (rep A).
  Notation state := (state A).
  Notation wisd := (prob -> option lvl).
  (** the problem is solved by wisdom *)
  Definition cov (wis : wisd) (p : prob) : bool :=
    match flag with Est => true | _ => match wis p with Some l => lvl_leb flag l | None => false end end.
  Definition learn (wis : wisd) (p : prob) : wisd :=
    match flag with Est => wis | _ => if cov wis p then wis else fun q => if prob_eqb q p then Some flag else wis q end.
  (** both directions *)
  Definition learn2 (wis : wisd) (ds : list Z) (od : option nat) : wisd := learn (learn wis (ds, od, true)) (ds, od, false).
  Definition lost (wis : wisd) (ds : list Z) (od : option nat) : bool :=
    negb (cov wis (ds, od, true)) || negb (cov (learn wis (ds, od, true)) (ds, od, false)).
  Definition set_k (r : rep) (k : bool) : rep := mkR _ (r_dims _ r) (r_pos _ r) (r_mom _ r) k (r_ret _ r) (r_made _ r).
  (** the first transform: the vector in position space is saved *)
  Definition mfull (wis : wisd) (r : rep) : rep :=
    match r_made _ r with
    | Some _ => r
    | None => mkR _ (r_dims _ r) (r_pos _ r) (if lost wis (r_dims _ r) None then None else r_mom _ r) (r_k _ r) (r_ret _ r) (Some (r_k _ r))
    end.
  Definition wfull (wis : wisd) (r : rep) : wisd := match r_made _ r with Some _ => wis | None => learn2 wis (r_dims _ r) None end.
  Definition pfull (r : rep) (l : list nat) : list nat := match r_made _ r with Some _ => l | None => [] end.
  (** the first one for a dimension: the vector of the object that had the position space at the first transform is saved *)
  Definition mdim (wis : wisd) (l : list nat) (od : option nat) (r : rep) : rep :=
    match od with
    | None => r
    | Some d =>
      if existsb (Nat.eqb d) l || negb (lost wis (r_dims _ r) od) then r
      else if Bool.eqb (match r_made _ r with Some c => c | None => r_k _ r end) (r_k _ r)
           then mkR _ (r_dims _ r) (r_pos _ r) None (r_k _ r) (r_ret _ r) (r_made _ r)
           else mkR _ (r_dims _ r) None (r_mom _ r) (r_k _ r) (r_ret _ r) (r_made _ r)
    end.
  Definition wdim (wis : wisd) (l : list nat) (od : option nat) (ds : list Z) : wisd :=
    match od with None => wis | Some d => if existsb (Nat.eqb d) l then wis else learn2 wis ds od end.
  Definition pdim (l : list nat) (od : option nat) : list nat :=
    match od with None => l | Some d => if existsb (Nat.eqb d) l then l else d :: l end.
  (** the transform proper *)
  Definition exec (fw : bool) (od : option nat) (r : rep) : rep :=
    if fw then mkR _ (r_dims _ r) (r_pos _ r) (option_map (trans true (r_dims _ r) od) (r_pos _ r)) (r_k _ r) (r_ret _ r) (r_made _ r)
    else mkR _ (r_dims _ r) (option_map (trans false (r_dims _ r) od) (r_mom _ r)) (r_mom _ r) (r_k _ r) (r_ret _ r) (r_made _ r).

  Definition mstate : Type := state * (nat -> list nat) * wisd.
  Definition m_step (m : mstate) (c : cmd A) : option mstate :=
    let '(s, pl, wis) := m in
    match c with
    | CTrans _ fw i od =>
      match live _ s i with
      | Some r =>
        if dim_ok _ r od then
          let wis1 := wfull wis r in let l := pfull r (pl i) in
          Some (sset _ s i (set_k (exec fw od (mdim wis1 l od (mfull wis r))) fw), fupd pl i (pdim l od), wdim wis1 l od (r_dims _ r))
        else None
      | None => None
      end
    | CRestore _ i j =>
      match live _ s i, live _ s j with
      | Some r, Some q =>
        if (i =? j)%nat then None else
        let r0 := mkR _ (r_dims _ q) None (active _ q) true false (r_made _ r) in
        Some (sset _ s i (set_k (exec false None (mfull wis r0)) false), fupd pl i (pfull r (pl i)), wfull wis r0)
      | _, _ => None
      end
    | CReduce _ x i g =>
      match s x, live _ s i with
      | None, Some r =>
        let r1 := exec true None (mfull wis r) in
        Some (sset _ (sset _ s x (mkR _ (r_dims _ r) (option_map g (r_mom _ r1)) None false false None)) i (set_k r1 false),
              fupd pl i (pfull r (pl i)), wfull wis r)
      | _, _ => None
      end
    | _ => match s_step A trans s c with Some s' => Some (s', pl, wis) | None => None end
    end.
  Fixpoint m_run (m : mstate) (cs : list (cmd A)) : option mstate :=
    match cs with [] => Some m | c :: t => match m_step m c with Some m' => m_run m' t | None => None end end.
  (** a wave function that was transformed keeps its shape *)
  Definition keeps_shape (s : state) (c : cmd A) : bool :=
    match c with
    | CAssign _ i j | CRestore _ i j =>
      match live _ s i, live _ s j with
      | Some r, Some q => match r_made _ r with None => true | Some _ => dims_eqb (r_dims _ r) (r_dims _ q) end
      | _, _ => true
      end
    | _ => true
    end.
  Fixpoint shapes_kept (m : mstate) (cs : list (cmd A)) : Prop :=
    match cs with
    | [] => True
    | c :: t => keeps_shape (fst (fst m)) c = true /\ match m_step m c with Some m' => shapes_kept m' t | None => True end
    end.
End Cost.

(** what can be seen of the wave functions: grid, representation and elements *)
Definition seen (A : Type) (w : world A) (s : state A) : Prop := forall i r, live A s i = Some r ->
  exists o l, get A w i = Ok o /\ o_dims o = r_dims A r /\ o_k o = r_k A r /\ read_vec A w i = Ok l /\ zlen l = grid_size (r_dims A r) /\
    forall x, active A r = Some x -> l = x.
