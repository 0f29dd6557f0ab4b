(** Model of the absorbing layers: src/qdlib/PML.{h,cpp}.

    The factors _f1 and _df1 (PML.cpp:124-130) are arbitrary values here; only their number (_thick) matters.
    [mul] is complex multiplication, [cj] complex conjugation. *)
From Coq Require Import List ZArith Lia Bool Arith.
From Verif Require Import Base Arrays Model.Grid.
Import ListNotations.
Open Scope Z_scope.

Section PML.
  Context {T : Type}.
  Variable mul : T -> T -> T.
  Variable cj : T -> T.

  (** PML.h:31-41: members that decide which points are touched *)
  Record pml := mkPml { m_dim : nat; m_side : Z; m_thick : Z; m_f1 : list T; m_df1 : list T; m_grid : grid }.

  (** PML.cpp:44-50 (and 59-65, 71-77, 87-93): entry of a per-dimension parameter; dim is unsigned *)
  Definition pick (val : list Z) (dim : nat) : outcome Z :=
    if negb (zlen val =? 1) && (zlen val <? Z.of_nat dim) then Throw else
    if zlen val =? 1 then rd val 0 else rd val (Z.of_nat dim).

  (** PML.cpp:25 and 37-54, 68-81, 125-130.  [lmap], [thick]: values of the parameters if present (thick is converted to
      int); [factors t]: the t values computed for _f1 and _df1.  newsize with a negative size is UB. *)
  Definition init_params (g : grid) (lmap thick : option (list Z)) (factors : Z -> list T * list T) (dim : nat) : outcome pml :=
    let* side := match lmap with
      | Some val => let* s := pick val dim in if (s <? 0) || (3 <? s) then Throw else Ok s
      | None => Ok 3
      end in
    let* t := match thick with
      | Some val => let* t := pick val dim in if size_of (g_sizes g) dim <? t then Throw else Ok t
      | None => Ok 10
      end in
    if t <? 0 then UB else
    Ok (mkPml dim side t (fst (factors t)) (snd (factors t)) g).

  (** psi[a] *= f *)
  Definition scale_at (v : list T) (a : Z) (f : T) : outcome (list T) := let* x := rd v a in wr v a (mul x f).

  (** the loops of PML.cpp:161-203, 224-244 for one stripe and the factors fs *)
  Definition layer (side thick : Z) (fs : list T) (base Nx lo : Z) (v : list T) : outcome (list T) :=
    foldM (fun v i =>
        let step := i * lo in
        if side =? 1 then
          let* f := rd fs i in scale_at v (base + step) f
        else if side =? 2 then
          let* f := rd fs i in scale_at v (base + (Nx - 1) * lo - step) f
        else
          let* f := rd fs i in
          let* v := scale_at v (base + step) f in
          scale_at v (base + (Nx - 1) * lo - step) f)
      (upto 0 thick) v.

  Definition all_stripes (m : pml) (fs : list T) (v : list T) : outcome (list T) :=
    let g := active_dim (m_grid m) (m_dim m) in
    let* lo := LowOthers g in
    let Nx := size_of (g_sizes g) (m_dim m) in
    let* no := NumOthers g in
    foldM (fun v rep => let* base := IndexBase g rep in layer (m_side m) (m_thick m) fs base Nx lo v) (upto 0 no) v.

  (** PML.cpp:147-205 *)
  Definition apply_transform (m : pml) (v : list T) (conj : bool) : outcome (list T) :=
    all_stripes m (if conj then map cj (m_f1 m) else m_f1 m) v.
  (** PML.cpp:210-246 *)
  Definition apply_transform_diff (m : pml) (v : list T) : outcome (list T) := all_stripes m (m_df1 m) v.
End PML.
