(** Model of the momentum kick OGridKick (src/qdlib/OGridKick.{h,cpp}).  Floating point numbers are replaced by an ordered
    field; the complex exponential function of ExpElements is a parameter. *)
From Coq Require Import List ZArith Lia Bool Arith.
From Verif Require Import Base Arrays Algebra Complex Ordered Model.Grid Model.Derive.
Import ListNotations.
Open Scope Z_scope.

Section Kick.
  Variable F : ofld.
  Variable cexp : Cx F -> Cx F.
  Open Scope cr_scope.

  (** GridSystem: sizes, first coordinate and spacing of each dimension *)
  Record kgeom := mkKG { kg_ds : list Z; kg_x0 : nat -> F; kg_dx : nat -> F }.
  (** the parameters read by the operator; an absent "k" reads as an empty array *)
  Record kparams := mkKP { kp_dims : option Z; kp_scale : option F; kp_k : list F }.
  (** OGridKick.h:31-33; an empty list is a vector without storage *)
  Record kick := mkKick { k_kn : list F; k_exp : option (list (Cx F)); k_grid : kgeom; k_par : kparams }.

  (** OGridKick.cpp:10-13 *)
  Definition new_kick : kick := mkKick [] None (mkKG [] (fun _ => c0) (fun _ => c0)) (mkKP None None []).

  (** GridSystem.cpp:85-102 *)
  Definition kset_dim (n : Z) : outcome kgeom :=
    if ((4 <? n) || (n <? 0))%Z then Throw else Ok (mkKG (repeat 0%Z (Z.to_nat n)) (fun _ => c0) (fun _ => c0)).

  (** OGridKick.cpp:35-48 *)
  Definition kick_params (K : kick) (p : kparams) : outcome kick :=
    match kp_dims p with
    | Some n => if (n <? 1)%Z then Throw else let* g := kset_dim n in Ok (mkKick (k_kn K) (k_exp K) g p)
    | None => Ok (mkKick (k_kn K) (k_exp K) (k_grid K) p)
    end.

  Definition feq (a b : F) : bool := match ocmp a b with inleft (right _) => true | _ => false end.

  (** OGridKick.cpp:73-81 *)
  Definition momenta (dim : nat) (scale : F) (raw : list F) : list F :=
    map (fun i => match nth_error raw i with Some x => x * scale | None => c0 end) (seq 0 dim).
  (** OGridKick.cpp:103-107 *)
  Definition ramp (g : kgeom) (n : nat) (k : F) : list F :=
    map (fun i => (kg_x0 g n + ofZ i * kg_dx g n) * k) (upto 0%Z (size_of (kg_ds g) n)).
  (** OGridKick.cpp:92-112: phase of every grid point, then the exponential *)
  Definition phases (g : kgeom) (kn : list F) : outcome (list F) :=
    let* v := foldM (fun v n =>
        if feq (nth n kn c0) c0 then Ok v else view_add F v n (ramp g n (nth n kn c0)))
      (seq 0 (length (kg_ds g))) (new_view (repeat c0 (Z.to_nat (grid_size (kg_ds g)))) (kg_ds g)) in
    Ok (v_data v).
  (** ExpElements (codelet ExpElementsCDc): exp(d * i) *)
  Definition expo_i (d : F) : Cx F := cexp (cmul (cx_of d) ((c0, c1) : Cx F)).

  (** OGridKick.cpp:50-114: [psi] is the grid of the wave function, [None] for another kind of wave function *)
  Definition kick_psi (K : kick) (psi : option kgeom) : outcome kick :=
    match psi with
    | None => Throw
    | Some q =>
      match k_exp K with
      | Some _ => Ok K
      | None =>
        let* g := (if (length (kg_ds (k_grid K)) =? 0)%nat then kset_dim (Z.of_nat (length (kg_ds q))) else Ok (k_grid K)) in
        if negb (length (kg_ds g) =? length (kg_ds q))%nat then Throw else
        let scale := match kp_scale (k_par K) with Some s => s | None => c1 end in
        if (length (kg_ds g) <? length (kp_k (k_par K)))%nat then Throw else
        let kn := momenta (length (kg_ds g)) scale (kp_k (k_par K)) in
        let* ph := phases q kn in
        Ok (mkKick kn (Some (map expo_i ph)) q (k_par K))
      end
    end.

  (** OGridKick.cpp:122-143: _kn of the target keeps its size *)
  Definition kick_copy (K o : kick) : outcome kick :=
    let e := match k_exp K, k_exp o with None, Some t => Some t | e, _ => e end in
    let* kn := foldM (fun kn i => let* x := rd (k_kn o) i in wr kn i x) (upto 0%Z (Z.of_nat (length (kg_ds (k_grid o))))) (k_kn K) in
    Ok (mkKick kn e (k_grid o) (k_par o)).

  (** OGridKick.cpp:145-153: Apply(dest, source) and Apply(psi); without table, or for another size: undefined *)
  Fixpoint kmul (a b : list (Cx F)) : list (Cx F) :=
    match a, b with x :: a, y :: b => (x * y)%cr :: kmul a b | _, _ => [] end.
  Definition kick_apply (K : kick) (psi : list (Cx F)) : outcome (list (Cx F)) :=
    let* t := get_opt (k_exp K) in
    if (zlen psi =? zlen t)%Z then Ok (kmul psi t) else UB.

  (** OGridKick.h:52-54 *)
  Definition kick_emax (K : kick) : Cx F := c0.
  Definition kick_emin (K : kick) : Cx F := c0.
End Kick.
Arguments mkKG {F}. Arguments kg_ds {F}. Arguments kg_x0 {F}. Arguments kg_dx {F}.
Arguments mkKP {F}. Arguments kp_dims {F}. Arguments kp_scale {F}. Arguments kp_k {F}.
Arguments mkKick {F}. Arguments k_kn {F}. Arguments k_exp {F}. Arguments k_grid {F}. Arguments k_par {F}.
