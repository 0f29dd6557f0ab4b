(** Model of the non-adiabatic coupling operator OGridNAC (src/qdlib/OGridNAC.cpp).

    [F]: exact numbers in place of double; [M]: wave functions on a grid, a module over F; [V]: grid functions as read by
    OGridPotential, multiplied on wave functions by [mul], with their largest and smallest element; [D i]: the derivative in
    dimension i with factor 1 (OGridNabla); [files]: what reading a potential does.  An operator whose Init threw is not used. *)
From Coq Require Import Ascii String List ZArith Lia Bool.
From Verif Require Import Base Arrays Algebra Ordered.
Import ListNotations.
Open Scope Z_scope.

Section NAC.
  Variable F : ofld.
  Variable M : cmodule F.
  Variable V : Type.
  Variable mul : V -> M -> M.
  Variable D : Z -> M -> M.
  Variable vmax vmin : V -> F.
  Variable pi : F.
  Variable files : str -> outcome V.

  (** the parameters "dims", "file", "sign", "mass", [None]: not present *)
  Record npars := mkNp { np_dims : option Z; np_file : option str; np_sign : option F; np_mass : option F }.
  (** OGridNAC.h:28-34; the members _NACME[i] for i < Dim() *)
  Record nac := mkNac { n_f : list V; n_sign : F; n_mass : F; n_buf : bool }.
  (** OGridNAC.cpp:13-19 *)
  Definition nac_new : nac := mkNac [] c1 c1 false.

  Definition given {A} (o : option A) : bool := match o with Some _ => true | None => false end.
  (** OGridNAC.cpp:54-63 *)
  Definition nac_file (p : npars) (dim : Z) (s : str) (i : Z) : str :=
    if given (np_mass p) && (dim =? 1) then s else (s ++ dec_print_Z i)%list.
  (** OGridNAC.cpp:27-78, GridSystem.cpp:101-114 (MAX_DIMS = 4) *)
  Definition nac_init (o : nac) (p : npars) : outcome nac :=
    let dim := match np_dims p with Some d => d | None => 1 end in
    if (dim <? 1) || (4 <? dim) then Throw else
    match np_file p with
    | None => Throw
    | Some s =>
      let* f := foldM (fun l i => let* v := files (nac_file p dim s i) in Ok (l ++ [v])%list) (upto 0 dim) [] in
      Ok (mkNac f (match np_sign p with Some x => x | None => n_sign o end)
            (if dim =? 1 then match np_mass p with Some x => x | None => n_mass o end else n_mass o) (n_buf o))
    end.
  (** OGridNAC.cpp:81-103: [psi]: the number of dimensions of a wave function on a grid; [fits]: the grid of the function is that of
      the wave function (OGridPotential.cpp:111-120) *)
  Definition nac_psi (o : nac) (psi : option Z) (fits : V -> bool) : outcome nac :=
    match psi with
    | None => Throw
    | Some d =>
      if negb (zlen (n_f o) =? d) then Throw else if n_buf o then Ok o else
      if forallb fits (n_f o) then Ok (mkNac (n_f o) (n_sign o) (n_mass o) true) else Throw
    end.
  (** OGridNAC.cpp:137, 147 *)
  Definition half : F := fdiv c1 (cadd c1 c1).
  Definition pre (o : nac) : F := fdiv (cmul half (n_sign o)) (n_mass o).
  (** OGridNAC.cpp:136-151: one dimension *)
  Definition nac_step (o : nac) (psi dest : M) (i : Z) : outcome M :=
    let* f := rd (n_f o) i in
    let b := mul f (mscale (pre o) (D i psi)) in
    let dest := if i =? 0 then b else madd dest b in
    let b := mscale (pre o) (D i (mul f psi)) in
    Ok (madd dest b).
  (** OGridNAC.cpp:131-155 *)
  Definition nac_apply (o : nac) (dest psi : M) : outcome M :=
    if n_buf o then foldM (nac_step o psi) (upto 0 (zlen (n_f o))) dest else UB.
  (** OGridNAC.cpp:157-165 *)
  Definition nac_apply_in (o : nac) (junk psi : M) : outcome M := nac_apply o junk psi.
  (** OGridNAC.cpp:172-191: the buffer of an operator without Init(Psi) is NULL *)
  Definition nac_copy (o : nac) : outcome nac := if n_buf o then Ok (mkNac (n_f o) (n_sign o) (n_mass o) true) else UB.
  (** OGridNAC.cpp:106-116: [dx]: the step in the first dimension *)
  Definition nac_emax (o : nac) (dx : F) : F := cmul (fold_left (fun m f => cadd m (vmax f)) (n_f o) c0) (fdiv (fdiv pi (n_mass o)) dx).
  (** OGridNAC.cpp:119-129: the smallest elements are calculated and dropped *)
  Definition nac_emin (o : nac) (dx : F) : F :=
    let min := fold_left (fun m f => let _ := vmin f in m) (n_f o) c0 in cmul min (fdiv (fdiv pi (n_mass o)) dx).
End NAC.
Arguments mkNp {F}. Arguments np_dims {F}. Arguments np_file {F}. Arguments np_sign {F}. Arguments np_mass {F}.
Arguments mkNac {F V}. Arguments n_f {F V}. Arguments n_sign {F V}. Arguments n_mass {F V}. Arguments n_buf {F V}.
