(** Model of the finite difference code: src/qdlib/HOFD.h and src/qdlib/OGridHOFD.cpp.

    Numbers are elements of an arbitrary field (no rounding); real coefficients and complex grid values share it.
    Source and result vectors are distinct objects.  The OpenMP loops are run in index order.  The grid spacing
    (GridSystem::Dx) is given as a list. *)
From Coq Require Import List ZArith Lia Bool Arith.
From Verif Require Import Base Arrays Algebra Model.Grid.
Import ListNotations.
Open Scope Z_scope.

Section Stencil.
  Variable F : fld.

  (** HOFD.h:30-42 *)
  Record hofd := mkHofd {
    h_deriv : Z; h_order : Z; h_pbc : bool;
    h_cfc : list (list F);
    h_pfac1 : F; h_pfac : list F;
    h_grid : grid; h_dx : list F }.

  (** HOFD.h:85-93 *)
  Definition check_setup (deriv order : Z) : outcome unit :=
    if (50 <? order) || negb (Z.rem order 2 =? 0) || (order <? 2) then Throw else
    if (2 <? deriv) || (deriv <? 1) then Throw else Ok tt.

  (** HOFD.h:99-113; the coefficient table is a parameter here (see Model/Tables.v), MAX_DIMS = 4 *)
  Definition new_hofd (table : list (list F)) (deriv order : Z) : outcome hofd :=
    let* _ := check_setup deriv order in
    Ok (mkHofd deriv order false table c1 [c1; c1; c1; c1] new_grid []).

  Definition set_pbc (h : hofd) b := mkHofd (h_deriv h) (h_order h) b (h_cfc h) (h_pfac1 h) (h_pfac h) (h_grid h) (h_dx h).
  Definition set_pfac1 (h : hofd) x := mkHofd (h_deriv h) (h_order h) (h_pbc h) (h_cfc h) x (h_pfac h) (h_grid h) (h_dx h).
  Definition set_pfac (h : hofd) x := mkHofd (h_deriv h) (h_order h) (h_pbc h) (h_cfc h) (h_pfac1 h) x (h_grid h) (h_dx h).
  (** HOFD.h:64 *)
  Definition set_grid (h : hofd) (G : grid) (dx : list F) :=
    mkHofd (h_deriv h) (h_order h) (h_pbc h) (h_cfc h) (h_pfac1 h) (h_pfac h) (assign (h_grid h) G) dx.

  (** pow with an integer exponent *)
  Fixpoint fpow (x : F) (n : nat) : F := match n with O => c1 | S m => cmul x (fpow x m) end.

  (** HOFD.h:190 *)
  Definition prefactor (h : hofd) (dim : nat) : outcome F :=
    let* dx := rd (h_dx h) (Z.of_nat dim) in
    let* p := rd (h_pfac h) (Z.of_nat dim) in
    Ok (cmul (cmul (fdiv c1 (fpow dx (Z.to_nat (h_deriv h)))) (h_pfac1 h)) p).

  (** HOFD.h:129-130, 196-197 *)
  Definition deriv_sign (h : hofd) : F := if Z.rem (h_deriv h) 2 =? 0 then c1 else ofZ (-1).
  (** HOFD.h:132, 202 *)
  Definition coeffs (h : hofd) : outcome (list F) :=
    rd (h_cfc h) (Z.quot ((h_deriv h - 1) * 50) 2 + Z.quot (h_order h) 2 - 1).

  (** res[a] += x or res[a] = x *)
  Definition put (acc : bool) (res : list F) (a : Z) (x : F) : outcome (list F) :=
    if acc then let* o := rd res a in wr res a (cadd o x) else wr res a x.

  (** HOFD.h:376-405: values at the i-th point from the left and from the right edge *)
  Definition edge_point (cf psi : list F) (base Nx lo order2 : Z) (df : F) (pbc : bool) (i : Z) : outcome (F * F) :=
    let cfbb := i * lo in
    let cfbe := (Nx - i - 1) * lo in
    let* c := rd cf order2 in
    let* x := rd psi (base + cfbb) in
    let* y := rd psi (base + cfbe) in
    let* s := foldM (fun s j => let '(db, de, step) := s in
        let* cj := rd cf j in
        let* l1 := rd psi (base + (cfbb - step)) in
        let* r1 := rd psi (base + (cfbb + step)) in
        let* l2 := rd psi (base + (cfbe - step)) in
        let* r2 := rd psi (base + (cfbe + step)) in
        Ok (cadd db (cmul cj (cadd l1 (cmul df r1))), cadd de (cmul cj (cadd l2 (cmul df r2))), step + lo))
      (downto (order2 - 1) (order2 - i)) (cmul c x, cmul c y, lo) in
    let* s := foldM (fun s j => let '(db, de, step) := s in
        let* cj := rd cf j in
        let* r1 := rd psi (base + (cfbb + step)) in
        let* l2 := rd psi (base + (cfbe - step)) in
        Ok (cadd db (cmul (cmul df cj) r1), cadd de (cmul cj l2), step + lo))
      (downto (order2 - 1 - i) 0) s in
    let* s := if pbc then
        let '(db, de, _) := s in
        foldM (fun s j => let '(db, de, step) := s in
          let* cj := rd cf j in
          let* a := rd psi (base + (Nx * lo - step)) in
          let* b := rd psi (base + (step - lo)) in
          Ok (cadd db (cmul cj a), cadd de (cmul (cmul df cj) b), step + lo))
        (downto (order2 - i - 1) 0) (db, de, lo)
      else Ok s in
    let '(db, de, _) := s in Ok (db, de).

  (** HOFD.h:418-425 *)
  Definition centre_point (cf psi : list F) (base lo order2 : Z) (df : F) (i : Z) : outcome F :=
    let cfb := i * lo in
    let* c := rd cf order2 in
    let* x := rd psi (base + cfb) in
    let* s := foldM (fun s j => let '(d, step) := s in
        let* cj := rd cf j in
        let* r := rd psi (base + (cfb + step)) in
        let* l := rd psi (base + (cfb - step)) in
        Ok (cadd (cadd d (cmul (cmul df cj) r)) (cmul cj l), step + lo))
      (downto (order2 - 1) 0) (cmul c x, lo) in
    Ok (fst s).

  (** HOFD.h:371-433; res and in are given with the common base index of the stripe *)
  Definition diff_single (res psi cf : list F) (base Nx lo order2 : Z) (h df : F) (pbc acc : bool) : outcome (list F) :=
    let* res := foldM (fun res i =>
        let* dd := edge_point cf psi base Nx lo order2 df pbc i in
        let* res := put acc res (base + i * lo) (cmul h (fst dd)) in
        put acc res (base + (Nx - i - 1) * lo) (cmul h (snd dd)))
      (upto 0 order2) res in
    foldM (fun res i =>
        let* d := centre_point cf psi base lo order2 df i in
        put acc res (base + i * lo) (cmul d h))
      (upto order2 (Nx - order2)) res.

  (** HOFD.h:187-215 *)
  Definition diff_dim (h : hofd) (res psi : list F) (dim : nat) (acc : bool) : outcome (hofd * list F) :=
    let* hf := prefactor h dim in
    let order2 := Z.quot (h_order h) 2 in
    let g := active_dim (h_grid h) dim in
    let Nx := g_numactive g in
    let df := deriv_sign h in
    let* cf := coeffs h in
    let* no := NumOthers g in
    let* res := foldM (fun res rep =>
        let* bi := IndexBase g rep in
        let* lo := LowOthers g in
        diff_single res psi cf bi Nx lo order2 hf df (h_pbc h) acc)
      (upto 0 no) res in
    Ok (mkHofd (h_deriv h) (h_order h) (h_pbc h) (h_cfc h) (h_pfac1 h) (h_pfac h) g (h_dx h), res).

  (** HOFD.h:123-177; the loop conditions [j >= 0 && ...] as a fold that stops changing once the condition fails.
      [%] is C remainder; a negative index is UB.  LowOthers(dim) (GridSystem.h:91) is the table entry of dim. *)
  Definition all_point (cf psi : list F) (pbc : bool) (order2 N lo : Z) (df : F) (i : Z) : outcome F :=
    if N =? 0 then UB else
    let* c := rd cf order2 in
    let* x := rd psi i in
    if pbc then
      let* s := foldM (fun s j => let '(d, step) := s in
          let* cj := rd cf j in
          let* r := rd psi (Z.rem (i + step) N) in
          let* l := rd psi (Z.rem (N + i - step) N) in
          Ok (cadd (cadd d (cmul (cmul df cj) r)) (cmul cj l), step + lo))
        (downto (order2 - 1) 0) (cmul c x, lo) in
      Ok (fst s)
    else
      let lrep := Z.quot i N in
      let* s := foldM (fun s j => let '(d, step, go) := s in
          if go && (Z.quot step N =? lrep) then
            let* cj := rd cf j in
            let* r := rd psi step in
            Ok (cadd d (cmul (cmul df cj) r), step + lo, true)
          else Ok (d, step, false))
        (downto (order2 - 1) 0) (cmul c x, i + lo, true) in
      let* s := foldM (fun s j => let '(d, step, go) := s in
          if go && (Z.quot (N + i - step) N =? lrep + 1) then
            let* cj := rd cf j in
            let* l := rd psi (Z.rem (N + step) N) in
            Ok (cadd d (cmul cj l), step - lo, true)
          else Ok (d, step, false))
        (downto (order2 - 1) 0) (fst (fst s), i - lo, true) in
      Ok (fst (fst s)).

  Definition diff_all (h : hofd) (res psi : list F) (acc : bool) : outcome (list F) :=
    let order2 := Z.quot (h_order h) 2 in
    let df := deriv_sign h in
    let* cf := coeffs h in
    let ds := g_sizes (h_grid h) in
    foldM (fun res i =>
        let* res := if acc then Ok res else wr res i c0 in
        foldM (fun res dim =>
            let* hf := prefactor h dim in
            let* lo := get_opt (g_lo (h_grid h) dim) in
            let* d := all_point cf psi (h_pbc h) order2 (size_of ds dim) lo df i in
            put true res i (cmul hf d))
          (seq 0 (length ds)) res)
      (upto 0 (grid_size ds)) res.

  (** HOFD.h:343-369 *)
  Definition diff_block (out psi cf : list F) (order2 point N lo1 lo2 bs1 bs2 : Z) (df h : F) (acc : bool) : outcome (list F) :=
    foldM (fun out x2 =>
      foldM (fun out x1 =>
        let base := point + x2 * lo2 + x1 * lo1 in
        let* c := rd cf order2 in
        let* x := rd psi base in
        let* s := foldM (fun s j => let '(d, step) := s in
            if N =? 0 then UB else
            let* cj := rd cf j in
            let* r := rd psi (Z.rem (base + step) N) in
            let* l := rd psi (Z.rem (N + base - step) N) in
            Ok (cadd (cadd d (cmul (cmul df cj) r)) (cmul cj l), step + lo1))
          (downto (order2 - 1) 0) (cmul c x, lo1) in
        put acc out base (cmul h (fst s)))
      (upto 0 bs1) out) (upto 0 bs2) out.

  (** HOFD.h:241-253: smallest divisor of n from b on, at most max(b, n) *)
  Definition block_size (b n : Z) : Z :=
    match find (fun k => Z.rem n k =? 0) (upto b n) with Some k => k | None => Z.max b n end.

  (** HOFD.h:227-319; h1 and h2 as passed in (1/pow(Dx,deriv)*_pfac1).  result and buffer *)
  Definition diff_mixed (h : hofd) (res buf psi : list F) (dim1 dim2 : nat) (acc : bool) : outcome (list F * list F) :=
    let ds := g_sizes (h_grid h) in
    let* dx1 := rd (h_dx h) (Z.of_nat dim1) in
    let* dx2 := rd (h_dx h) (Z.of_nat dim2) in
    let h1 := cmul (fdiv c1 (fpow dx1 (Z.to_nat (h_deriv h)))) (h_pfac1 h) in
    let h2 := cmul (fdiv c1 (fpow dx2 (Z.to_nat (h_deriv h)))) (h_pfac1 h) in
    let order2 := Z.quot (h_order h) 2 in
    let* lo1 := get_opt (g_lo (h_grid h) dim1) in
    let* lo2 := get_opt (g_lo (h_grid h) dim2) in
    let Nx1 := size_of ds dim1 in
    let Nx2 := size_of ds dim2 in
    let bs2 := block_size (if order2 <? 16 then 16 else order2) Nx2 in
    let bs1 := block_size 16 Nx1 in
    let df := deriv_sign h in
    let* cf := coeffs h in
    let N := grid_size ds in
    let lorep := low_others2 ds dim1 dim2 in
    let rem_N x := if N =? 0 then UB else Ok (Z.rem x N) in
    foldM (fun rb rep =>
      let base := rep * lorep in
      foldM (fun rb blk1 =>
        let '(res, buf) := rb in
        let base1 := base + blk1 * bs1 * lo1 in
        let* p := rem_N (N + base1 - order2 * lo2) in
        let* buf := diff_block buf psi cf order2 p N lo1 lo2 bs1 order2 df h1 acc in
        let* buf := diff_block buf psi cf order2 base1 N lo1 lo2 bs1 bs2 df h1 acc in
        let* rb := foldM (fun rb blk2 =>
            let '(res, buf) := rb in
            let base2 := base1 + blk2 * bs2 * lo2 in
            let* buf := diff_block buf psi cf order2 (base2 + bs2 * lo2) N lo1 lo2 bs1 bs2 df h1 acc in
            let* res := diff_block res buf cf order2 base2 N lo2 lo1 bs2 bs1 df h2 acc in
            Ok (res, buf))
          (upto 0 (Z.quot (Nx2 - order2) bs2 - 1)) (res, buf) in
        let '(res, buf) := rb in
        let* res := diff_block res buf cf order2 (base1 + (Z.quot (Nx2 - order2) bs2 - 1) * bs2 * lo2)
                               N lo2 lo1 bs2 bs1 df h2 acc in
        let* res := diff_block res buf cf order2 p N lo2 lo1 order2 bs1 df h2 acc in
        Ok (res, buf))
      (upto 0 (Z.quot Nx1 bs1)) rb)
    (upto 0 (num_others2 ds dim1 dim2)) (res, buf).

  (** ** OGridHOFD.cpp *)
  (** OGridHOFD.h: members used here; _mass has MAX_DIMS elements at first *)
  Record ohofd := mkO {
    o_deriv : Z; o_order : Z; o_dim : Z; o_pfac : F; o_hofd : option hofd; o_mass : list F; o_sizes : list Z }.

  (** OGridHOFD.cpp:21-25, 32-52 with the values read from the parameters *)
  Definition o_init_params (table : list (list F)) (deriv order dim : Z) (pbc : bool) : outcome ohofd :=
    let* h := new_hofd table deriv order in
    Ok (mkO deriv order dim c1 (Some (set_pfac1 (set_pbc h pbc) c1)) [c1; c1; c1; c1] []).

  Variable feqb : F -> F -> bool.
  (** _mass[i] > -1 *)
  Variable above_m1 : F -> bool.

  (** OGridHOFD.cpp:82-88: factor = -1/(2*_mass[i]) assigns every element of the vector *)
  Definition mass_loop (mass : list F) (n : nat) : outcome (list F * bool) :=
    foldM (fun s i => let '(factor, eff) := s in
        let* m := rd mass (Z.of_nat i) in
        if feqb m c0 then Throw else
        Ok (map (fun _ => fdiv (ofZ (-1)) (cmul (ofZ 2) m)) factor, eff || above_m1 m))
      (seq 0 n) (map (fun _ => c0) mass, false).

  (** OGridHOFD.cpp:54-95; [mass]: the values of parameter "mass" if present *)
  Definition o_init_wf (o : ohofd) (G : grid) (dx : list F) (mass : option (list F)) : outcome ohofd :=
    let n := Z.of_nat (length (g_sizes G)) in
    if (n <=? o_dim o) || (o_dim o <? -1) then Throw else
    let* h := get_opt (o_hofd o) in
    let h := set_grid h G dx in
    match mass with
    | Some vec =>
      if (length vec <? 1)%nat then Throw else
      let* fe := mass_loop vec (length (g_sizes G)) in
      if snd fe then
        Ok (mkO (o_deriv o) (o_order o) (o_dim o) (o_pfac o) (Some (set_pfac h (fst fe))) vec (g_sizes G))
      else Throw
    | None =>
      Ok (mkO (o_deriv o) (o_order o) (o_dim o) (o_pfac o) (Some (set_pfac h (o_mass o))) (o_mass o) (g_sizes G))
    end.

  (** OGridHOFD.cpp:120-129 *)
  Definition o_apply (o : ohofd) (dest src : list F) : outcome (list F) :=
    let* h := get_opt (o_hofd o) in
    if o_dim o =? -1 then
      let* hr := diff_dim h dest src 0 false in
      let* hr := foldM (fun hr dim => diff_dim (fst hr) (snd hr) src dim true) (seq 1 (length (o_sizes o) - 1)) hr in
      Ok (snd hr)
    else
      let* hr := diff_dim h dest src (Z.to_nat (o_dim o)) false in Ok (snd hr).

  (** OGridHOFD.cpp:136-149: _hofd, _mass and _pfac are not copied *)
  Definition o_copy (o src : ohofd) : ohofd :=
    mkO (o_deriv src) (o_order src) (o_dim src) (o_pfac o) (o_hofd o) (o_mass o) (o_sizes src).
End Stencil.
