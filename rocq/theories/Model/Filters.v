(** Model of src/FiltersList.cpp: chains of filters applied to a wave function. *)
From Coq Require Import Ascii String List NArith ZArith Lia Bool Arith.
From Verif Require Import Base Arrays Algebra.
Import ListNotations.
Open Scope Z_scope.

(** [C]: complex numbers, [X]: wave functions; an operator is what it does to a wave function in place and its matrix element
    <psi|O|psi> (operators do not fail; initialisation through the registry is left out).  [norm2]: <psi|psi>, [normalize]:
    WaveFunction::Normalize, [nstates]: the number of states, None if the wave function is not a multi state one, [overlap]: the
    scalar product of two of its states, [dt]: the time step. *)
Section Filters.
  Variable C : fld.
  Variable X : Type.
  Record fop := mkFop { o_apply : X -> X; o_matel : X -> C; o_name : str }.
  Variable norm2 : X -> C.
  Variable normalize : X -> X.
  Variable nstates : X -> option Z.
  Variable overlap : X -> Z -> Z -> C.
  Variable dt : C.
  (** FiltersList.h:15 *)
  Definition MAX_FILTERS : Z := 128.
  (** FiltersList.h:31-53 *)
  Inductive action := Expec | Apply | Expeconly | Normalize | Rho.
  Inductive vkind := Real | Imag | Complex | Abs.
  Record filt := mkFilt { f_op : option fop; f_ms0 : Z; f_ms1 : Z; f_action : action; f_value : vkind; f_sum : C; f_int : bool; f_label : str }.
  Definition f_blank : filt := mkFilt None (-1) (-1) Expeconly Real c0 false [].
  Record flist := mkFlist { l_f : list filt; l_size : Z; l_ready : bool; l_write : bool; l_renorm : bool }.
  (** FiltersList.cpp:11-15 *)
  Definition l_new : flist := mkFlist (repeat f_blank (Z.to_nat MAX_FILTERS)) 0 false false false.
  (** FiltersList.cpp:72-74, 86-98 *)
  Definition parse_value (v : str) : option vkind :=
    let v := match v with [] => lit "expeconly" | _ => v end in
    if str_eqb v (lit "real") then Some Real else if str_eqb v (lit "imag") then Some Imag else
    if str_eqb v (lit "complex") then Some Complex else if str_eqb v (lit "abs") then Some Abs else None.
  (** FiltersList.cpp:67-70, 105-131 *)
  Definition parse_action (a : str) : option action :=
    let a := match a with [] => lit "expeconly" | _ => a end in
    if str_eqb a (lit "normalize") then Some Normalize else if str_eqb a (lit "expec") then Some Expec else
    if str_eqb a (lit "apply") then Some Apply else if str_eqb a (lit "expeconly") then Some Expeconly else
    if str_eqb a (lit "rho") then Some Rho else None.
  Definition writes (a : action) : bool := match a with Expec | Expeconly | Rho => true | _ => false end.
  (** FiltersList.cpp:57-127: the operator and the header given are not used *)
  Definition l_add (s : flist) (o : option fop) (header faction val : str) (states : list Z) (integrate : bool) : outcome flist :=
    if MAX_FILTERS <=? l_size s then Throw else
    match parse_value val, parse_action faction with
    | Some v, Some a =>
        let* f := rd (l_f s) (l_size s) in
        let* ms := match states with [] => Ok (f_ms0 f, f_ms1 f) | [i; j] => Ok (i, j) | _ => Throw end in
        let* fs := wr (l_f s) (l_size s) (mkFilt (f_op f) (fst ms) (snd ms) a v c0 integrate (f_label f)) in
        Ok (mkFlist fs (l_size s + 1) (l_ready s) (l_write s || writes a) (l_renorm s))
    | _, _ => Throw
    end.
  (** a node of the filter section: its name, the attributes value, int, ms, header, and the operator it defines *)
  Record node := mkNode { n_name : str; n_value : option str; n_int : bool; n_ms : list Z; n_header : option str; n_op : fop }.
  (** FiltersList.cpp:187-226 *)
  Definition l_node (s : flist) (n : node) : outcome flist :=
    if MAX_FILTERS <=? l_size s then Throw else
    let* f := rd (l_f s) (l_size s) in
    let label := match n_header n with Some h => h | None => f_label f end in
    let '(o, label) :=
      if str_eqb (n_name n) (lit "normalize") then (f_op f, label)
      else if str_eqb (n_name n) (lit "rho") then (f_op f, match n_header n with Some h => h | None => lit "rho" end)
      else (Some (n_op n), match n_header n with Some h => h | None => o_name (n_op n) end) in
    let* fs := wr (l_f s) (l_size s) (mkFilt o (f_ms0 f) (f_ms1 f) (f_action f) (f_value f) (f_sum f) (f_int f) label) in
    l_add (mkFlist fs (l_size s) (l_ready s) (l_write s) (l_renorm s)) None [] (n_name n) (match n_value n with Some v => v | None => lit "real" end) (n_ms n) (n_int n).
  (** FiltersList.cpp:26-39, 161-232 *)
  Definition l_init (s : flist) (renorm : option bool) (ns : list node) : outcome flist :=
    let s := if 0 <? l_size s then mkFlist (l_f s) 0 false false (l_renorm s) else s in
    let s := mkFlist (l_f s) (l_size s) (l_ready s) (l_write s) (match renorm with Some b => b | None => l_renorm s end) in
    match ns with [] => Throw | _ => foldM l_node ns s end.
  (** FiltersList.cpp:267-291: the checks of the first application *)
  Definition check (x : X) (f : filt) : outcome unit :=
    let* _ := match f_action f with Normalize | Rho => Ok tt | _ => match f_op f with None => UB | Some _ => Ok tt end end in
    if (-1 <? f_ms0 f) || (-1 <? f_ms1 f) then
      match nstates x with
      | None => Throw
      | Some n => if (n <=? f_ms0 f) || (n <=? f_ms1 f) then Throw else Ok tt
      end
    else Ok tt.
  Definition add_value (f : filt) (v : C) : filt :=
    mkFilt (f_op f) (f_ms0 f) (f_ms1 f) (f_action f) (f_value f) (if f_int f then cadd (f_sum f) (cmul v dt) else v) (f_int f) (f_label f).
  (** FiltersList.cpp:298-334: one filter; the numbers written *)
  Definition one (renorm : bool) (s : list filt * X * list C) (i : Z) : outcome (list filt * X * list C) :=
    let '(fs, x, out) := s in
    let* f := rd fs i in
    match f_action f with
    | Expec | Expeconly =>
        match f_op f with
        | None => UB
        | Some o =>
            let m := o_matel o x in
            let m := if renorm then fdiv m (norm2 x) else m in
            let f' := add_value f m in
            let* fs := wr fs i f' in
            Ok (fs, match f_action f with Expec => o_apply o x | _ => x end, out ++ [f_sum f'])%list
        end
    | Apply => match f_op f with None => UB | Some o => Ok (fs, o_apply o x, out) end
    | Normalize => Ok (fs, normalize x, out)
    | Rho =>
        match nstates x with
        | None => UB
        | Some n =>
            if (0 <=? f_ms0 f) && (f_ms0 f <? n) && (0 <=? f_ms1 f) && (f_ms1 f <? n) then
              let f' := add_value f (overlap x (f_ms0 f) (f_ms1 f)) in
              let* fs := wr fs i f' in
              Ok (fs, x, out ++ [f_sum f'])%list
            else UB
        end
    end.
  (** FiltersList.cpp:258-340 *)
  Definition l_apply (s : flist) (x : X) : outcome (flist * X * list C) :=
    if l_size s =? 0 then Ok (s, x, []) else
    let* _ := if l_ready s then Ok tt else foldM (fun _ i => let* f := rd (l_f s) i in check x f) (upto 0 (l_size s)) tt in
    let* r := foldM (one (l_renorm s)) (upto 0 (l_size s)) (l_f s, x, []) in
    let '(fs, x, out) := r in
    Ok (mkFlist fs (l_size s) true (l_write s) (l_renorm s), x, out).
End Filters.
