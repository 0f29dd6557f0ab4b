(** Model of the life of a split operator propagator: src/qdlib/OSPO.cpp.
    Wave functions are lists of states, each a list of complex numbers.  The operators are given by their values on the grid: an
    operator that depends on time has one list for each time step.  [Fw] and [Bw] are the transformation of the kinetic energy, [ns]
    the reciprocal of the number of points, [sq] and [cexp] the functions of the C library, [junk] the real part of the
    uninitialized memory of a new wave function.
    Not modelled: wave functions that are no grids, operators of wrong types, UpdateTime of the operators (the values are
    those of the present step), the Hamiltonian [_H]. *)
From Coq Require Import List ZArith Lia Bool Arith.
From Verif Require Import Base Arrays Algebra Complex Ordered Model.Spo.
Import ListNotations.
Open Scope Z_scope.

Section Split.
  Variable F : ofld.
  Variable sq : F -> F.
  Variable cexp : Cx F -> Cx F.
  Variables Fw Bw : list (Cx F) -> list (Cx F).
  Variable ns : F.
  Variable junk : list F.
  Notation K := (cr (Cx F)).

  (** the needs Tkin (in momentum space), Vpot, Vcoup, VcoupI, and whether one of the potentials is time dependent *)
  Record needs := mkNeeds { n_T : list F; n_V0 : Z -> list F; n_V1 : option (Z -> list F); n_C : option (Z -> list F);
    n_I : option (Z -> list F); n_td : bool }.

  (** _expT, _expV (by state), _expVcoup, _expVcoupI *)
  Record tables := mkTab { t_T : list K; t_V : list (list K); t_C : list F; t_I : option (list K) }.
  (** _buf != NULL, _cT, _cV, the tables (None: NULL), _last_time, the exponent of the propagator and the step of its clock *)
  Record spo := mkSpo { s_buf : bool; s_cT : K; s_cV : K; s_tab : option tables; s_last : Z; s_exp : K; s_clk : Z }.

  (** the state after the constructor (OSPO.cpp:14-21) and Clock; the clock counts from zero *)
  Definition fresh (c : K) (t : Z) : spo := mkSpo false c0 c0 None 0 c t.

  (** ExpElements, src/math/codelets/ExpElements.h *)
  Definition exps (c : K) (l : list F) : list K := map (fun x => cexp (cmul (cx_of x) c)) l.
  (** MultElements *)
  Fixpoint mults (a b : list K) : list K :=
    match a, b with x :: a', y :: b' => cmul x y :: mults a' b' | _, _ => [] end.

  (** OSPO.cpp:218,244: two potentials, or a coupling *)
  Definition coupled (n : needs) : bool :=
    match n_V1 n, n_C n with None, None => false | _, _ => true end.

  (** _InitV, OSPO.cpp:49-83, at time step t: the values of _expV, _expVcoup, _expVcoupI *)
  Definition init_v (n : needs) (cV : K) (t : Z) (tab : tables) : tables :=
    match n_V1 n with
    | Some v1 =>
      match n_C n with
      | None => mkTab (t_T tab) [exps cV (n_V0 n t); exps cV (v1 t)] (t_C tab) (t_I tab)
      | Some g => mkTab (t_T tab) [map cx_of (n_V0 n t); map cx_of (v1 t)] (g t) (t_I tab)
      end
    | None =>
      mkTab (t_T tab) [exps cV (n_V0 n t)] (t_C tab) (match n_I n with Some i => Some (exps cV (i t)) | None => None end)
    end.

  (** Init, OSPO.cpp:155-320 *)
  Definition init (n : needs) (s : spo) : outcome spo * spo :=
    if s_buf s then (Ok s, s) else
    let c := s_exp s in
    let h := cmul (cx_of (half F)) c in
    let cV := if coupled n then c else h in
    let cT := if coupled n then h else c in
    let s1 := mkSpo true cT cV (s_tab s) (s_last s) (s_exp s) (s_clk s) in
    let len v := length (v (s_clk s) : list F) in
    let bad := match n_V1 n, n_C n with None, Some _ => true | _, _ => false end
      || negb (Nat.eqb (len (n_V0 n)) (length (n_T n)))
      || match n_V1 n with Some v1 => negb (Nat.eqb (len (n_V0 n)) (len v1)) | None => false end
      || match n_C n with Some g => negb (Nat.eqb (len g) (length (n_T n))) | None => false end
      || match n_I n with Some i => negb (Nat.eqb (len i) (length (n_T n))) | None => false end in
    if bad then (Throw, s1) else
    let s2 := mkSpo true cT cV (Some (init_v n cV (s_clk s) (mkTab (exps cT (n_T n)) [] junk None))) (s_last s) (s_exp s) (s_clk s) in
    (Ok s2, s2).

  (** OSPO.cpp:378-382 *)
  Definition kinetic (tab : tables) (p : list K) : list K :=
    Bw (map (fun z => cmul (cx_of ns) z) (mults (Fw p) (t_T tab))).

  (** OSPO.cpp:399-406 *)
  Fixpoint pairs (c : K) (v0 v1 : list K) (g : list F) (p0 p1 : list K) : list K * list K :=
    match v0, v1, g, p0, p1 with
    | a :: v0', b :: v1', x :: g', y0 :: p0', y1 :: p1' =>
      let (q0, q1) := couple F sq cexp c (fst a) (fst b) x (y0, y1) in
      let (r0, r1) := pairs c v0' v1' g' p0' p1' in (q0 :: r0, q1 :: r1)
    | _, _, _, _, _ => ([], [])
    end.

  (** Apply(Psi), OSPO.cpp:357-430; the wave function, and the propagator afterwards *)
  Definition refresh (n : needs) (s : spo) : outcome spo :=
    if negb (s_last s =? s_clk s) && n_td n then
      match s_tab s with
      | Some tab => Ok (mkSpo (s_buf s) (s_cT s) (s_cV s) (Some (init_v n (s_cV s) (s_clk s) tab)) (s_clk s) (s_exp s) (s_clk s))
      | None => UB
      end
    else Ok s.
  Definition apply (n : needs) (s : spo) (psi : list (list K)) : outcome (list (list K) * spo) :=
    let* s' := refresh n s in
    match s_tab s' with
    | None => UB
    | Some tab =>
      if coupled n then
        match psi, t_V tab with
        | [p0; p1], [v0; v1] =>
          let (q0, q1) := pairs (s_cV s') v0 v1 (t_C tab) (kinetic tab p0) (kinetic tab p1) in
          Ok ([kinetic tab q0; kinetic tab q1], s')
        | _, _ => UB
        end
      else
        match psi, t_V tab with
        | [p], [v] =>
          let pot q := let q' := mults q v in match t_I tab with Some i => mults q' i | None => q' end in
          Ok ([pot (kinetic tab (pot p))], s')
        | _, _ => UB
        end
    end.

  (** UpdateTime, OSPO.cpp:326-335: [td0], [tdc]: Vpot[0] and Vcoup are time dependent; before Init Vpot[0] is NULL *)
  Definition update_time (n : needs) (td0 tdc : bool) (s : spo) : outcome spo :=
    if s_last s =? s_clk s then Ok s else
    if negb (s_buf s) then UB else
    let* td := if td0 then Ok true else match n_C n with Some _ => Ok tdc | None => UB end in
    if td then
      match s_tab s with
      | Some tab => Ok (mkSpo (s_buf s) (s_cT s) (s_cV s) (Some (init_v n (s_cV s) (s_clk s) tab)) (s_clk s) (s_exp s) (s_clk s))
      | None => UB
      end
    else Ok s.

  (** what a program does with a propagator *)
  Inductive op := OInit | OExponent (c : K) | OClock (t : Z) | OApply (psi : list (list K)).
  (** exceptions of Init are caught; undefined behaviour ends the run *)
  Definition do_op (n : needs) (o : op) (s : spo) : outcome spo :=
    match o with
    | OInit => Ok (snd (init n s))
    | OExponent c => Ok (mkSpo (s_buf s) (s_cT s) (s_cV s) (s_tab s) (s_last s) c (s_clk s))
    | OClock t => Ok (mkSpo (s_buf s) (s_cT s) (s_cV s) (s_tab s) (s_last s) (s_exp s) t)
    | OApply psi => let* r := apply n s psi in Ok (snd r)
    end.
  Fixpoint run (n : needs) (os : list op) (s : spo) : outcome spo :=
    match os with [] => Ok s | o :: r => let* s' := do_op n o s in run n r s' end.
End Split.
