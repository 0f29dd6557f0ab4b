(** Model of the report of a propagation, src/Reporter.cpp, with the options of src/ProgPropa.cpp:105-139.

    [W]: wave functions; [norm], [energy], [dot]: Norm, Expec of the Hamiltonian, scalar product (the first factor conjugated);
    [states]: the norms of the states of a WFMultistate, None for other wave functions.  [F]: exact numbers in place of double; [bad]:
    a number for which fpclassify gives FP_NAN or FP_INFINITE; [cabs]: modulus; [cosn n m]: cos(2 pi n / m); [cis k n]: exp(2 pi i k / n);
    [junk]: what is in freshly allocated storage.  Cells of the table are numbers with the format they are printed in; tabulators, the text
    of the header and the indentation of the log are left out. *)
From Coq Require Import Ascii String List ZArith Lia Bool Arith.
From Verif Require Import Base Arrays Algebra Complex Model.Params Model.Frequency.
Import ListNotations.
Open Scope Z_scope.

Inductive column := CStep | CTime | CPop | CState (i : Z) | CEnergy | CProj | CProjSq.
Inductive fmt := Int | Fixed (p : Z) | Sci (p : Z).
Definition prec (p : Z) (f : fmt) : fmt := match f with Int => Int | Fixed _ => Fixed p | Sci _ => Sci p end.

Section Report.
  Variable F : fld.
  Variable W : Type.
  Variables (norm energy : W -> F) (states : W -> option (list F)) (dot : W -> W -> Cx F).
  Variable bad : F -> bool.
  Variable cabs : Cx F -> F.
  Variable cosn : Z -> Z -> F.
  Variable cis : Z -> Z -> Cx F.
  Variable junk : Z -> Cx F.
  Variable twopi : F.
  (** Dt and Steps of the clock *)
  Variables (dt : F) (steps : Z).

  Inductive number := NInt (z : Z) | NReal (x : F) | NCx (z : Cx F).
  Definition cell := (fmt * number)%type.
  (** what is written to the log: the header, a row, a row without its end; then the lines of Finalize and of WriteSpectrum *)
  Inductive line := Head (l : list column) | Row (l : list cell) | Cut (l : list cell) | Done (n : Z) (t : F) | Windowed | Written (name : str) | NotWritten.

  (** Reporter.h:24-47 *)
  Record rep := mkRep {
    r_norm : bool; r_sci : bool; r_energy : bool; r_proj : bool; r_sq : bool; r_spec : bool; r_win : bool; r_multi : bool;
    r_psi0 : option W; r_ham : bool; r_name : str; r_buf : list (Cx F); r_step : Z }.
  (** Reporter.cpp:14-18 *)
  Definition new_rep : rep := mkRep true false false false false false true false None false [] [] 0.
  (** ProgPropa.cpp:105-139, Reporter.h:66-97, Reporter.cpp:223-228; [dir]: _dir *)
  Definition options (dir : str) (c : container) (r : rep) : rep :=
    let nrm := snd (get_bool c (lit "norm") true) in
    let en := snd (get_bool c (lit "energy") true) in
    let p0 := snd (get_bool c (lit "proj0") false) in
    let sq := snd (get_bool c (lit "proj0Abs") false) in
    let p := sq || p0 in
    let sci := snd (get_bool c (lit "scinorm") false) in
    match get_value c (lit "spectrum") with
    | Some s => mkRep nrm sci en true sq true (snd (get_bool c (lit "win") true)) (r_multi r) (r_psi0 r) (r_ham r) (dir ++ s)%list (r_buf r) (r_step r)
    | None => mkRep nrm sci en p sq (r_spec r) (r_win r) (r_multi r) (r_psi0 r) (r_ham r) (r_name r) (r_buf r) (r_step r)
    end.
  (** Reporter.cpp:35-51 *)
  Definition psi_initial (psi : W) (r : rep) : rep :=
    mkRep (r_norm r) (r_sci r) (r_energy r) (r_proj r) (r_sq r) (r_spec r) (r_win r)
      (match states psi with Some _ => true | None => r_multi r end) (Some psi) (r_ham r) (r_name r) (r_buf r) (r_step r).
  (** Reporter.cpp:56-59 *)
  Definition hamilton (r : rep) : rep :=
    mkRep (r_norm r) (r_sci r) (r_energy r) (r_proj r) (r_sq r) (r_spec r) (r_win r) (r_multi r) (r_psi0 r) true (r_name r) (r_buf r) (r_step r).

  (** Reporter.cpp:77-92: at the first step; Vector::newsize refuses negative sizes *)
  Definition header (psi : W) (r : rep) : outcome (rep * list line) :=
    if steps <? 0 then Throw else
    let* st := (if r_multi r && r_norm r then match states psi with Some l => Ok (map CState (upto 0 (zlen l))) | None => UB end else Ok []) in
    let en := r_energy r && r_ham r in
    Ok (mkRep (r_norm r) (r_sci r) en (r_proj r) (r_sq r) (r_spec r) (r_win r) (r_multi r) (r_psi0 r) (r_ham r) (r_name r) (map junk (upto 0 steps)) (r_step r),
        [Head ([CStep; CTime] ++ (if r_norm r then [CPop] else []) ++ st ++ (if en then [CEnergy] else [])
               ++ (if r_proj r && negb (r_sq r) then [CProj] else []) ++ (if r_proj r && r_sq r then [CProjSq] else []))]).
  Definition with_buf (r : rep) (b : list (Cx F)) (n : Z) : rep :=
    mkRep (r_norm r) (r_sci r) (r_energy r) (r_proj r) (r_sq r) (r_spec r) (r_win r) (r_multi r) (r_psi0 r) (r_ham r) (r_name r) b n.
  (** Reporter.cpp:65-154: false if it ends with an exception *)
  Definition analyze (now : Z) (psi : W) (r : rep) : outcome (bool * (rep * list line)) :=
    match (if r_step r =? 0 then header psi r else Ok (r, [])) with
    | UB => UB
    | Throw => Ok (false, (r, []))
    | Ok (r, h) =>
      let r := with_buf r (r_buf r) (r_step r + 1) in
      let cells := [(Int, NInt now); (Fixed 1, NReal (ofZ now * dt)%cr)] in
      let pop := (norm psi * norm psi)%cr in
      let f := if r_norm r then (if r_sci r then Sci 8 else Fixed 6) else Fixed 1 in
      let cells := cells ++ (if r_norm r then [(f, NReal pop)] else []) in
      if r_norm r && bad pop then Ok (false, (r, h ++ [Cut cells])) else
      let* sp := (if r_norm r && r_multi r then match states psi with Some l => Ok (map (fun x => (f, NReal (x * x)%cr)) l) | None => UB end else Ok []) in
      let f := if r_energy r then prec 8 f else f in
      let cells := cells ++ sp ++ (if r_energy r then [(f, NReal (energy psi))] else []) in
      if r_proj r then
        match r_psi0 r with
        | None => UB
        | Some p0 =>
          let proj := dot psi p0 in
          let a := (cabs proj * cabs proj)%cr in
          let* b := (if r_spec r then wr (r_buf r) (r_step r - 1) (if r_sq r then cx_of a else proj) else Ok (r_buf r)) in
          Ok (true, (with_buf r b (r_step r), h ++ [Row (cells ++ [(f, if r_sq r then NReal a else NCx proj)])]))
        end
      else Ok (true, (r, h ++ [Row cells]))
    end.
  (** the calls of Analyze in a propagation (ProgPropa.cpp:318-326), with the time step of the clock *)
  Fixpoint analyze_all (l : list (Z * W)) (r : rep) (out : list line) : outcome (bool * (rep * list line)) :=
    match l with
    | [] => Ok (true, (r, out))
    | (t, psi) :: l =>
        let* x := analyze t psi r in
        let '(ok, (r, o)) := x in
        if ok then analyze_all l r (out ++ o) else Ok (false, (r, out ++ o))
    end.

  (** math_functions.h:107-113 *)
  Definition hann (b : list (Cx F)) : list (Cx F) :=
    let n := zlen b in
    map (fun '(k, z) => cx_scale (c1 / ofZ 2 * (c1 - cosn k (n - 1)))%cr z) (combine (upto 0 n) b).
  (** fftw_execute of a forward plan of one dimension *)
  Definition forward (b : list (Cx F)) : list (Cx F) :=
    let n := zlen b in
    map (fun k => lsum (fun '(j, z) => (z * cis (- (j * k)) n)%cr) (combine (upto 0 n) b)) (upto 0 n).
  (** one line of the file: frequency, modulus, real and imaginary part; None: no finite numbers (division by N/2 = 0) *)
  Definition row : Type := F * F * F * F.
  Record sfile := mkSfile { f_name : str; f_rows : option (list row) }.
  (** how Finalize ends: with what is in the log and the file; or the program is terminated *)
  Inductive ending := Ended (l : list line) (f : option sfile) | Terminated (l : list line).
  (** Reporter.cpp:160-192; [handling]: called while an exception is handled, [opens]: the file can be opened.  Line 170: throw without an
      operand, outside of a handler it calls std::terminate.  Without points fftw has no plan *)
  Definition write_spectrum (handling opens : bool) (b : list (Cx F)) (name : str) (l : list line) : outcome ending :=
    let n := zlen b in
    if negb opens then Ok (if handling then Ended (l ++ [NotWritten]) None else Terminated l) else
    if n =? 0 then UB else
    let h := Z.quot n 2 in
    let rows := map (fun '(i, z) => (spectrum_freq F twopi dt n i, (cabs z / ofZ h)%cr, (fst z / ofZ h)%cr, (snd z / ofZ h)%cr)) (combine (upto 0 n) (forward b)) in
    Ok (Ended (l ++ [Written name]) (Some (mkSfile name (if h =? 0 then None else Some rows)))).
  (** Reporter.cpp:200-217 *)
  Definition finalize (handling opens : bool) (r : rep) : outcome ending :=
    let l := [Done steps (ofZ steps * dt)%cr] in
    if r_spec r then
      if r_win r then write_spectrum handling opens (hann (r_buf r)) (r_name r) (l ++ [Windowed])
      else write_spectrum handling opens (r_buf r) (r_name r) l
    else Ok (Ended l None).
  (** ProgPropa.cpp:105-134, 240-245, 318-335: [stopped]: the propagation ended with an exception of another part after these reports *)
  Definition report (dir : str) (c : container) (psi0 : W) (l : list (Z * W)) (stopped opens : bool) : outcome (list line * ending) :=
    let r := hamilton (psi_initial psi0 (options dir c new_rep)) in
    let* x := analyze_all l r [] in
    let '(ok, (r, out)) := x in
    let* e := finalize (stopped || negb ok) opens r in
    Ok (out, e).
End Report.
Arguments NInt {F}. Arguments NReal {F}. Arguments NCx {F}. Arguments Head {F}. Arguments Row {F}. Arguments Cut {F}. Arguments Done {F}. Arguments Windowed {F}.
Arguments Written {F}. Arguments NotWritten {F}. Arguments mkSfile {F}. Arguments f_name {F}. Arguments f_rows {F}. Arguments Ended {F}. Arguments Terminated {F}.
Arguments mkRep {F W}. Arguments r_norm {F W}. Arguments r_sci {F W}. Arguments r_energy {F W}. Arguments r_proj {F W}. Arguments r_sq {F W}. Arguments r_spec {F W}.
Arguments r_win {F W}. Arguments r_multi {F W}. Arguments r_psi0 {F W}. Arguments r_ham {F W}. Arguments r_name {F W}. Arguments r_buf {F W}. Arguments r_step {F W}.
