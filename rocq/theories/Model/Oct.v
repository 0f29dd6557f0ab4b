(** Model of the optimal control program, src/ProgOCT.h and .cpp: the propagations over the whole time axis, the
    update of the laser field, the iteration methods and the iteration loop.

    Left out: the initialisation from the XML file (only its result is a parameter here), the log, the laser
    objective, the checks for nan (numbers are exact), the swapping of the wave function buffers to disk.  The
    propagator, the coupling operator, the scalar product, the target operators, the gobbler with the
    normalisation that follows it, and the filters of the frequency shaping method are oracles.  The factor
    [_scale] of the lasers of the Hamiltonian is part of the propagator oracle; the copies in [_laserb] have the
    factor 1, because Laser::operator= does not copy it (src/tools/Laser.cpp:34-39). *)
From Coq Require Import List ZArith QArith Qabs Lia Bool.
From Verif Require Import Base Algebra Complex Arrays.
Import ListNotations.
Open Scope Z_scope.

(** ProgOCT.h: _method, _ttype *)
Inductive method := Krotov | Rabitz | RabitzFB | Freq.
Inductive ttype := Overlap | Oper.

(** one value after the other; the first that fails decides *)
Fixpoint mapM {A B} (f : A -> outcome B) (l : list A) : outcome (list B) :=
  match l with [] => Ok [] | a :: t => let* b := f a in let* bs := mapM f t in Ok (b :: bs) end.

Section Oct.
  Variable F : fld.
  Variable W : Type.
  (** _U->Apply: direction, time step of the clock, values of the lasers of the Hamiltonian at that step *)
  Variable U : bool -> Z -> list F -> W -> W.
  (** _Gobbler->Apply and Normalize, if there is a gobbler *)
  Variable gobbler : option (W -> W).
  (** _Coup->ApplyParent and the scalar product *)
  Variable mu : W -> W.
  Variable dot : W -> W -> Cx F.
  (** _Otarget[t]->Apply *)
  Variable target : Z -> W -> W.
  (** the filter with the mask and the filter with 1 - mask: spectrum, product, back to the time domain *)
  Variables pass stop : list F -> list F.
  (** _shape[0], _alpha, _phase, _ntargets, clock->Steps() *)
  Variable shape : list F.
  Variable alpha : F.
  Variable phase : bool.
  Variables ntargets steps : Z.
  (** PsiI, PsiT *)
  Variables PsiI PsiT : list W.
  Open Scope cr_scope.

  (** _laserf, _laserb, _memwfbuf, the step of the clock, _gamma[0].  A buffer entry that was never set is None. *)
  Record st := mkSt { s_f : list (list F); s_b : list (list F); s_mem : list (list (option W)); s_clk : Z; s_gam : list F }.
  Definition with_f s f := mkSt f (s_b s) (s_mem s) (s_clk s) (s_gam s).
  Definition with_b s b := mkSt (s_f s) b (s_mem s) (s_clk s) (s_gam s).
  Definition with_mem s m := mkSt (s_f s) (s_b s) m (s_clk s) (s_gam s).
  Definition with_clk s c := mkSt (s_f s) (s_b s) (s_mem s) c (s_gam s).
  Definition with_gam s g := mkSt (s_f s) (s_b s) (s_mem s) (s_clk s) g.

  (** _memwfbuf[t].Set(i, wf[t]) for all targets *)
  Definition save (s : st) (i : Z) (ws : list W) : outcome st :=
    foldM (fun s t =>
      let* w := rd ws t in
      let* m := rd (s_mem s) t in
      let* m := wr m i (Some w) in
      let* ms := wr (s_mem s) t m in
      Ok (with_mem s ms)) (upto 0 ntargets) s.
  (** _memwfbuf[t][i] for all targets *)
  Definition fetch (s : st) (i : Z) : outcome (list W) :=
    mapM (fun t =>
      let* m := rd (s_mem s) t in
      let* w := rd m i in
      match w with Some w => Ok w | None => UB end) (upto 0 ntargets).

  (** ProgOCT.cpp:467-471, 502-506, 563-567: _U->Apply(wf[t]), gobbler, normalisation, for all targets *)
  Definition tidy (w : W) : W := match gobbler with Some g => g w | None => w end.
  Definition drive (dir : bool) (s : st) (ws : list W) : outcome (list W) :=
    let* e := mapM (fun l => rd l (s_clk s)) (s_f s) in
    Ok (map (fun w => tidy (U dir (s_clk s) e w)) ws).

  (** _laserb[l]->swap with _laserf[l] for all lasers.  Vector::swap does nothing if the sizes differ. *)
  Definition swap1 (p : list F * list F) : list F * list F :=
    if zlen (fst p) =? zlen (snd p) then (snd p, fst p) else p.
  Definition swap (s : st) : st :=
    let ps := map swap1 (combine (s_f s) (s_b s)) in
    mkSt (map fst ps) (map snd ps) (s_mem s) (s_clk s) (s_gam s).

  (** ProgOCT.cpp:297-330 *)
  Definition corr_term (wi wt : W) : F :=
    if phase then snd (dot wt (mu wi)) else snd (cx_mul (dot wi wt) (dot wt (mu wi))).
  Definition calc_corr (wi wt : list W) : F :=
    fold_left (fun r p => r + corr_term (fst p) (snd p)) (combine wi wt) 0.
  (** ProgOCT.cpp:335-372 *)
  Definition calc_field (m : method) (s : st) (wi wt : list W) : outcome F :=
    let im := calc_corr wi wt in
    let* sh := rd shape (s_clk s) in
    match m with
    | Krotov =>
        let* b := rd (s_b s) 0 in
        let* r := rd b (s_clk s) in
        Ok (r - sh / (alpha * ofZ ntargets) * im)
    | Freq =>
        let* b := rd (s_b s) 0 in
        let* r := rd b (s_clk s) in
        let* g := rd (s_gam s) (s_clk s) in
        Ok (r - sh / (alpha * ofZ ntargets) * (im + g))
    | Rabitz | RabitzFB => Ok (- (1) * sh / (alpha * ofZ ntargets) * im)
    end.
  (** _laserf[l]->Set(x), _laserb[l]->Set(x) for all lasers *)
  Definition set_all (ls : list (list F)) (i : Z) (x : F) : outcome (list (list F)) := mapM (fun l => wr l i x) ls.

  (** ProgOCT.cpp:456-475 *)
  Definition forward_step (x : st * list W) (k : Z) : outcome (st * list W) :=
    let* ws := drive true (fst x) (snd x) in
    let* s := save (fst x) (k + 1)%Z ws in
    Ok (with_clk s (s_clk s + 1)%Z, ws).
  Definition propagate_forward (s : st) (ws : list W) : outcome (st * list W) :=
    let* s := save s 0 ws in
    foldM forward_step (upto 0 steps) (with_clk s 0, ws).

  (** ProgOCT.cpp:483-515 *)
  Definition backward_step (x : st * list W) (k : Z) : outcome (st * list W) :=
    let* ws := drive false (fst x) (snd x) in
    let* s := save (fst x) k ws in
    Ok (with_clk s (s_clk s - 1)%Z, ws).
  Definition propagate_backward (s : st) (ws : list W) : outcome (st * list W) :=
    let s := swap (with_clk s (steps - 1)%Z) in
    let* s := save s (s_clk s + 1)%Z ws in
    let* (s, ws) := foldM backward_step (downto (s_clk s) 0) (s, ws) in
    Ok (swap s, ws).

  (** ProgOCT.cpp:522-530 *)
  Definition sync_overlap (mv : bool) (s : st) (phit : list W) : outcome (st * list W) :=
    if mv then Ok (s, phit) else propagate_backward s phit.
  (** ProgOCT.cpp:537-559 *)
  Definition apply_targets (ws : list W) : outcome (list W) :=
    mapM (fun t => let* w := rd ws t in Ok (target t w)) (upto 0 ntargets).
  Definition sync_operator (s : st) (phit : list W) : outcome (st * list W) :=
    let* (s, phit) := propagate_forward (swap s) phit in
    let s := swap s in
    let* phit := apply_targets phit in
    propagate_backward s phit.
  Definition sync (tt : ttype) (mv : bool) (s : st) (phit : list W) : outcome (st * list W) :=
    match tt with Overlap => sync_overlap mv s phit | Oper => sync_operator s phit end.

  (** ProgOCT.cpp:581-601, 781-799: new field and propagation with it *)
  Definition update_step (m : method) (x : st * list W) (k : Z) : outcome (st * list W) :=
    let* bT := fetch (fst x) k in
    let* e := calc_field m (fst x) (snd x) bT in
    let* f := set_all (s_f (fst x)) (s_clk (fst x)) e in
    let s := with_f (fst x) f in
    let* ws := drive true s (snd x) in
    Ok (with_clk s (s_clk s + 1)%Z, ws).
  (** ProgOCT.cpp:564-607; the result is the state, phii and phit *)
  Definition iterate (m : method) (tt : ttype) (mv : bool) (s : st) (phit : list W) : outcome (st * (list W * list W)) :=
    let* (s, phit) := sync tt mv s phit in
    let* (s, phii) := foldM (update_step m) (upto 0 steps) (with_clk s 0, PsiI) in
    let* phit := if mv then Ok phit else fetch s steps in
    Ok (s, (phii, phit)).

  (** ProgOCT.cpp:640-668: one step back *)
  Definition fb_back_step (x : st * list W) (k : Z) : outcome (st * list W) :=
    let* bT := fetch (fst x) (s_clk (fst x) + 1)%Z in
    let* e := calc_field RabitzFB (fst x) bT (snd x) in
    let* b := set_all (s_b (fst x)) (s_clk (fst x)) e in
    let* s := save (with_b (fst x) b) (s_clk (fst x) + 1)%Z (snd x) in
    let* ws := drive false s (snd x) in
    Ok (with_clk s (s_clk s - 1)%Z, ws).
  (** ProgOCT.cpp:684-710: one step forward *)
  Definition fb_fwd_step (x : st * list W) (k : Z) : outcome (st * list W) :=
    let* bT := fetch (fst x) (s_clk (fst x)) in
    let* e := calc_field RabitzFB (fst x) (snd x) bT in
    let* f := set_all (s_f (fst x)) (s_clk (fst x)) e in
    let* s := save (with_f (fst x) f) (s_clk (fst x)) (snd x) in
    let* ws := drive true s (snd x) in
    Ok (with_clk s (s_clk s + 1)%Z, ws).
  (** ProgOCT.cpp:612-714 *)
  Definition iterate_fb (tt : ttype) (s : st) (phii phit : list W) (step : Z) : outcome (st * (list W * list W)) :=
    let* (s, phii) := if (step =? 1)%Z then propagate_forward s phii else Ok (s, phii) in
    let* phii := fetch s 0 in
    let* phit := match tt with Oper => apply_targets phii | Overlap => Ok phit end in
    let s := swap (with_clk s (steps - 1)%Z) in
    let* (s, phit) := foldM fb_back_step (upto 0 steps) (s, phit) in
    let* s := save s 0 phit in
    let s := swap s in
    let* phit := fetch s steps in
    let* (s, phii) := foldM fb_fwd_step (upto 0 steps) (with_clk s 0, phii) in
    let* s := save s steps phii in
    Ok (s, (phii, phit)).

  (** ProgOCT.cpp:728-745: both fields become the filtered old field; the first laser is copied to the others.
      FastCopy is modelled for lasers of equal size only. *)
  Definition fast_copy (src dst : list F) : outcome (list F) := if zlen src =? zlen dst then Ok src else UB.
  Definition shape_lasers (s : st) : outcome st :=
    match s_f s, s_b s with
    | f0 :: ft, b0 :: bt =>
        let* f0 := fast_copy b0 f0 in
        let f0 := pass f0 in
        let b0 := pass b0 in
        let* ft := mapM (fast_copy f0) ft in
        let* bt := mapM (fast_copy b0) bt in
        Ok (with_b (with_f s (f0 :: ft)) (b0 :: bt))
    | _, _ => UB
    end.
  (** ProgOCT.cpp:753-779: the correction field gamma *)
  Definition gamma_step (mv : bool) (x : st * (list W * list W)) (k : Z) : outcome (st * (list W * list W)) :=
    let '(s, (phii, phit)) := x in
    let* bT := if mv then fetch s k else Ok phit in
    let* g := wr (s_gam s) (s_clk s) (calc_corr phii bT) in
    let s := with_gam s g in
    let* phii := drive true s phii in
    let* phit := if mv then Ok (map tidy phit) else drive true s phit in
    Ok (with_clk s (s_clk s + 1)%Z, (phii, phit)).
  (** ProgOCT.cpp:719-815 *)
  Definition iterate_freq (tt : ttype) (mv : bool) (s : st) (phii phit : list W) : outcome (st * (list W * list W)) :=
    let* s := shape_lasers s in
    let* (s, phit) := sync tt mv s phit in
    let* (s, phs) := foldM (gamma_step mv) (upto 0 steps) (with_clk s 0, (phii, phit)) in
    let s := with_gam s (stop (s_gam s)) in
    let* (s, phii) := foldM (update_step Freq) (upto 0 steps) (with_clk s 0, PsiI) in
    Ok (s, (phii, snd phs)).

  (** ** ProgOCT.cpp:975-1050: the iteration loop *)
  (** the result of Report: a rational number computed from phii and phit *)
  Variable report : list W -> list W -> Q.
  Variables (iterations : Z) (convergence : Q).
  (** the loop state: i, deltaTarget, delta, phii, phit, the yields reported so far (latest first) *)
  Record loop_st := mkLoop { l_s : st; l_i : Z; l_d : Q * Q * Q; l_delta : Q; l_phii : list W; l_phit : list W; l_rep : list Q }.
  Definition initial_phit (tt : ttype) : list W := match tt with Overlap => PsiT | Oper => PsiI end.
  (** ProgOCT.cpp:983-1001: fresh wave functions, then the iteration step of the method *)
  Definition iteration_step (m : method) (tt : ttype) (mv : bool) (x : loop_st) : outcome (st * (list W * list W)) :=
    let fresh := match m with RabitzFB => (l_i x =? 1)%Z | _ => true end in
    let phii := if fresh then PsiI else l_phii x in
    let phit := if fresh then initial_phit tt else l_phit x in
    match m with
    | RabitzFB => iterate_fb tt (l_s x) phii phit (l_i x)
    | Freq => iterate_freq tt mv (l_s x) phii phit
    | _ => iterate m tt mv (l_s x) phit
    end.
  (** ProgOCT.cpp:1004-1027 *)
  Definition one_iteration (m : method) (tt : ttype) (mv : bool) (x : loop_st) : outcome loop_st :=
    let* (s, phs) := iteration_step m tt mv x in
    let '(_, d1, d2) := l_d x in
    let y := report (fst phs) (snd phs) in
    let d3 := Qabs y in
    let delta := Qabs (Qabs (d1 - d2) + Qabs (d2 - d3)) in
    Ok (mkLoop (swap s) (l_i x + 1)%Z (d1, d2, d3) delta (fst phs) (snd phs) (y :: l_rep x)).
  (** while (i <= _iterations && delta > _convergence); None: out of fuel *)
  Fixpoint iterations_loop (fuel : nat) (m : method) (tt : ttype) (mv : bool) (x : loop_st) : option (outcome loop_st) :=
    match fuel with
    | 0%nat => None
    | S fuel =>
        if (l_i x <=? iterations)%Z && negb (Qle_bool (l_delta x) convergence) then
          match one_iteration m tt mv x with
          | Ok x => iterations_loop fuel m tt mv x
          | Throw => Some Throw
          | UB => Some UB
          end
        else Some (Ok x)
    end.

  (** ProgOCT.cpp:845-885: the buffers have Steps+1 entries; a moving target is loaded into them.
      [series t k]: wave function k of target t *)
  Variable series : Z -> Z -> W.
  Definition fresh_buffers : list (list (option W)) :=
    repeat (repeat None (Z.to_nat (steps + 1))) (Z.to_nat ntargets).
  Definition load_series (s : st) : outcome st :=
    foldM (fun s k => save s k (map (fun t => series t k) (upto 0 ntargets))) (upto 0 (steps + 1)) s.
  (** ProgOCT.cpp:817-1060: the run after the initialisation, with the report on the guess; [lasers] are the lasers of the Hamiltonian.  The
      result is the final state of the loop, with the yields and the field _laserb[0] that is written. *)
  Definition run (m : method) (tt : ttype) (mv : bool) (lasers : list (list F)) : option (outcome (loop_st * list F)) :=
    let start :=
      let s := mkSt lasers lasers fresh_buffers 0%Z (repeat 0 (Z.to_nat steps)) in
      let* s := match tt, mv with Overlap, true => load_series s | _, _ => Ok s end in
      let* (s, phii) := propagate_forward s PsiI in
      Ok (mkLoop s 1%Z (1%Q, 1%Q, 1%Q) 1%Q phii phii [report phii PsiT]) in
    match start with
    | Ok x =>
        match iterations_loop (S (Z.to_nat iterations)) m tt mv x with
        | Some (Ok x) => Some (let* b := rd (s_b (l_s x)) 0 in Ok (x, b))
        | Some Throw => Some Throw
        | Some UB => Some UB
        | None => None
        end
    | Throw => Some Throw
    | UB => Some UB
    end.
End Oct.
