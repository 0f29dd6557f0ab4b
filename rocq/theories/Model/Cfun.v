(** Model of the program for correlation functions: src/ProgCfun.cpp.

    [V]: wave functions, [ip]: the scalar product WaveFunction::operator*, [U n]: the propagator applied when the clock is at step [n].  Operators may depend on
    the step of the clock as well.  The buffer of wave functions is a list (see Model/WFBuffer.v).  Loading, logging, directories and the files written are left out;
    the result is the array written to the file. *)
From Coq Require Import Ascii String List NArith ZArith Lia Bool Arith.
From Verif Require Import Base Arrays Model.Params.
Import ListNotations.
Open Scope Z_scope.

Section Cfun.
  Variables (V K : Type) (ip : V -> V -> K) (zero : K) (U : Z -> V -> V).
  Definition op := Z -> V -> V.
  (** ProgCfun.cpp:98-128: the elements of a definition; no operator: the propagator *)
  Definition def := list (option op).
  (** the loops that apply operators up to the next propagator: ProgCfun.cpp:153-160, 203-208, 313-318, 334-339, 356-361 *)
  Fixpoint apply_ops (clk : Z) (l : def) (v : V) : V := match l with Some o :: t => apply_ops clk t (o clk v) | _ => v end.
  (** ProgCfun.cpp:98-128: the first operator *)
  Fixpoint first_op (l : def) : nat := match l with None :: t => S (first_op t) | _ => O end.
  Fixpoint count_u (l : def) : nat := match l with None :: t => S (count_u t) | Some _ :: t => count_u t | [] => O end.
  (** [w] steps; the clock moves along *)
  Fixpoint steps_u (w : nat) (clk : Z) (v : V) : V := match w with O => v | S w => steps_u w (clk + 1) (U clk v) end.

  (** ProgCfun.cpp:481-487 *)
  Fixpoint fill (n : nat) (w i clk : Z) (psi : V) (buf : list V) : outcome (list V) :=
    match n with
    | O => Ok buf
    | S n => let psi := U clk psi in if w =? 0 then UB else fill n w (i + 1) (clk + 1) psi (if Z.rem i w =? 0 then buf ++ [psi] else buf)
    end.
  (** WFBuffer::Get *)
  Definition get (buf : list V) (t : Z) : outcome V := match nth_error buf (Z.to_nat t) with Some v => Ok v | None => Throw end.

  (** ProgCfun.cpp:196-218 *)
  Fixpoint c1_loop (n : nat) (t w : Z) (ket : def) (buf : list V) (bra : option V) (cfun : list K) : outcome (list K) :=
    match n with
    | O => Ok cfun
    | S n =>
        let* k := get buf t in
        let clk := t * w in
        let psi := apply_ops clk (skipn (first_op ket) ket) k in
        match bra with
        | None => let* cfun := wr cfun t (ip k psi) in c1_loop n (t + 1) w ket buf bra cfun
        | Some b => let b := steps_u (Z.to_nat w) clk b in let* cfun := wr cfun t (ip b psi) in c1_loop n (t + 1) w ket buf (Some b) cfun
        end
    end.
  (** the number of values; the arithmetic of the sizes is undefined for zero or negative ones *)
  Definition points (steps w : Z) : outcome Z := if w =? 0 then UB else let n := Z.quot steps w in if n <? 0 then UB else Ok n.
  (** ProgCfun.cpp:180-219; [last]: where the clock is left by the first propagation; ProgCfun.cpp:138-166 *)
  Definition run_c1 (steps w last : Z) (psi0 : V) (ket bra : def) (buf : list V) : outcome (list K) :=
    let* n := points steps w in
    let* _ := get buf 0 in
    c1_loop (Z.to_nat n) 0 w ket buf (match bra with [] => None | _ => Some (apply_ops last bra psi0) end) (repeat zero (Z.to_nat n)).

  (** ProgCfun.cpp:271-288: the number of propagators, and the last operator with one propagator in front of it *)
  Fixpoint scan (l : def) (i nu first : nat) : nat * nat :=
    match l with
    | [] => (nu, first)
    | None :: t => scan t (S i) (S nu) first
    | Some _ :: t => scan t (S i) nu (if (nu =? 1)%nat then i else first)
    end.
  (** ProgCfun.cpp:343-378 *)
  Fixpoint c2_inner (n : nat) (t1 t2 Nt w stepsint : Z) (lhs hasbra : bool) (sig : nat) (ket : def) (buf : list V) (clk : Z) (k b : V) (cfun : list K) : outcome (list K) :=
    match n with
    | O => Ok cfun
    | S n =>
        let* b := if hasbra then Ok b else get buf t2 in
        let* k := if lhs then Ok k else get buf t2 in
        let s := apply_ops clk (skipn sig ket) k in
        let* cfun := wr cfun (if lhs then t1 * Nt + t2 else t2 * Nt + t1) (ip b s) in
        if (stepsint <? t2 - t1) && (0 <? stepsint) then Ok cfun
        else c2_inner n t1 (t2 + 1) Nt w stepsint lhs hasbra sig ket buf (clk + Z.of_nat (Z.to_nat w))
               (if lhs then steps_u (Z.to_nat w) clk k else k) (if hasbra then steps_u (Z.to_nat w) clk b else b) cfun
    end.
  (** ProgCfun.cpp:300-379; [junk]: wave functions that are not read before they are set *)
  Fixpoint c2_outer (n : nat) (t1 Nt w stepsint : Z) (lhs : bool) (fk fb : nat) (ket bra : def) (buf : list V) (b : option V) (junk : V) (cfun : list K) : outcome (list K) :=
    match n with
    | O => Ok cfun
    | S n =>
        let clk := t1 * w in
        let* k := if lhs then let* v := get buf t1 in Ok (apply_ops clk (skipn fk ket) v) else Ok junk in
        let b := match b with Some v => Some (steps_u (Z.to_nat w) clk v) | None => None end in
        let pb := match b with Some v => if lhs then v else apply_ops clk (skipn fb bra) v | None => junk end in
        let* cfun := c2_inner (Z.to_nat (Nt - t1)) t1 t1 Nt w stepsint lhs (match b with Some _ => true | None => false end) (if lhs then fk + 2 else fk)%nat ket buf clk k pb cfun in
        c2_outer n (t1 + 1) Nt w stepsint lhs fk fb ket bra buf b junk cfun
    end.
  Definition int_max : Z := 2147483647.
  (** ProgCfun.cpp:245-379: without a definition of the bra its propagators are not counted *)
  Definition run_c2 (steps w stepsint last : Z) (psi0 : V) (ket bra : def) (buf : list V) : outcome (list K) :=
    let* Nt := points steps w in
    if int_max <? Nt * Nt then UB else
    let* junk := get buf 0 in
    let b := match bra with [] => None | _ => Some (apply_ops last bra psi0) end in
    let '(nk, fk) := scan ket 0 0 0 in
    let '(nb, fb) := scan bra 0 0 0 in
    let* lhs := if (nk =? 2)%nat && (nb <=? 1)%nat then Ok true else if (nk =? 1)%nat && (nb =? 2)%nat then Ok false else Throw in
    c2_outer (Z.to_nat Nt) 0 Nt w stepsint lhs fk fb ket bra buf b junk (repeat zero (Z.to_nat (Nt * Nt))).

  Definition is_op (x : option op) : bool := match x with Some _ => true | None => false end.
  (** ProgCfun.cpp:455-535 with the series of wave functions [buf0]: that of the initial state alone, or that read; ket_.back() and bra_[0] of empty vectors are undefined *)
  Definition run (steps w stepsint : Z) (psi0 : V) (ket bra : def) (buf0 : list V) : outcome (list K) :=
    let nu := (count_u ket + match bra with [] => 1 | _ => count_u bra end)%nat in
    match rev bra with
    | Some _ :: _ => Throw
    | _ =>
        match rev ket with
        | [] => UB
        | None :: _ => Throw
        | Some _ :: _ =>
            let* _ := if (1 <? length buf0)%nat then
                        match ket with
                        | Some _ :: _ => Throw
                        | _ => match bra with [] => UB | Some _ :: _ => Throw | None :: _ => Ok tt end
                        end
                      else Ok tt in
            let* (buf, last) :=
              match buf0 with
              | [_] => let k := apply_ops 0 ket psi0 in let* b := fill (Z.to_nat (steps - 1)) w 1 0 k [k] in Ok (b, Z.max 0 (steps - 1))
              | _ => Ok (buf0, 0)
              end in
            match nu with
            | 2%nat => run_c1 steps w last psi0 ket bra buf
            | 3%nat => run_c2 steps w stepsint last psi0 ket bra buf
            | _ => Throw
            end
        end
    end.
  (** ProgCfun.cpp:404-413: the initial state is propagated *)
  Definition run_wf (steps w stepsint : Z) (psi0 : V) (ket bra : def) : outcome (list K) := run steps w stepsint psi0 ket bra [psi0].
  (** ProgCfun.cpp:413-436: the series is read from the files; the parameters come from the meta file [meta] *)
  Definition run_read (meta : container) (stepsint : Z) (ket bra : def) (series : list V) : outcome (list K) :=
    let* (_, nt) := get_int meta (lit "Nt") 0 in
    let* (_, w) := get_int meta (lit "wcycle") 0 in
    if w =? 0 then UB else
    let steps := if zlen series <? Z.quot nt w then zlen series else nt in
    match series with [] => Throw | psi0 :: _ => run steps w stepsint psi0 ket bra series end.
End Cfun.
(** ProgCfun.cpp:493-506, ProgPropa.cpp: the meta file written for a series *)
Definition series_meta (steps w : Z) (c : container) : container :=
  set_int (set_value (set_int (set_value c (lit "CLASS") (lit "Propagation") t_string) (lit "Nt") steps) (lit "WFBaseName") (lit "WF") t_string) (lit "Wcycle") w.
(** ProgCfun.cpp:506, 424: the base names of the files written to and read from a directory *)
Definition written_base (dir : str) : str := (dir ++ lit "/WF")%list.
Definition read_base (dir : str) : str := dir.
