(** Model of the two representations of a wave function on a grid: the vector, the space buffer and the FFT object that
    holds raw pointers to both.
    src/qdlib/WaveFunction.h:104-137 (IsKspace, GetSpaceBuffer), 166-183 (Retire, Reaquire); src/qdlib/WFGridSystem.cpp:13-135
    (CheckFFT, fft, operator=, Reaquire, Reduce, Restore); src/qdlib/TransformFFT.cpp:25-63; src/fft/fft.cpp:80-121
    (constructor for grids), 155-219 (_CreatePlanDim), 228-278 (ReplaceBuffers, forward, backward); the parts of
    src/math/Vector.h they use: 267-297 (Retire-, ReaquireStorage), 364-376 (swap), 541-555 (newsize), 573-588 (operator=).

    Storage is a heap of blocks with the pointers of the program; access to a freed block or to NULL is UB.  FFTW as its
    manual says: a plan transforms what its pointers point to when it is executed (out of place, the input is kept);
    planning overwrites both arrays unless the mode is ESTIMATE or wisdom of at least the mode of planning is there for the
    problem; afterwards there is wisdom for it.  A problem is the shape of the grid, the dimension (or all) and the
    direction.  One stride, one process; allocation always succeeds and never reuses a block. *)
From Coq Require Import List ZArith Lia Bool Arith.
From Verif Require Import Base Arrays Model.Grid.
Import ListNotations.
Open Scope Z_scope.

(** planner modes: FFTW_ESTIMATE, FFTW_MEASURE, FFTW_PATIENT *)
Inductive lvl := Est | Mea | Pat.
Definition lvl_leb (a b : lvl) : bool :=
  match a, b with Est, _ => true | Mea, Est => false | Mea, _ => true | Pat, Pat => true | Pat, _ => false end.
(** shape, dimension (None: all), forward? *)
Definition prob : Type := list Z * option nat * bool.
Definition prob_eqb (p q : prob) : bool :=
  match p, q with (ds, d, f), (es, e, g) =>
    (if list_eq_dec Z.eq_dec ds es then true else false) &&
    (match d, e with None, None => true | Some a, Some b => (a =? b)%nat | _, _ => false end) && Bool.eqb f g
  end.

(** FFTGlobal.cpp:42-72: the planner mode; [optimize] is the global parameter fftwOptimize (true by default), [wisdom]: there is
    a wisdom file *)
Definition optimize_flag (optimize wisdom : bool) : lvl :=
  if wisdom then Mea else if optimize then Pat else Est.

Definition fupd {X} (f : nat -> X) (i : nat) (x : X) : nat -> X := fun j => if (j =? i)%nat then x else f j.

Section Repr.
  Variable A : Type.
  (** the transform FFTW computes: direction, shape, dimension *)
  Variable trans : bool -> list Z -> option nat -> list A -> list A.
  (** indeterminate content of a storage of the given size, different at each use *)
  Variable junk : nat -> Z -> list A.
  (** FFTGlobal::OptimizeFlag *)
  Variable flag : lvl.

  (** fft.h:31-45: the FFT object of a grid wave function: _cin, _cout, whether _in refers to the space buffer object (else to
      the vector of the wave function), the shape, and the dimensions with plans of their own *)
  Record fobj := mkF { f_in : nat; f_out : nat; f_bufobj : bool; f_dims : list Z; f_planned : list nat }.
  (** WaveFunction.h:36-43, WFGridSystem.h:21-25: grid, size and pointer of the vector, size and pointer of the space buffer,
      _IsKspace, _fft.  Block 0 is the NULL pointer. *)
  Record wfo := mkW { o_dims : list Z; o_n : Z; o_v : nat; o_buf : option (Z * nat); o_k : bool; o_fft : option fobj }.
  Record world := mkWorld { w_heap : nat -> option (list A); w_next : nat; w_tick : nat; w_wis : prob -> option lvl;
                            w_obj : nat -> option wfo }.

  Definition rdb (w : world) (b : nat) : outcome (list A) := match w_heap w b with Some l => Ok l | None => UB end.
  Definition wrb (w : world) (b : nat) (l : list A) : world :=
    mkWorld (fupd (w_heap w) b (Some l)) (w_next w) (w_tick w) (w_wis w) (w_obj w).
  Definition free (w : world) (b : nat) : world :=
    mkWorld (fupd (w_heap w) b None) (w_next w) (w_tick w) (w_wis w) (w_obj w).
  Definition alloc (w : world) (n : Z) : world * nat :=
    (mkWorld (fupd (w_heap w) (w_next w) (Some (junk (w_tick w) n))) (S (w_next w)) (S (w_tick w)) (w_wis w) (w_obj w), w_next w).
  Definition set_wis (w : world) (p : prob) (l : lvl) : world :=
    mkWorld (w_heap w) (w_next w) (w_tick w) (fun q => if prob_eqb q p then Some l else w_wis w q) (w_obj w).
  Definition tick (w : world) : world := mkWorld (w_heap w) (w_next w) (S (w_tick w)) (w_wis w) (w_obj w).
  Definition get (w : world) (i : nat) : outcome wfo := match w_obj w i with Some o => Ok o | None => UB end.
  Definition put (w : world) (i : nat) (o : wfo) : world :=
    mkWorld (w_heap w) (w_next w) (w_tick w) (w_wis w) (fupd (w_obj w) i (Some o)).

  (** WaveFunction.h:133-137: GetSpaceBuffer *)
  Definition get_buffer (w : world) (o : wfo) : world * (Z * nat) :=
    match o_buf o with
    | Some b => (w, b)
    | None => let (w, b) := alloc w (o_n o) in (w, (o_n o, b))
    end.
  (** WaveFunction.h:119-121, WFGridSystem.cpp:33-39: the buffer with the size of the vector; was it resized? *)
  Definition fit_buffer (w : world) (o : wfo) : world * (Z * nat) * bool :=
    let '(w, (n, b)) := get_buffer w o in
    if n =? o_n o then (w, (n, b), false)
    else let w := free w b in let (w, b) := alloc w (o_n o) in (w, (o_n o, b), true).

  (** WaveFunction.h:117-127; swap exchanges the pointers *)
  Definition is_kspace (w : world) (i : nat) (is : bool) : outcome world :=
    let* o := get w i in
    let '(w, (n, b), _) := fit_buffer w o in
    Ok (put w i (if Bool.eqb (o_k o) is then mkW (o_dims o) (o_n o) (o_v o) (Some (n, b)) (o_k o) (o_fft o)
                 else mkW (o_dims o) (o_n o) b (Some (n, o_v o)) is (o_fft o))).

  (** FFTW manual 4.3.2 (planner flags), 3.3 (wisdom): planning for two arrays *)
  Definition wisdom_ok (w : world) (l : lvl) (p : prob) : bool :=
    match w_wis w p with Some l' => lvl_leb l l' | None => false end.
  Definition fftw_plan (w : world) (p : prob) (a b : nat) : outcome world :=
    match flag with
    | Est => Ok w
    | _ => if wisdom_ok w flag p then Ok w else
           let* x := rdb w a in
           let* y := rdb w b in
           let w := wrb w a (junk (w_tick w) (zlen x)) in
           let w := wrb (tick w) b (junk (S (w_tick w)) (zlen y)) in
           Ok (set_wis (tick w) p flag)
    end.
  (** fft.cpp:96-105, 109-117, 183-192, 204-213: use wisdom of the mode l, else save the vector of _in, plan, restore *)
  Definition plan (w : world) (l : lvl) (p : prob) (a b saved : nat) : outcome world :=
    if wisdom_ok w l p then Ok w else
    let* x := rdb w saved in
    let* w := fftw_plan w p a b in
    let* _ := rdb w saved in
    Ok (wrb w saved x).

  (** WFGridSystem.cpp:41-47 and fft.cpp:80-121 *)
  Definition new_fft (w : world) (o : wfo) (b : nat) : outcome (world * fobj) :=
    let '(x, k) := if o_k o then (b, o_v o) else (o_v o, b) in
    let* w := plan w flag (o_dims o, None, true) x k x in
    let* w := plan w flag (o_dims o, None, false) k x x in
    Ok (w, mkF x k (o_k o) (o_dims o) []).

  (** WFGridSystem.cpp:27-48: CheckFFT *)
  Definition check_fft (w : world) (i : nat) : outcome world :=
    let* o := get w i in
    let '(w, (n, b), resized) := fit_buffer w o in
    match (if resized then None else o_fft o) with
    | Some f => Ok (put w i (mkW (o_dims o) (o_n o) (o_v o) (Some (n, b)) (o_k o) (Some f)))
    | None => let* (w, f) := new_fft w o b in
              Ok (put w i (mkW (o_dims o) (o_n o) (o_v o) (Some (n, b)) (o_k o) (Some f)))
    end.

  (** fft.cpp:155-219: the plans of one dimension; *_in is the vector _in refers to at this time *)
  Definition create_dim (w : world) (o : wfo) (f : fobj) (d : nat) : outcome (world * fobj) :=
    if negb (d <? length (f_dims f))%nat then UB else
    let* saved := match o_buf o with Some (_, b) => Ok (if f_bufobj f then b else o_v o) | None => UB end in
    let* w := plan w Pat (f_dims f, Some d, true) (f_in f) (f_out f) saved in
    let* w := plan w Pat (f_dims f, Some d, false) (f_out f) (f_in f) saved in
    Ok (w, mkF (f_in f) (f_out f) (f_bufobj f) (f_dims f) (d :: f_planned f)).

  (** FFTW manual 4.2, 4.6: execution of a plan for the shape ds *)
  Definition execute (w : world) (fw : bool) (ds : list Z) (od : option nat) (a b : nat) : outcome world :=
    let* x := rdb w a in
    let* y := rdb w b in
    if (zlen x =? grid_size ds) && (zlen y =? grid_size ds) then Ok (wrb w b (trans fw ds od x)) else UB.

  (** fft.cpp:243-256 and 264-278 for an existing FFT object *)
  Definition transform (w : world) (i : nat) (fw : bool) (od : option nat) : outcome world :=
    let* o := get w i in
    let* f := get_opt (o_fft o) in
    let* (w, f) := match od with
                   | None => Ok (w, f)
                   | Some d => if existsb (Nat.eqb d) (f_planned f) then Ok (w, f) else create_dim w o f d
                   end in
    let w := put w i (mkW (o_dims o) (o_n o) (o_v o) (o_buf o) (o_k o) (Some f)) in
    if fw then execute w true (f_dims f) od (f_in f) (f_out f) else execute w false (f_dims f) od (f_out f) (f_in f).

  (** TransformFFT.cpp:25-63: Forward, Backward *)
  Definition Forward (w : world) (i : nat) (od : option nat) : outcome world :=
    let* w := check_fft w i in let* w := transform w i true od in is_kspace w i true.
  Definition Backward (w : world) (i : nat) (od : option nat) : outcome world :=
    let* w := check_fft w i in let* w := transform w i false od in is_kspace w i false.

  (** Vector.h:573-588 together with GridSystem.cpp:232-242: grid and vector of j into i *)
  Definition copy_grid_vec (w : world) (i j : nat) : outcome world :=
    let* o := get w i in
    let* p := get w j in
    let* x := rdb w (o_v p) in
    if (i =? j)%nat then Ok w else
    if o_n o =? o_n p then
      let* _ := rdb w (o_v o) in
      Ok (wrb (put w i (mkW (o_dims p) (o_n p) (o_v o) (o_buf o) (o_k o) (o_fft o))) (o_v o) x)
    else
      let w := free w (o_v o) in
      let (w, b) := alloc w (o_n p) in
      Ok (wrb (put w i (mkW (o_dims p) (o_n p) b (o_buf o) (o_k o) (o_fft o))) b x).

  (** WFGridSystem.cpp:68-73 *)
  Definition assign_wf (w : world) (i j : nat) : outcome world :=
    let* p := get w j in
    let* w := is_kspace w i (o_k p) in
    copy_grid_vec w i j.

  (** WFGridSystem.cpp:124-136 *)
  Definition Restore (w : world) (i j : nat) : outcome world :=
    let* w := is_kspace w i true in
    let* w := copy_grid_vec w i j in
    let* w := check_fft w i in
    let* w := transform w i false None in
    is_kspace w i false.

  (** WFGridSystem.cpp:18-21: a new wave function on a grid *)
  Definition new_wf (w : world) (i : nat) (ds : list Z) : outcome world :=
    match w_obj w i with
    | Some _ => UB
    | None => let (w, b) := alloc w (grid_size ds) in Ok (put w i (mkW ds (grid_size ds) b None false None))
    end.

  (** the elements of the vector are written: by the user, or (codelets) from those of another wave function *)
  Definition write_vec (w : world) (i : nat) (l : list A) : outcome world :=
    let* o := get w i in
    let* _ := rdb w (o_v o) in
    if zlen l =? o_n o then Ok (wrb w (o_v o) l) else UB.
  Definition read_vec (w : world) (i : nat) : outcome (list A) := let* o := get w i in rdb w (o_v o).
  (** math/codelets: element-wise operations run over the size of the destination *)
  Definition combine_vec (w : world) (i j : nat) (g : list A -> list A -> list A) : outcome world :=
    let* x := read_vec w i in
    let* y := read_vec w j in
    if zlen x =? zlen y then write_vec w i (g x y) else UB.

  (** WFGridSystem.cpp:90-122; g stands for the cutting down of the elements *)
  Definition Reduce (w : world) (r i : nat) (g : list A -> list A) : outcome world :=
    let* o := get w i in
    let* w := new_wf w r (o_dims o) in
    let* w := check_fft w i in
    let* w := transform w i true None in
    let* w := is_kspace w i true in
    let* w := combine_vec w r i (fun _ y => g y) in
    is_kspace w i false.

  (** Vector.h:267-297, WaveFunction.h:166-183, WFGridSystem.cpp:75-86 *)
  Definition Retire (w : world) (i : nat) : outcome world :=
    let* o := get w i in
    let w := free w (o_v o) in
    let w := match o_buf o with Some (_, b) => free w b | None => w end in
    Ok (put w i (mkW (o_dims o) (o_n o) 0%nat (match o_buf o with Some (n, _) => Some (n, 0%nat) | None => None end)
                     (o_k o) (o_fft o))).
  Definition reaquire_storage (w : world) (n : Z) (b : nat) : world * nat := if (b =? 0)%nat then alloc w n else (w, b).
  Definition Reaquire (w : world) (i : nat) : outcome world :=
    let* o := get w i in
    let (w, v) := reaquire_storage w (o_n o) (o_v o) in
    let '(w, buf) := match o_buf o with
                     | Some (n, b) => let (w, b) := reaquire_storage w n b in (w, Some (n, b))
                     | None => (w, None)
                     end in
    let o := mkW (o_dims o) (o_n o) v buf (o_k o) (o_fft o) in
    match o_fft o with
    | None => Ok (put w i o)
    | Some f =>
      let '(w, (n, b)) := get_buffer w o in
      let '(x, k) := if o_k o then (b, v) else (v, b) in
      Ok (put w i (mkW (o_dims o) (o_n o) v (Some (n, b)) (o_k o) (Some (mkF x k (f_bufobj f) (f_dims f) (f_planned f)))))
    end.

  (** what a program does with wave functions *)
  Inductive cmd :=
  | CNew (i : nat) (ds : list Z)
  | CWrite (i : nat) (l : list A)
  | CMap (i j : nat) (g : list A -> list A)
  | COp (i j : nat) (g : list A -> list A -> list A)
  | CSwitch (i : nat) (k : bool)
  | CTrans (fw : bool) (i : nat) (od : option nat)
  | CAssign (i j : nat)
  | CRestore (i j : nat)
  | CReduce (r i : nat) (g : list A -> list A)
  | CRetire (i : nat)
  | CReaquire (i : nat).

  Definition step (w : world) (c : cmd) : outcome world :=
    match c with
    | CNew i ds => new_wf w i ds
    | CWrite i l => write_vec w i l
    | CMap i j g => combine_vec w i j (fun _ y => g y)
    | COp i j g => combine_vec w i j g
    | CSwitch i k => is_kspace w i k
    | CTrans true i od => Forward w i od
    | CTrans false i od => Backward w i od
    | CAssign i j => assign_wf w i j
    | CRestore i j => Restore w i j
    | CReduce r i g => Reduce w r i g
    | CRetire i => Retire w i
    | CReaquire i => Reaquire w i
    end.
  Definition run (w : world) (cs : list cmd) : outcome world := foldM step cs w.
  Definition start (wis : prob -> option lvl) : world := mkWorld (fun _ => None) 1 0 wis (fun _ => None).
End Repr.
