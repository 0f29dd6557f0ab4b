(** Model of the grid addressing in src/qdlib/GridSystem.{h,cpp}, src/math/VectorView.h and src/fft/fft.cpp.

    Sizes and indices are unbounded integers: C++ int overflow (grids of 2^31 points and more) is not modelled.  The
    extent of the grid (xmin, xmax) plays no role for addressing. *)
From Coq Require Import List ZArith Lia Bool Arith.
From Verif Require Import Base Arrays.
Import ListNotations.
Open Scope Z_scope.

(** GridSystem.h:33-41.  Entries of _lothers/_nothers not yet computed are indeterminate ([None]), likewise _active. *)
Record grid := mkGrid {
  g_sizes : list Z;
  g_lo : nat -> option Z;
  g_no : nat -> option Z;
  g_active : option nat;
  g_numactive : Z }.

(** GridSystem.cpp:71-77 *)
Definition new_grid : grid := mkGrid [] (fun _ => None) (fun _ => None) None 0.

(** GridSystem.cpp:101-114 and 138-141: set number and sizes of dimensions (the stripe tables are not touched). *)
Definition set_sizes (g : grid) (ds : list Z) : grid := mkGrid ds (g_lo g) (g_no g) (g_active g) (g_numactive g).

Definition size_of (ds : list Z) (i : nat) : Z := nth i ds 0.

(** GridSystem.cpp:149-158 *)
Definition grid_size (ds : list Z) : Z :=
  match ds with [] => 0 | _ => fold_left (fun a i => a * size_of ds i) (seq 0 (length ds)) 1 end.

(** GridSystem.cpp:278-286 *)
Definition low_others (ds : list Z) (dim : nat) : Z :=
  fold_left (fun a i => a * size_of ds i) (seq 0 dim) 1.

(** GridSystem.cpp:279, 288-292 *)
Definition num_others (ds : list Z) (dim : nat) : Z :=
  fold_left (fun a i => if (i =? dim)%nat then a else a * size_of ds i) (seq 0 (length ds)) 1.

(** GridSystem.cpp:275-294 *)
Definition build_info (g : grid) : grid :=
  let ds := g_sizes g in
  mkGrid ds (fun d => if (d <? length ds)%nat then Some (low_others ds d) else g_lo g d)
            (fun d => if (d <? length ds)%nat then Some (num_others ds d) else g_no g d)
            (g_active g) (g_numactive g).

(** GridSystem.cpp:232-242 *)
Definition assign (g G : grid) : grid :=
  build_info (mkGrid (g_sizes G) (g_lo g) (g_no g) (g_active g) (g_numactive g)).

(** GridSystem.h:79 *)
Definition active_dim (g : grid) (d : nat) : grid :=
  mkGrid (g_sizes g) (g_lo g) (g_no g) (Some d) (size_of (g_sizes g) d).

Definition get_opt {A} (o : option A) : outcome A := match o with Some x => Ok x | None => UB end.

(** GridSystem.h:85 and 89 *)
Definition NumOthers (g : grid) : outcome Z := let* d := get_opt (g_active g) in get_opt (g_no g d).
Definition LowOthers (g : grid) : outcome Z := let* d := get_opt (g_active g) in get_opt (g_lo g d).

(** GridSystem.h:113-116; division by zero is UB *)
Definition IndexBase (g : grid) (replica : Z) : outcome Z :=
  let* lo := LowOthers g in
  if lo =? 0 then UB else Ok (Z.quot replica lo * g_numactive g * lo + Z.rem replica lo).

(** GridSystem.h:103-106 *)
Definition Index (g : grid) (i replica : Z) : outcome Z :=
  let* lo := LowOthers g in
  if lo =? 0 then UB else Ok (Z.quot replica lo * g_numactive g * lo + Z.rem replica lo + i * lo).

(** GridSystem.cpp:300-308 *)
Definition num_others2 (ds : list Z) (d1 d2 : nat) : Z :=
  fold_left (fun a i => if ((i =? d1) || (i =? d2))%nat then a else a * size_of ds i) (seq 0 (length ds)) 1.

(** GridSystem.cpp:310-324 *)
Definition low_others2 (ds : list Z) (d1 d2 : nat) : Z :=
  fold_left (fun lothers i =>
    let ltmp := if (negb (i =? d1) || negb (i =? d2))%nat
                then fold_left (fun a j => a * size_of ds j) (seq 0 i) 1 else 1 in
    if ltmp <? lothers then ltmp else lothers) (seq 0 (length ds)) (grid_size ds).

(** ** src/math/VectorView.h *)
Section View.
  Context {T : Type}.

  (** VectorView.h:23-28: the vector, the views (addresses per point and replica) and _nothers (indeterminate at first) *)
  Record vview := mkView {
    v_data : list T;
    v_dims : list Z;
    v_view : nat -> option (list (list Z));
    v_adim : nat;
    v_nothers : option Z }.

  (** VectorView.h:50-69 *)
  Definition new_view (data : list T) (ds : list Z) : vview := mkView data ds (fun _ => None) 0%nat None.

  (** VectorView.h:97-131: pointer table of a dimension *)
  Definition view_table (ds : list Z) (dim : nat) : outcome (list (list Z)) :=
    let lothers := low_others ds dim in
    let nothers := num_others ds dim in
    let me := size_of ds dim in
    if (lothers =? 0) && (0 <? nothers) && (0 <? me) then UB else
    Ok (map (fun i => map (fun j => Z.quot j lothers * me * lothers + Z.rem j lothers + i * lothers)
                          (upto 0 nothers)) (upto 0 me)).

  (** VectorView.h:91-133 *)
  Definition view_active (v : vview) (dim : nat) : outcome vview :=
    match v_view v dim with
    | Some _ => Ok (mkView (v_data v) (v_dims v) (v_view v) dim (v_nothers v))
    | None =>
      let* t := view_table (v_dims v) dim in
      Ok (mkView (v_data v) (v_dims v) (fun d => if (d =? dim)%nat then Some t else v_view v d) dim
                 (Some (num_others (v_dims v) dim)))
    end.

  (** VectorView.h:158-168, 175-188, 194-208: combine every addressed element with vec[i] *)
  Definition view_op (op : T -> T -> T) (v : vview) (vec : list T) : outcome vview :=
    let* t := get_opt (v_view v (v_adim v)) in
    let* no := get_opt (v_nothers v) in
    let* data := foldM (fun data i =>
        foldM (fun data j =>
          let* row := rd t i in
          let* a := rd row j in
          let* x := rd data a in
          let* y := rd vec i in
          wr data a (op x y)) (upto 0 no) data)
      (upto 0 (size_of (v_dims v) (v_adim v))) (v_data v) in
    Ok (mkView data (v_dims v) (v_view v) (v_adim v) (v_nothers v)).
End View.
Arguments vview : clear implicits.

(** ** src/fft/fft.cpp: guru plan for one dimension *)

(** fft.cpp:20-29 *)
Definition fft_lothers (ds : list Z) (dim : nat) : Z :=
  fold_left (fun a i => a * size_of ds i) (seq 0 dim) 1.
(** fft.cpp:34-37 *)
Definition fft_uothers (ds : list Z) (cdim : nat) : Z := fft_lothers ds (length ds - cdim - 1).

Record iodim := mkIO { io_n : Z; io_s : Z }.

(** fft.cpp:94-97: dimension sizes in C order *)
Definition rdims (ds : list Z) : list Z := rev ds.

(** fft.cpp:165-185: description of the transformed stripe and of the loop over the stripes *)
Definition plan_data (ds : list Z) (dim : nat) : iodim :=
  mkIO (size_of (rdims ds) (length ds - dim - 1)) (fft_lothers ds dim).
Definition plan_loops (ds : list Z) (dim : nat) : list iodim :=
  map (fun i => mkIO (size_of (rdims ds) i) (fft_uothers ds i))
      (filter (fun i => negb (i =? length ds - dim - 1)%nat) (seq 0 (length ds))).

(** What the FFT library does with such a plan (FFTW manual, guru interface): for each index vector of the loop
    dimensions it transforms the elements at offset sum(index*stride) + i*data stride.  Result: list of stripes, each
    the list of addresses. *)
Fixpoint loop_offsets (ls : list iodim) : list Z :=
  match ls with
  | [] => [0]
  | l :: t => flat_map (fun k => map (fun o => k * io_s l + o) (loop_offsets t)) (upto 0 (io_n l))
  end.
Definition plan_stripes (d : iodim) (ls : list iodim) : list (list Z) :=
  map (fun o => map (fun i => o + i * io_s d) (upto 0 (io_n d))) (loop_offsets ls).
