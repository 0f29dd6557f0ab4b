(** Model of src/tools/PeakFinder.cpp; values are rationals, [sq] is the square root used by the code. *)
From Coq Require Import List ZArith QArith Bool Lia.
From Verif Require Import Base Arrays.
Import ListNotations.
Open Scope Z_scope.

Definition qlt (a b : Q) : bool := negb (Qle_bool b a).

(** PeakFinder.cpp:177-190; the set is listed in increasing order *)
Definition maximas (data : list Q) : outcome (list Z) :=
  let* (ml, _) := foldM (fun '(ml, delta) i =>
      let* x := rd data i in
      let* y := rd data (i - 1) in
      Ok (if qlt x y && qlt 0 delta then ml ++ [i - 1] else ml, (x - y)%Q))
    (upto 1 (zlen data)) ([], 0%Q) in
  Ok ml.

(** PeakFinder.cpp:192-204 *)
Definition minimas (data : list Q) : outcome (list Z) :=
  let* (ml, _) := foldM (fun '(ml, last) i =>
      let* x := rd data i in
      Ok (if qlt last x then ml ++ [i - 1] else ml, x))
    (upto 1 (zlen data)) ([], 0%Q) in
  Ok ml.

(** PeakFinder.cpp:18-29 *)
Definition mean (data : list Q) (b e : Z) : outcome Q :=
  let* s := foldM (fun s i => let* x := rd data i in Ok (s + x)%Q) (upto b e) 0%Q in
  Ok (s / inject_Z (e - b))%Q.

(** PeakFinder.cpp:31-42, before the square root *)
Definition variance (data : list Q) (b e : Z) (m : Q) : outcome Q :=
  let* s := foldM (fun s i => let* x := rd data i in Ok (s + (x - m) * (x - m))%Q) (upto b e) 0%Q in
  Ok (1 / inject_Z (e - b) * s)%Q.

Record pstate := mkP { p_start : bool; p_dmax : Q; p_ind : Z; p_peaks : list Z }.

(** PeakFinder.cpp:56-75: one pass of the loop, thr = mean + _tol * sigma *)
Definition pass (data : list Q) (thr : Q) (s : pstate) (i : Z) : outcome pstate :=
  let* x := rd data i in
  let s := if negb (p_start s) && qlt thr x then mkP true 0 (-1) (p_peaks s) else s in
  let s := if p_start s && qlt x thr then mkP false (p_dmax s) (p_ind s) (p_peaks s ++ [p_ind s]) else s in
  Ok (if p_start s && qlt (p_dmax s) x then mkP true x i (p_peaks s) else s).

(** PeakFinder.cpp:52-82 with begin = 0 (as called by Find) *)
Definition find_regions (data : list Q) (thr : Q) : outcome (list Z) :=
  let* s := foldM (pass data thr) (upto 0 (zlen data)) (mkP false 0 0 []) in
  if p_start s && negb (p_ind s =? -1) then
    let* l := rd data (zlen data - 1) in
    Ok (if qlt l (p_dmax s) then p_peaks s ++ [p_ind s] else p_peaks s)
  else Ok (p_peaks s).

(** PeakFinder.cpp:46-50, 90-100; dividing by the size 0 gives nan, which no value exceeds *)
Definition find_peaks (sq : Q -> Q) (tol : Q) (data : list Q) : outcome (list Z) :=
  if zlen data =? 0 then Ok [] else
  let* m := mean data 0 (zlen data) in
  let* v := variance data 0 (zlen data) m in
  find_regions data (m + tol * sq v)%Q.

(** PeakFinder.cpp:105-138: [signif w x] decides about significance of the value x within the window; windows of
    size 0 give nan (not significant) *)
Definition find_window (sq : Q -> Q) (tol : Q) (data : list Q) (win : Z) : outcome (list Z) :=
  let size := zlen data in
  let* maxi := maximas data in
  foldM (fun peaks it =>
      let mn := if it <? win then 0 else it - win in
      let mx := if size - 1 <? it + win then size - 1 else it + win in
      if mx <=? mn then Ok peaks else
      let* m := mean data mn mx in
      let* v := variance data mn mx m in
      let* x := rd data it in
      Ok (if qlt (m + tol * sq v) x then peaks ++ [it] else peaks))
    maxi [].
