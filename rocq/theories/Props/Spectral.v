(** C83: applying derivative operators in momentum space. *)
From Coq Require Import List ZArith Lia Bool Arith QArith Qcanon.
From Verif Require Import Base Arrays Algebra Complex Model.Grid Model.Repr Model.Derive Model.Spectral Spec.Repr Spec.Spectral Proofs.Spectral.
Import ListNotations.
Open Scope Z_scope.

(** In all statements: a careful program (C81) has run; a wave function shows, in position space, the backward transform of
    coefficients y; the transforms are inverse up to the factor n by which the code divides. *)

(** ** OGridNabla *)
(** Full statement: Apply(dest, source) multiplies each coefficient by i k (derivative) or k (momentum), or the complex conjugate
    if the adjoint is asked for (Conj); the source and all others stay as they are. *)
Definition C83_nabla : Prop := forall (F : fld) trans junk flag wis prep cs s conj momentum (fac n : F) k d i ds y,
  before (Cx F) trans junk flag wis prep cs s -> inverse F trans ds None n -> zlen k = grid_size ds -> zlen y = grid_size ds ->
  shows (Cx F) s i ds (trans false ds None y) -> on_grid (Cx F) s d ds ->
  exists w' z, run (Cx F) trans junk flag (start (Cx F) wis) (cs ++ nabla_apply F conj momentum fac n k d i) = Ok w' /\
    times F y (map (grad_symbol F conj momentum fac) k) z /\ looks (Cx F) w' d ds (trans false ds None z) /\
    (d <> i -> looks (Cx F) w' i ds (trans false ds None y)) /\
    (forall j es v, j <> d -> j <> i -> shows (Cx F) s j es v -> looks (Cx F) w' j es v).

(** a transform of one point *)
Definition tr1 (fw : bool) (ds : list Z) (od : option nat) (x : list (Cx Qcf)) : list (Cx Qcf) := x.
Definition cq (z : Z) : Cx Qcf := cx_of (@ofZ Qcf z).
Definition jq (t : nat) (n : Z) : list (Cx Qcf) := repeat (cq (-1)) (Z.to_nat n).
Lemma jq_len : forall t n, 0 <= n -> zlen (jq t n) = n.
Proof. intros. unfold jq, zlen. rewrite repeat_length. lia. Qed.
Definition result (trans : bool -> list Z -> option nat -> list (Cx Qcf) -> list (Cx Qcf)) (cs : list (cmd (Cx Qcf))) : state (Cx Qcf) :=
  match s_run (Cx Qcf) trans (nothing (Cx Qcf)) cs with Some s => s | None => nothing (Cx Qcf) end.
Definition always : prepared := fun _ _ => true.
Definition no_wis : prob -> option lvl := fun _ => None.
Lemma inverse1 ds od : inverse Qcf tr1 ds od (@ofZ Qcf 1).
Proof.
  split; [discriminate|]. intros y _. unfold tr1. induction y as [|a y IH]; [reflexivity|]. cbn [map]. rewrite <- IH. f_equal.
  symmetry. apply one_mul.
Qed.

Definition prog1 (ds : list Z) (x : list (Cx Qcf)) : list (cmd (Cx Qcf)) :=
  [CNew (Cx Qcf) 0 ds; CWrite (Cx Qcf) 0 x; CNew (Cx Qcf) 1 ds].
Lemma before1 : before (Cx Qcf) tr1 jq Est no_wis always (prog1 [1] [cq 1]) (result tr1 (prog1 [1] [cq 1])).
Proof.
  split; [reflexivity|]. split; [exact jq_len|]. split; [intros; left; reflexivity|]. split; [repeat constructor|]. split; [repeat split|reflexivity].
Qed.

(** the momentum operator is hermitian, yet with Conj its sign changes *)
Theorem C83_nabla_refuted : ~ C83_nabla.
Proof.
  intros H. destruct (H Qcf tr1 jq Est no_wis always (prog1 [1] [cq 1]) _ true true (@ofZ Qcf 1) (@ofZ Qcf 1) [@ofZ Qcf 1] 1%nat 0%nat [1] [cq 1]
    before1 (inverse1 _ _)) as (w' & z & R & T & L & _); [reflexivity|reflexivity|eexists; repeat split|eexists; split; reflexivity|].
  vm_compute in R. injection R as <-. destruct L as (o & _ & _ & _ & Lz). vm_compute in Lz. injection Lz as Lz. unfold tr1 in Lz. subst z.
  inversion T.
Qed.
Print Assumptions C83_nabla_refuted.

Theorem C83_nabla_partial : forall (F : fld) trans junk flag wis prep cs s conj momentum (fac n : F) k d i ds y,
  before (Cx F) trans junk flag wis prep cs s -> inverse F trans ds None n -> zlen k = grid_size ds -> zlen y = grid_size ds ->
  shows (Cx F) s i ds (trans false ds None y) -> on_grid (Cx F) s d ds -> momentum && conj = false ->
  exists w' z, run (Cx F) trans junk flag (start (Cx F) wis) (cs ++ nabla_apply F conj momentum fac n k d i) = Ok w' /\
    times F y (map (grad_symbol F conj momentum fac) k) z /\ looks (Cx F) w' d ds (trans false ds None z) /\
    (d <> i -> looks (Cx F) w' i ds (trans false ds None y)) /\
    (forall j es v, j <> d -> j <> i -> shows (Cx F) s j es v -> looks (Cx F) w' j es v).
Proof.
  intros F trans junk flag wis prep cs s conj momentum fac n k d i ds y B I Lk Ly Si Sd E.
  destruct (nabla_out F trans junk flag wis prep cs s conj momentum fac n k d i ds y B I Lk Ly Si Sd) as (w' & z & R & T & H).
  assert (X : map (nabla_symbol F conj momentum fac) k = map (grad_symbol F conj momentum fac) k)
    by (apply map_ext; intros a; rewrite nabla_grad, E; reflexivity).
  exists w', z. rewrite X in T. split; [exact R|]. split; [exact T|exact H].
Qed.
Print Assumptions C83_nabla_partial.

(** what the code does in all cases *)
Theorem C83_nabla_code : forall (F : fld) trans junk flag wis prep cs s conj momentum (fac n : F) k d i ds y,
  before (Cx F) trans junk flag wis prep cs s -> inverse F trans ds None n -> zlen k = grid_size ds -> zlen y = grid_size ds ->
  shows (Cx F) s i ds (trans false ds None y) -> on_grid (Cx F) s d ds ->
  exists w' z, run (Cx F) trans junk flag (start (Cx F) wis) (cs ++ nabla_apply F conj momentum fac n k d i) = Ok w' /\
    times F y (map (fun k => if momentum && conj then (- grad_symbol F conj momentum fac k)%cr else grad_symbol F conj momentum fac k) k) z /\
    looks (Cx F) w' d ds (trans false ds None z) /\ (d <> i -> looks (Cx F) w' i ds (trans false ds None y)) /\
    (forall j es v, j <> d -> j <> i -> shows (Cx F) s j es v -> looks (Cx F) w' j es v).
Proof.
  intros F trans junk flag wis prep cs s conj momentum fac n k d i ds y B I Lk Ly Si Sd.
  destruct (nabla_out F trans junk flag wis prep cs s conj momentum fac n k d i ds y B I Lk Ly Si Sd) as (w' & z & R & T & H).
  rewrite (map_ext _ _ (nabla_grad F conj momentum fac)) in T. exists w', z. split; [exact R|]. split; [exact T|exact H].
Qed.
Print Assumptions C83_nabla_code.

(** Apply(Psi) does the same in place *)
Theorem C83_nabla_in : forall (F : fld) trans junk flag wis prep cs s conj momentum (fac n : F) k i ds y,
  before (Cx F) trans junk flag wis prep cs s -> inverse F trans ds None n -> zlen k = grid_size ds -> zlen y = grid_size ds ->
  shows (Cx F) s i ds (trans false ds None y) ->
  exists w' z, run (Cx F) trans junk flag (start (Cx F) wis) (cs ++ nabla_apply_in F conj momentum fac n k i) = Ok w' /\
    times F y (map (fun k => if momentum && conj then (- grad_symbol F conj momentum fac k)%cr else grad_symbol F conj momentum fac k) k) z /\
    looks (Cx F) w' i ds (trans false ds None z) /\ (forall j es v, j <> i -> shows (Cx F) s j es v -> looks (Cx F) w' j es v).
Proof.
  intros F trans junk flag wis prep cs s conj momentum fac n k i ds y B I Lk Ly Si.
  destruct (nabla_in F trans junk flag wis prep cs s conj momentum fac n k i ds y B I Lk Ly Si) as (w' & z & R & T & H).
  rewrite (map_ext _ _ (nabla_grad F conj momentum fac)) in T. exists w', z. split; [exact R|]. split; [exact T|exact H].
Qed.
Print Assumptions C83_nabla_in.

(** ** Diff: all dimensions (the Laplacian of OGridNablaSq) *)
Theorem C83_all : forall (F : fld) trans junk flag wis prep cs s (dd n : F) k d i ds y,
  before (Cx F) trans junk flag wis prep cs s -> inverse F trans ds None n -> zlen k = grid_size ds -> zlen y = grid_size ds ->
  shows (Cx F) s i ds (trans false ds None y) -> on_grid (Cx F) s d ds ->
  exists w' z, run (Cx F) trans junk flag (start (Cx F) wis) (cs ++ dndxn F dd n k d i) = Ok w' /\
    times F y (map (fun k => cx_of (k * dd)%cr) k) z /\ looks (Cx F) w' d ds (trans false ds None z) /\
    (d <> i -> looks (Cx F) w' i ds (trans false ds None y)) /\
    (forall j es v, j <> d -> j <> i -> shows (Cx F) s j es v -> looks (Cx F) w' j es v).
Proof. exact dndxn_out. Qed.
Print Assumptions C83_all.

(** ** Diff: one dimension *)
Definition C83_dim : Prop := forall (F : fld) trans junk flag wis prep cs s deriv (dd n : F) k dim d i ds y,
  before (Cx F) trans junk flag wis prep cs s -> 0 <= deriv -> (dim < length ds)%nat -> inverse F trans ds (Some dim) n ->
  zlen k = grid_size ds -> zlen y = grid_size ds -> shows (Cx F) s i ds (trans false ds (Some dim) y) -> on_grid (Cx F) s d ds ->
  exists w' z, run (Cx F) trans junk flag (start (Cx F) wis) (cs ++ dndxn_dim F deriv dd n k dim d i) = Ok w' /\
    times F y (map (dim_symbol F deriv dd) k) z /\ looks (Cx F) w' d ds (trans false ds (Some dim) z) /\
    (d <> i -> looks (Cx F) w' i ds (trans false ds (Some dim) y)) /\
    (forall j es v, j <> d -> j <> i -> shows (Cx F) s j es v -> looks (Cx F) w' j es v).

(** the derivative of a derivative with respect to another coordinate: planning overwrites the first one before it is read *)
Definition prog2 : list (cmd (Cx Qcf)) :=
  prog1 [1; 1] [cq 1] ++ dndxn_dim Qcf 2 (@ofZ Qcf 1) (@ofZ Qcf 1) [@ofZ Qcf 1] 0 1 0 ++ [CNew (Cx Qcf) 2 [1; 1]].
Lemma before2 : before (Cx Qcf) tr1 jq Pat no_wis (fun _ _ => false) prog2 (result tr1 prog2).
Proof.
  split; [reflexivity|]. split; [exact jq_len|]. split; [intros; discriminate|]. split; [|split; [|reflexivity]].
  - unfold prog2, prog1, dndxn_dim, out_of_place. cbn [app]. repeat (apply Forall_cons; [first [exact I|intros y; apply mult_with_len]|]). constructor.
  - repeat split.
Qed.
Theorem C83_dim_refuted : ~ C83_dim.
Proof.
  intros H. destruct (H Qcf tr1 jq Pat no_wis (fun _ _ => false) prog2 _ 2 (@ofZ Qcf 1) (@ofZ Qcf 1) [@ofZ Qcf 1] 1%nat 2%nat 1%nat [1; 1] [cq 1]
    before2 ltac:(discriminate) ltac:(repeat constructor) (inverse1 _ _)) as (w' & z & R & T & L & _);
    [reflexivity|reflexivity|eexists; repeat split; vm_compute; reflexivity|eexists; split; reflexivity|].
  vm_compute in R. injection R as <-. destruct L as (o & _ & _ & _ & Lz). vm_compute in Lz. injection Lz as Lz. unfold tr1 in Lz. subst z.
  inversion T.
Qed.
Print Assumptions C83_dim_refuted.

Theorem C83_dim_partial : forall (F : fld) trans junk flag wis prep cs s deriv (dd n : F) k dim d i ds y,
  before (Cx F) trans junk flag wis prep cs s -> 0 <= deriv -> (dim < length ds)%nat -> inverse F trans ds (Some dim) n ->
  zlen k = grid_size ds -> zlen y = grid_size ds -> shows (Cx F) s i ds (trans false ds (Some dim) y) -> on_grid (Cx F) s d ds ->
  free_of (Cx F) prep s i ds (Some dim) ->
  exists w' z, run (Cx F) trans junk flag (start (Cx F) wis) (cs ++ dndxn_dim F deriv dd n k dim d i) = Ok w' /\
    times F y (map (dim_symbol F deriv dd) k) z /\ looks (Cx F) w' d ds (trans false ds (Some dim) z) /\
    (d <> i -> looks (Cx F) w' i ds (trans false ds (Some dim) y)) /\
    (forall j es v, j <> d -> j <> i -> shows (Cx F) s j es v -> looks (Cx F) w' j es v).
Proof. exact dim_out. Qed.
Print Assumptions C83_dim_partial.

(** DnDxnAdd adds the derivative; the input becomes the derivative *)
Theorem C83_add_partial : forall (F : fld) trans junk flag wis prep cs s deriv (dd n : F) k dim o i ds y v0,
  before (Cx F) trans junk flag wis prep cs s -> 0 <= deriv -> (dim < length ds)%nat -> inverse F trans ds (Some dim) n ->
  zlen k = grid_size ds -> zlen y = grid_size ds -> shows (Cx F) s i ds (trans false ds (Some dim) y) -> shows (Cx F) s o ds v0 -> o <> i ->
  free_of (Cx F) prep s i ds (Some dim) ->
  exists w' z, run (Cx F) trans junk flag (start (Cx F) wis) (cs ++ dndxn_add F deriv dd n k dim o i) = Ok w' /\
    times F y (map (dim_symbol F deriv dd) k) z /\ looks (Cx F) w' o ds (add_vec F v0 (trans false ds (Some dim) z)) /\
    looks (Cx F) w' i ds (trans false ds (Some dim) z) /\
    (forall j es v, j <> i -> j <> o -> shows (Cx F) s j es v -> looks (Cx F) w' j es v).
Proof. exact dim_add. Qed.
Print Assumptions C83_add_partial.

(** ** Diff: mixed derivatives *)
(** each coefficient with respect to both dimensions is multiplied by the entry of the table; for an odd order each of the two
    derivatives brings a factor i *)
Definition C83_mixed (deriv : Z) (sym : Qc -> Cx Qcf) : Prop := forall trans junk flag wis prep cs s (n1 n2 : Qcf) k d1 d2 o i ds y,
  before (Cx Qcf) trans junk flag wis prep cs s -> (d1 < length ds)%nat -> (d2 < length ds)%nat -> d1 <> d2 ->
  inverse Qcf trans ds (Some d1) n1 -> inverse Qcf trans ds (Some d2) n2 ->
  zlen k = grid_size ds -> zlen y = grid_size ds -> shows (Cx Qcf) s i ds (trans false ds (Some d1) (trans false ds (Some d2) y)) ->
  (exists r, live (Cx Qcf) s o = Some r /\ r_dims (Cx Qcf) r = ds /\ r_k (Cx Qcf) r = false) ->
  prep ds None = true -> prep ds (Some d1) = true -> prep ds (Some d2) = true ->
  exists w' z, run (Cx Qcf) trans junk flag (start (Cx Qcf) wis) (cs ++ dxdy Qcf deriv (@ofZ Qcf 1) n1 n2 k d1 d2 o i) = Ok w' /\
    times Qcf y (map sym k) z /\ looks (Cx Qcf) w' o ds (trans false ds (Some d1) (trans false ds (Some d2) z)).

(** one factor i too few *)
Lemma before3 : before (Cx Qcf) tr1 jq Est no_wis always (prog1 [1; 1] [cq 1]) (result tr1 (prog1 [1; 1] [cq 1])).
Proof.
  split; [reflexivity|]. split; [exact jq_len|]. split; [intros; left; reflexivity|]. split; [repeat constructor|]. split; [repeat split|reflexivity].
Qed.
Theorem C83_mixed_odd_refuted : ~ C83_mixed 1 (fun k => @cx_of Qcf (- k)%Qc).
Proof.
  intros H. destruct (H tr1 jq Est no_wis always (prog1 [1; 1] [cq 1]) _ (@ofZ Qcf 1) (@ofZ Qcf 1) [@ofZ Qcf 1] 0%nat 1%nat 1%nat 0%nat [1; 1] [cq 1]
    before3 ltac:(repeat constructor) ltac:(repeat constructor) ltac:(discriminate) (inverse1 _ _) (inverse1 _ _)) as (w' & z & R & T & L);
    [reflexivity|reflexivity|eexists; repeat split|eexists; repeat split|reflexivity|reflexivity|reflexivity|].
  vm_compute in R. injection R as <-. destruct L as (o & _ & _ & _ & Lz). vm_compute in Lz. injection Lz as Lz. unfold tr1 in Lz. subst z.
  inversion T.
Qed.
Print Assumptions C83_mixed_odd_refuted.

(** sums and differences of two points per dimension *)
Definition tr2 (fw : bool) (ds : list Z) (od : option nat) (x : list (Cx Qcf)) : list (Cx Qcf) :=
  match od, x with
  | Some 0%nat, [a; b; c; d] => [a + b; a - b; c + d; c - d]%cr
  | Some 1%nat, [a; b; c; d] => [a + c; b + d; a - c; b - d]%cr
  | _, _ => x
  end.
Lemma tr2_len : forall fw ds od x, zlen x = grid_size ds -> zlen (tr2 fw ds od x) = zlen x.
Proof.
  intros fw ds od x _. unfold tr2. destruct od as [[|[|d]]|]; try reflexivity;
    destruct x as [|a [|b [|c [|e [|f x]]]]]; reflexivity.
Qed.
Lemma inverse2 d : (d < 2)%nat -> inverse Qcf tr2 [2; 2] (Some d) (@ofZ Qcf 2).
Proof.
  intros Hd. split; [discriminate|]. intros y Ly. change (grid_size [2; 2]) with 4 in Ly. unfold zlen in Ly.
  destruct y as [|a [|b [|c [|e [|f y]]]]]; cbn in Ly; try lia.
  destruct d as [|[|d]]; [| |lia]; cbn [tr2 map]; rewrite !two_sum, !two_diff; reflexivity.
Qed.
Definition y2 : list (Cx Qcf) := [cq 0; cq 0; cq 0; cq 4].
Definition x2 : list (Cx Qcf) := tr2 false [2; 2] (Some 0%nat) (tr2 false [2; 2] (Some 1%nat) y2).
Lemma before4 : before (Cx Qcf) tr2 jq Est no_wis always (prog1 [2; 2] x2) (result tr2 (prog1 [2; 2] x2)).
Proof.
  split; [exact tr2_len|]. split; [exact jq_len|]. split; [intros; left; reflexivity|]. split; [repeat constructor|]. split; [repeat split|reflexivity].
Qed.
(** the second forward transform starts from position space again: the first one is lost *)
Theorem C83_mixed_refuted : ~ C83_mixed 2 (fun k => @cx_of Qcf k).
Proof.
  intros H. destruct (H tr2 jq Est no_wis always (prog1 [2; 2] x2) _ (@ofZ Qcf 2) (@ofZ Qcf 2) (map (@ofZ Qcf) [0; 0; 0; 1]) 0%nat 1%nat 1%nat 0%nat [2; 2] y2
    before4 ltac:(repeat constructor) ltac:(repeat constructor) ltac:(discriminate) (inverse2 0 ltac:(repeat constructor)) (inverse2 1 ltac:(repeat constructor))) as (w' & z & R & T & L);
    [reflexivity|reflexivity|eexists; repeat split; vm_compute; reflexivity|eexists; repeat split|reflexivity|reflexivity|reflexivity|].
  vm_compute in R. injection R as <-. destruct L as (o & _ & _ & _ & Lz).
  inversion T as [|a b l m n T1 Ea Eb E]. subst. inversion T1 as [|a1 b1 l1 m1 n1 T2 Ea1 Eb1 E1]. subst. inversion T2 as [|a2 b2 l2 m2 n2 T3 Ea2 Eb2 E2]. subst.
  inversion T3 as [|a3 b3 l3 m3 n3 T4 Ea3 Eb3 E3]. subst. inversion T4; subst.
  vm_compute in Lz. discriminate.
Qed.
Print Assumptions C83_mixed_refuted.

(** the code transforms forward in the second dimension, multiplies (by i times the table if the order is odd), and transforms
    backward in the first one *)
Theorem C83_mixed_code : forall (F : fld) trans junk flag wis prep cs s deriv (dd n1 n2 : F) k d1 d2 o i ds x,
  before (Cx F) trans junk flag wis prep cs s -> (d1 < length ds)%nat -> (d2 < length ds)%nat -> shows (Cx F) s i ds x ->
  (exists r, live (Cx F) s o = Some r /\ r_dims (Cx F) r = ds /\ r_k (Cx F) r = false) ->
  prep ds None = true -> prep ds (Some d1) = true -> prep ds (Some d2) = true ->
  exists w', run (Cx F) trans junk flag (start (Cx F) wis) (cs ++ dxdy F deriv dd n1 n2 k d1 d2 o i) = Ok w' /\
    looks (Cx F) w' o ds (trans false ds (Some d1) ((if Z.rem deriv 2 =? 1 then mult_imag F k (dd / (n1 * n2))%cr else mult_real F k (dd / (n1 * n2))%cr)
      (trans true ds (Some d2) x))) /\
    (forall j es v, j <> o -> shows (Cx F) s j es v -> looks (Cx F) w' j es v).
Proof. exact mixed_code. Qed.
Print Assumptions C83_mixed_code.

(** ** Example: derivative in one dimension of two points; then the sum of it and the function *)
Example C83_example : free_of (Cx Qcf) (fun _ _ => false) (result tr2 (prog1 [2; 2] x2)) 0 [2; 2] (Some 0%nat) /\
  exists w', run (Cx Qcf) tr2 jq Pat (start (Cx Qcf) no_wis) (prog1 [2; 2] x2 ++ dndxn_dim Qcf 1 (@ofZ Qcf 3) (@ofZ Qcf 2) (map (@ofZ Qcf) [0; -1; 0; -1]) 0 1 0 ++
      dndxn_add Qcf 2 (@ofZ Qcf 1) (@ofZ Qcf 2) (map (@ofZ Qcf) [0; -1; 0; -1]) 0 1 0) = Ok w' /\
    read_vec (Cx Qcf) w' 0 = Ok (map (fun z => cx_of (@ofZ Qcf z)) [-4; 4; 4; -4]) /\
    read_vec (Cx Qcf) w' 1 = Ok (map (fun z => (@ofZ Qcf z, @ofZ Qcf (3 * z))) [-4; 4; 4; -4]).
Proof.
  split; [right; intros r E; vm_compute in E; injection E as <-; discriminate|]. eexists. split; [vm_compute; reflexivity|]. split; vm_compute; reflexivity.
Qed.
