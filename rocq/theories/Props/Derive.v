(** Property C82: momentum space tables of the derivative operators (src/qdlib/Diff.cpp, OGridNabla.cpp, OGridNablaSq.cpp). *)
From Coq Require Import List ZArith Lia Bool Arith QArith Qcanon.
From Verif Require Import Base Arrays Algebra Complex Model.Grid Model.Frequency Model.Derive Spec.Grid Spec.Frequency Spec.Derive
  Proofs.Derive.
Import ListNotations.
Open Scope Z_scope.

(** [wavek] is the signed frequency of C18 *)
Theorem C82_wavek : forall N i, 0 <= i < N -> fft_bin N i (wavek N i).
Proof. exact wavek_bin. Qed.
Print Assumptions C82_wavek.

(** ** tables for one dimension: every chosen dimension gets the first or second derivative *)
Definition C82_single : Prop := forall (F : fld) (u : F) ds dk D,
  Forall (fun d => 0 < d) ds -> ds <> [] -> f_single D = true -> f_mixed D = false -> f_deriv D = 1 \/ f_deriv D = 2 ->
  (forall d, f_k1 D d = []) -> f_dim D < Z.of_nat (length ds) ->
  exists D', init_kspace F u ds dk D = Ok D' /\
    forall d, chosen ds (f_dim D) d -> table F ds (f_k1 D' d) (single_value F ds dk (f_deriv D) (f_pfac D) d).

(** a dimension chosen with Diff::Dim gets no table: the loop ends where it begins *)
Theorem C82_single_refuted : ~ C82_single.
Proof.
  intros H. destruct (H Qcf (ofZ 0) [4] (fun _ => ofZ 1)
    (mkDiff (F := Qcf) 1 0 false true false (fun _ => ofZ 1) (fun _ => []) (fun _ _ => []) [])) as (D' & E & T);
    [repeat constructor|discriminate|reflexivity|reflexivity|left; reflexivity|reflexivity|reflexivity|].
  cbn in E. injection E as <-. destruct (T 0%nat) as [L _]; [split; [cbn; lia|right; reflexivity]|]. vm_compute in L. discriminate.
Qed.
Print Assumptions C82_single_refuted.

(** ** mixed tables: proportional to the product of the two wave numbers *)
Definition C82_mixed : Prop := forall (F : fld) (u : F) ds dk D,
  Forall (fun d => 0 < d) ds -> ds <> [] -> f_single D = false -> f_mixed D = true -> (forall i j, f_mix D i j = []) ->
  exists D', init_kspace F u ds dk D = Ok D' /\
    forall i j, (i < length ds)%nat -> (j <= i)%nat ->
      exists c, table F ds (f_mix D' i j) (fun cs => (c * (kat F ds dk cs i * kat F ds dk cs j))%cr).

(** the second assignment overwrites the first: the table holds only the wave number of the second dimension *)
Theorem C82_mixed_refuted : ~ C82_mixed.
Proof.
  intros H. destruct (H Qcf (ofZ 0) [2; 2] (fun _ => ofZ 1)
    (mkDiff (F := Qcf) 1 (-1) true false false (fun _ => ofZ 1) (fun _ => []) (fun _ _ => []) [])) as (D' & E & T);
    [repeat constructor|discriminate|reflexivity|reflexivity|reflexivity|].
  destruct (init_kspace_ok Qcf (ofZ 0) [2; 2] (fun _ => ofZ 1) ltac:(repeat constructor) ltac:(discriminate)
    (mkDiff (F := Qcf) 1 (-1) true false false (fun _ => ofZ 1) (fun _ => []) (fun _ _ => []) [])) as (D1 & E1 & _ & _ & M & _);
    [discriminate|intros _ i j _ _; left; reflexivity|].
  rewrite E in E1. injection E1 as E1. subst D1. destruct (T 1%nat 0%nat) as [c [_ Tc]]; [cbn; lia|lia|].
  destruct (M 1%nat 0%nat) as [_ Mc]; [cbn; lia|lia|].
  assert (B : in_box [2; 2] [1; 0]) by (repeat constructor; lia). specialize (Tc _ B). specialize (Mc _ B).
  assert (Eq : (c * (0 * 1 * (- (1) * 1)) = 1 * (- (1) * 1))%Qc).
  { rewrite Tc in Mc. exact (f_equal (fun o => match o with Ok x => x | _ => 0%Qc end) Mc). }
  replace (c * (0 * 1 * (- (1) * 1)))%Qc with 0%Qc in Eq by ring. vm_compute in Eq. discriminate.
Qed.
Print Assumptions C82_mixed_refuted.

(** ** the collective table: the sum of the dimensions *)
Definition C82_coll : Prop := forall (F : fld) (u : F) ds dk D,
  Forall (fun d => 0 < d) ds -> ds <> [] -> f_single D = false -> f_mixed D = false -> f_coll D = true ->
  f_deriv D = 1 \/ f_deriv D = 2 ->
  exists D', init_kspace F u ds dk D = Ok D' /\ table F ds (f_ks D') (coll_value F ds dk (f_deriv D) (f_pfac D)).

(** always the second derivative *)
Theorem C82_coll_refuted : ~ C82_coll.
Proof.
  intros H. destruct (H Qcf (ofZ 0) [4] (fun _ => ofZ 1)
    (mkDiff (F := Qcf) 1 (-1) false false true (fun _ => ofZ 1) (fun _ => []) (fun _ _ => []) [])) as (D' & E & _ & T);
    [repeat constructor|discriminate|reflexivity|reflexivity|reflexivity|left; reflexivity|].
  assert (B : in_box [4] [1]) by (repeat constructor; lia). specialize (T _ B).
  destruct (init_kspace_ok Qcf (ofZ 0) [4] (fun _ => ofZ 1) ltac:(repeat constructor) ltac:(discriminate)
    (mkDiff (F := Qcf) 1 (-1) false false true (fun _ => ofZ 1) (fun _ => []) (fun _ _ => []) [])) as (D1 & E1 & _ & _ & _ & M);
    [discriminate|discriminate|].
  rewrite E in E1. injection E1 as E1. subst D1. destruct M as [_ M]. specialize (M _ B). rewrite T in M. vm_compute in M. discriminate.
Qed.
Print Assumptions C82_coll_refuted.

(** ** repeated construction follows the grid *)
Definition C82_again : Prop := forall (F : fld) (u : F) ds ds' dk dk' D D1,
  Forall (fun d => 0 < d) ds -> ds <> [] -> Forall (fun d => 0 < d) ds' -> ds' <> [] ->
  f_single D = true -> f_mixed D = false -> f_dim D < 0 -> (forall d, f_k1 D d = []) ->
  init_kspace F u ds' dk' D = Ok D1 -> exists D', init_kspace F u ds dk D1 = Ok D' /\
    forall d, (d < length ds)%nat -> table F ds (f_k1 D' d) (single_value F ds dk (f_deriv D) (f_pfac D) d).

(** the tables keep the size of the first grid: writing behind their end *)
Theorem C82_again_refuted : ~ C82_again.
Proof.
  intros H. destruct (H Qcf (ofZ 0) [4] [2] (fun _ => ofZ 1) (fun _ => ofZ 1)
    (mkDiff (F := Qcf) 1 (-1) false true false (fun _ => ofZ 1) (fun _ => []) (fun _ _ => []) [])
    (match init_kspace Qcf (ofZ 0) [2] (fun _ => ofZ 1) (mkDiff (F := Qcf) 1 (-1) false true false (fun _ => ofZ 1) (fun _ => []) (fun _ _ => []) [])
      with Ok D => D | _ => mkDiff (F := Qcf) 1 (-1) false true false (fun _ => ofZ 1) (fun _ => []) (fun _ _ => []) [] end))
    as (D' & E & _);
    [repeat constructor|discriminate|repeat constructor|discriminate|reflexivity|reflexivity|reflexivity|reflexivity|vm_compute; reflexivity|].
  cbn in E. discriminate.
Qed.
Print Assumptions C82_again_refuted.

(** ** what the code does, for all settings and all tables present before (of the right size or none) *)
Theorem C82_code : forall (F : fld) (u : F) ds dk, Forall (fun d => 0 < d) ds -> ds <> [] -> forall D,
  (f_single D = true -> f_dim D < 0 -> forall d, (d < length ds)%nat -> zlen (f_k1 D d) = 0 \/ zlen (f_k1 D d) = points ds) ->
  (f_mixed D = true -> forall i j, (i < length ds)%nat -> (j <= i)%nat -> zlen (f_mix D i j) = 0 \/ zlen (f_mix D i j) = points ds) ->
  exists D', init_kspace F u ds dk D = Ok D' /\
    (f_deriv D' = f_deriv D /\ f_dim D' = f_dim D /\ f_mixed D' = f_mixed D /\ f_single D' = f_single D /\
     f_coll D' = f_coll D /\ f_pfac D' = f_pfac D) /\
    (if f_single D && (f_dim D <? 0) then
       forall d, (d < length ds)%nat -> table F ds (f_k1 D' d) (single_value F ds dk (f_deriv D) (f_pfac D) d)
     else f_k1 D' = f_k1 D) /\
    (if f_mixed D then
       forall i j, (i < length ds)%nat -> (j <= i)%nat -> table F ds (f_mix D' i j) (fun cs => (f_pfac D i * kat F ds dk cs j)%cr)
     else f_mix D' = f_mix D) /\
    (if f_coll D then table F ds (f_ks D') (coll_value F ds dk 2 (f_pfac D)) else f_ks D' = f_ks D).
Proof. exact init_kspace_ok. Qed.
Print Assumptions C82_code.

(** the tables that are right: all dimensions one by one; the sum of second derivatives *)
Theorem C82_partial : forall (F : fld) (u : F) ds dk D,
  Forall (fun d => 0 < d) ds -> ds <> [] -> f_mixed D = false -> f_dim D < 0 -> (forall d, f_k1 D d = []) ->
  exists D', init_kspace F u ds dk D = Ok D' /\
    (f_single D = true -> forall d, chosen ds (f_dim D) d -> table F ds (f_k1 D' d) (single_value F ds dk (f_deriv D) (f_pfac D) d)) /\
    (f_coll D = true -> f_deriv D = 2 -> table F ds (f_ks D') (coll_value F ds dk (f_deriv D) (f_pfac D))).
Proof.
  intros F u ds dk D P N M Hd K. destruct (init_kspace_ok F u ds dk P N D) as (D' & E & _ & T1 & _ & T3).
  - intros _ _ d _. left. rewrite K. reflexivity.
  - rewrite M. discriminate.
  - exists D'. split; [exact E|]. split.
    + intros S d [H _]. rewrite S in T1. apply Z.ltb_lt in Hd. rewrite Hd in T1. cbn [andb] in T1. apply T1. exact H.
    + intros C E2. rewrite C in T3. rewrite E2. exact T3.
Qed.
Print Assumptions C82_partial.

(** ** OGridNabla: the sum of the wave numbers of the chosen dimensions *)
Theorem C82_nabla : forall (F : fld) ds dk, Forall (fun d => 0 < d) ds -> ds <> [] -> forall dim,
  (dim < Z.of_nat (length ds) -> exists k, nabla_init F ds dk dim = Ok k /\
     table F ds k (fun cs => lsum (fun d => kat F ds dk cs d) (filter (fun d => (dim <? 0) || (dim =? Z.of_nat d)) (seq 0 (length ds))))) /\
  (Z.of_nat (length ds) <= dim -> nabla_init F ds dk dim = Throw).
Proof.
  intros F ds dk P N dim. split; [exact (nabla_table F ds dk P N dim)|]. intros H. unfold nabla_init.
  destruct (Z.ltb_spec (Z.of_nat (length ds)) (dim + 1)); [reflexivity|lia].
Qed.
Print Assumptions C82_nabla.

(** Emax is announced as the largest value *)
Definition C82_emax : Prop := forall ds (dk : nat -> Qcf) dim k e,
  Forall (fun d => 0 < d) ds -> ds <> [] -> (forall d, (0 < dk d)%Qc) -> nabla_init Qcf ds dk dim = Ok k -> nabla_emax Qcf ds k = Ok e ->
  forall i x, rd k i = Ok x -> (x <= e)%Qc.

(** it is the smallest one *)
Theorem C82_emax_refuted : ~ C82_emax.
Proof.
  intros H. specialize (H [4] (fun _ => ofZ 1) (-1) [ofZ 0; ofZ 1; ofZ (-2); ofZ (-1)] (ofZ (-2))).
  assert (K : (@ofZ Qcf 1 <= @ofZ Qcf (-2))%Qc).
  { apply (H ltac:(repeat constructor) ltac:(discriminate) ltac:(intros; reflexivity)) with (i := 1); vm_compute; reflexivity. }
  vm_compute in K. apply K. reflexivity.
Qed.
Print Assumptions C82_emax_refuted.

Theorem C82_emax_code : forall (F : fld) rest N (dk : nat -> F) dim k, Forall (fun d => 0 < d) rest -> 0 < N -> Z.rem N 2 = 0 ->
  dim < Z.of_nat (S (length rest)) -> nabla_init F (rest ++ [N]) dk dim = Ok k ->
  nabla_emax F (rest ++ [N]) k =
    Ok (if (dim <? 0) || (dim =? Z.of_nat (length rest)) then ofZ (- Z.quot N 2) * dk (length rest) else c0)%cr.
Proof. exact emax_value. Qed.
Print Assumptions C82_emax_code.

(** the exponential is that of the operator applied *)
Definition C82_exponent : Prop := forall (F : fld) (u : F) conj momentum (c : Cx F) (fac k : F),
  nabla_exponent F u c fac k = (c * nabla_symbol F conj momentum fac k)%cr.

(** wrong sign, and the real part is whatever was in the storage *)
Theorem C82_exponent_refuted : ~ C82_exponent.
Proof. intros H. specialize (H Qcf (ofZ 0) false false (cx_of (ofZ 1 : Qcf)) (ofZ 1) (ofZ 1)). vm_compute in H. discriminate. Qed.
Print Assumptions C82_exponent_refuted.

(** with cleared storage it is the exponential of the conjugated derivative *)
Theorem C82_exponent_code : forall (F : fld) (c : Cx F) (fac k : F),
  nabla_exponent F c0 c fac k = (c * nabla_symbol F true false fac k)%cr.
Proof. exact exponent_conj. Qed.
Print Assumptions C82_exponent_code.

(** a copy initialized like the original gets the same table *)
Definition C82_copy : Prop := forall (F : fld) (o : nabla F) ds dk o',
  nabla_init_op F o ds dk = Ok o' -> nabla_init_op F (nabla_copy F (new_nabla F) o) ds dk = Ok o'.

(** the chosen dimension is not copied *)
Theorem C82_copy_refuted : ~ C82_copy.
Proof.
  intros H. specialize (H Qcf (mkNab Qcf (ofZ 1) false 0 [] (fun _ => ofZ 1) []) [2; 2] (fun _ => ofZ 1) _ eq_refl). vm_compute in H. discriminate.
Qed.
Print Assumptions C82_copy_refuted.

Theorem C82_copy_code : forall (F : fld) (this o : nabla F),
  n_k (nabla_copy F this o) = n_k o /\ n_fac (nabla_copy F this o) = n_fac o /\ n_mom (nabla_copy F this o) = n_mom o /\
  n_ds (nabla_copy F this o) = n_ds o /\
  forall ds dk, nabla_init_op F (nabla_copy F this o) ds dk =
    nabla_init_op F (mkNab F (n_fac o) (n_mom o) (n_dim this) (n_ds o) (n_dk o) (n_k o)) ds dk.
Proof. intros. repeat split; reflexivity. Qed.
Print Assumptions C82_copy_code.

(** ** OGridNablaSq: the kinetic energies lie between Emin and Emax *)
Definition C82_energy : Prop := forall (pi : Qc) ds (dx dk : nat -> Qc) mass t,
  Forall (fun d => 0 < d) ds -> ds <> [] -> length ds = length (mass : list Qc) ->
  (forall d, (d < length ds)%nat -> dx d <> 0%Qc /\ dk d = ((1 + 1) * pi / (@ofZ Qcf (nth d ds 0%Z) * dx d))%Qc) ->
  nsq_table ds dk mass = Ok t -> forall i x, rd t i = Ok x -> (nsq_emin <= x /\ x <= nsq_emax pi mass dx)%Qc.

(** a dimension with a negative mass is left out in Emax but not in the table *)
Theorem C82_energy_refuted : ~ C82_energy.
Proof.
  intros H. destruct (H 1%Qc [1; 2] (fun _ => 1%Qc) (fun d => if (d =? 0)%nat then (1 + 1)%Qc else 1%Qc) [1%Qc; (- (1))%Qc]
    [0%Qc; (- (1) / (1 + 1))%Qc]) with (i := 1) (x := (- (1) / (1 + 1))%Qc) as [K _].
  - repeat constructor.
  - discriminate.
  - reflexivity.
  - intros [|[|d]] Hd; [split; [discriminate|apply Qc_is_canon; vm_compute; reflexivity]|split; [discriminate|apply Qc_is_canon; vm_compute; reflexivity]|cbn in Hd; lia].
  - vm_compute. reflexivity.
  - reflexivity.
  - vm_compute in K. apply K. reflexivity.
Qed.
Print Assumptions C82_energy_refuted.

Theorem C82_energy_partial : forall (pi : Qc) ds (dx dk : nat -> Qc) mass,
  Forall (fun d => 0 < d) ds -> ds <> [] -> length ds = length mass -> Forall (fun m => 0 < m)%Qc mass ->
  (forall d, (d < length ds)%nat -> dx d <> 0%Qc /\ dk d = ((1 + 1) * pi / (@ofZ Qcf (nth d ds 0%Z) * dx d))%Qc) ->
  exists t, nsq_table ds dk mass = Ok t /\
    table Qcf ds t (fun cs => @lsum Qcf _ (fun d => kat Qcf ds dk cs d * kat Qcf ds dk cs d / ((1 + 1) * nth d mass (- (1))))%Qc (seq 0 (length ds))) /\
    forall i x, rd t i = Ok x -> (nsq_emin <= x /\ x <= nsq_emax pi mass dx)%Qc.
Proof. exact energy_bounds. Qed.
Print Assumptions C82_energy_partial.

(** which mass arrays are accepted *)
Theorem C82_mass : forall ds dk mass, nsq_table ds dk mass <> Throw -> mass <> [] /\ length ds = length mass /\
  (forall m, In m mass -> m <> 0%Qc) /\ exists m, In m mass /\ (0 < m)%Qc.
Proof. exact mass_accepted. Qed.
Print Assumptions C82_mass.

(** ** examples: two dimensions of four and three points *)
Example C82_example_tables :
  let D := mkDiff (F := Qcf) 1 (-1) true true true (fun d => ofZ (Z.of_nat d + 1)) (fun _ => []) (fun _ _ => []) [] in
  match init_kspace Qcf (ofZ 0) [4; 3] (fun d => ofZ 1) D with
  | Ok D' => f_k1 D' 0%nat = map (@ofZ Qcf) [0; 1; -2; -1; 0; 1; -2; -1; 0; 1; -2; -1] /\
             f_k1 D' 1%nat = map (@ofZ Qcf) [0; 0; 0; 0; 2; 2; 2; 2; -2; -2; -2; -2] /\
             f_mix D' 1%nat 0%nat = map (@ofZ Qcf) [0; 2; -4; -2; 0; 2; -4; -2; 0; 2; -4; -2] /\
             f_ks D' = map (@ofZ Qcf) [0; -1; -4; -1; -2; -3; -6; -3; -2; -3; -6; -3]
  | _ => False
  end.
Proof. vm_compute. repeat split. Qed.

Example C82_example_nabla :
  nabla_init Qcf [4; 3] (fun _ => ofZ 1) (-1) = Ok (map (@ofZ Qcf) [0; 1; -2; -1; 1; 2; -1; 0; -1; 0; -3; -2]) /\
  nabla_init Qcf [4; 3] (fun _ => ofZ 1) 1 = Ok (map (@ofZ Qcf) [0; 0; 0; 0; 1; 1; 1; 1; -1; -1; -1; -1]) /\
  nabla_init Qcf [4; 3] (fun _ => ofZ 1) 2 = Throw.
Proof. vm_compute. repeat split. Qed.

Example C82_example_energy : nsq_table [2; 2] (fun _ => (1 + 1)%Qc) [1%Qc; (1 + 1)%Qc] = Ok [0%Qc; (1 + 1)%Qc; 1%Qc; (1 + 1 + 1)%Qc] /\
  Forall (fun m => 0 < m)%Qc [1%Qc; (1 + 1)%Qc] /\
  (1 + 1 = (1 + 1) * (1 + 1) / (@ofZ Qcf 2 * 1))%Qc.
Proof. split; [vm_compute; reflexivity|]. split; [repeat constructor|]. apply Qc_is_canon. vm_compute. reflexivity. Qed.
