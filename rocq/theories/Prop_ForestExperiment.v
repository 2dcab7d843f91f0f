(** Prop_ForestExperiment.v - C118: the numbers of the forest experiment (examples/main_random_forest.py).

    [experiment_ok f inc]: what the calls need (ForestExperimentSpec.v).  [shows f x y v]: the curves of the ICE object.
    None is nan. *)
From Coq Require Import Reals QArith Lra Lia.
From Verif Require Import Base Num NumLaws NumpyModel ConfigSpaceModel UtilsModel IceModel PartitionModel PartitionSpec RealProofs PartitionReal Examples
  ForestModel ForestSpec ForestProofs ForestExperimentModel ForestExperimentSpec ForestExperimentProofs ForestExperimentRows ForestExperimentExamples.
Local Open Scope nat_scope.
Local Open Scope list_scope.

(** the run succeeds; every row is about the curves in at least half of the incumbent regions of trees grown for this row, and
    all rows have the same base *)
Theorem C118_rows : forall (N : Num), order_laws N -> forall (o : ice N) rng f inc depth size ns, forest_start f -> forest_from_ice o rng = Ok f -> experiment_ok f inc ->
  Forall (fun n => (0 < n)%Z) ns -> (0 < depth)%Z -> (0 < size)%Z ->
  exists x y v rows row, shows f x y v /\ forest_experiment o rng inc depth size ns = Ok (rows, row) /\
    Forall2 (forest_row f inc depth size x y v) ns rows /\ tree_row_is (f_alg f) (ic_predict (f_ice f)) inc (Z.to_nat depth) v row.
Proof. exact (fun N L => experiment_rows L). Qed.
Print Assumptions C118_rows.

(** a number of a row times the number of variances is the sum of their roots *)
Theorem C118_mean_std : forall v : list (list RNum), (mean_std v = None <-> List.concat v = []) /\
  (forall m, mean_std v = Some m -> (m * INR (length (List.concat v)) = fold_right (fun x t => sqrt x + t) 0 (List.concat v))%R).
Proof. exact mean_std_R. Qed.
Print Assumptions C118_mean_std.

(** in any forest: [k] times the curves of the region are at most the samples of all incumbent regions together; there is a
    curve if these are more than [k - 1] times all samples *)
Theorem C118_region_size : forall (N : Num) (f : forest N) cfg k r nds Is,
  snd (forest_incumbent_region f cfg (Some k)) = Ok r -> a_samples (f_alg f) <> [] ->
  incumbent_regions f cfg nds -> Forall2 (samples_of f) nds Is ->
  (k * Z.of_nat (region_len r) <= Z.of_nat (list_sum (map (@length nat) Is)))%Z /\
  ((1 <= k)%Z -> ((k - 1) * Z.of_nat (length (a_samples (f_alg f))) < Z.of_nat (list_sum (map (@length nat) Is)))%Z -> region_len r <> 0).
Proof. exact (@region_size). Qed.
Print Assumptions C118_region_size.

(** no tree's region is without a sample of the forest, whatever the bootstrap *)
Theorem C118_no_empty_tree_region : forall (f f' : forest RNum) n d k cfg nds, forest_reaches f -> forest_ok f -> float_space (a_cs (f_alg f)) ->
  forest_partition f n d (Some k) = (f', Ok tt) -> incumbent_regions f' cfg nds ->
  Forall (fun nd => exists i c, sample_is f i c /\ lies_in (a_cs (f_alg f)) c nd) nds.
Proof. exact tree_holds_sample. Qed.
Print Assumptions C118_no_empty_tree_region.

(** so rows of one or two trees are never nan *)
Theorem C118_few_trees : forall (f : forest RNum) inc depth size x y v n row, forest_ok f -> float_space (a_cs (f_alg f)) ->
  (n <= 2)%Z -> forest_row f inc depth size x y v n row -> exists b m, row = (n, b, Some m).
Proof. exact few_trees. Qed.
Print Assumptions C118_few_trees.

(** that no row is nan is refuted: three trees split three samples so that each sample is in one incumbent region only *)
Theorem C118_nan_refuted : exists (o : ice QNum) rng f inc rows row, forest_start f /\ forest_from_ice o rng = Ok f /\ experiment_ok f inc /\
  forest_experiment o rng inc 1 3 [1; 2; 3]%Z = Ok (rows, row) /\ map row_summary rows = [(1, true); (2, true); (3, false)]%Z.
Proof.
  pose proof fe_rows_nan as H. destruct (forest_experiment (N:=QNum) fe_ice fe_rng fe_inc 1 3 [1; 2; 3]%Z) as [[rows row]|e] eqn:E; [|destruct H].
  exists fe_ice, fe_rng, fe_forest, fe_inc, rows, row. exact (conj fe_starts (conj fe_start (conj (fe_ok Q_ordinary) (conj E H)))).
Qed.
Print Assumptions C118_nan_refuted.

(** the hypotheses are met over the reals *)
Example C118_example : forest_start (fe_forest (N:=RNum)) /\ forest_from_ice (N:=RNum) fe_ice fe_rng = Ok fe_forest /\ experiment_ok (N:=RNum) fe_forest fe_inc /\
  float_space (a_cs (f_alg (fe_forest (N:=RNum)))) /\ forest_ok (fe_forest (N:=RNum)).
Proof. exact (conj fe_starts (conj fe_start (conj (fe_ok R_ordinary) (conj fe_float (xo_ok _ _ (fe_ok R_ordinary)))))). Qed.

(** the default of half the trees: 3 of 5, 5 of 10 *)
Example C118_half : map half_overlap [1; 2; 3; 5; 10]%Z = [1; 1; 2; 3; 5]%Z.
Proof. reflexivity. Qed.

(** three regions with one sample each: 3 curves for threshold 1, none for threshold 2, where (2 - 1) * 3 < 3 just fails *)
Example C118_example_sizes : (exists nds, incumbent_regions fe_forest3 fe_inc nds /\ Forall2 (samples_of fe_forest3) nds [[0]; [1]; [2]]) /\
  map (fun k => match snd (forest_incumbent_region fe_forest3 fe_inc (Some k)) with Ok r => Some (region_len r) | Err _ => None end) [1; 2]%Z = [Some 3; Some 0].
Proof. exact (conj fe_regions fe_sizes). Qed.
