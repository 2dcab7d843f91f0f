(** Prop_Meta.v - C120: numbers that the examples derive from trees (examples/main_meta_pdp.py and plot_tree_data of
    examples/main_random_forest.py). *)
From Coq Require Import Reals Lra Lia ZArith Permutation Sorted.
From Verif Require Import Base Num NumLaws NumpyModel ConfigSpaceModel UtilsModel IceModel PartitionModel PartitionSpec RealSums ForestSpec
  MetaModel MetaSpec MetaProofs Examples ExperimentExamples MetaExamples.
Local Open Scope R_scope.
Local Open Scope list_scope.

(** ** C120 *)
(** the objective is mc / base - 1, for the leaf in which the incumbent lies and for the root, whatever the number of
    repetitions; it is at least -1 and at most (samples / samples of the leaf) - 1, and the leaf is not smaller than allowed *)
Theorem C120_objective : forall (s : setup RNum) (inc : config RNum),
  setup_ok s -> (1 <= su_minpts s)%nat -> su_samples s <> [] -> all_numerical (su_cs s) -> total_config (su_cs s) inc -> su_nots s = None ->
  forall p0 splits reps, construct s = Ok p0 -> (0 < splits)%nat -> (0 < reps)%nat ->
  let objective := meta_objective (su_cs s) (su_predict s) (su_sel s) (su_samples s) (su_gpa s) (su_splits s) (su_minpts s) inc splits reps in
  exists root p' ids id nd, deref p0 0 = Some root /\ partition p0 splits = (p', Ok ids) /\ In id ids /\ deref p' id = Some nd /\ lies_in (su_cs s) inc nd /\
    let b := mean_confidence (n_region root) in let m := mean_confidence (n_region nd) in
    (b = 0 -> objective = Ok None) /\
    (b <> 0 -> objective = Ok (Some (m / b - 1)) /\ -1 <= m / b - 1 <= INR (length (su_samples s)) / INR (region_len (n_region nd)) - 1) /\
    (0 < region_len (n_region nd))%nat /\ (n_depth nd = 0%nat \/ (su_minpts s <= region_len (n_region nd))%nat).
Proof. exact objective_value. Qed.
Print Assumptions C120_objective.

(** that repeating with the same seed changes nothing is refuted in binary64: the mean of three equal numbers differs from them *)
Theorem C120_repetitions_refuted : forall fe fln fr : b64 -> b64,
  is_num fe fln fr (mt_value fe fln fr 1) = true /\ is_num fe fln fr (mt_value fe fln fr 3) = true /\
  neqb (n:=B64 fe fln fr) (num_of fe fln fr (mt_value fe fln fr 1)) (nsub n0 (ndiv n1 (nofZ 10))) = true /\
  nlt (n:=B64 fe fln fr) (num_of fe fln fr (mt_value fe fln fr 3)) (num_of fe fln fr (mt_value fe fln fr 1)) = true.
Proof. exact mt_differs. Qed.
Print Assumptions C120_repetitions_refuted.

(** plot_tree_data needs a line of a decision tree; it then draws one star for these lines and one point for each number of
    trees in the file, in ascending order: mean and deviation of the reductions, nan as soon as one line is not usable *)
Theorem C120_points : forall l : list record,
  (records_of None l = [] -> tree_data (N:=RNum) l = Err KeyError) /\
  (records_of None l <> [] -> exists star curve, tree_data (N:=RNum) l = Ok (star, curve) /\
     is_point (records_of None l) star /\
     StronglySorted Z.lt (map fst curve) /\ (forall k, In k (map fst curve) <-> exists b m, In (Some k, b, m) l) /\
     (forall k pt, In (k, pt) curve -> is_point (records_of (Some k) l) pt)).
Proof. exact tree_points. Qed.
Print Assumptions C120_points.

(** the order of the lines does not matter *)
Theorem C120_order : forall l l' : list record, Permutation l l' -> tree_data (N:=RNum) l = tree_data (N:=RNum) l'.
Proof. exact tree_order. Qed.
Print Assumptions C120_order.

(** no point lies above 100 percent *)
Theorem C120_bound : forall (g : list record) v d, g <> [] -> is_point g (Some v, Some d) ->
  Forall (fun r => exists base mc, snd (fst r) = Some base /\ snd r = Some mc /\ 0 < base /\ 0 <= mc) g -> v <= 100 /\ 0 <= d.
Proof. exact point_bound. Qed.
Print Assumptions C120_bound.

(** the hypotheses of the objective are met by the setup of C103; a file with an empty region at 20 trees *)
Example C120_example : (setup_ok xp_setup /\ (1 <= su_minpts xp_setup)%nat /\ su_samples xp_setup <> [] /\ all_numerical (su_cs xp_setup) /\
  total_config (su_cs xp_setup) xp_cfg /\ su_nots xp_setup = None /\ exists p0, construct xp_setup = Ok p0) /\
  tree_data (N:=RNum) mt_file = Ok ((Some 10, Some 0), [(2%Z, (Some 20, Some 0)); (10%Z, (Some 40, Some 10)); (20%Z, (None, None))]).
Proof. exact (conj mt_setup mt_points). Qed.
