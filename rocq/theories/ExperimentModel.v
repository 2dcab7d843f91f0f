(** ExperimentModel.v - the experiment of examples/main_paper.py: the rows of figure_6_table_1_data_generation (164-214)
    once the sampler has run and the surrogate is fitted, and the averages of visualize_bad_nll (352-415).  Over the
    reals; None is nan.  Printing, the file and the mmd column (MmdModel.v) are left out. *)
From Verif Require Import Base Num NumpyModel ConfigSpaceModel UtilsModel IceModel PartitionModel SyntheticModel NllModel.
From Coq Require Import Reals.
Local Open Scope list_scope.

(** the hyperparameters of the returned space: decision_tree_partitioner.py:119-123 *)
Definition box_space (boxes : list (fbox RNum)) : cspace RNum :=
  map (fun b => mkhp (b_name b) (KFloat (b_lower b) (b_upper b) (b_log b))) boxes.

(** mc and nll of the incumbent's region: examples/main_paper.py:208-211; None has no mean_confidence *)
Definition incumbent_numbers (p : dtp RNum) (inc : config RNum) : res (R * option R) :=
  o <- get_incumbent_region p inc ;;
  match o with
  | None => Err AttributeError
  | Some id => match deref p id with
               | None => Err IndexError
               | Some nd => boxes <- implied_config_space (d_cs p) (n_conds nd) ;;
                            v <- nll (d_cs p) (d_sel p) (n_region nd) (stybtang_fn (box_space boxes)) ;;
                            Ok (mean_confidence (n_region nd) : R, v)
               end
  end.
(** for splits in n_splits: examples/main_paper.py:206-214 *)
Fixpoint split_rows (p : dtp RNum) (inc : config RNum) (n_splits : list nat) : res (list (R * option R)) :=
  match n_splits with
  | [] => Ok []
  | splits :: t => let (p', r) := partition p splits in
                   _ <- r ;; row <- incumbent_numbers p' inc ;; rest <- split_rows p' inc t ;; Ok (row :: rest)
  end.
(** one replication: examples/main_paper.py:198-214, with the settings of the partitioner as arguments.  Returns
    base_mc, base_nll and the rows *)
Definition experiment (cs : cspace RNum) (predict : predictor RNum) (selected : selection RNum) (samples : list (list RNum)) (gpa ns mp : nat)
    (inc : config RNum) (n_splits : list nat) : res (R * option R * list (R * option R)) :=
  p <- dt_new cs predict selected samples gpa ns mp None ;;
  root <- (match deref p 0 with Some nd => Ok nd | None => Err IndexError end) ;;
  base_nll <- nll (d_cs p) (d_sel p) (n_region root) (stybtang_fn cs) ;;
  rows <- split_rows p inc n_splits ;;
  Ok (mean_confidence (n_region root) : R, base_nll, rows).

(** visualize_bad_nll: examples/main_paper.py:368-370, 394-396, 413-415, given the NLLs of region and root in each
    replication (none of them nan, no sum of root NLLs 0).  Returns base_nll, region_nll, delta_nll *)
Definition bad_nll (replications : list (R * R)) : R * R * R :=
  let sums := fold_left (fun acc q => let region_nll := (snd (fst acc) + fst q)%R in let base_nll := (fst (fst acc) + snd q)%R in
                                      (base_nll, region_nll, (snd acc + calculate_log_delta (N:=RNum) region_nll base_nll)%R))
                        replications (0%R, 0%R, 0%R) in
  let n := INR (length replications) in
  ((fst (fst sums) / n)%R, (snd (fst sums) / n)%R, (100 * snd sums / n)%R).

(** an entry of table 1: examples/main_paper.py:341-344, given the values of region and root in each replication *)
Definition table_entry (replications : list (R * R)) : R :=
  (nmean (N:=RNum) (map (fun q => calculate_log_delta (N:=RNum) (fst q) (snd q)) replications) * 100)%R.

(** ground_truth_region of visualize_bad_nll, the function drawn in its right panel: examples/main_paper.py:389-391, 416, 427-432,
    given the spaces f_region.config_space of the replications; [u] is the value of the selected hyperparameter
    [h] and the arguments of pd_integral are the other names of the space *)
Definition drawn_truth (cs : cspace RNum) (h : hp RNum) (spaces : list (cspace RNum)) (u : R) : res R :=
  let args := map (fun k => SName (hp_name k)) (not_selected [h] cs) in
  offsets <- mapM (fun fcs => p <- pd_integral fcs args ;; Ok (snd p)) spaces ;;
  ground_truth <- pd_integral cs args ;;
  v <- pd_value ground_truth [(hp_name h, VNum (N:=RNum) u)] ;;
  Ok (v + fold_left Rplus offsets 0 / INR (length spaces))%R.
