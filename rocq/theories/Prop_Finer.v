(** Prop_Finer.v - property theorems C106: what more choice does to a tree. *)
From Coq Require Import QArith Reals.
From Verif Require Import Base Num NumLaws NumpyModel ConfigSpaceModel UtilsModel IceModel PartitionModel PartitionSpec
  ListLemmas IceProofs IceProofs2 PartitionProofs PartitionProofs2 PartitionProofs3 PartitionProofs6 RealSums Examples Witness IceShapeSpec FinerSpec FinerProofs FinerExamples.
Local Open Scope nat_scope.
Local Open Scope list_scope.

(** one region: with more hyperparameters, more split values and no larger node size it is still split, and no worse *)
Theorem C106_one_region : forall (N : Num) (L : order_laws N) (cs : cspace N) hps hps' ns ns' mp mp' (nd l r : dnode N),
  wf_region (length cs) (n_region nd) -> incl hps hps' -> incl hps' cs -> mp' <= mp ->
  incl (possible_split_vals (N:=N) ns) (possible_split_vals (N:=N) ns') -> 1 < region_len (n_region nd) ->
  calc_best_split cs hps ns mp nd = Ok (Some (l, r)) ->
  exists l' r', calc_best_split cs hps' ns' mp' nd = Ok (Some (l', r')) /\ nlt (split_total (l, r)) (split_total (l', r')) = false.
Proof. exact (fun N L => @best_with_more_choice N L). Qed.
Print Assumptions C106_one_region.

(** n split values are among n' split values if n + 1 divides n' + 1 *)
Theorem C106_split_values : forall n n', Nat.divide (S n) (S n') -> incl (possible_split_vals (N:=RNum) n) (possible_split_vals (N:=RNum) n').
Proof. exact split_values_divide. Qed.
Print Assumptions C106_split_values.

(** two partitioners, one with more choice: after partition(1) the losses of its leaves add up to no more *)
Theorem C106_depth_one : forall (s s' : setup RNum) p q, setup_ok s -> more_choice s s' -> reaches s p -> reaches s' q ->
  exists p' ids leaves q' ids' leaves',
    partition p 1 = (p', Ok ids) /\ Forall2 (fun id nd => deref p' id = Some nd) ids leaves /\
    partition q 1 = (q', Ok ids') /\ Forall2 (fun id nd => deref q' id = Some nd) ids' leaves' /\
    (Rsum (map (fun nd : dnode RNum => region_loss (n_region nd)) leaves') <= Rsum (map (fun nd : dnode RNum => region_loss (n_region nd)) leaves))%R.
Proof. exact more_choice_no_worse. Qed.
Print Assumptions C106_depth_one.

(** for deeper trees this is refuted: three split values instead of one make the tree of depth 2 worse *)
Theorem C106_depth_two_refuted : setup_ok (f_setup f_grid 1 1) /\ more_choice (f_setup f_grid 1 1) (f_setup f_grid 3 1) /\
  construct (f_setup f_grid 1 1) = Ok (f_obj f_grid 1 1) /\ construct (f_setup f_grid 3 1) = Ok (f_obj f_grid 3 1) /\
  (exists p' ids, partition (f_obj f_grid 1 1) 2 = (p', Ok ids) /\ leaf_total p' ids = (49 # 2, [2; 1; 1])) /\
  (exists p' ids, partition (f_obj f_grid 3 1) 2 = (p', Ok ids) /\ leaf_total p' ids = (81 # 2, [1; 1; 2])).
Proof. exact f_grid_worse. Qed.
Print Assumptions C106_depth_two_refuted.

(** and so does a smaller node size *)
Theorem C106_node_size_refuted : setup_ok (f_setup f_size 3 2) /\ more_choice (f_setup f_size 3 2) (f_setup f_size 3 1) /\
  construct (f_setup f_size 3 2) = Ok (f_obj f_size 3 2) /\ construct (f_setup f_size 3 1) = Ok (f_obj f_size 3 1) /\
  (exists p' ids, partition (f_obj f_size 3 2) 2 = (p', Ok ids) /\ leaf_total p' ids = (5 # 1, [2; 2; 2])) /\
  (exists p' ids, partition (f_obj f_size 3 1) 2 = (p', Ok ids) /\ leaf_total p' ids = (253 # 2, [1; 2; 3])).
Proof. exact f_size_worse. Qed.
Print Assumptions C106_node_size_refuted.

(** ** Concrete cases: at depth one the first pair of settings gives 65 and 54, the second 749/4 and 886/5 *)
Example C106_example :
  (exists p' ids, partition (f_obj f_grid 1 1) 1 = (p', Ok ids) /\ leaf_total p' ids = (65 # 1, [2; 2])) /\
  (exists p' ids, partition (f_obj f_grid 3 1) 1 = (p', Ok ids) /\ leaf_total p' ids = (54 # 1, [1; 3])) /\
  (exists p' ids, partition (f_obj f_size 3 2) 1 = (p', Ok ids) /\ leaf_total p' ids = (749 # 4, [2; 4])) /\
  (exists p' ids, partition (f_obj f_size 3 1) 1 = (p', Ok ids) /\ leaf_total p' ids = (886 # 5, [1; 5])).
Proof. repeat split; apply (run_check _ 1 leaf_total); vm_compute; reflexivity. Qed.
Example C106_setups : setup_ok (ex_setup (N:=RNum)) /\ (exists p, reaches (ex_setup (N:=RNum)) p) /\
  more_choice (ex_setup (N:=RNum)) (mksetup ex_cs ex_predict (SelOne (SName "a")) ex_rows 3 9 1 None) /\
  exists q, reaches (mksetup (N:=RNum) ex_cs ex_predict (SelOne (SName "a")) ex_rows 3 9 1 None) q.
Proof. exact finer_example. Qed.
