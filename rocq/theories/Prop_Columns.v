(** Prop_Columns.v - property theorems C109: what the order of the hyperparameters in the space decides. *)
From Coq Require Import QArith Reals.
From Verif Require Import Base Num NumLaws NumpyModel ConfigSpaceModel UtilsModel IceModel PartitionModel PartitionSpec
  ListLemmas IceProofs IceProofs2 PartitionProofs PartitionProofs2 PartitionProofs3 PartitionProofs6 RealSums Examples Witness IceShapeSpec FinerSpec FinerProofs FinerExamples
  TwinSpec ColumnsSpec ColumnsProofs ColumnsExamples.
Local Open Scope nat_scope.
Local Open Scope list_scope.

(** curves: the same values and variances at the reordered points, or the same exception *)
Theorem C109_curves : forall (N : Num) (cs cs' : cspace N) ord, reorders cs cs' ord ->
  forall sel samples gpa c (p p' : predictor N), Forall (fun r => length r = length cs) samples -> same_model cs ord p p' ->
  both (fun d d' => same_points ord (i_x d) (i_x d') /\ i_y d' = i_y d /\ i_v d' = i_v d)
    (a <- algorithm_new cs sel samples gpa ;; ice_calculate a c p)
    (a <- algorithm_new cs' sel (map (pick ord) samples) gpa ;; ice_calculate a c p').
Proof. exact (fun N => @curves_reordered N). Qed.
Print Assumptions C109_curves.

(** so is the PDP *)
Theorem C109_pdp : forall (N : Num) (cs cs' : cspace N) ord, reorders cs cs' ord ->
  forall sel samples gpa c (p p' : predictor N) d d', Forall (fun r => length r = length cs) samples -> same_model cs ord p p' ->
  ice_calculate (mkalg cs sel samples gpa) c p = Ok d -> ice_calculate (mkalg cs' sel (map (pick ord) samples) gpa) c p' = Ok d' ->
  x_pdp (mkalg cs' sel (map (pick ord) samples) gpa) d' = map (pick ord) (x_pdp (mkalg cs sel samples gpa) d) /\
  y_pdp (mkalg cs' sel (map (pick ord) samples) gpa) d' = y_pdp (mkalg cs sel samples gpa) d /\
  v_pdp (mkalg cs' sel (map (pick ord) samples) gpa) d' = v_pdp (mkalg cs sel samples gpa) d.
Proof. exact (fun N => @pdp_reordered N). Qed.
Print Assumptions C109_pdp.

(** trees: if no split of the tree ties with a split by another hyperparameter, the leaves are the same, in the same order, after any earlier calls of either object *)
Theorem C109_trees : forall (N : Num) (L : order_laws N) ord (s s' : setup N), setup_ok s -> same_setup ord s s' ->
  forall p q d, reaches s p -> reaches s' q -> 0 < d -> no_ties s (fst (partition p d)) ->
  exists p' ids leaves q' ids' leaves',
    partition p d = (p', Ok ids) /\ Forall2 (fun id nd => deref p' id = Some nd) ids leaves /\
    partition q d = (q', Ok ids') /\ Forall2 (fun id nd => deref q' id = Some nd) ids' leaves' /\
    Forall2 (same_node ord) leaves leaves'.
Proof. exact (fun N L => @trees_reordered N L). Qed.
Print Assumptions C109_trees.

(** and a configuration has the same incumbent region in both *)
Theorem C109_incumbent : forall (N : Num) (L : order_laws N) ord (s s' : setup N), setup_ok s -> same_setup ord s s' ->
  forall p q d cfg, reaches s p -> reaches s' q -> 0 < d -> no_ties s (fst (partition p d)) ->
  both (opt_rel (fun id id' => exists nd nd', deref (fst (partition p d)) id = Some nd /\ deref (fst (partition q d)) id' = Some nd' /\ same_node ord nd nd'))
    (get_incumbent_region (fst (partition p d)) cfg) (get_incumbent_region (fst (partition q d)) cfg).
Proof. exact (fun N L => @incumbent_reordered N L). Qed.
Print Assumptions C109_incumbent.

(** one level: ties or not, as many leaves with the same sum of losses *)
Theorem C109_one_level : forall ord (s s' : setup RNum) p q, setup_ok s -> same_setup ord s s' -> reaches s p -> reaches s' q ->
  exists p' ids leaves q' ids' leaves',
    partition p 1 = (p', Ok ids) /\ Forall2 (fun id nd => deref p' id = Some nd) ids leaves /\
    partition q 1 = (q', Ok ids') /\ Forall2 (fun id nd => deref q' id = Some nd) ids' leaves' /\
    length leaves' = length leaves /\
    Rsum (map (fun nd : dnode RNum => region_loss (n_region nd)) leaves') = Rsum (map (fun nd : dnode RNum => region_loss (n_region nd)) leaves).
Proof. exact one_level_reordered. Qed.
Print Assumptions C109_one_level.

(** with a tie the order decides which region is split off, and one level deeper how good the tree is *)
Theorem C109_ties_refuted : setup_ok (f_setup f_tie 3 1) /\ same_setup [0; 2; 1] (f_setup f_tie 3 1) f_acb /\
  construct (f_setup f_tie 3 1) = Ok (f_obj f_tie 3 1) /\ construct f_acb = Ok f_acb_obj /\
  (exists p' ids, partition (f_obj f_tie 3 1) 1 = (p', Ok ids) /\ leaf_total p' ids = ((9 # 1)%Q, [1; 4])) /\
  (exists p' ids, partition f_acb_obj 1 = (p', Ok ids) /\ leaf_total p' ids = ((9 # 1)%Q, [4; 1])) /\
  (exists p' ids, partition (f_obj f_tie 3 1) 2 = (p', Ok ids) /\ leaf_total p' ids = ((5 # 1)%Q, [1; 2; 2])) /\
  (exists p' ids, partition f_acb_obj 2 = (p', Ok ids) /\ leaf_total p' ids = ((6 # 1)%Q, [1; 3; 1])).
Proof. exact tie_decided_by_order. Qed.
Print Assumptions C109_ties_refuted.

(** ** Concrete cases: spaces (a, b, c) and (c, a, b) with a tree of four leaves *)
Example C109_example : setup_ok (f_setup f_clear 3 1) /\ same_setup [2; 0; 1] (f_setup f_clear 3 1) f_cab /\
  reaches (f_setup f_clear 3 1) (f_obj f_clear 3 1) /\ reaches f_cab f_cab_obj /\ no_ties (f_setup f_clear 3 1) (fst (partition (f_obj f_clear 3 1) 2)).
Proof. exact columns_example. Qed.
Example C109_leaves :
  (exists p' ids, partition (f_obj f_clear 3 1) 2 = (p', Ok ids) /\ leaf_rows p' (tl ids) = [Some [[0; 3#8; 1#8]]; Some [[0; 1#8; 7#8]]; Some [[0; 1#8; 1#8]]]%Q) /\
  (exists p' ids, partition f_cab_obj 2 = (p', Ok ids) /\ leaf_rows p' (tl ids) = [Some [[1#8; 0; 3#8]]; Some [[7#8; 0; 1#8]]; Some [[1#8; 0; 1#8]]]%Q).
Proof. split; [apply (run_check _ 2 (fun p' ids => leaf_rows p' (tl ids)))|apply (run_check _ 2 (fun p' ids => leaf_rows p' (tl ids)))]; vm_compute; reflexivity. Qed.
Example C109_real : reorders (N:=RNum) ex_cs ex_cs_cab [2; 0; 1] /\ same_setup [2; 0; 1] (ex_setup (N:=RNum)) (rearranged [2; 0; 1] [1; 2; 0] ex_cs_cab ex_setup).
Proof. split; [exact cab_reorders|]. apply rearranged_same; [exact cab_reorders|three]. Qed.
