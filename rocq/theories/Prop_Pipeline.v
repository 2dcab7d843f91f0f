(** Prop_Pipeline.v - C108: from the sampler to the tree. *)
From Coq Require Import Reals QArith.
From Verif Require Import Base Num NumLaws NumpyModel ConfigSpaceModel UtilsModel IceModel PartitionModel PartitionSpec SamplerModel SamplerSpec
  PipelineSpec PipelineProofs Examples PipelineExamples.
Local Open Scope nat_scope.
Local Open Scope list_scope.

(** ** C108: every point of a sampler (random, grid or BO, after any history, with any cache file) lies in exactly one leaf
    of a tree over the same space of numerical hyperparameters, and get_incumbent_region finds that leaf *)
Theorem C108_point : forall (w : world RNum) fs s (su : setup RNum) p d, sreaches w fs s -> world_total w (s_cs s) ->
  su_cs su = s_cs s -> setup_ok su -> all_numerical (su_cs su) -> reaches su p -> 0 < d ->
  forall c, In c (s_configs s) -> exists p' ids leaves k,
    partition p d = (p', Ok ids) /\ Forall2 (fun id nd => deref p' id = Some nd) ids leaves /\ k < length leaves /\
    (forall j nd, nth_error leaves j = Some nd -> contains (su_cs su) (n_conds nd) (c_vals c) = Ok (Nat.eqb j k)) /\
    get_incumbent_region p' (c_vals c) = Ok (nth_error ids k).
Proof. exact point_in_leaf. Qed.
Print Assumptions C108_point.

(** the incumbent of a sampler with numbers as values has a leaf, and it is a point with the best value *)
Theorem C108_incumbent : forall (w : world RNum) fs s (su : setup RNum) p d, sreaches w fs s -> world_total w (s_cs s) ->
  su_cs su = s_cs s -> setup_ok su -> all_numerical (su_cs su) -> reaches su p -> 0 < d ->
  forall l, s_ys s = map JNum l -> l <> [] -> length (s_configs s) = length (s_ys s) ->
  exists i c v p' ids id nd, incumbent s = Ok (Some (c, v)) /\ nth_error (s_configs s) i = Some c /\ best_at (s_min s) l i v /\
    partition p d = (p', Ok ids) /\ get_incumbent_region p' (c_vals c) = Ok (Some id) /\ In id ids /\ deref p' id = Some nd /\
    contains (su_cs su) (n_conds nd) (c_vals c) = Ok true.
Proof. exact incumbent_in_leaf. Qed.
Print Assumptions C108_incumbent.

(** the numbers of points in the leaves add up to the number of points *)
Theorem C108_counts : forall (w : world RNum) fs s (su : setup RNum) p d, sreaches w fs s -> world_total w (s_cs s) ->
  su_cs su = s_cs s -> setup_ok su -> all_numerical (su_cs su) -> reaches su p -> 0 < d ->
  exists p' ids leaves, partition p d = (p', Ok ids) /\ Forall2 (fun id nd => deref p' id = Some nd) ids leaves /\
    list_sum (map (fun nd => length (points_in (su_cs su) nd (s_configs s))) leaves) = length (s_configs s).
Proof. exact points_counted. Qed.
Print Assumptions C108_counts.

(** six points of a random sampler on the space of the examples; over the rationals the four leaves of the tree of depth 2
    hold 1, 2, 2 and 1 of them and the incumbent is in the second leaf (node 3) *)
Example C108_example : sreaches (pl_world (N:=RNum)) pl_fs pl_sampler /\ world_total (pl_world (N:=RNum)) (s_cs (pl_sampler (N:=RNum))) /\
  su_cs (ex_setup (N:=RNum)) = s_cs (pl_sampler (N:=RNum)) /\ setup_ok (ex_setup (N:=RNum)) /\ all_numerical (su_cs (ex_setup (N:=RNum))) /\
  (exists p, reaches (ex_setup (N:=RNum)) p) /\
  (exists l, s_ys (pl_sampler (N:=RNum)) = map JNum l /\ length l = 6 /\ length (s_configs (pl_sampler (N:=RNum))) = length (s_ys (pl_sampler (N:=RNum)))) /\
  pl_tree = [[1; 2; 2; 1]; [3]; [4; 3; 6; 5]] /\ pl_best = Some [0; 0; 7 # 10; 1]%Q /\ length (s_configs (pl_sampler (N:=QNum))) = 6.
Proof.
  refine (conj pl_reached (conj _ (conj (eq_sym pl_cs) (conj (ex_setup_ok (N:=RNum)) (conj _ (conj (ex_reaches (N:=RNum)) (conj pl_ys pl_values))))))).
  - rewrite pl_cs. exact pl_total.
  - repeat constructor.
Qed.
