(** Prop_Partition.v - property theorems C01-C16, C61: the decision tree partitioner.

    [order_laws N] is a record of comparison laws that the reals, the rationals and IEEE
    binary64 are proved to satisfy (NumLaws.v), so theorems quantified over [N] hold for
    rounded arithmetic too.  [reaches s p]: [p] is the state of the object built from the
    constructor arguments [s] after any list of partition calls. *)
From Coq Require Import Reals QArith Lra Sorted.
From Flocq Require Import Core.Core IEEE754.BinarySingleNaN.
From Verif Require Import Base Num NumLaws NumpyModel ConfigSpaceModel UtilsModel IceModel PartitionModel PartitionSpec
  ListLemmas IceProofs IceProofs2 PartitionProofs PartitionProofs2 PartitionProofs3 PartitionProofs4 PartitionProofs5 PartitionProofs6 PartitionBefore
  RealProofs RealSums PartitionReal PartitionReal2 B64Proofs Examples Witness.
Local Open Scope nat_scope.
Local Open Scope list_scope.

(** ** C01 *)
Theorem C01_leaves_partition_curves : forall (N : Num) (L : order_laws N) (s : setup N) p d,
  setup_ok s -> no_nan s -> splits_ordinary s -> reaches s p -> 0 < d ->
  exists p' ids leaves root parts,
    partition p d = (p', Ok ids) /\
    Forall2 (fun id nd => deref p' id = Some nd) ids leaves /\
    deref p 0 = Some root /\ deref p' 0 = Some root /\
    length (r_x (n_region root)) = length (su_samples s) /\
    Permutation (concat parts) (seq 0 (length (su_samples s))) /\
    Forall (StronglySorted lt) parts /\
    Forall2 (fun idxs nd => is_rows (n_region root) idxs (n_region nd)) parts leaves.
Proof. exact (fun N L => @leaves_partition_curves N L). Qed.
Print Assumptions C01_leaves_partition_curves.

(** the root holds the ICE curves of all samples, so the above is about all ICE curves *)
Theorem C01_root_is_ice : forall (N : Num) (L : order_laws N) (s : setup N) p, setup_ok s -> reaches s p ->
  exists sel d, convert_hyperparameters (su_sel s) (su_cs s) = Ok sel /\
    ice_calculate (mkalg (su_cs s) sel (su_samples s) (su_gpa s)) false (su_predict s) = Ok d /\
    deref p 0 = Some (mkdnode 0 (mkregion (i_x d) (i_y d) (i_v d)) []).
Proof. exact (fun N L => @root_is_ice N L). Qed.
Print Assumptions C01_root_is_ice.

(** in binary64, for fewer than 2^52 splits per axis *)
Theorem C01_binary64 : forall (fe fln fr : b64 -> b64) (s : setup (B64 fe fln fr)) p d,
  setup_ok s -> no_nan s -> (Z.of_nat (su_splits s) < 2 ^ 52)%Z -> reaches s p -> 0 < d ->
  exists p' ids leaves root parts,
    partition p d = (p', Ok ids) /\
    Forall2 (fun id nd => deref p' id = Some nd) ids leaves /\
    deref p 0 = Some root /\ deref p' 0 = Some root /\
    length (r_x (n_region root)) = length (su_samples s) /\
    Permutation (concat parts) (seq 0 (length (su_samples s))) /\
    Forall (StronglySorted lt) parts /\
    Forall2 (fun idxs nd => is_rows (n_region root) idxs (n_region nd)) parts leaves.
Proof.
  exact (fun fe fln fr s p d SO NN NS =>
    leaves_partition_curves (B64_order_laws fe fln fr) s p d SO NN (splits_ordinary_b64 fe fln fr s NS)).
Qed.
Print Assumptions C01_binary64.

(** three samples, one with a NaN coordinate: two leaves with one curve each *)
Theorem C01_with_nan_refuted : forall fe fln fr : b64 -> b64,
  construct (w_nan fe fln fr) = Ok (w_nan_obj fe fln fr) /\ length (su_samples (w_nan fe fln fr)) = 3 /\
  exists p' ids, partition (w_nan_obj fe fln fr) 1 = (p', Ok ids) /\
    map (fun id => option_map (fun nd => region_len (n_region nd)) (deref p' id)) ids = [Some 1; Some 1].
Proof. exact (fun fe fln fr => conj (w_nan_ok fe fln fr) (conj eq_refl (w_nan_lost fe fln fr))). Qed.
Print Assumptions C01_with_nan_refuted.

Example C01_example : setup_ok (ex_setup (N:=QNum)) /\ no_nan (ex_setup (N:=QNum)) /\ splits_ordinary (ex_setup (N:=QNum)) /\
  reaches (ex_setup (N:=QNum)) (run_history exq [1]) /\
  exists p' ids, partition (run_history exq [1]) 2 = (p', Ok ids) /\
    map (fun id => option_map (fun nd => region_len (n_region nd)) (deref p' id)) ids = [Some 1; Some 2; Some 2; Some 1].
Proof.
  refine (conj ex_setup_ok (conj _ (conj _ (conj (exq_reaches [1]) _)))).
  - unfold no_nan. do 2 (apply Forall_forall; intros ? _). apply Q_ordinary.
  - apply Forall_forall. intros ? _. apply Q_ordinary.
  - apply (run_check (run_history exq [1]) 2 (fun p' ids => map (fun id => option_map (fun nd => region_len (n_region nd)) (deref p' id)) ids)).
    vm_compute. reflexivity.
Qed.

(** ** C02 *)
Theorem C02_exactly_one_leaf : forall (N : Num) (L : order_laws N) (s : setup N) p d cfg,
  setup_ok s -> all_numerical (su_cs s) -> unscaled_ordinary s -> total_config (su_cs s) cfg ->
  reaches s p -> 0 < d ->
  exists p' ids leaves k,
    partition p d = (p', Ok ids) /\
    Forall2 (fun id nd => deref p' id = Some nd) ids leaves /\
    k < length leaves /\
    (forall j nd, nth_error leaves j = Some nd ->
       contains (su_cs s) (n_conds nd) cfg = Ok (Nat.eqb j k) /\
       (Forall (fun c => config_satisfies (su_cs s) c cfg) (n_conds nd) <-> j = k)) /\
    get_incumbent_region p' cfg = Ok (nth_error ids k).
Proof. exact (fun N L => @config_in_exactly_one_leaf N L). Qed.
Print Assumptions C02_exactly_one_leaf.

(** before the first partition (calls with depth 0 raise and change nothing) *)
Theorem C02_before_partition : forall (N : Num) (s : setup N) p0 depths, setup_ok s -> construct s = Ok p0 -> Forall (eq 0) depths ->
  run_history p0 depths = p0 /\ snd (partition p0 0) = Err AssertionError /\ forall cfg, get_incumbent_region p0 cfg = Err AssertionError.
Proof. exact @before_partition. Qed.
Print Assumptions C02_before_partition.

(** in binary64: linear scales, bounds of magnitude up to 2^900 *)
Theorem C02_binary64 : forall (fe fln fr : b64 -> b64) (s : setup (B64 fe fln fr)) p d cfg,
  setup_ok s -> (Z.of_nat (su_splits s) < 2 ^ 52)%Z ->
  (forall h, In h (su_cs s) -> exists lo up, linear_hp fe fln fr h lo up) -> all_numerical (su_cs s) ->
  total_config (su_cs s) cfg -> reaches s p -> 0 < d ->
  exists p' ids leaves k,
    partition p d = (p', Ok ids) /\
    Forall2 (fun id nd => deref p' id = Some nd) ids leaves /\
    k < length leaves /\
    (forall j nd, nth_error leaves j = Some nd ->
       contains (su_cs s) (n_conds nd) cfg = Ok (Nat.eqb j k) /\
       (Forall (fun c => config_satisfies (su_cs s) c cfg) (n_conds nd) <-> j = k)) /\
    get_incumbent_region p' cfg = Ok (nth_error ids k).
Proof.
  exact (fun fe fln fr s p d cfg SO NS LH AN =>
    config_in_exactly_one_leaf (B64_order_laws fe fln fr) s p d cfg SO AN (unscaled_ordinary_b64 fe fln fr s NS (proj1 SO) LH)).
Qed.
Print Assumptions C02_binary64.

Definition C02_cfg : config QNum := [("a"%string, VNum (1#2 : QNum)); ("b"%string, VNum (3#1 : QNum)); ("c"%string, VNum (2#1 : QNum))].
Example C02_example : setup_ok (ex_setup (N:=QNum)) /\ all_numerical (ex_cs (N:=QNum)) /\ unscaled_ordinary (ex_setup (N:=QNum)) /\
  total_config (ex_cs (N:=QNum)) C02_cfg /\
  exists p' ids, partition exq 2 = (p', Ok ids) /\
    (length ids, get_incumbent_region p' C02_cfg) = (4, Ok (nth_error ids 1)).
Proof.
  refine (conj ex_setup_ok (conj ex_all_numerical (conj _ (conj _ _)))).
  - intros ? ? ? _ _ _. apply Q_ordinary.
  - intros h [<-|[<-|[<-|[]]]]; eexists; (split; [reflexivity|apply Q_ordinary]).
  - destruct (run_check exq 2 (fun p' ids => (length ids, match get_incumbent_region p' C02_cfg with Ok (Some i) => Some i | _ => None end, nth_error ids 1)) (4, Some 3, Some 3)) as (p' & ids & E & Q).
    { vm_compute. reflexivity. }
    exists p', ids. split; [exact E|]. inversion Q as [[Q1 Q2 Q3]]. f_equal.
    destruct (get_incumbent_region p' C02_cfg) as [[i|]|]; congruence.
Qed.

(** ** C03 *)
Theorem C03_sample_in_its_leaf : forall (s : setup RNum) p,
  setup_ok s -> float_space (su_cs s) -> reaches s p ->
  exists root, deref p 0 = Some root /\
  forall id nd, deref p id = Some nd ->
  exists idxs, StronglySorted lt idxs /\ is_rows (n_region root) idxs (n_region nd) /\
  forall i row, nth_error (su_samples s) i = Some row ->
  exists cfg b, config_of_vector (su_cs s) row = Ok cfg /\ contains (su_cs s) (n_conds nd) cfg = Ok b /\
    (b = true <-> In i idxs).
Proof. exact sample_in_its_region. Qed.
Print Assumptions C03_sample_in_its_leaf.

(** binary64: the leaf that holds the curve of the sample does not contain its configuration *)
Theorem C03_binary64_refuted : forall fe fln fr : b64 -> b64,
  construct (w_rnd fe fln fr) = Ok (w_rnd_obj fe fln fr) /\
  nth_error (su_samples (w_rnd fe fln fr)) 1 = Some [fl 1 (-1); w_rnd_x] /\
  config_of_vector (w_rnd_cs fe fln fr) [fl 1 (-1); w_rnd_x] = Ok (w_rnd_cfg fe fln fr) /\
  exists p' ids, partition (w_rnd_obj fe fln fr) 1 = (p', Ok ids) /\
  map (fun id => option_map (fun nd => (map (fun m => neqb (n:=B64 fe fln fr) (nth 1 (nth 0 m []) n0) w_rnd_x) (r_x (n_region nd)),
                                        contains (w_rnd_cs fe fln fr) (n_conds nd) (w_rnd_cfg fe fln fr))) (deref p' id)) ids
  = [Some ([true], Ok false); Some ([false], Ok true)].
Proof. exact (fun fe fln fr => conj (w_rnd_ok fe fln fr) (conj eq_refl (conj (w_rnd_cfg_ok fe fln fr) (w_rnd_mismatch fe fln fr)))). Qed.
Print Assumptions C03_binary64_refuted.

(** an integer hyperparameter with range 0..3, exact arithmetic *)
Theorem C03_integer_refuted :
  construct w_int = Ok w_int_obj /\
  (exists c a k, config_of_vector w_int_cs [1#2; 149999#399998] = Ok c /\ config_get c "a" = Some (VNum a) /\ config_get c "k" = Some (VNum k) /\
     neqb (n:=QNum) a (1#2) = true /\ neqb (n:=QNum) k (1#1) = true) /\
  exists p' ids, partition w_int_obj 1 = (p', Ok ids) /\
  map (fun id => option_map (fun nd : dnode QNum => (map (fun m => neqb (n:=QNum) (nth 1 (nth 0 m []) (0#1)) (149999#399998)) (r_x (n_region nd)),
                                        contains w_int_cs (n_conds nd) w_int_cfg)) (deref p' id)) ids
  = [Some ([true], Ok false); Some ([false], Ok true)].
Proof. exact (conj w_int_ok (conj w_int_cfg_ok w_int_mismatch)). Qed.
Print Assumptions C03_integer_refuted.

Example C03_example : setup_ok (ex_setup (N:=RNum)) /\ float_space (ex_cs (N:=RNum)) /\ (exists p, reaches (ex_setup (N:=RNum)) p) /\
  length (su_samples (ex_setup (N:=RNum))) = 6.
Proof. exact (conj ex_setup_ok (conj ex_float_space (conj ex_reaches eq_refl))). Qed.

(** ** C04 *)
Theorem C04_leaf_is_its_conditions : forall (N : Num) (L : order_laws N) (s : setup N) p, setup_ok s -> reaches s p ->
  exists root, deref p 0 = Some root /\ length (r_x (n_region root)) = length (su_samples s) /\
  forall id nd, deref p id = Some nd ->
  n_depth nd = length (n_conds nd) /\
  exists idxs, StronglySorted lt idxs /\ is_rows (n_region root) idxs (n_region nd) /\
    forall i, In i idxs <-> exists curve, nth_error (r_x (n_region root)) i = Some curve /\
                           Forall (fun c => curve_satisfies (su_cs s) c curve) (n_conds nd).
Proof. exact (fun N L => @regions_are_selections N L). Qed.
Print Assumptions C04_leaf_is_its_conditions.

(** beside the hypotheses (as in C01_example): a region with two conditions *)
Example C04_example : exists p' ids, partition exq 2 = (p', Ok ids) /\
  leaf_summary p' ids =
    [Some (1, [("b"%string, 1#5, false); ("b"%string, 4#5, false)]); Some (2, [("b"%string, 1#5, false); ("b"%string, 4#5, true)]);
     Some (2, [("b"%string, 1#5, true); ("c"%string, 1#5, false)]); Some (1, [("b"%string, 1#5, true); ("c"%string, 1#5, true)])].
Proof. apply (run_check exq 2 leaf_summary). vm_compute. reflexivity. Qed.

(** ** C05 *)
Theorem C05_best_split : forall (N : Num) (L : order_laws N) (cs : cspace N) hps ns mp nd,
  wf_region (length cs) (n_region nd) -> incl hps cs -> 1 < region_len (n_region nd) ->
  (calc_best_split cs hps ns mp nd = Ok None /\
   forall a b l r, admissible cs hps ns mp nd a b l r -> nltinf (split_total (l, r)) = false) \/
  (exists a b l r, calc_best_split cs hps ns mp nd = Ok (Some (l, r)) /\
   admissible cs hps ns mp nd a b l r /\ nltinf (split_total (l, r)) = true /\
   forall a' b' l' r', admissible cs hps ns mp nd a' b' l' r' ->
     nlt (split_total (l', r')) (split_total (l, r)) = false /\
     (a' < a \/ a' = a /\ b' < b -> nltinf (split_total (l', r')) = true ->
      nlt (split_total (l, r)) (split_total (l', r')) = true)).
Proof. exact (fun N L => @best_split_optimal N L). Qed.
Print Assumptions C05_best_split.

(** the two children of a candidate are exactly the two sides of the condition *)
Theorem C05_sides : forall (N : Num) (cs : cspace N) nd h v l r,
  wf_region (length cs) (n_region nd) -> NoDup (map hp_name cs) -> In h cs ->
  (split_at_value cs nd h v = Ok (l, r) <-> side cs nd (mkcond h v true) l /\ side cs nd (mkcond h v false) r).
Proof. exact (@split_is_sides). Qed.
Print Assumptions C05_sides.

(** every region ever split was split by the best allowed split of the constructor's settings *)
Theorem C05_tree_splits_optimal : forall (N : Num) (L : order_laws N) (s : setup N) p, setup_ok s -> reaches s p ->
  forall id c, nth_error (d_heap p) id = Some c ->
    (n_left c = None /\ n_right c = None) \/
    exists a b l r, n_left c = Some a /\ n_right c = Some b /\ deref p a = Some l /\ deref p b = Some r /\
      offered s (n_node c) l r /\ nltinf (split_total (l, r)) = true /\
      forall l' r', offered s (n_node c) l' r' -> nlt (split_total (l', r')) (split_total (l, r)) = false.
Proof. exact (fun N L => @tree_splits_optimal N L). Qed.
Print Assumptions C05_tree_splits_optimal.

(** the root of the example was split at b = 1/5 *)
Example C05_example : exists c, nth_error (d_heap (run_history exq [2])) 0 = Some c /\ n_left c = Some 1 /\ n_right c = Some 2 /\
  1 < region_len (n_region (n_node c)).
Proof.
  destruct (nth_error (d_heap (run_history exq [2])) 0) as [c|] eqn:E.
  - exists c. split; [reflexivity|].
    assert (Q : option_map (fun c => (n_left c, n_right c, region_len (n_region (n_node c)))) (nth_error (d_heap (run_history exq [2])) 0) = Some (Some 1, Some 2, 6))
      by (vm_compute; reflexivity).
    rewrite E in Q. cbn in Q. inversion Q as [[Q1 Q2 Q3]]. rewrite Q3. repeat split; auto; lia.
  - exfalso. assert (Q : (match nth_error (d_heap (run_history exq [2])) 0 with Some _ => true | None => false end) = true) by (vm_compute; reflexivity).
    rewrite E in Q. discriminate.
Qed.

(** ** C06 *)
Theorem C06_terminates : forall (N : Num) (L : order_laws N) (s : setup N) p d, setup_ok s -> reaches s p ->
  (d = 0 -> partition p d = (p, Err AssertionError)) /\
  (0 < d -> exists p' ids leaves, partition p d = (p', Ok ids) /\
     Forall2 (fun id nd => deref p' id = Some nd) ids leaves /\ d_leaves p' = ids /\
     1 <= length ids <= 2 ^ d /\ Forall (fun nd => n_depth nd <= d) leaves).
Proof. exact (fun N L => @partition_terminates N L). Qed.
Print Assumptions C06_terminates.

Example C06_example : setup_ok (ex_setup (N:=QNum)) /\ reaches (ex_setup (N:=QNum)) (run_history exq [2; 1]) /\
  exists p' ids, partition (run_history exq [2; 1]) 3 = (p', Ok ids) /\ length ids = 4.
Proof.
  refine (conj ex_setup_ok (conj (exq_reaches _) _)).
  apply (run_check (run_history exq [2; 1]) 3 (fun p' ids => length ids)). vm_compute. reflexivity.
Qed.

(** ** C07 *)
Theorem C07_stop_reason : forall (N : Num) (L : order_laws N) (s : setup N) p d, setup_ok s -> reaches s p -> 0 < d ->
  exists p' ids leaves, partition p d = (p', Ok ids) /\
    Forall2 (fun id nd => deref p' id = Some nd) ids leaves /\
    Forall (fun nd => n_depth nd = d \/ region_len (n_region nd) <= 1 \/
      forall l r, offered s nd l r -> nltinf (split_total (l, r)) = false) leaves.
Proof. exact (fun N L => @leaf_stop_reason_offered N L). Qed.
Print Assumptions C07_stop_reason.

(** partition(3): two leaves with one curve each, and two leaves of depth 2 < 3 with two curves
    that no offered split can separate *)
Example C07_example : setup_ok (ex_setup (N:=QNum)) /\ reaches (ex_setup (N:=QNum)) exq /\
  exists p' ids, partition exq 3 = (p', Ok ids) /\
  map (fun id => option_map (fun nd => (n_depth nd, region_len (n_region nd))) (deref p' id)) ids = [Some (2, 1); Some (2, 2); Some (2, 2); Some (2, 1)].
Proof.
  refine (conj ex_setup_ok (conj (exq_reaches []) _)).
  apply (run_check exq 3 (fun p' ids => map (fun id => option_map (fun nd => (n_depth nd, region_len (n_region nd))) (deref p' id)) ids)).
  vm_compute. reflexivity.
Qed.

(** ** C08 *)
Theorem C08_min_points : forall (N : Num) (L : order_laws N) (s : setup N) p, setup_ok s -> reaches s p ->
  forall id nd, deref p id = Some nd -> n_depth nd = 0 \/ su_minpts s <= region_len (n_region nd).
Proof. exact (fun N L => @min_points_respected N L). Qed.
Print Assumptions C08_min_points.

Example C08_example : su_minpts (ex_setup (N:=QNum)) = 1 /\ reaches (ex_setup (N:=QNum)) (run_history exq [2]) /\
  length (d_heap (run_history exq [2])) = 7.
Proof. refine (conj eq_refl (conj (exq_reaches _) _)). vm_compute. reflexivity. Qed.

(** ** C09 *)
Theorem C09_never_split_selected : forall (N : Num) (L : order_laws N) (s : setup N) p, setup_ok s -> reaches s p ->
  exists sel nots, convert_hyperparameters (su_sel s) (su_cs s) = Ok sel /\
    (match su_nots s with None => nots = [] | Some q => get_hyperparameters q (su_cs s) = Ok nots end) /\
    forall id nd, deref p id = Some nd ->
      Forall (fun c => In (c_hp c) (su_cs s) /\ ~ In (hp_name (c_hp c)) (map hp_name sel) /\
                       ~ In (hp_name (c_hp c)) (map hp_name nots) /\
                       In (c_val c) (possible_split_vals (N:=N) (su_splits s))) (n_conds nd).
Proof. exact (fun N L => @never_split_selected N L). Qed.
Print Assumptions C09_never_split_selected.

(** exact arithmetic: the split values are k / (n + 1) for k = 1..n, strictly inside (0, 1) *)
Theorem C09_split_values : forall n, possible_split_vals (N:=RNum) n = map (fun i => (INR i / INR (n + 1))%R) (seq 1 n) /\
  forall v, In v (possible_split_vals (N:=RNum) n) -> (0 < v < 1)%R.
Proof. exact (fun n => conj (split_vals_R n) (split_vals_open n)). Qed.
Print Assumptions C09_split_values.

Example C09_example : exists nd, deref (run_history exq [1]) 1 = Some nd /\ length (n_conds nd) = 1.
Proof.
  assert (Q : option_map (fun nd => length (n_conds nd)) (deref (run_history exq [1]) 1) = Some 1) by (vm_compute; reflexivity).
  destruct (deref (run_history exq [1]) 1) as [nd|]; [|discriminate]. exists nd. split; [reflexivity|]. cbn in Q. congruence.
Qed.

(** ** C10 *)
Theorem C10_loss_is_within_variance : forall nf (r : region RNum), wf_region nf r ->
  exists G, Forall (fun row => length row = G) (r_v r) /\
    region_loss r = within_variance G (r_v r) /\ (0 <= region_loss r)%R /\
    (region_loss r = 0%R <-> forall row row', In row (r_v r) -> In row' (r_v r) -> row = row').
Proof. exact loss_is_within_variance. Qed.
Print Assumptions C10_loss_is_within_variance.

Theorem C10_split_never_increases_loss : forall cs (nd : dnode RNum) h v,
  wf_region (length cs) (n_region nd) -> In h cs ->
  exists l r, split_at_value cs nd h v = Ok (l, r) /\
    (region_loss (n_region l) + region_loss (n_region r) <= region_loss (n_region nd))%R.
Proof. exact split_never_increases_loss. Qed.
Print Assumptions C10_split_never_increases_loss.

Theorem C10_leaves_at_most_root : forall (s : setup RNum) p d,
  setup_ok s -> reaches s p -> 0 < d ->
  exists p' ids leaves root,
    partition p d = (p', Ok ids) /\ Forall2 (fun id nd => deref p' id = Some nd) ids leaves /\
    deref p' 0 = Some root /\
    (Rsum (map (fun nd => region_loss (n_region nd)) leaves) <= region_loss (n_region root))%R.
Proof. exact leaves_loss_at_most_root. Qed.
Print Assumptions C10_leaves_at_most_root.

(** a region with two curves of two grid points each *)
Example C10_example : wf_region (N:=RNum) 1 (mkregion (N:=RNum) [[[0%R]; [1%R]]; [[0%R]; [1%R]]] [[0%R; 1%R]; [1%R; 1%R]] [[1%R; 2%R]; [3%R; 2%R]]) /\
  setup_ok (ex_setup (N:=RNum)) /\ exists p, reaches (ex_setup (N:=RNum)) p.
Proof.
  refine (conj _ (conj ex_setup_ok ex_reaches)). constructor; [reflexivity|reflexivity| |].
  - exists 2. repeat constructor.
  - repeat constructor.
Qed.

(** ** C11 *)
Theorem C11_implied_space : forall (s : setup RNum) p,
  setup_ok s -> numeric_space (su_cs s) -> reaches s p ->
  forall id nd, deref p id = Some nd ->
  exists boxes, implied_config_space (su_cs s) (n_conds nd) = Ok boxes /\
    map b_name boxes = map hp_name (su_cs s) /\
    (forall j h b lo up lg, nth_error (su_cs s) j = Some h -> nth_error boxes j = Some b -> hp_is h lo up lg ->
       b_log b = lg /\ (lo <= b_lower b)%R /\ (b_upper b <= up)%R /\
       (0 < region_len (n_region nd) -> (b_lower b < b_upper b)%R)) /\
    (forall cfg,
       (forall h lo up lg, In h (su_cs s) -> hp_is h lo up lg ->
          exists x, config_get cfg (hp_name h) = Some (VNum (N:=RNum) x) /\ (lo <= x <= up)%R) ->
       exists b, contains (su_cs s) (n_conds nd) cfg = Ok b /\
       (b = true <->
        forall j h b lo up lg x, nth_error (su_cs s) j = Some h -> nth_error boxes j = Some b -> hp_is h lo up lg ->
          config_get cfg (hp_name h) = Some (VNum (N:=RNum) x) -> in_box lo b x)).
Proof. exact implied_space_describes_region. Qed.
Print Assumptions C11_implied_space.

Theorem C11_not_numerical : forall (N : Num) (cs : cspace N) (conds : list (cond N)) h,
  In h cs -> is_numerical h = false -> implied_config_space cs conds = Err NotImplementedError.
Proof. exact @implied_not_numerical. Qed.
Print Assumptions C11_not_numerical.

(** hypotheses hold for a real setup; over the rationals a leaf of it gets b in (2, 8] *)
Example C11_example : setup_ok (ex_setup (N:=RNum)) /\ numeric_space (ex_cs (N:=RNum)) /\ (exists p, reaches (ex_setup (N:=RNum)) p) /\
  exists p' ids, partition exq 2 = (p', Ok ids) /\
    option_map (fun nd => match implied_config_space (ex_cs (N:=QNum)) (n_conds nd) with
       | Ok bs => map (fun b : fbox QNum => (b_name b, b_lower b : Q, b_upper b : Q)) bs | Err _ => [] end) (deref p' (nth 1 ids 0)) =
    Some [("a"%string, 0#1, 1#1); ("b"%string, 2#1, 8#1); ("c"%string, 1#1, 5#1)].
Proof.
  refine (conj ex_setup_ok (conj _ (conj ex_reaches _))).
  - repeat constructor.
    + exists 0%R, 1%R, false. split; [left; reflexivity|]. split; [lra|discriminate].
    + exists 0%R, 10%R, false. split; [left; reflexivity|]. split; [lra|discriminate].
    + exists 1%R, 5%R, false. split; [left; reflexivity|]. split; [lra|discriminate].
  - apply (run_check exq 2 (fun p' ids => option_map (fun nd => match implied_config_space (ex_cs (N:=QNum)) (n_conds nd) with
       | Ok bs => map (fun b : fbox QNum => (b_name b, b_lower b : Q, b_upper b : Q)) bs | Err _ => [] end) (deref p' (nth 1 ids 0)))).
    vm_compute. reflexivity.
Qed.

Example C11_example_not_numerical : implied_config_space (N:=QNum) (ex_cs (N:=QNum) ++ [mkhp "k" (KConst (VNum (N:=QNum) 0%Q))]) [] = Err NotImplementedError.
Proof. reflexivity. Qed.

(** ** C12 *)
Theorem C12_history_independent : forall (N : Num) (L : order_laws N) (s : setup N) p p0 d,
  setup_ok s -> construct s = Ok p0 -> reaches s p -> 0 < d ->
  exists p1 ids1 p2 ids2 leaves,
    partition p d = (p1, Ok ids1) /\ partition p0 d = (p2, Ok ids2) /\
    Forall2 (fun id nd => deref p1 id = Some nd) ids1 leaves /\
    Forall2 (fun id nd => deref p2 id = Some nd) ids2 leaves /\
    (forall id nd, deref p id = Some nd -> deref p1 id = Some nd).
Proof. exact (fun N L => @partition_history_independent N L). Qed.
Print Assumptions C12_history_independent.

Example C12_example : construct (ex_setup (N:=QNum)) = Ok exq /\ reaches (ex_setup (N:=QNum)) (run_history exq [3; 1; 0]) /\
  exists p1 ids1, partition (run_history exq [3; 1; 0]) 2 = (p1, Ok ids1) /\ ids1 = [12; 11; 14; 13].
Proof.
  refine (conj exq_ok (conj (exq_reaches _) _)).
  apply (run_check (run_history exq [3; 1; 0]) 2 (fun _ ids => ids)). vm_compute. reflexivity.
Qed.

(** ** C13 *)
Theorem C13_tree_links : forall (N : Num) (L : order_laws N) (s : setup N) p d,
  setup_ok s -> no_nan s -> splits_ordinary s -> reaches s p -> 0 < d ->
  exists p' ids, partition p d = (p', Ok ids) /\
    (exists c0, nth_error (d_heap p') 0 = Some c0 /\ n_parent c0 = None) /\
    (forall id c, length (d_heap p) <= id -> nth_error (d_heap p') id = Some c ->
       exists par pc sib sc ic isb,
         n_parent c = Some par /\ (par = 0 \/ length (d_heap p) <= par) /\ par < id /\
         nth_error (d_heap p') par = Some pc /\ nth_error (d_heap p') sib = Some sc /\ n_parent sc = Some par /\
         ((n_left pc = Some id /\ n_right pc = Some sib) \/ (n_left pc = Some sib /\ n_right pc = Some id)) /\
         n_depth (n_node c) = S (n_depth (n_node pc)) /\
         is_rows (n_region (n_node pc)) ic (n_region (n_node c)) /\
         is_rows (n_region (n_node pc)) isb (n_region (n_node sc)) /\
         Permutation (ic ++ isb) (seq 0 (region_len (n_region (n_node pc))))) /\
    (forall id, In id ids <-> (id = 0 \/ length (d_heap p) <= id) /\
       exists c, nth_error (d_heap p') id = Some c /\ n_left c = None /\ n_right c = None).
Proof. exact (fun N L => @tree_links N L). Qed.
Print Assumptions C13_tree_links.

(** after partition(1), partition(2) creates cells 3..8 and replaces the root's children *)
Example C13_example : setup_ok (ex_setup (N:=QNum)) /\ reaches (ex_setup (N:=QNum)) (run_history exq [1]) /\
  exists p' ids, partition (run_history exq [1]) 2 = (p', Ok ids) /\
  (length (d_heap (run_history exq [1])), length (d_heap p'), option_map (fun c => (n_left c, n_right c)) (nth_error (d_heap p') 0), ids) =
  (3, 9, Some (Some 3, Some 4), [6; 5; 8; 7]).
Proof.
  refine (conj ex_setup_ok (conj (exq_reaches _) _)).
  apply (run_check (run_history exq [1]) 2 (fun p' ids =>
    (length (d_heap (run_history exq [1])), length (d_heap p'), option_map (fun c => (n_left c, n_right c)) (nth_error (d_heap p') 0), ids))).
  vm_compute. reflexivity.
Qed.

(** ** C14 *)
Theorem C14_constant_never_split : forall (N : Num) (L : order_laws N) (s : setup N) p j h x,
  setup_ok s -> reaches s p -> 1 <= su_minpts s -> nth_error (su_cs s) j = Some h ->
  (forall row, In row (su_samples s) -> nth_error row j = Some x) ->
  forall id nd, deref p id = Some nd -> Forall (fun c => hp_name (c_hp c) <> hp_name h) (n_conds nd).
Proof. exact (fun N L => @constant_never_split N L). Qed.
Print Assumptions C14_constant_never_split.

(** both samples have b = 1/4; the tree splits on c *)
Definition C14_setup : setup QNum :=
  mksetup (ex_cs (N:=QNum)) (ex_predict (N:=QNum)) (SelOne (SName "a"%string)) [[1#2; 1#4; 1#10]; [1#2; 1#4; 9#10]] 2 3 1 None.
Definition C14_obj : dtp QNum := match construct C14_setup with Ok p => p | Err _ => mkdtp [] [] [] 0 0 [] [] end.
Example C14_example : setup_ok C14_setup /\ reaches C14_setup C14_obj /\ 1 <= su_minpts C14_setup /\
  nth_error (su_cs C14_setup) 1 = Some (mkhp "b"%string (KFloat (n0 : QNum) (nofZ (n:=QNum) 10) false)) /\
  (forall row, In row (su_samples C14_setup) -> nth_error row 1 = Some (1#4)) /\
  exists p' ids, partition C14_obj 1 = (p', Ok ids) /\
    leaf_summary p' ids = [Some (1, [("c"%string, 1#4, false)]); Some (1, [("c"%string, 1#4, true)])].
Proof.
  refine (conj _ (conj _ (conj _ (conj eq_refl (conj _ _))))).
  - refine (conj _ (conj _ _)); cbn; [repeat constructor; cbn; intuition discriminate|repeat constructor|lia].
  - exists C14_obj, []. split; [|reflexivity]. unfold C14_obj. apply (obj_ok C14_setup). vm_compute. reflexivity.
  - cbn. lia.
  - intros row [<- | [<- | []]]; reflexivity.
  - apply (run_check C14_obj 1 leaf_summary). vm_compute. reflexivity.
Qed.

(** ** C15 *)
(** [partition] itself never fails (C06_terminates has no hypothesis on the kinds of
    hyperparameters).  Testing membership: *)
Theorem C15_membership_raises : forall (N : Num) (cs : cspace N) pre c suf cfg h,
  contains cs pre cfg = Ok true -> cs_get cs (hp_name (c_hp c)) = Ok h -> is_numerical h = false ->
  contains cs (pre ++ c :: suf) cfg = Err AttributeError.
Proof. exact (@categorical_membership_raises). Qed.
Print Assumptions C15_membership_raises.

Theorem C15_region_or_error : forall (N : Num) (L : order_laws N) (s : setup N) p d cfg,
  setup_ok s -> reaches s p -> 0 < d -> numeric_config (su_cs s) cfg -> unscaled_ordinary s ->
  exists p' ids, partition p d = (p', Ok ids) /\
    ((exists id nd, get_incumbent_region p' cfg = Ok (Some id) /\ In id ids /\ deref p' id = Some nd /\
        contains (su_cs s) (n_conds nd) cfg = Ok true) \/
     get_incumbent_region p' cfg = Err AttributeError).
Proof. exact (fun N L => @incumbent_region_or_attribute_error N L). Qed.
Print Assumptions C15_region_or_error.

Theorem C15_root_split_on_categorical : forall (N : Num) (p : dtp N) id ids nd c rest h cfg,
  d_leaves p = id :: ids -> deref p id = Some nd -> n_conds nd = c :: rest ->
  cs_get (d_cs p) (hp_name (c_hp c)) = Ok h -> is_numerical h = false ->
  get_incumbent_region p cfg = Err AttributeError.
Proof. exact (@categorical_root_split). Qed.
Print Assumptions C15_root_split_on_categorical.

(** the space has the categorical "k"; the tree is split on it *)
Example C15_example : construct w_cat = Ok w_cat_obj /\
  exists p' ids, partition w_cat_obj 1 = (p', Ok ids) /\
  (map (fun id => option_map (fun nd : dnode QNum => (map (fun c => hp_name (c_hp c)) (n_conds nd), contains w_cat_cs (n_conds nd) w_cat_cfg)) (deref p' id)) ids,
   get_incumbent_region p' w_cat_cfg)
  = ([Some (["k"%string], Err AttributeError); Some (["k"%string], Err AttributeError)], Err AttributeError).
Proof. exact (conj w_cat_ok w_cat_raises). Qed.

(** ** C16 *)
(** whatever was done to the ICE object before, the root is a fresh uncentered calculation *)
Theorem C16_root_is_fresh_ice : forall (N : Num) (o : ice N) ns mp nots dt, dt_from_ice o ns mp nots = Ok dt ->
  exists d, ice_calculate (ic_alg o) false (ic_predict o) = Ok d /\
    deref dt 0 = Some (mkdnode 0 (mkregion (i_x d) (i_y d) (i_v d)) []).
Proof. exact (@from_ice_root). Qed.
Print Assumptions C16_root_is_fresh_ice.

(** reads, resets and un-centering, but no refit of the surrogate: the root is what the ICE shows *)
Theorem C16_root_is_given_ice : forall (N : Num) (a : algorithm N) (pred : predictor N) ops ns mp nots dt,
  Forall plain_op ops ->
  let o := fst (ice_run_ops (ice_new a pred) ops) in
  dt_from_ice o ns mp nots = Ok dt ->
  exists x y v root, snd (read_x o) = Ok x /\ snd (read_y o) = Ok y /\ snd (read_v o) = Ok v /\
    deref dt 0 = Some root /\ n_region root = mkregion x y v.
Proof. exact (@from_ice_uncentered). Qed.
Print Assumptions C16_root_is_given_ice.

(** a centered ICE: its own y values are [0; 1] for both curves, the root's are not *)
Theorem C16_centered_refuted :
  is_ok (dt_from_ice w_cen_ice 1 1 None) = true /\
  ys (snd (read_y w_cen_ice)) = [[0#1; 1#1]; [0#1; 1#1]]%Q /\
  root_y (dt_from_ice w_cen_ice 1 1 None) = [[1#4; 5#4]; [3#4; 7#4]]%Q.
Proof. exact w_centered_ignored. Qed.
Print Assumptions C16_centered_refuted.

Example C16_example : Forall (@plain_op QNum) [OReadY; OReset; OCenter false; OReadX] /\
  is_ok (dt_from_ice (fst (ice_run_ops (ice_new w_cen_alg w_cen_predict) [OReadY; OReset; OCenter false; OReadX])) 1 1 None) = true.
Proof. split; [repeat constructor|vm_compute; reflexivity]. Qed.

(** ** C61 *)
Theorem C61_constructor_succeeds : forall (N : Num) (s : setup N) sel,
  setup_ok s -> convert_hyperparameters (su_sel s) (su_cs s) = Ok sel -> sel <> [] -> sel_known (su_cs s) sel ->
  (forall q, su_nots s = Some q -> exists ns, get_hyperparameters q (su_cs s) = Ok ns) ->
  batch_predictor (su_predict s) -> exists p0, construct s = Ok p0.
Proof. exact (@construct_total). Qed.
Print Assumptions C61_constructor_succeeds.

Example C61_example : setup_ok (ex_setup (N:=RNum)) /\
  convert_hyperparameters (su_sel (ex_setup (N:=RNum))) (ex_cs (N:=RNum)) = Ok [mkhp "a"%string (KFloat (0%R : RNum) (1%R : RNum) false)] /\
  sel_known (ex_cs (N:=RNum)) [mkhp "a"%string (KFloat (0%R : RNum) (1%R : RNum) false)] /\ batch_predictor (ex_predict (N:=RNum)).
Proof. refine (conj ex_setup_ok (conj eq_refl (conj _ ex_batch))). repeat constructor. Qed.
