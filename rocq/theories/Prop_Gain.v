(** Prop_Gain.v - property theorems C105: what decides a split when losses tie. *)
From Coq Require Import QArith Reals Lra.
From Verif Require Import Base Num NumLaws NumpyModel ConfigSpaceModel UtilsModel IceModel PartitionModel PartitionSpec
  ListLemmas IceProofs IceProofs2 PartitionProofs PartitionProofs2 PartitionProofs3 PartitionProofs6 RealProofs PartitionReal Examples Witness
  IceShapeSpec GainSpec GainProofs GainReal GainExamples.
Local Open Scope nat_scope.
Local Open Scope list_scope.

(** every split of every tree is the first best one in the order of the two loops *)
Theorem C105_first_best : forall (N : Num) (L : order_laws N) (s : setup N) p, setup_ok s -> reaches s p ->
  forall id c, nth_error (d_heap p) id = Some c ->
    (n_left c = None /\ n_right c = None) \/
    exists a b l r j k, n_left c = Some a /\ n_right c = Some b /\ deref p a = Some l /\ deref p b = Some r /\
      offered_at s (n_node c) j k l r /\
      forall j' k' l' r', offered_at s (n_node c) j' k' l' r' ->
        nlt (split_total (l', r')) (split_total (l, r)) = false /\
        (tried_before j' k' j k -> nltinf (split_total (l', r')) = true -> nlt (split_total (l, r)) (split_total (l', r')) = true).
Proof. exact (fun N L => @tree_splits_first N L). Qed.
Print Assumptions C105_first_best.

(** a deviation that looks at the selected hyperparameters only: no region has any loss, and every split is the
    first one allowed.  C07 still applies: a region is split whenever a split is allowed. *)
Theorem C105_no_gain : forall (s : setup RNum) p f sd sel, setup_ok s -> reaches s p -> su_predict s = rowwise f sd ->
  convert_hyperparameters (su_sel s) (su_cs s) = Ok sel -> only_uses (is_selected (su_cs s) sel) sd ->
  (forall id nd, deref p id = Some nd -> region_loss (n_region nd) = 0%R) /\
  forall id c, nth_error (d_heap p) id = Some c ->
    (n_left c = None /\ n_right c = None) \/
    exists a b l r j k, n_left c = Some a /\ n_right c = Some b /\ deref p a = Some l /\ deref p b = Some r /\
      offered_at s (n_node c) j k l r /\ forall j' k' l' r', offered_at s (n_node c) j' k' l' r' -> ~ tried_before j' k' j k.
Proof. exact no_gain. Qed.
Print Assumptions C105_no_gain.

(** that a region is split only if this lowers the loss is refuted: constant deviation, four leaves *)
Theorem C105_split_needs_gain_refuted : construct (g_setup (N:=QNum) (fun _ => 1#1)) = Ok (g_obj (fun _ => 1#1)) /\
  exists p' ids, partition (g_obj (fun _ => 1#1)) 2 = (p', Ok ids) /\
    (leaf_summary p' ids, map (fun id => match deref p' id with Some nd => Qeq_bool (region_loss (n_region nd)) 0 | None => false end) (seq 0 (length (d_heap p')))) =
    ([Some (1, [("b"%string, 1 # 5, false); ("b"%string, 4 # 5, false)]); Some (1, [("b"%string, 1 # 5, false); ("b"%string, 4 # 5, true)]);
      Some (1, [("b"%string, 1 # 5, true); ("c"%string, 1 # 5, false)]); Some (1, [("b"%string, 1 # 5, true); ("c"%string, 1 # 5, true)])],
     [true; true; true; true; true; true; true]).
Proof.
  refine (conj (g_obj_ok _) _). apply (run_check (g_obj (fun _ => 1#1)) 2 (fun p' ids => (leaf_summary p' ids, map (fun id => match deref p' id with Some nd => Qeq_bool (region_loss (n_region nd)) 0 | None => false end) (seq 0 (length (d_heap p')))))).
  vm_compute. reflexivity.
Qed.
Print Assumptions C105_split_needs_gain_refuted.

(** a deviation that is a step in one splittable hyperparameter, at a split value: no leaf has any loss *)
Theorem C105_step : forall (s : setup RNum) p d f sd sel j h v, setup_ok s -> reaches s p -> 0 < d -> su_predict s = rowwise f sd ->
  convert_hyperparameters (su_sel s) (su_cs s) = Ok sel -> nth_error (su_cs s) j = Some h -> splittable s h ->
  In v (possible_split_vals (N:=RNum) (su_splits s)) -> step_at (is_selected (su_cs s) sel) j v sd ->
  su_minpts s <= length (filter (at_most j v) (su_samples s)) ->
  su_minpts s <= length (filter (fun row => negb (at_most j v row)) (su_samples s)) -> 2 <= length (su_samples s) ->
  exists p' ids leaves, partition p d = (p', Ok ids) /\ Forall2 (fun id nd => deref p' id = Some nd) ids leaves /\
    2 <= length ids /\ Forall (fun nd : dnode RNum => region_loss (n_region nd) = 0%R) leaves.
Proof. exact step_recovered. Qed.
Print Assumptions C105_step.

(** that the tree then splits on that hyperparameter is refuted: the deviation is a step in c, the tree splits on b *)
Theorem C105_step_place_refuted : construct (g_setup (N:=QNum) g_step) = Ok (g_obj g_step) /\
  exists p' ids, partition (g_obj g_step) 1 = (p', Ok ids) /\ leaf_summary p' ids = [Some (2, [("b"%string, 1 # 5, false)]); Some (2, [("b"%string, 1 # 5, true)])].
Proof. refine (conj (g_obj_ok _) _). apply (run_check (g_obj g_step) 1 leaf_summary). vm_compute. reflexivity. Qed.
Print Assumptions C105_step_place_refuted.

(** ** Concrete cases *)
Example C105_no_gain_example : setup_ok (g_setup (N:=RNum) (fun _ => 1%R)) /\ (exists p, reaches (g_setup (N:=RNum) (fun _ => 1%R)) p) /\
  forall P, only_uses (N:=RNum) P (fun _ => 1%R).
Proof. exact (conj (g_ok _) (conj (g_reaches _) (fun P r r' _ _ => eq_refl))). Qed.
Example C105_step_example : let s := g_setup (N:=RNum) g_step in
  setup_ok s /\ (exists p, reaches s p) /\ nth_error (su_cs s) 2 = Some g_c /\ splittable s g_c /\
  In (frac (N:=RNum) 2 5) (possible_split_vals (N:=RNum) (su_splits s)) /\ (forall P, step_at P 2 (frac (N:=RNum) 2 5) (g_step (N:=RNum))) /\
  su_minpts s <= length (filter (at_most 2 (frac (N:=RNum) 2 5)) (su_samples s)) /\
  su_minpts s <= length (filter (fun row => negb (at_most 2 (frac (N:=RNum) 2 5) row)) (su_samples s)) /\ 2 <= length (su_samples s).
Proof.
  refine (conj (g_ok _) (conj (g_reaches _) (conj eq_refl (conj (g_splittable _) (conj g_split_val (conj g_step_at (conj _ (conj _ _)))))))).
  - change (1 <= length (filter (at_most 2 (frac (N:=RNum) 2 5)) (g_rows (N:=RNum)))). rewrite (proj1 g_counts). lia.
  - change (1 <= length (filter (fun row => negb (at_most 2 (frac (N:=RNum) 2 5) row)) (g_rows (N:=RNum)))). rewrite (proj2 g_counts). lia.
  - cbn. lia.
Qed.
