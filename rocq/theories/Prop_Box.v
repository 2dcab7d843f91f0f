(** Prop_Box.v - C116: the regions of a partition on evenly spread samples, and the boxes their conditions describe (exact arithmetic). *)
From Coq Require Import Reals.
From Coquelicot Require Import Coquelicot.
From Verif Require Import Base Num NumLaws NumpyModel ConfigSpaceModel UtilsModel IceModel PartitionModel PartitionSpec IceProofs2 UtilsProofs
  RealSums IceShapeSpec SyntheticModel SpreadSpec SpreadSynSpec SpreadExamples BoxSpec BoxRegion BoxExamples.
Local Open Scope R_scope.
Local Open Scope list_scope.

(** ** C116: samples spread evenly over cells whose borders include the split values *)
(** the number of curves of a region is the number of samples times the volume of its box *)
Theorem C116_size : forall (s : setup RNum) (p : dtp RNum) (f sd : list R -> R) (sel : list (hp RNum)) (Jk : list (nat * nat)) (id : nat) (nd : dnode RNum),
  setup_ok s -> reaches s p -> su_predict s = rowwise (N:=RNum) f sd -> convert_hyperparameters (su_sel s) (su_cs s) = Ok sel ->
  Forall in_cube (su_samples s) -> NoDup (map fst Jk) ->
  (forall j, In j (map fst Jk) <-> (j < length (su_cs s))%nat /\ not_selected (su_cs s) sel j) ->
  (forall j k, In (j, k) Jk -> exists m, k = (m * (su_splits s + 1))%nat) ->
  spread_cells Jk (su_samples s) -> deref p id = Some nd ->
  INR (region_len (n_region nd)) = INR (length (su_samples s)) * volume (box_lo (su_cs s) (n_conds nd)) (box_up (su_cs s) (n_conds nd)) (map fst Jk).
Proof. exact region_volume. Qed.
Print Assumptions C116_size.

(** a region has curves exactly if its box has an inside *)
Theorem C116_empty : forall (s : setup RNum) (p : dtp RNum) (f sd : list R -> R) (sel : list (hp RNum)) (Jk : list (nat * nat)) (id : nat) (nd : dnode RNum),
  setup_ok s -> reaches s p -> su_predict s = rowwise (N:=RNum) f sd -> convert_hyperparameters (su_sel s) (su_cs s) = Ok sel ->
  Forall in_cube (su_samples s) -> NoDup (map fst Jk) ->
  (forall j, In j (map fst Jk) <-> (j < length (su_cs s))%nat /\ not_selected (su_cs s) sel j) ->
  (forall j k, In (j, k) Jk -> exists m, k = (m * (su_splits s + 1))%nat) ->
  spread_cells Jk (su_samples s) -> deref p id = Some nd ->
  region_len (n_region nd) <> 0%nat <->
  (forall j, In j (map fst Jk) -> 0 <= box_lo (su_cs s) (n_conds nd) j < box_up (su_cs s) (n_conds nd) j /\ box_up (su_cs s) (n_conds nd) j <= 1).
Proof. exact region_box. Qed.
Print Assumptions C116_empty.

(** at every grid point the PDP of a region is within the sum of L_j / k_j of the average of the surrogate's mean over its box;
    its variance likewise *)
Theorem C116_near : forall (s : setup RNum) (p : dtp RNum) (f sd : list R -> R) (sel : list (hp RNum)) (Jk : list (nat * nat)) (id : nat) (nd : dnode RNum),
  setup_ok s -> reaches s p -> su_predict s = rowwise (N:=RNum) f sd -> convert_hyperparameters (su_sel s) (su_cs s) = Ok sel ->
  Forall in_cube (su_samples s) -> NoDup (map fst Jk) ->
  (forall j, In j (map fst Jk) <-> (j < length (su_cs s))%nat /\ not_selected (su_cs s) sel j) ->
  (forall j k, In (j, k) Jk -> exists m, k = (m * (su_splits s + 1))%nat) ->
  spread_cells Jk (su_samples s) -> deref p id = Some nd ->
  forall (L : nat -> R) g base, region_len (n_region nd) <> 0%nat -> (g < su_gpa s ^ length sel)%nat -> region_at (su_cs s) sel (n_region nd) g base ->
  ((forall j, In j (map fst Jk) -> lipschitz_in (length (su_cs s)) j (L j) f) ->
     exists y : R, nth_error (region_pdp_y (n_region nd)) g = Some y /\
       Rabs (y - box_average (box_lo (su_cs s) (n_conds nd)) (box_up (su_cs s) (n_conds nd)) (map fst Jk) f base) <= spread_error L Jk) /\
  ((forall j, In j (map fst Jk) -> lipschitz_in (length (su_cs s)) j (L j) (fun r => sd r * sd r)) ->
     exists v : R, nth_error (region_pdp_v (n_region nd)) g = Some v /\
       Rabs (v - box_average (box_lo (su_cs s) (n_conds nd)) (box_up (su_cs s) (n_conds nd)) (map fst Jk) (fun r => sd r * sd r) base) <= spread_error L Jk).
Proof. exact region_pdp_near. Qed.
Print Assumptions C116_near.
(** the row of any curve of the region can be taken for [base] *)
Theorem C116_row : forall (s : setup RNum) (p : dtp RNum) (f sd : list R -> R) (sel : list (hp RNum)) (Jk : list (nat * nat)) (id : nat) (nd : dnode RNum),
  setup_ok s -> reaches s p -> su_predict s = rowwise (N:=RNum) f sd -> convert_hyperparameters (su_sel s) (su_cs s) = Ok sel ->
  Forall in_cube (su_samples s) ->
  (forall j, In j (map fst Jk) <-> (j < length (su_cs s))%nat /\ not_selected (su_cs s) sel j) ->
  (forall j k, In (j, k) Jk -> exists m, k = (m * (su_splits s + 1))%nat) ->
  spread_cells Jk (su_samples s) -> deref p id = Some nd ->
  forall i g row, at3 (r_x (n_region nd)) i g = Some row -> region_at (su_cs s) sel (n_region nd) g row.
Proof. exact region_row_at. Qed.
Print Assumptions C116_row.

(** full grids are spread evenly over these cells *)
Theorem C116_grid : (forall Jk axes, Forall (fun axis => axis <> []) axes -> NoDup (map fst Jk) ->
    (forall j k, In (j, k) Jk -> exists axis, nth_error axes j = Some axis /\ length axis = k /\ lower_cell_axis axis) -> spread_cells Jk (grid_rows axes)) /\
  (forall axis k, evenly 0 1 axis k -> lower_cell_axis axis).
Proof. exact (conj grid_spread_cells evenly_lower_cells). Qed.
Print Assumptions C116_grid.

(** two dimensions, 2 m samples, a deviation with a step at 1/2: at least two regions, each with m curves, each with a PDP within
    1725 / (2 m) of the average of the Styblinski-Tang function over its half of the range *)
Example C116_example : forall m, (0 < m)%nat -> exists p0 p' ids, construct (bx_setup m) = Ok p0 /\ partition p0 1 = (p', Ok ids) /\ (2 <= length ids)%nat /\
  forall id, In id ids -> exists nd a, deref p' id = Some nd /\ region_len (n_region nd) = m /\ (a = 0 \/ a = 1 / 2) /\
    forall g base, (g < 3)%nat -> region_at [sp1; sp2] [sp1] (n_region nd) g base -> exists y : R, nth_error (region_pdp_y (n_region nd)) g = Some y /\
      Rabs (y - 2 * RInt (fun t => exact_model [sp1; sp2] (set_nth 1 t base)) a (a + 1 / 2)) <= 1725 / INR (2 * m).
Proof. exact bx_close. Qed.
