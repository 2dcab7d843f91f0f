(** ExperimentSpec.v - the words of C103. *)
From Coq Require Import Reals.
From Verif Require Import Base Num NumLaws NumpyModel ConfigSpaceModel UtilsModel IceModel PartitionModel PartitionSpec RealProofs RealSums SyntheticModel SyntheticSpec NllModel NllSpec DrawSpec ExperimentModel.
Local Open Scope R_scope.
Local Open Scope list_scope.

(** a space of float hyperparameters with proper bounds *)
Definition float_space (cs : cspace RNum) : Prop :=
  Forall (fun h => exists (lo up : R) lg, hp_kind h = KFloat (lo : RNum) (up : RNum) lg /\ good_bounds lo up lg) cs.
(** a surrogate that is never certain *)
Definition uncertain (pr : predictor RNum) : Prop := forall rows ms sds, pr rows = Ok (ms, sds) -> Forall (fun x : R => x <> 0) sds.
(** the mean negative log likelihood of the region's PDP of [h] under the function on the space [fcs] *)
Definition region_nll (fcs : cspace RNum) (h : hp RNum) (lo up : R) lg idx (r : region RNum) : R :=
  Rmean (map (fun i => gauss_nll (true_pd fcs h (grid_value r lo up lg idx i)) (col_mean i (r_y r)) (col_mean i (r_v r))) (seq 0 (width (r_x r)))).
(** [b] is a part of the range of [k], on its scale, and holds the value of [inc] *)
Definition side_of (inc : config RNum) (k : hp RNum) (b : fbox RNum) : Prop :=
  b_name b = hp_name k /\
  exists (lo up : R) lg x, hp_kind k = KFloat (lo : RNum) (up : RNum) lg /\ b_log b = lg /\ lo <= b_lower b < b_upper b /\ b_upper b <= up /\
    config_get inc (hp_name k) = Some (VNum (N:=RNum) x) /\ b_lower b <= x <= b_upper b.
(** the row written for one number of splits: confidence and likelihood, in its box, of the leaf that the incumbent
    satisfies, in a new partitioner on which nothing but partition(d) was called *)
Definition row_is (s : setup RNum) (h : hp RNum) (lo up : R) lg idx (inc : config RNum) (d : nat) (row : R * option R) : Prop :=
  exists p0 p' ids id nd boxes, construct s = Ok p0 /\ partition p0 d = (p', Ok ids) /\ In id ids /\ deref p' id = Some nd /\
    Forall (fun c => config_satisfies (su_cs s) c inc) (n_conds nd) /\ implied_config_space (su_cs s) (n_conds nd) = Ok boxes /\
    Forall2 (side_of inc) (su_cs s) boxes /\ nth_error boxes idx = Some (mkfbox (N:=RNum) (hp_name h) lo up lg) /\
    row = (mean_confidence (n_region nd) : R, Some (region_nll (box_space boxes) h lo up lg idx (n_region nd))).
