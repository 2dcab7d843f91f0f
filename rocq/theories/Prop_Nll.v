(** Prop_Nll.v - negative log likelihood of a region (C55). *)
From Coq Require Import Reals Lra Lia.
From Coquelicot Require Import Coquelicot.
From Verif Require Import Base Num NumpyModel ConfigSpaceModel UtilsModel IceModel PartitionModel RealProofs RealSums SyntheticModel SyntheticSpec NllModel NllSpec NllProofs NllProofs2.
Local Open Scope R_scope.
Local Open Scope list_scope.

(** ** C55 *)
(** StyblinskiTang, one selected hyperparameter: the true values are the averages over the others at
    the grid values in the units of the space *)
Theorem C55_value : forall (cs : cspace RNum) (h : hp RNum) (lo up : R) lg idx (r : region RNum),
  NoDup (map hp_name cs) -> Forall float_range cs -> nth_error cs idx = Some h -> hp_kind h = KFloat (lo : RNum) (up : RNum) lg ->
  (2 <= length cs)%nat -> (0 < width (r_x r))%nat -> Forall (fun row => length row = length cs) (nth 0 (r_x r) []) ->
  width (r_y r) = width (r_x r) -> width (r_v r) = width (r_x r) ->
  (forall i, (i < width (r_x r))%nat -> 0 < col_mean i (r_v r)) ->
  nll cs [h] r (stybtang_fn cs) = Ok (Some (Rmean (map (fun i => gauss_nll (true_pd cs h (grid_value r lo up lg idx i)) (col_mean i (r_y r)) (col_mean i (r_v r))) (seq 0 (width (r_x r)))))).
Proof. exact nll_stybtang. Qed.
Print Assumptions C55_value.

(** any function with an integral *)
Theorem C55_any_function : forall (cs : cspace RNum) (h : hp RNum) sel (r : region RNum) f idx p ts,
  cs_idx cs (hp_name h) = Ok idx -> tf_pd f (not_selected (h :: sel) (tf_space f)) = Ok p -> (0 < width (r_x r))%nat ->
  width (r_y r) = width (r_x r) -> width (r_v r) = width (r_x r) -> length ts = width (r_x r) ->
  (forall i t, nth_error ts i = Some t -> true_value cs h idx r p i = Ok t) ->
  (forall i, (i < width (r_x r))%nat -> 0 < col_mean i (r_v r)) ->
  nll cs (h :: sel) r f = Ok (Some (Rmean (map (fun i => gauss_nll (nth i ts 0) (col_mean i (r_y r)) (col_mean i (r_v r))) (seq 0 (width (r_x r)))))).
Proof. exact nll_value. Qed.
Print Assumptions C55_any_function.

(** a grid point without variance makes it nan *)
Theorem C55_nan : forall (cs : cspace RNum) (h : hp RNum) (lo up : R) lg idx (r : region RNum),
  NoDup (map hp_name cs) -> Forall float_range cs -> nth_error cs idx = Some h -> hp_kind h = KFloat (lo : RNum) (up : RNum) lg ->
  (2 <= length cs)%nat -> (0 < width (r_x r))%nat -> Forall (fun row => length row = length cs) (nth 0 (r_x r) []) ->
  width (r_y r) = width (r_x r) -> width (r_v r) = width (r_x r) ->
  forall i, (i < width (r_x r))%nat -> col_mean i (r_v r) <= 0 -> nll cs [h] r (stybtang_fn cs) = Ok None.
Proof. exact nll_stybtang_nan. Qed.
Print Assumptions C55_nan.

(** for given variances it is least exactly when the region's PDP is the true one *)
Theorem C55_best_fit : forall (cs : cspace RNum) (h : hp RNum) (lo up : R) lg idx (r : region RNum),
  NoDup (map hp_name cs) -> Forall float_range cs -> nth_error cs idx = Some h -> hp_kind h = KFloat (lo : RNum) (up : RNum) lg ->
  (2 <= length cs)%nat -> (0 < width (r_x r))%nat -> Forall (fun row => length row = length cs) (nth 0 (r_x r) []) ->
  width (r_y r) = width (r_x r) -> width (r_v r) = width (r_x r) ->
  (forall i, (i < width (r_x r))%nat -> 0 < col_mean i (r_v r)) ->
  exists a, nll cs [h] r (stybtang_fn cs) = Ok (Some a) /\
  Rmean (map (fun i => ln (2 * PI * col_mean i (r_v r)) / 2) (seq 0 (width (r_x r)))) <= a /\
  (a = Rmean (map (fun i => ln (2 * PI * col_mean i (r_v r)) / 2) (seq 0 (width (r_x r)))) <->
   forall i, (i < width (r_x r))%nat -> col_mean i (r_y r) = true_pd cs h (grid_value r lo up lg idx i)).
Proof. exact nll_best_fit. Qed.
Print Assumptions C55_best_fit.

(** for a given PDP it is least exactly when the mean variance is the squared error *)
Theorem C55_best_variance : forall (cs : cspace RNum) (h : hp RNum) (lo up : R) lg idx (r : region RNum),
  NoDup (map hp_name cs) -> Forall float_range cs -> nth_error cs idx = Some h -> hp_kind h = KFloat (lo : RNum) (up : RNum) lg ->
  (2 <= length cs)%nat -> (0 < width (r_x r))%nat -> Forall (fun row => length row = length cs) (nth 0 (r_x r) []) ->
  width (r_y r) = width (r_x r) -> width (r_v r) = width (r_x r) ->
  (forall i, (i < width (r_x r))%nat -> 0 < col_mean i (r_v r)) ->
  (forall i, (i < width (r_x r))%nat -> true_pd cs h (grid_value r lo up lg idx i) <> col_mean i (r_y r)) ->
  let miss i := (true_pd cs h (grid_value r lo up lg idx i) - col_mean i (r_y r)) ^ 2 in
  exists a, nll cs [h] r (stybtang_fn cs) = Ok (Some a) /\
  Rmean (map (fun i => (1 + ln (2 * PI * miss i)) / 2) (seq 0 (width (r_x r)))) <= a /\
  (a = Rmean (map (fun i => (1 + ln (2 * PI * miss i)) / 2) (seq 0 (width (r_x r)))) <->
   forall i, (i < width (r_x r))%nat -> col_mean i (r_v r) = miss i).
Proof. exact nll_best_variance. Qed.
Print Assumptions C55_best_variance.

(** nothing left to integrate over: a one-dimensional space, or all hyperparameters selected *)
Theorem C55_one_dimension : forall (cs : cspace RNum) sel (r : region RNum) h idx fcs, nth_error sel 0 = Some h -> cs_idx cs (hp_name h) = Ok idx ->
  (forall k, In k fcs -> In (hp_name k) (map hp_name sel)) -> nll cs sel r (stybtang_fn fcs) = Err ValueError.
Proof. exact nll_all_selected. Qed.
Print Assumptions C55_one_dimension.

Theorem C55_not_implemented : forall (cs : cspace RNum) sel (r : region RNum) h idx fcs, nth_error sel 0 = Some h -> cs_idx cs (hp_name h) = Ok idx ->
  nll cs sel r (other_fn fcs) = Err NotImplementedError.
Proof. exact nll_not_implemented. Qed.
Print Assumptions C55_not_implemented.

(** two selected hyperparameters never give a value *)
Theorem C55_two_selected : forall (cs : cspace RNum) h k (r : region RNum) fcs, In k fcs -> hp_name k <> hp_name h -> (0 < width (r_x r))%nat ->
  forall v, nll cs [h; k] r (stybtang_fn fcs) <> Ok v.
Proof. exact nll_two_selected. Qed.
Print Assumptions C55_two_selected.

Theorem C55_delta : forall (cs : cspace RNum) sel (r full : region RNum) f a b, nll cs sel r f = Ok (Some a) -> nll cs sel full f = Ok (Some b) -> b <> 0 ->
  exists d, delta_nll cs sel r full f = Ok (Some d) /\ d * Rabs b = b - a /\ (0 < d <-> a < b) /\ (d = 0 <-> a = b) /\ (d < 0 <-> b < a).
Proof. exact delta_nll_sign. Qed.
Print Assumptions C55_delta.

Definition nx1 : hp RNum := mkhp "x1" (KFloat (-5 : RNum) (5 : RNum) false).
Definition nx2 : hp RNum := mkhp "x2" (KFloat (0 : RNum) (1 : RNum) false).
Definition nx_region : region RNum := mkregion (N:=RNum) [[[0; 1 / 2]; [1; 1 / 2]]; [[0; 1 / 4]; [1; 1 / 4]]] [[1; 2]; [3; 4]] [[1; 1]; [3; 1]].
Example C55_example : exists v, nll [nx1; nx2] [nx1] nx_region (stybtang_fn [nx1; nx2]) = Ok (Some v).
Proof.
  eexists. apply (C55_value [nx1; nx2] nx1 (-5) 5 false 0 nx_region); try reflexivity; try (cbn; lia).
  - repeat constructor; cbn; intuition discriminate.
  - repeat constructor; [exists (-5), 5, false|exists 0, 1, false]; (split; [reflexivity|lra]).
  - repeat constructor.
  - intros i Hi. unfold col_mean, Rmean. cbn in Hi. destruct i as [|[|i]]; [| |lia]; cbn; lra.
Qed.
