(** Prop_Grid.v - C107: the same curves on a finer grid. *)
From Coq Require Import Reals QArith.
From Verif Require Import Base Num NumLaws NumpyModel ConfigSpaceModel UtilsModel IceModel PartitionModel PartitionSpec IceProofs IceProofs2 IceShapeSpec GridSpec GridProofs Examples GridExamples.
Local Open Scope nat_scope.
Local Open Scope list_scope.

(** ** C107: with k times the steps on every axis the finer grid contains the coarse one, and at its points the curves are
    the same: coordinates, means and variances, centered or not (surrogates that predict row by row, exact arithmetic) *)
Theorem C107_curves : forall (a : algorithm RNum) k f s d, 1 <= k -> 1 <= a_gpa a -> rect (num_features a) (a_samples a) ->
  ice_calculate a false (rowwise f s) = Ok d ->
  exists sigma, embeds (num_grid_points a) (num_grid_points (with_gpa a (refined k (a_gpa a)))) sigma /\ forall centered, exists d d',
    ice_calculate a centered (rowwise f s) = Ok d /\ ice_calculate (with_gpa a (refined k (a_gpa a))) centered (rowwise f s) = Ok d' /\
    forall i g, i < num_samples a -> g < num_grid_points a ->
      at3 (i_x d) i g = at3 (i_x d') i (sigma g) /\ at2 (i_y d) i g = at2 (i_y d') i (sigma g) /\ at2 (i_v d) i g = at2 (i_v d') i (sigma g).
Proof. exact grid_refined_curves. Qed.
Print Assumptions C107_curves.

(** and the PDP *)
Theorem C107_pdp : forall (a : algorithm RNum) k f s d, 1 <= k -> 1 <= a_gpa a -> rect (num_features a) (a_samples a) ->
  ice_calculate a false (rowwise f s) = Ok d ->
  exists d' sigma, ice_calculate (with_gpa a (refined k (a_gpa a))) false (rowwise f s) = Ok d' /\
    embeds (num_grid_points a) (num_grid_points (with_gpa a (refined k (a_gpa a)))) sigma /\
    found_in (num_grid_points a) sigma (x_pdp a d) (x_pdp (with_gpa a (refined k (a_gpa a))) d') /\
    found_in (num_grid_points a) sigma (y_pdp a d) (y_pdp (with_gpa a (refined k (a_gpa a))) d') /\
    found_in (num_grid_points a) sigma (v_pdp a d) (v_pdp (with_gpa a (refined k (a_gpa a))) d').
Proof. exact grid_refined_pdp. Qed.
Print Assumptions C107_pdp.

(** one selected hyperparameter: point g of the coarse curve is point k * g of the fine one *)
Theorem C107_one : forall (a : algorithm RNum) k h f s d d', 1 <= k -> 1 <= a_gpa a -> a_sel a = [h] -> rect (num_features a) (a_samples a) ->
  ice_calculate a false (rowwise f s) = Ok d -> ice_calculate (with_gpa a (refined k (a_gpa a))) false (rowwise f s) = Ok d' ->
  forall i g, g < a_gpa a -> at3 (i_x d) i g = at3 (i_x d') i (k * g) /\ at2 (i_y d) i g = at2 (i_y d') i (k * g) /\ at2 (i_v d) i g = at2 (i_v d') i (k * g).
Proof. exact grid_refined_one. Qed.
Print Assumptions C107_one.

(** two selected hyperparameters *)
Theorem C107_two : forall (a : algorithm RNum) k h1 h2 f s d d', 1 <= k -> 1 <= a_gpa a -> a_sel a = [h1; h2] -> rect (num_features a) (a_samples a) ->
  ice_calculate a false (rowwise f s) = Ok d -> ice_calculate (with_gpa a (refined k (a_gpa a))) false (rowwise f s) = Ok d' ->
  forall i g1 g2, g1 < a_gpa a -> g2 < a_gpa a ->
    at3 (i_x d) i (g2 * a_gpa a + g1) = at3 (i_x d') i (k * g2 * refined k (a_gpa a) + k * g1) /\
    at2 (i_y d) i (g2 * a_gpa a + g1) = at2 (i_y d') i (k * g2 * refined k (a_gpa a) + k * g1) /\
    at2 (i_v d) i (g2 * a_gpa a + g1) = at2 (i_v d') i (k * g2 * refined k (a_gpa a) + k * g1).
Proof. exact grid_refined_two. Qed.
Print Assumptions C107_two.

(** the example exists over the reals; over the rationals its first curve with 3 and with 5 points per axis, and with
    one selected hyperparameter 3 points whose middle one is not among 4 *)
Example C107_example : rect (num_features (gr_alg RNum 3)) (a_samples (gr_alg RNum 3)) /\ a_sel (gr_alg RNum 3) <> [] /\
  (exists d, ice_calculate (gr_alg RNum 3) false (rowwise gr_mean gr_mean) = Ok d) /\ refined 2 3 = 5 /\
  gr_first 3 = [0; 1 # 2; 1; 1; 3 # 2; 2; 2; 5 # 2; 3]%Q /\
  gr_first 5 = [0; 1 # 4; 1 # 2; 3 # 4; 1; 1 # 2; 3 # 4; 1; 5 # 4; 3 # 2; 1; 5 # 4; 3 # 2; 7 # 4; 2; 3 # 2; 7 # 4; 2; 9 # 4; 5 # 2; 2; 9 # 4; 5 # 2; 11 # 4; 3]%Q.
Proof.
  split; [repeat constructor|]. split; [discriminate|]. split; [eexists; reflexivity|]. split; [reflexivity|]. exact gr_values.
Qed.

(** more points alone are not enough: the middle of 3 points is not among 4 *)
Theorem C107_more_points_refuted : gs_first 3 = [0; 1 # 2; 1]%Q /\ gs_first 4 = [0; 1 # 3; 2 # 3; 1]%Q.
Proof. exact gs_values. Qed.
Print Assumptions C107_more_points_refuted.

(** binary64: number 3 of 6 points is 0.6000000000000001 and number 9 of 16 points 0.6; a surrogate that jumps in between
    has another mean there *)
Theorem C107_binary64_refuted : forall fe fln fr : b64 -> b64,
  ice_calculate (gs_alg (B64 fe fln fr) 6) false (rowwise (gf_mean fe fln fr) (gf_mean fe fln fr)) = Ok (gf_data fe fln fr 6) /\
  ice_calculate (with_gpa (gs_alg (B64 fe fln fr) 6) (refined 3 6)) false (rowwise (gf_mean fe fln fr) (gf_mean fe fln fr)) = Ok (gf_data fe fln fr 16) /\
  option_map (fun v => neqb (n:=B64 fe fln fr) v n1) (at2 (i_y (gf_data fe fln fr 6)) 0 3) = Some true /\
  option_map (fun v => neqb (n:=B64 fe fln fr) v n0) (at2 (i_y (gf_data fe fln fr 16)) 0 9) = Some true /\ nlt (n:=B64 fe fln fr) n0 n1 = true.
Proof. exact gf_values. Qed.
Print Assumptions C107_binary64_refuted.
