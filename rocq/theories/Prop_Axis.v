(** Prop_Axis.v - C113: grids, split values and centered curves in binary64. *)
From Coq Require Import Reals.
From Flocq Require Import Core.Core IEEE754.BinarySingleNaN.
From Verif Require Import Base Num NumLaws NumpyModel ConfigSpaceModel UtilsModel IceModel PartitionModel PartitionSpec IceProofs IceProofs2 IceShapeSpec GridSpec B64Proofs
  AxisProofs Examples Witness GridExamples AxisExamples.
Local Open Scope nat_scope.
Local Open Scope list_scope.

(** ** C113: the points of an axis are finite and strictly increasing, start at +0 and end at 1, and number i of g is within
    a relative 3 * 2^-53 of i / (g - 1) *)
Theorem C113_axis : forall (fe fln fr : b64 -> b64) g, 2 <= g -> (Z.of_nat g <= 2 ^ 50)%Z -> let l := linspace (N:=B64 fe fln fr) n0 n1 g in
  length l = g /\ nth_error l 0 = Some n0 /\ nth_error l (g - 1) = Some n1 /\
  (forall i v, nth_error l i = Some v -> fin fe fln fr v /\
     (Rabs (val fe fln fr v - INR i / INR (g - 1)) <= 3 * bpow radix2 (-53) * (INR i / INR (g - 1)))%R) /\
  (forall i j v w, i < j -> nth_error l i = Some v -> nth_error l j = Some w -> (val fe fln fr v < val fe fln fr w)%R).
Proof. exact axis_float. Qed.
Print Assumptions C113_axis.

(** with a power of two as number of steps there is no rounding at all *)
Theorem C113_power_of_two : forall (fe fln fr : b64 -> b64) j, (Z.of_nat (2 ^ j + 1) <= 2 ^ 50)%Z ->
  forall i v, nth_error (linspace (N:=B64 fe fln fr) n0 n1 (2 ^ j + 1)) i = Some v -> (val fe fln fr v = INR i / INR (2 ^ j))%R.
Proof. exact axis_power. Qed.
Print Assumptions C113_power_of_two.

(** hence, unlike in general (C107_binary64_refuted), a grid with 2^j steps per axis and the one with 2^(i+j) steps give the
    same floats at the points of the former: coordinates, means and variances, centered or not *)
Theorem C113_refined_curves : forall (fe fln fr : b64 -> b64) (a : algorithm (B64 fe fln fr)) i j, a_gpa a = 2 ^ j + 1 -> (Z.of_nat (2 ^ (i + j) + 1) <= 2 ^ 50)%Z ->
  forall f s d, rect (num_features a) (a_samples a) -> ice_calculate a false (rowwise f s) = Ok d ->
  exists sigma, embeds (num_grid_points a) (num_grid_points (with_gpa a (refined (2 ^ i) (a_gpa a)))) sigma /\ forall centered, exists d d',
    ice_calculate a centered (rowwise f s) = Ok d /\ ice_calculate (with_gpa a (refined (2 ^ i) (a_gpa a))) centered (rowwise f s) = Ok d' /\
    forall n g, n < num_samples a -> g < num_grid_points a ->
      at3 (i_x d) n g = at3 (i_x d') n (sigma g) /\ at2 (i_y d) n g = at2 (i_y d') n (sigma g) /\ at2 (i_v d) n g = at2 (i_v d') n (sigma g).
Proof. exact float_curves. Qed.
Print Assumptions C113_refined_curves.

(** and the PDP *)
Theorem C113_refined_pdp : forall (fe fln fr : b64 -> b64) (a : algorithm (B64 fe fln fr)) i j, a_gpa a = 2 ^ j + 1 -> (Z.of_nat (2 ^ (i + j) + 1) <= 2 ^ 50)%Z ->
  forall f s d, rect (num_features a) (a_samples a) -> ice_calculate a false (rowwise f s) = Ok d ->
  exists d' sigma, ice_calculate (with_gpa a (refined (2 ^ i) (a_gpa a))) false (rowwise f s) = Ok d' /\
    embeds (num_grid_points a) (num_grid_points (with_gpa a (refined (2 ^ i) (a_gpa a)))) sigma /\
    found_in (num_grid_points a) sigma (x_pdp a d) (x_pdp (with_gpa a (refined (2 ^ i) (a_gpa a))) d') /\
    found_in (num_grid_points a) sigma (y_pdp a d) (y_pdp (with_gpa a (refined (2 ^ i) (a_gpa a))) d') /\
    found_in (num_grid_points a) sigma (v_pdp a d) (v_pdp (with_gpa a (refined (2 ^ i) (a_gpa a))) d').
Proof. exact float_pdp. Qed.
Print Assumptions C113_refined_pdp.

(** one and two selected hyperparameters: which point is which *)
Theorem C113_refined_one : forall (fe fln fr : b64 -> b64) (a : algorithm (B64 fe fln fr)) i j, a_gpa a = 2 ^ j + 1 -> (Z.of_nat (2 ^ (i + j) + 1) <= 2 ^ 50)%Z ->
  forall h f s d d', a_sel a = [h] -> rect (num_features a) (a_samples a) ->
  ice_calculate a false (rowwise f s) = Ok d -> ice_calculate (with_gpa a (refined (2 ^ i) (a_gpa a))) false (rowwise f s) = Ok d' ->
  forall n g, g < a_gpa a -> at3 (i_x d) n g = at3 (i_x d') n (2 ^ i * g) /\ at2 (i_y d) n g = at2 (i_y d') n (2 ^ i * g) /\ at2 (i_v d) n g = at2 (i_v d') n (2 ^ i * g).
Proof. exact float_one. Qed.
Print Assumptions C113_refined_one.
Theorem C113_refined_two : forall (fe fln fr : b64 -> b64) (a : algorithm (B64 fe fln fr)) i j, a_gpa a = 2 ^ j + 1 -> (Z.of_nat (2 ^ (i + j) + 1) <= 2 ^ 50)%Z ->
  forall h1 h2 f s d d', a_sel a = [h1; h2] -> rect (num_features a) (a_samples a) ->
  ice_calculate a false (rowwise f s) = Ok d -> ice_calculate (with_gpa a (refined (2 ^ i) (a_gpa a))) false (rowwise f s) = Ok d' ->
  forall n g1 g2, g1 < a_gpa a -> g2 < a_gpa a ->
    at3 (i_x d) n (g2 * a_gpa a + g1) = at3 (i_x d') n (2 ^ i * g2 * refined (2 ^ i) (a_gpa a) + 2 ^ i * g1) /\
    at2 (i_y d) n (g2 * a_gpa a + g1) = at2 (i_y d') n (2 ^ i * g2 * refined (2 ^ i) (a_gpa a) + 2 ^ i * g1) /\
    at2 (i_v d) n (g2 * a_gpa a + g1) = at2 (i_v d') n (2 ^ i * g2 * refined (2 ^ i) (a_gpa a) + 2 ^ i * g1).
Proof. exact float_two. Qed.
Print Assumptions C113_refined_two.

(** a partitioner has exactly as many split values as asked for: finite, strictly increasing, strictly between 0 and 1, number
    k (from 0) within a relative 3 * 2^-53 of (k + 1) / (n + 1) *)
Theorem C113_split_values : forall (fe fln fr : b64 -> b64) n, (Z.of_nat n + 2 <= 2 ^ 50)%Z -> length (possible_split_vals (N:=B64 fe fln fr) n) = n /\
  (forall k v, nth_error (possible_split_vals (N:=B64 fe fln fr) n) k = Some v ->
     fin fe fln fr v /\ (0 < val fe fln fr v < 1)%R /\
     (Rabs (val fe fln fr v - INR (k + 1) / INR (n + 1)) <= 3 * bpow radix2 (-53) * (INR (k + 1) / INR (n + 1)))%R) /\
  (forall k k' v v', k < k' -> nth_error (possible_split_vals (N:=B64 fe fln fr) n) k = Some v ->
     nth_error (possible_split_vals (N:=B64 fe fln fr) n) k' = Some v' -> (val fe fln fr v < val fe fln fr v')%R).
Proof. exact split_vals_float. Qed.
Print Assumptions C113_split_values.

(** a centered curve whose first prediction is finite starts at +0 exactly *)
Theorem C113_centered : forall (fe fln fr : b64 -> b64) (a : algorithm (B64 fe fln fr)) p d, rect (num_features a) (a_samples a) -> 1 <= a_gpa a ->
  ice_calculate a false p = Ok d ->
  exists d', ice_calculate a true p = Ok d' /\ forall i v, at2 (i_y d) i 0 = Some v -> fin fe fln fr v -> at2 (i_y d') i 0 = Some n0.
Proof. exact centered_starts. Qed.
Print Assumptions C113_centered.

(** 5 points, 4 points, 3 split values; number 3 of 6 points is not the float nearest to 3/5 *)
Example C113_points : forall fe fln fr : b64 -> b64,
  same_numbers fe fln fr (linspace (N:=B64 fe fln fr) n0 n1 5) [fl 0 0; fl 1 (-2); fl 1 (-1); fl 3 (-2); fl 1 0] = true /\
  same_numbers fe fln fr (linspace (N:=B64 fe fln fr) n0 n1 4) [fl 0 0; fl 6004799503160661 (-54); fl 6004799503160661 (-53); fl 1 0] = true /\
  same_numbers fe fln fr (possible_split_vals (N:=B64 fe fln fr) 3) [fl 1 (-2); fl 1 (-1); fl 3 (-2)] = true /\
  same_numbers fe fln fr [nth 3 (linspace (N:=B64 fe fln fr) n0 n1 6) n0] [gf_jump] = true.
Proof. exact ax_values. Qed.
(** the example of C107 in binary64, 3 points per axis (2^1 steps) and 5 (2^2 steps), two selected hyperparameters *)
Example C113_example : forall fe fln fr : b64 -> b64, let a := gr_alg (B64 fe fln fr) 3 in
  a_gpa a = 2 ^ 1 + 1 /\ with_gpa a (refined (2 ^ 1) (a_gpa a)) = gr_alg (B64 fe fln fr) 5 /\ rect (num_features a) (a_samples a) /\ length (a_sel a) = 2 /\
  ice_calculate a false (rowwise (ax_mean fe fln fr) (ax_mean fe fln fr)) = Ok (ax_data fe fln fr false 3) /\
  ice_calculate (gr_alg (B64 fe fln fr) 5) false (rowwise (ax_mean fe fln fr) (ax_mean fe fln fr)) = Ok (ax_data fe fln fr false 5) /\
  same_numbers fe fln fr (nth 0 (i_y (ax_data fe fln fr false 3)) []) [fl 1 0; fl 3 (-1); fl 2 0; fl 2 0; fl 5 (-1); fl 3 0; fl 3 0; fl 7 (-1); fl 4 0] = true /\
  same_numbers fe fln fr (nth 0 (i_y (ax_data fe fln fr true 3)) []) [fl 0 0; fl 1 (-1); fl 1 0; fl 1 0; fl 3 (-1); fl 2 0; fl 2 0; fl 5 (-1); fl 3 0] = true.
Proof.
  intros fe fln fr a. split; [reflexivity|]. split; [reflexivity|]. split; [repeat constructor|]. split; [reflexivity|]. exact (ax_runs fe fln fr).
Qed.

(** an infinite prediction makes the start of the centered curve NaN *)
Theorem C113_infinite_refuted : forall fe fln fr : b64 -> b64,
  match ice_calculate (gs_alg (B64 fe fln fr) 3) true (rowwise (ax_inf fe fln fr) (ax_inf fe fln fr)) with
  | Ok d => option_map (fun v : B64 fe fln fr => is_nan (v : b64)) (at2 (i_y d) 0 0) | Err _ => None end = Some true.
Proof. exact ax_nan. Qed.
Print Assumptions C113_infinite_refuted.
