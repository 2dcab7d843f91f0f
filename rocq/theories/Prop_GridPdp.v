(** Prop_GridPdp.v - C117: a PDP or a partition on the points of a grid sampler (exact arithmetic), and the number of points per axis. *)
From Coq Require Import Permutation Reals.
From Coquelicot Require Import Coquelicot.
From Flocq Require Import Core.
From Verif Require Import Base Num NumLaws NumpyModel ConfigSpaceModel UtilsModel IceModel PartitionModel PartitionSpec SamplerModel IceProofs IceProofs2 UtilsProofs
  RealSums IceShapeSpec SamplerReal SyntheticModel SpreadSpec SpreadSynSpec SpreadExamples BoxSpec BoxExamples GridPdpProofs GridPdpExamples GridSteps.
Local Open Scope R_scope.
Local Open Scope list_scope.

(** ** C117: a new grid sampler asked for k^d points of d float hyperparameters (linear or log scale) succeeds if the objective never
    raises; its points are the full grid of k evenly spaced normalized values per axis, in some order *)
Theorem C117_success : forall (w : world RNum) k (s : sampler RNum), s_kind s = KGrid -> s_configs s = [] -> s_grid s = None -> s_cs s <> [] -> Forall float_hp (s_cs s) ->
  w_steps w (k ^ length (s_cs s)) (length (s_cs s)) = k -> (length (s_cache s) < k ^ length (s_cs s))%nat -> (forall i c, is_ok (w_obj w i c) = true) ->
  exists s', sample w (k ^ length (s_cs s)) s = (s', Ok tt).
Proof. exact grid_sampler_ok. Qed.
Print Assumptions C117_success.
Theorem C117_full_grid : forall (w : world RNum) k (s s' : sampler RNum), s_kind s = KGrid -> s_configs s = [] -> s_grid s = None -> s_cs s <> [] -> Forall float_hp (s_cs s) ->
  w_steps w (k ^ length (s_cs s)) (length (s_cs s)) = k -> (length (s_cache s) < k ^ length (s_cs s))%nat -> sample w (k ^ length (s_cs s)) s = (s', Ok tt) ->
  Permutation (sX s') (grid_rows (repeat (linspace (N:=RNum) (0 : R) (1 : R) k) (length (s_cs s)))).
Proof. exact grid_sampler_full. Qed.
Print Assumptions C117_full_grid.
(** in exact arithmetic int(ceil((k ** d) ** (1 / d))) is k *)
Theorem C117_steps_exact : forall k d, (1 <= k)%nat -> (1 <= d)%nat -> Zceil (Rpower (INR (k ^ d)) (/ INR d)) = Z.of_nat k.
Proof. exact root_steps. Qed.
Print Assumptions C117_steps_exact.

(** a PDP on these points: at every grid point within (sum of L_j) / k of the exact partial dependence *)
Theorem C117_pdp_near : forall (w : world RNum) k (s s' : sampler RNum), s_kind s = KGrid -> s_configs s = [] -> s_grid s = None -> s_cs s <> [] -> Forall float_hp (s_cs s) ->
  w_steps w (k ^ length (s_cs s)) (length (s_cs s)) = k -> (length (s_cache s) < k ^ length (s_cs s))%nat -> sample w (k ^ length (s_cs s)) s = (s', Ok tt) ->
  forall sel gpa (f sd : list R -> R) (dt : icedata RNum) J, NoDup (map hp_name (s_cs s)) ->
  let a := mkalg (s_cs s) sel (sX s') gpa in
  ice_calculate a false (rowwise (N:=RNum) f sd) = Ok dt -> NoDup J -> rest_of a J ->
  forall (L : nat -> R) g row, (g < num_grid_points a)%nat -> nth_error (x_pdp a dt) g = Some row ->
  ((forall j, In j J -> lipschitz_in (length (s_cs s)) j (L j) f) -> exists y, nth_error (y_pdp a dt) g = Some y /\ Rabs (y - cube_average J f row) <= Rsum (map L J) / INR k) /\
  ((forall j, In j J -> lipschitz_in (length (s_cs s)) j (L j) (fun r => sd r * sd r)) ->
     exists v, nth_error (v_pdp a dt) g = Some v /\ Rabs (v - cube_average J (fun r => sd r * sd r) row) <= Rsum (map L J) / INR k).
Proof. exact grid_pdp_near. Qed.
Print Assumptions C117_pdp_near.
(** the Styblinski-Tang function in place of a surrogate: close to what pd_integral gives *)
Theorem C117_styblinski_tang : forall (w : world RNum) k (s s' : sampler RNum), s_kind s = KGrid -> s_configs s = [] -> s_grid s = None -> s_cs s <> [] -> Forall float_hp (s_cs s) ->
  w_steps w (k ^ length (s_cs s)) (length (s_cs s)) = k -> (length (s_cache s) < k ^ length (s_cs s))%nat -> sample w (k ^ length (s_cs s)) s = (s', Ok tt) ->
  forall sel gpa (sd : list R -> R) (dt : icedata RNum) J args hps C g, Forall linear_float (s_cs s) -> NoDup (map hp_name (s_cs s)) ->
  let a := mkalg (s_cs s) sel (sX s') gpa in
  ice_calculate a false (rowwise (N:=RNum) (exact_model (s_cs s)) sd) = Ok dt -> NoDup J -> rest_of a J ->
  args <> [] -> convert_hyperparameters (N:=RNum) (SelList args) (s_cs s) = Ok hps -> NoDup (map hp_name hps) ->
  (forall h, In h hps <-> In h (s_cs s) /\ ~ In (hp_name h) (map hp_name sel)) -> Forall (fun h => slope_at_most h C) hps -> (g < num_grid_points a)%nat ->
  exists row c y p v, nth_error (x_pdp a dt) g = Some row /\ config_of_vector (N:=RNum) (s_cs s) row = Ok c /\ nth_error (y_pdp a dt) g = Some y /\
    pd_integral (s_cs s) args = Ok p /\ (forall h, In h (fst p) <-> In h (s_cs s) /\ In (hp_name h) (map hp_name sel)) /\
    (forall c', (forall h, In h (fst p) -> config_get c' (hp_name h) = config_get c (hp_name h)) -> pd_value p c' = Ok v) /\
    Rabs (y - v) <= Rsum (map (fun j => C * match nth_error (s_cs s) j with Some h => hp_width h | None => 0 end) J) / INR k.
Proof. exact grid_pdp_stybtang. Qed.
Print Assumptions C117_styblinski_tang.
(** a partition on these points, k a multiple of the number of splits plus one: regions as large as their boxes, their PDPs near the averages over the boxes *)
Theorem C117_regions : forall (w : world RNum) k (s s' : sampler RNum), s_kind s = KGrid -> s_configs s = [] -> s_grid s = None -> s_cs s <> [] -> Forall float_hp (s_cs s) ->
  w_steps w (k ^ length (s_cs s)) (length (s_cs s)) = k -> (length (s_cache s) < k ^ length (s_cs s))%nat -> sample w (k ^ length (s_cs s)) s = (s', Ok tt) ->
  forall (st : setup RNum) (p : dtp RNum) (f sd : list R -> R) sel m J id nd, su_cs st = s_cs s -> su_samples st = sX s' -> k = (m * (su_splits st + 1))%nat ->
  setup_ok st -> reaches st p -> su_predict st = rowwise (N:=RNum) f sd -> convert_hyperparameters (su_sel st) (su_cs st) = Ok sel -> NoDup J ->
  (forall j, In j J <-> (j < length (su_cs st))%nat /\ not_selected (su_cs st) sel j) -> deref p id = Some nd ->
  INR (region_len (n_region nd)) = INR (k ^ length (s_cs s)) * volume (box_lo (su_cs st) (n_conds nd)) (box_up (su_cs st) (n_conds nd)) J /\
  forall (L : nat -> R) i g row, (g < su_gpa st ^ length sel)%nat -> at3 (r_x (n_region nd)) i g = Some row ->
  ((forall j, In j J -> lipschitz_in (length (su_cs st)) j (L j) f) ->
     exists y : R, nth_error (region_pdp_y (n_region nd)) g = Some y /\
       Rabs (y - box_average (box_lo (su_cs st) (n_conds nd)) (box_up (su_cs st) (n_conds nd)) J f row) <= Rsum (map L J) / INR k) /\
  ((forall j, In j J -> lipschitz_in (length (su_cs st)) j (L j) (fun r => sd r * sd r)) ->
     exists v : R, nth_error (region_pdp_v (n_region nd)) g = Some v /\
       Rabs (v - box_average (box_lo (su_cs st) (n_conds nd)) (box_up (su_cs st) (n_conds nd)) J (fun r => sd r * sd r) row) <= Rsum (map L J) / INR k).
Proof. exact grid_regions. Qed.
Print Assumptions C117_regions.

(** with every operation rounded to the nearest binary64 number, five hyperparameters and k^5 points asked for, the sampler takes k + 1 values
    per axis; its points are then not the grid of k values per axis (whatever the objective does) *)
Theorem C117_five_dimensions_refuted : (forall k, (8 <= k <= 1552)%nat -> steps64 (k ^ 5) 5 = S k) /\
  forall (w : world RNum) k (s s' : sampler RNum) r, s_kind s = KGrid -> s_configs s = [] -> s_grid s = None -> length (s_cs s) = 5%nat -> Forall float_hp (s_cs s) ->
    (length (s_cache s) < k ^ 5)%nat -> (8 <= k <= 1552)%nat -> (forall n d, w_steps w n d = steps64 n d) -> sample w (k ^ 5) s = (s', r) ->
    ~ Permutation (sX s') (grid_rows (repeat (linspace (N:=RNum) (0 : R) (1 : R) k) 5)).
Proof. exact (conj steps_five five_other). Qed.
Print Assumptions C117_five_dimensions_refuted.

(** two dimensions, k * k points, k arbitrary: within 1725 / k of what pd_integral gives *)
Example C117_example : forall k (sd : list R -> R), (1 <= k)%nat -> exists s', sample gp_world (k ^ 2) gp_new = (s', Ok tt) /\ Permutation (sX s') (grid_rows (repeat (linspace (N:=RNum) (0 : R) (1 : R) k) 2)) /\
  let a := mkalg (N:=RNum) [sp1; sp2] [sp1] (sX s') 3 in
  exists dt, ice_calculate a false (rowwise (N:=RNum) (exact_model [sp1; sp2]) sd) = Ok dt /\
  forall g, (g < 3)%nat -> exists row c y p v, nth_error (x_pdp a dt) g = Some row /\ config_of_vector (N:=RNum) [sp1; sp2] row = Ok c /\
    nth_error (y_pdp a dt) g = Some y /\ pd_integral [sp1; sp2] [SName "x2"] = Ok p /\ fst p = [sp1] /\
    (forall c', config_get c' "x1" = config_get c "x1" -> pd_value p c' = Ok v) /\ Rabs (y - v) <= 1725 / INR k.
Proof. exact gp_close. Qed.
(** a log scale *)
Example C117_example_log : forall k, (1 <= k)%nat -> exists s', sample gp_world (k ^ 2) gp_log = (s', Ok tt) /\ Permutation (sX s') (grid_rows (repeat (linspace (N:=RNum) (0 : R) (1 : R) k) 2)).
Proof. exact gp_log_full. Qed.
(** a partition *)
Example C117_example_regions : forall m, (1 <= m)%nat -> exists s' p0, sample gp_world ((2 * m) ^ 2) gp_new = (s', Ok tt) /\ setup_ok (gp_setup s') /\ construct (gp_setup s') = Ok p0 /\
  forall p id nd, reaches (gp_setup s') p -> deref p id = Some nd ->
    INR (region_len (n_region nd)) = INR ((2 * m) ^ 2) * volume (box_lo [sp1; sp2] (n_conds nd)) (box_up [sp1; sp2] (n_conds nd)) [1%nat].
Proof. exact gp_partition. Qed.
(** a sampler in five dimensions asked for 8^5 points *)
Example C117_example_five : exists s' , sample five_world (8 ^ 5) five_new = (s', Ok tt) /\ ~ Permutation (sX s') (grid_rows (repeat (linspace (N:=RNum) (0 : R) (1 : R) 8) 5)).
Proof. exact five_case. Qed.
