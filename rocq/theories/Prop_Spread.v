(** Prop_Spread.v - C115: the PDP on evenly spread samples is close to the exact partial dependence (exact arithmetic). *)
From Coq Require Import Reals.
From Coquelicot Require Import Coquelicot.
From Verif Require Import Base Num NumLaws NumpyModel ConfigSpaceModel UtilsModel IceModel IceProofs IceProofs2 UtilsProofs
  RealSums IceShapeSpec SyntheticModel SpreadSpec SpreadProofs SpreadSynSpec SpreadIce SpreadGrid SpreadSynthetic SpreadExamples.
Local Open Scope R_scope.
Local Open Scope list_scope.

(** ** C115: at every grid point the mean of the PDP is within the sum of L_j / k_j of the average (an iterated integral) of
    the surrogate's mean over the coordinates not selected; its variance likewise *)
Theorem C115_near : forall (a : algorithm RNum) (f s : list R -> R) (d : icedata RNum) (Jk : list (nat * nat)),
  NoDup (map hp_name (a_cs a)) -> rect (num_features a) (a_samples a) -> Forall in_cube (a_samples a) ->
  ice_calculate a false (rowwise (N:=RNum) f s) = Ok d -> NoDup (map fst Jk) -> rest_of a (map fst Jk) -> spread Jk (a_samples a) ->
  forall (L : nat -> R) g base, (g < num_grid_points a)%nat -> at_grid a d g base ->
  ((forall j, In j (map fst Jk) -> lipschitz_in (num_features a) j (L j) f) ->
     exists y, nth_error (y_pdp a d) g = Some y /\ Rabs (y - cube_average (map fst Jk) f base) <= spread_error L Jk) /\
  ((forall j, In j (map fst Jk) -> lipschitz_in (num_features a) j (L j) (fun r => s r * s r)) ->
     exists v, nth_error (v_pdp a d) g = Some v /\ Rabs (v - cube_average (map fst Jk) (fun r => s r * s r) base) <= spread_error L Jk).
Proof. exact pdp_near. Qed.
Print Assumptions C115_near.

(** the coordinates the PDP itself reports can be taken for the row *)
Theorem C115_row : forall (a : algorithm RNum) (f s : list R -> R) (d : icedata RNum),
  NoDup (map hp_name (a_cs a)) -> rect (num_features a) (a_samples a) -> Forall in_cube (a_samples a) ->
  ice_calculate a false (rowwise (N:=RNum) f s) = Ok d ->
  forall g row, (0 < num_samples a)%nat -> (g < num_grid_points a)%nat -> nth_error (x_pdp a d) g = Some row -> at_grid a d g row.
Proof. exact pdp_row_at_grid. Qed.
Print Assumptions C115_row.

(** full grids are spread evenly, in all their coordinates or some of them *)
Theorem C115_grid : (forall Jk axes, Forall (fun axis => axis <> []) axes -> NoDup (map fst Jk) ->
    (forall j k, In (j, k) Jk -> exists axis, nth_error axes j = Some axis /\ length axis = k /\ cell_axis axis) -> spread Jk (grid_rows axes)) /\
  (forall axis k, evenly 0 1 axis k -> cell_axis axis).
Proof. exact (conj grid_spread evenly_cells). Qed.
Print Assumptions C115_grid.

(** for the Styblinski-Tang function in place of a surrogate, the PDP is close to the function that pd_integral gives *)
Theorem C115_styblinski_tang : forall (a : algorithm RNum) (s : list R -> R) (d : icedata RNum) (Jk : list (nat * nat)) args hps C g,
  Forall linear_float (a_cs a) -> NoDup (map hp_name (a_cs a)) -> rect (num_features a) (a_samples a) -> Forall in_cube (a_samples a) ->
  ice_calculate a false (rowwise (N:=RNum) (exact_model (a_cs a)) s) = Ok d ->
  NoDup (map fst Jk) -> rest_of a (map fst Jk) -> spread Jk (a_samples a) ->
  args <> [] -> convert_hyperparameters (N:=RNum) (SelList args) (a_cs a) = Ok hps -> NoDup (map hp_name hps) ->
  (forall h, In h hps <-> In h (a_cs a) /\ ~ In (hp_name h) (map hp_name (a_sel a))) -> Forall (fun h => slope_at_most h C) hps ->
  (g < num_grid_points a)%nat ->
  exists row c y p v, nth_error (x_pdp a d) g = Some row /\ config_of_vector (N:=RNum) (a_cs a) row = Ok c /\ nth_error (y_pdp a d) g = Some y /\
    pd_integral (a_cs a) args = Ok p /\ (forall h, In h (fst p) <-> In h (a_cs a) /\ In (hp_name h) (map hp_name (a_sel a))) /\
    (forall c', (forall h, In h (fst p) -> config_get c' (hp_name h) = config_get c (hp_name h)) -> pd_value p c' = Ok v) /\
    Rabs (y - v) <= spread_error (fun j => C * match nth_error (a_cs a) j with Some h => hp_width h | None => 0 end) Jk.
Proof. exact pdp_stybtang. Qed.
Print Assumptions C115_styblinski_tang.
(** on the default range [-5, 5], or part of it, C = 345 / 2 *)
Theorem C115_slope : forall (h : hp RNum), match hp_kind h with KFloat lo up _ => (-5 <= (lo : R) /\ (up : R) <= 5) | _ => True end -> slope_at_most h (345 / 2).
Proof. exact slope_default. Qed.
Print Assumptions C115_slope.

(** two dimensions, k samples: within 1725 / k, for every k *)
Example C115_example : forall k (s : list R -> R), (0 < k)%nat ->
  exists d, ice_calculate (sp_alg k) false (rowwise (N:=RNum) (exact_model [sp1; sp2]) s) = Ok d /\
  forall g, (g < 3)%nat -> exists row c y p v, nth_error (x_pdp (sp_alg k) d) g = Some row /\ config_of_vector (N:=RNum) [sp1; sp2] row = Ok c /\
    nth_error (y_pdp (sp_alg k) d) g = Some y /\ pd_integral [sp1; sp2] [SName "x2"] = Ok p /\ fst p = [sp1] /\
    (forall c', config_get c' "x1" = config_get c "x1" -> pd_value p c' = Ok v) /\ Rabs (y - v) <= 1725 / INR k.
Proof. exact sp_close. Qed.
Example C115_example_spread : forall k, (0 < k)%nat -> spread [(1%nat, k)] (grid_rows (sp_axes k)) /\ rest_of (sp_alg k) [1%nat].
Proof. exact (fun k H => conj (sp_spread k H) (sp_rest k)). Qed.
