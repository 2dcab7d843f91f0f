(** Prop_Ice.v - property theorems C21-C27, C59, C60: ICE curves and partial dependence.

    [at2 y i g] / [at3 x i g]: entry [g] of curve [i].  [rect nf rows]: every row has [nf]
    entries.  [batch_predictor p]: the surrogate returns one mean and one standard deviation
    per row. *)
From Coq Require Import Reals QArith Lra.
From Verif Require Import Base Num NumLaws NumpyModel ConfigSpaceModel UtilsModel IceModel PartitionModel PartitionSpec
  ListLemmas IceProofs IceProofs2 PartitionProofs PartitionProofs2 PartitionProofs3 RealProofs RealSums PartitionReal PartitionReal2
  UtilsProofs IceReal IceReal2 Examples Witness.
Local Open Scope nat_scope.
Local Open Scope list_scope.

(** the example: hyperparameters a, b, c; b and a selected in this order; two samples; 3 points per axis *)
Definition ex_alg (N : Num) : algorithm N :=
  mkalg (ex_cs (N:=N)) [mkhp "b"%string (KFloat n0 (nofZ 10) false); mkhp "a"%string (KFloat n0 n1 false)] (firstn 2 (ex_rows (N:=N))) 3.
Lemma ex_alg_ok (N : Num) : NoDup (map hp_name (a_cs (ex_alg N))) /\ rect (num_features (ex_alg N)) (a_samples (ex_alg N)) /\
  sel_known (a_cs (ex_alg N)) (a_sel (ex_alg N)) /\ forall c, exists d, ice_calculate (ex_alg N) c (ex_predict (N:=N)) = Ok d.
Proof.
  assert (H1 : NoDup (map hp_name (a_cs (ex_alg N)))) by (cbn; repeat constructor; cbn; intuition discriminate).
  assert (H2 : rect (num_features (ex_alg N)) (a_samples (ex_alg N))) by (cbn; repeat constructor).
  assert (H3 : sel_known (a_cs (ex_alg N)) (a_sel (ex_alg N))) by (repeat constructor; cbn; auto).
  refine (conj H1 (conj H2 (conj H3 _))). intro c. apply ice_calculate_total; auto; [discriminate|cbn; lia|apply ex_batch].
Qed.

(** ** C21 *)
Theorem C21_x_values : forall (N : Num) (a : algorithm N) c p d,
  NoDup (map hp_name (a_cs a)) -> rect (num_features a) (a_samples a) ->
  ice_calculate a c p = Ok d ->
  exists grid, grid_points a = Ok grid /\ length grid = num_grid_points a /\
    length (i_x d) = num_samples a /\ Forall (fun m => length m = num_grid_points a) (i_x d) /\
    Forall (Forall (fun r => length r = num_features a)) (i_x d) /\
    forall i g row gp, nth_error (a_samples a) i = Some row -> nth_error grid g = Some gp ->
      exists xrow, at3 (i_x d) i g = Some xrow /\
        (forall j t, selected_at (a_cs a) (a_sel a) j t -> nth_error xrow j = nth_error gp t) /\
        (forall j, not_selected (a_cs a) (a_sel a) j -> nth_error xrow j = nth_error row j).
Proof. exact (@ice_x_values). Qed.
Print Assumptions C21_x_values.

(** the calculation never raises for a non-empty known selection and a batch predictor *)
Theorem C21_calculation_succeeds : forall (N : Num) (a : algorithm N) c p,
  rect (num_features a) (a_samples a) -> sel_known (a_cs a) (a_sel a) -> a_sel a <> [] -> 1 <= a_gpa a ->
  batch_predictor p -> exists d, ice_calculate a c p = Ok d.
Proof. exact (@ice_calculate_total). Qed.
Print Assumptions C21_calculation_succeeds.

(** hyperparameter 0 (a) is selected at position 1, hyperparameter 1 (b) at position 0, c is not *)
Example C21_example : NoDup (map hp_name (a_cs (ex_alg QNum))) /\ rect (num_features (ex_alg QNum)) (a_samples (ex_alg QNum)) /\
  selected_at (a_cs (ex_alg QNum)) (a_sel (ex_alg QNum)) 0 1 /\ selected_at (a_cs (ex_alg QNum)) (a_sel (ex_alg QNum)) 1 0 /\
  not_selected (a_cs (ex_alg QNum)) (a_sel (ex_alg QNum)) 2 /\
  (match ice_calculate (ex_alg QNum) false ex_predict with Ok d => at3 (i_x d) 1 1 | Err _ => None end) = Some [0#1; 1#2; 3#10]%Q.
Proof.
  destruct (ex_alg_ok QNum) as (H1 & H2 & _ & _). refine (conj H1 (conj H2 (conj _ (conj _ (conj _ _))))).
  - do 2 eexists. refine (conj eq_refl (conj eq_refl (conj eq_refl _))). intros [|[|[|t]]] hs' Hl; try lia; discriminate.
  - do 2 eexists. refine (conj eq_refl (conj eq_refl (conj eq_refl _))). intros [|[|[|t]]] hs' Hl E; try lia; try discriminate E. inversion E. discriminate.
  - intros h E. inversion E. cbn. intuition discriminate.
  - vm_compute. reflexivity.
Qed.

(** ** C22 *)
Theorem C22_values_are_predictions : forall (N : Num) (a : algorithm N) p d,
  rect (num_features a) (a_samples a) -> ice_calculate a false p = Ok d ->
  exists means stds, p (concat (i_x d)) = Ok (means, stds) /\
    length means = num_samples a * num_grid_points a /\ length stds = num_samples a * num_grid_points a /\
    forall i g, i < num_samples a -> g < num_grid_points a ->
      exists xrow m s, at3 (i_x d) i g = Some xrow /\
        nth_error (concat (i_x d)) (i * num_grid_points a + g) = Some xrow /\
        nth_error means (i * num_grid_points a + g) = Some m /\ nth_error stds (i * num_grid_points a + g) = Some s /\
        at2 (i_y d) i g = Some m /\ at2 (i_v d) i g = Some (nmul s s).
Proof. exact (@ice_values_are_predictions). Qed.
Print Assumptions C22_values_are_predictions.

(** for a surrogate that predicts row by row *)
Theorem C22_rowwise : forall (N : Num) (a : algorithm N) (f s : list N -> N) d,
  rect (num_features a) (a_samples a) ->
  ice_calculate a false (fun rows => Ok (map f rows, map s rows)) = Ok d ->
  forall i g, i < num_samples a -> g < num_grid_points a ->
    exists xrow, at3 (i_x d) i g = Some xrow /\
      at2 (i_y d) i g = Some (f xrow) /\ at2 (i_v d) i g = Some (nmul (s xrow) (s xrow)).
Proof. exact (@ice_values_rowwise). Qed.
Print Assumptions C22_rowwise.

(** row [0, 1/2, 3/10]: mean a + c = 3/10, standard deviation b + c/2 = 13/20 *)
Example C22_example : rect (num_features (ex_alg QNum)) (a_samples (ex_alg QNum)) /\
  (match ice_calculate (ex_alg QNum) false ex_predict with Ok d => (at2 (i_y d) 1 1, at2 (i_v d) 1 1) | Err _ => (None, None) end) =
  (Some (3#10), Some (169#400))%Q.
Proof. split; [exact (proj1 (proj2 (ex_alg_ok QNum)))|vm_compute; reflexivity]. Qed.

(** ** C23 *)
Theorem C23_centered : forall (N : Num) (a : algorithm N) p d,
  rect (num_features a) (a_samples a) -> 1 <= a_gpa a ->
  ice_calculate a false p = Ok d ->
  exists d', ice_calculate a true p = Ok d' /\ i_x d' = i_x d /\ i_v d' = i_v d /\
    forall i g v v0, at2 (i_y d) i g = Some v -> at2 (i_y d) i 0 = Some v0 -> at2 (i_y d') i g = Some (nsub v v0).
Proof. exact (@centered_curves). Qed.
Print Assumptions C23_centered.

Theorem C23_starts_at_zero_keeps_differences : forall (a : algorithm RNum) p d,
  rect (num_features a) (a_samples a) -> 1 <= a_gpa a -> ice_calculate a false p = Ok d ->
  exists d', ice_calculate a true p = Ok d' /\ i_x d' = i_x d /\ i_v d' = i_v d /\
    (forall i, i < num_samples a -> at2 (i_y d') i 0 = Some (0%R : RNum)) /\
    (forall i g h v w v' w', at2 (i_y d) i g = Some v -> at2 (i_y d) i h = Some w ->
       at2 (i_y d') i g = Some v' -> at2 (i_y d') i h = Some w' -> (v' - w' : R)%R = (v - w : R)%R).
Proof. exact centered_differences. Qed.
Print Assumptions C23_starts_at_zero_keeps_differences.

Example C23_example : rect (num_features (ex_alg RNum)) (a_samples (ex_alg RNum)) /\
  (exists d, ice_calculate (ex_alg RNum) false (ex_predict (N:=RNum)) = Ok d) /\
  (match ice_calculate (ex_alg QNum) true ex_predict with Ok d => nth_error (i_y d) 1 | Err _ => None end) =
  Some [0#1; 0#1; 0#1; 1#2; 1#2; 1#2; 1#1; 1#1; 1#1]%Q.
Proof.
  destruct (ex_alg_ok RNum) as (_ & H2 & _ & H4). refine (conj H2 (conj (H4 false) _)). vm_compute. reflexivity.
Qed.

(** ** C24 *)
Theorem C24_cartesian_product : forall (N : Num) (axis : list N) d grid, mesh_points axis d = Ok grid ->
  length grid = length axis ^ d /\
  (forall ks, all_digits (length axis) d ks -> exists q, nth_error grid q = Some (map (fun k => nth k axis n0) ks)) /\
  (forall q row, nth_error grid q = Some row -> exists ks, all_digits (length axis) d ks /\ row = map (fun k => nth k axis n0) ks) /\
  (NoDup axis -> NoDup grid).
Proof. exact (@grid_is_cartesian_product). Qed.
Print Assumptions C24_cartesian_product.

Theorem C24_grid : forall (a : algorithm RNum) grid, grid_points a = Ok grid ->
  exists axis, evenly 0 1 axis (a_gpa a) /\ NoDup axis /\ NoDup grid /\
    length grid = num_grid_points a /\
    (forall ks, all_digits (a_gpa a) (n_selected a) ks -> exists q, nth_error grid q = Some (map (fun k => nth k axis 0%R) ks)) /\
    (forall q row, nth_error grid q = Some row -> exists ks, all_digits (a_gpa a) (n_selected a) ks /\ row = map (fun k => nth k axis 0%R) ks) /\
    (n_selected a = 2 -> forall k1 k2, k1 < a_gpa a -> k2 < a_gpa a ->
       nth_error grid (k2 * a_gpa a + k1) = Some [nth k1 axis 0%R; nth k2 axis 0%R]).
Proof. exact ice_grid. Qed.
Print Assumptions C24_grid.

Example C24_example : (exists grid, grid_points (ex_alg RNum) = Ok grid) /\
  (match grid_points (ex_alg QNum) with Ok g => g | Err _ => [] end) =
  [[0#1; 0#1]; [1#2; 0#1]; [1#1; 0#1]; [0#1; 1#2]; [1#2; 1#2]; [1#1; 1#2]; [0#1; 1#1]; [1#2; 1#1]; [1#1; 1#1]]%Q.
Proof.
  split; [|vm_compute; reflexivity]. destruct (ex_alg_ok RNum) as (H1 & H2 & _ & H4). destruct (H4 false) as (d & H).
  destruct (ice_x_values _ _ _ _ H1 H2 H) as (grid & G & _). eauto.
Qed.

(** ** C25 *)
(** [before]: nothing, or anything ending in a reset; [quiet]: no reads; [op]: the first read;
    [later]: anything without a reset *)
Theorem C25_history : forall (N : Num) (a : algorithm N) (p : predictor N) before quiet op later,
  (before = [] \/ exists b, before = b ++ [OReset]) ->
  forallb (fun x => negb (is_read x)) quiet = true -> is_read op = true ->
  let start := fst (ice_run_ops (ice_new a p) (before ++ quiet)) in
  let calc := ice_calculate a (flag_after false (before ++ quiet)) (model_after p (before ++ quiet)) in
  read_of calc op (snd (ice_step start op)) /\
  match calc with
  | Ok d => forallb (fun x => negb (is_reset x)) later = true ->
            Forall2 (read_of calc) later (snd (ice_run_ops (fst (ice_step start op)) later))
  | Err _ => fst (ice_step start op) = start
  end.
Proof. exact (@ice_history). Qed.
Print Assumptions C25_history.

Definition y_out (o : ice_out QNum) : option (list (list Q)) := match o with ROutY (Ok y) => Some y | _ => None end.
(** centering and refitting between the reads has no effect until the reset *)
Example C25_example :
  map y_out (snd (ice_run_ops (ice_new w_cen_alg w_cen_predict)
     [OReadX; OCenter true; ORefit w_predict2; OReadY; OReset; OReadV; OCenter false; OReadY])) =
  [None; None; None; Some [[1#4; 5#4]; [3#4; 7#4]]; None; None; None; Some [[0#1; 0#1]; [0#1; 0#1]]]%Q.
Proof. vm_compute. reflexivity. Qed.

(** ** C26 *)
Theorem C26_pdp_is_mean : forall (a : algorithm RNum) c p d,
  NoDup (map hp_name (a_cs a)) -> rect (num_features a) (a_samples a) -> 0 < num_samples a ->
  ice_calculate a c p = Ok d ->
  forall g, g < num_grid_points a ->
  (exists m, nth_error (y_pdp a d) g = Some m /\ mean_over (num_samples a) (fun i => at2 (i_y d) i g) m) /\
  (exists m, nth_error (v_pdp a d) g = Some m /\ mean_over (num_samples a) (fun i => at2 (i_v d) i g) m) /\
  (exists row, nth_error (x_pdp a d) g = Some row /\ length row = num_features a /\
     (forall j, j < num_features a ->
        exists m, nth_error row j = Some m /\ mean_over (num_samples a) (fun i => at3j (i_x d) i g j) m) /\
     exists grid gp, grid_points a = Ok grid /\ nth_error grid g = Some gp /\
       forall j t, selected_at (a_cs a) (a_sel a) j t -> nth_error row j = nth_error gp t).
Proof. exact pdp_is_mean. Qed.
Print Assumptions C26_pdp_is_mean.

Example C26_example : NoDup (map hp_name (a_cs (ex_alg RNum))) /\ rect (num_features (ex_alg RNum)) (a_samples (ex_alg RNum)) /\
  0 < num_samples (ex_alg RNum) /\ (exists d, ice_calculate (ex_alg RNum) false (ex_predict (N:=RNum)) = Ok d) /\ num_grid_points (ex_alg RNum) = 9 /\
  (match ice_calculate (ex_alg QNum) false ex_predict with Ok d => nth_error (y_pdp (ex_alg QNum) d) 3 | Err _ => None end) = Some (3#4)%Q.
Proof.
  destruct (ex_alg_ok RNum) as (H1 & H2 & _ & H4). refine (conj H1 (conj H2 (conj _ (conj (H4 false) (conj eq_refl _))))); [cbn; lia|vm_compute; reflexivity].
Qed.

(** ** C27 *)
Theorem C27_weighted_mean : forall (s : setup RNum) p d,
  setup_ok s -> 1 <= su_minpts s -> su_samples s <> [] -> reaches s p -> 0 < d ->
  exists p' ids leaves root G,
    partition p d = (p', Ok ids) /\ Forall2 (fun id nd => deref p' id = Some nd) ids leaves /\ deref p' 0 = Some root /\
    region_len (n_region root) = length (su_samples s) /\
    Forall (fun nd => 0 < region_len (n_region nd) /\ length (region_pdp_y (n_region nd)) = G /\ length (region_pdp_v (n_region nd)) = G) (root :: leaves) /\
    0 < G /\
    forall g, g < G ->
      Rsum (map (fun nd : dnode RNum => (INR (region_len (n_region nd)) * nth g (region_pdp_y (n_region nd)) 0)%R) leaves) =
        (INR (region_len (n_region root)) * nth g (region_pdp_y (n_region root)) 0)%R /\
      Rsum (map (fun nd : dnode RNum => (INR (region_len (n_region nd)) * nth g (region_pdp_v (n_region nd)) 0)%R) leaves) =
        (INR (region_len (n_region root)) * nth g (region_pdp_v (n_region root)) 0)%R.
Proof. exact pdp_is_weighted_mean. Qed.
Print Assumptions C27_weighted_mean.

Example C27_example : setup_ok (ex_setup (N:=RNum)) /\ 1 <= su_minpts (ex_setup (N:=RNum)) /\ su_samples (ex_setup (N:=RNum)) <> [] /\
  exists p, reaches (ex_setup (N:=RNum)) p.
Proof. refine (conj ex_setup_ok (conj _ (conj _ ex_reaches))); [cbn; lia|discriminate]. Qed.

(** ** C59 *)
Theorem C59_curve_space : forall (a : algorithm RNum) c p d i curve row,
  NoDup (map hp_name (a_cs a)) -> float_space (a_cs a) -> rect (num_features a) (a_samples a) -> 2 <= a_gpa a ->
  ice_calculate a c p = Ok d -> nth_error (i_x d) i = Some curve -> nth_error (a_samples a) i = Some row ->
  Forall (fun x : R => (0 <= x <= 1)%R) row ->
  exists l, curve_implied_space (a_cs a) curve = Ok l /\ length l = length (a_cs a) /\
    forall j h lo up lg, nth_error (a_cs a) j = Some h -> hp_kind h = KFloat (N:=RNum) lo up lg ->
      (forall t, selected_at (a_cs a) (a_sel a) j t -> nth_error l j = Some (IUniform (N:=RNum) (hp_name h) lo up lg)) /\
      (not_selected (a_cs a) (a_sel a) j ->
         exists x u, nth_error row j = Some x /\ unscale_float (N:=RNum) x (a_cs a) h = Ok u /\ nth_error l j = Some (IConst (hp_name h) u)).
Proof. exact ice_curve_implied_space. Qed.
Print Assumptions C59_curve_space.

(** the curve of sample 0: full ranges for a and b, constant 1 + 4/5 for c *)
Example C59_example : NoDup (map hp_name (a_cs (ex_alg RNum))) /\ float_space (a_cs (ex_alg RNum)) /\
  Forall (fun x : R => (0 <= x <= 1)%R) (nth 0 (a_samples (ex_alg RNum)) []) /\
  (match ice_calculate (ex_alg QNum) false ex_predict with
   | Ok d => match nth_error (i_x d) 0 with
             | Some m => match curve_implied_space (ex_cs (N:=QNum)) m with
                         | Ok l => map (fun h : ihp QNum => match h with IConst n v => (n, v : Q, v : Q) | IUniform n lo up _ => (n, lo : Q, up : Q) end) l
                         | Err _ => [] end
             | None => [] end
   | Err _ => [] end) = [("a"%string, 0#1, 1#1); ("b"%string, 0#1, 10#1); ("c"%string, 9#5, 9#5)]%Q.
Proof.
  refine (conj (proj1 (ex_alg_ok RNum)) (conj ex_float_space (conj _ _))); [|vm_compute; reflexivity].
  cbn. unfold frac. cbn. repeat constructor; lra.
Qed.

(** ** C60 *)
(** the first read of each array is the mean of what the ICE object shows at that moment *)
Theorem C60_first_read : forall (N : Num) (s : pdp N),
  let a := ic_alg (pd_ice s) in
  (pd_x s = None -> snd (pdp_step s PX) = POX (res_map (mean3_axis0 (num_grid_points a) (num_features a)) (snd (read_x (pd_ice s))))) /\
  (pd_y s = None -> snd (pdp_step s PY) = POY (res_map (mean_axis0 (num_grid_points a)) (snd (read_y (pd_ice s))))) /\
  (pd_v s = None -> snd (pdp_step s PV) = POV (res_map (mean_axis0 (num_grid_points a)) (snd (read_v (pd_ice s))))).
Proof. exact (@pdp_first_read). Qed.
Print Assumptions C60_first_read.

(** and every later read returns the same, whatever happens in between *)
Theorem C60_read_is_final : forall (N : Num) (s : pdp N) later,
  (forall x, snd (pdp_step s PX) = POX (Ok x) -> snd (pdp_step (fst (pdp_run (fst (pdp_step s PX)) later)) PX) = POX (Ok x)) /\
  (forall x, snd (pdp_step s PY) = POY (Ok x) -> snd (pdp_step (fst (pdp_run (fst (pdp_step s PY)) later)) PY) = POY (Ok x)) /\
  (forall x, snd (pdp_step s PV) = POV (Ok x) -> snd (pdp_step (fst (pdp_run (fst (pdp_step s PV)) later)) PV) = POV (Ok x)).
Proof. exact (@pdp_read_is_final). Qed.
Print Assumptions C60_read_is_final.

(** so values and variances of one PDP can come from two different surrogates *)
Theorem C60_one_calculation_refuted :
  map arr (snd (pdp_run w_pdp [PY; PIce (ORefit w_predict2); PIce OReset; PV; PY])) =
    [Some (true, [1#2; 3#2]); None; None; Some (false, [4#1; 4#1]); Some (true, [1#2; 3#2])]%Q.
Proof. exact w_pdp_mixed. Qed.
Print Assumptions C60_one_calculation_refuted.
