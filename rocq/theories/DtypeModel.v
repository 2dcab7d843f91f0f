(** DtypeModel.v - the samples array as the user passes it: its element type decides what the
    grid becomes when it is written into x_ice (pyPDP/algorithms/ice.py:210-214).
    No proofs here.

    [samples.repeat] keeps the element type of the array, and numpy converts silently when
    values are assigned into an existing array.  The float64 arrays that the samplers of
    pyPDP produce are the case modelled in IceModel.v; here integer and boolean arrays are
    added, and Python lists (which have no [repeat]). *)
From Verif Require Import Base Num NumpyModel ConfigSpaceModel UtilsModel IceModel.

Section Dtype.
Context {N : Num}.

(** what is passed as [samples]: pyPDP/algorithms/__init__.py:14, 20-21 (no conversion, no
    check; len() works for all of them).  float32 arrays and object arrays are left out. *)
Inductive samples_kind := KArrayFloat | KArrayInt | KArrayBool | KList.

(** the value stored when a float is assigned into an array of this type
    (pyPDP/algorithms/ice.py:214): float64 keeps it, integers drop the fraction, booleans
    test for non-zero.  Only grid values are converted; these lie in [0, 1], so dropping the
    fraction leaves 1 for 1 and 0 for everything below. *)
Definition stored (k : samples_kind) (x : N) : N :=
  match k with
  | KArrayFloat | KList => x
  | KArrayInt => if nle n1 x then n1 else n0
  | KArrayBool => if neqb x n0 then n0 else n1
  end.

(** the x values: pyPDP/algorithms/ice.py:203-214.  A list raises AttributeError at line 211,
    after the grid has been made. *)
Definition ice_x_of (k : samples_kind) (a : algorithm N) : res (list (list (list N))) :=
  idx <- get_selected_idx (a_sel a) (a_cs a) ;;
  x_s <- grid_points a ;;
  _ <- guard (match k with KList => false | _ => true end) AttributeError ;;
  let flat := np_repeat (num_grid_points a) (List.concat (a_samples a)) in
  x3 <- reshape3 n0 flat (num_samples a) (num_features a) (num_grid_points a) ;;
  Ok (assign_cols (transpose021 n0 (num_features a) (num_grid_points a) x3) idx (map (map (stored k)) x_s)).

(** ICE._calculate: pyPDP/algorithms/ice.py:200-232 *)
Definition ice_calculate_of (k : samples_kind) (a : algorithm N) (centered : bool) (predict : predictor N)
  : res (icedata N) :=
  x <- ice_x_of k a ;;
  ms <- predict (List.concat x) ;;
  y <- reshape2 n0 (fst ms) (num_samples a) (num_grid_points a) ;;
  stds <- reshape2 n0 (snd ms) (num_samples a) (num_grid_points a) ;;
  let variances := map (map (fun s => nmul s s)) stds in
  y' <- (if centered then center_rows (num_grid_points a) y else Ok y) ;;
  _ <- guard (Nat.eqb (List.length y') (num_samples a) && Nat.eqb (List.length variances) (num_samples a))
             AssertionError ;;
  Ok (mkice x y' variances).

End Dtype.
