(** IceModel.v - pyPDP/algorithms/__init__.py, pyPDP/algorithms/ice.py, pyPDP/algorithms/pdp.py *)
From Verif Require Import Base Num NumpyModel ConfigSpaceModel UtilsModel.

Section Ice.
Context {N : Num}.

(** SurrogateModel.predict on a batch of rows: means and standard deviations
    (pyPDP/surrogate_models/__init__.py:39-47); may raise. *)
Definition predictor := list (list N) -> res (list N * list N).

(** The immutable part of Algorithm: pyPDP/algorithms/__init__.py:11-26.
    [self.config_space] is a copy of the surrogate's space with the same
    hyperparameters (only its random state differs), so one [cspace] serves for both. *)
Record algorithm := mkalg {
  a_cs : cspace N;
  a_sel : list (hp N);            (* selected_hyperparameter *)
  a_samples : list (list N);      (* rows of the samples array *)
  a_gpa : nat                     (* num_grid_points_per_axis *)
}.

(** Algorithm.__init__: pyPDP/algorithms/__init__.py:11-26 *)
Definition algorithm_new (cs : cspace N) (s : selection N) (samples : list (list N)) (gpa : nat)
  : res algorithm :=
  sel <- convert_hyperparameters s cs ;;
  Ok (mkalg cs sel samples gpa).

(** n_selected_hyperparameter: pyPDP/algorithms/__init__.py:48-50 *)
Definition n_selected (a : algorithm) : nat := List.length (a_sel a).
(** num_grid_points: pyPDP/algorithms/__init__.py:26 *)
Definition num_grid_points (a : algorithm) : nat := a_gpa a ^ n_selected a.
(** num_samples: pyPDP/algorithms/__init__.py:21 *)
Definition num_samples (a : algorithm) : nat := List.length (a_samples a).
(** num_features: pyPDP/algorithms/__init__.py:52-54 *)
Definition num_features (a : algorithm) : nat := List.length (a_cs a).

(** ICE.grid_points: pyPDP/algorithms/ice.py:234-239 (a cached_property of
    immutable inputs, so the caching is not observable) *)
Definition grid_points (a : algorithm) : res (list (list N)) :=
  mesh_points (linspace n0 n1 (a_gpa a)) (n_selected a).

(** the x values: pyPDP/algorithms/ice.py:203-214 *)
Definition ice_x (a : algorithm) : res (list (list (list N))) :=
  idx <- get_selected_idx (a_sel a) (a_cs a) ;;
  x_s <- grid_points a ;;
  let flat := np_repeat (num_grid_points a) (List.concat (a_samples a)) in
  x3 <- reshape3 n0 flat (num_samples a) (num_features a) (num_grid_points a) ;;
  Ok (assign_cols (transpose021 n0 (num_features a) (num_grid_points a) x3) idx x_s).

(** y_ice -= y_start: pyPDP/algorithms/ice.py:222-225 *)
Definition center_rows (g : nat) (y : list (list N)) : res (list (list N)) :=
  if Nat.eqb g 0 then Err IndexError else
  y_start <- reshape2 n0 (np_repeat g (column n0 0 y)) (List.length y) g ;;
  Ok (map (fun p => map (fun q => nsub (fst q) (snd q)) (combine (fst p) (snd p))) (combine y y_start)).

(** Result of a calculation: x_ice, y_ice, y_variances.  pyPDP/algorithms/ice.py:228-232 *)
Record icedata := mkice { i_x : list (list (list N)); i_y : list (list N); i_v : list (list N) }.

(** ICE._calculate: pyPDP/algorithms/ice.py:200-232 *)
Definition ice_calculate (a : algorithm) (centered : bool) (predict : predictor) : res icedata :=
  x <- ice_x a ;;
  ms <- predict (List.concat x) ;;
  y <- reshape2 n0 (fst ms) (num_samples a) (num_grid_points a) ;;
  stds <- reshape2 n0 (snd ms) (num_samples a) (num_grid_points a) ;;
  let variances := map (map (fun s => nmul s s)) stds in
  y' <- (if centered then center_rows (num_grid_points a) y else Ok y) ;;
  _ <- guard (Nat.eqb (List.length y') (num_samples a) && Nat.eqb (List.length variances) (num_samples a))
             AssertionError ;;
  Ok (mkice x y' variances).

(** The mutable ICE object together with the current state of its surrogate:
    pyPDP/algorithms/ice.py:172-177.  The three caches are separate fields. *)
Record ice := mkiceobj {
  ic_alg : algorithm;
  ic_centered : bool;
  ic_predict : predictor;
  ic_x : option (list (list (list N)));
  ic_y : option (list (list N));
  ic_v : option (list (list N))
}.

(** ICE.__init__: pyPDP/algorithms/ice.py:159-177 *)
Definition ice_new (a : algorithm) (p : predictor) : ice := mkiceobj a false p None None None.

(** ICE.reset: pyPDP/algorithms/ice.py:192-198 *)
Definition ice_reset (o : ice) : ice :=
  mkiceobj (ic_alg o) (ic_centered o) (ic_predict o) None None None.

(** _calculate as a method: stores the three results (pyPDP/algorithms/ice.py:228-230);
    an exception leaves the caches unchanged. *)
Definition ice_run (o : ice) : res ice :=
  d <- ice_calculate (ic_alg o) (ic_centered o) (ic_predict o) ;;
  Ok (mkiceobj (ic_alg o) (ic_centered o) (ic_predict o) (Some (i_x d)) (Some (i_y d)) (Some (i_v d))).

(** Properties x_ice, y_ice, y_variances: pyPDP/algorithms/ice.py:241-257.
    Each returns the new object state and the value read (or the exception). *)
Definition read_field {A} (f : ice -> option A) (o : ice) : ice * res A :=
  match f o with
  | Some x => (o, Ok x)
  | None => match ice_run o with
            | Ok o' => (o', match f o' with Some x => Ok x | None => Err AssertionError end)
            | Err e => (o, Err e)
            end
  end.
(** x_ice: pyPDP/algorithms/ice.py:241-245 *)
Definition read_x := read_field ic_x.
(** y_ice: pyPDP/algorithms/ice.py:247-251 *)
Definition read_y := read_field ic_y.
(** y_variances: pyPDP/algorithms/ice.py:253-257 *)
Definition read_v := read_field ic_v.

(** User-visible operations on an ICE object and its surrogate: setting
    [centered] (pyPDP/algorithms/ice.py:172), reset (192), the reads (241-257),
    and re-fitting the surrogate (pyPDP/surrogate_models/__init__.py:49-56). *)
Inductive ice_op := OReadX | OReadY | OReadV | OReset | OCenter (b : bool) | ORefit (p : predictor).
(** what the operations return: pyPDP/algorithms/ice.py:241-257 (reset and assignments return nothing) *)
Inductive ice_out := ROutX (r : res (list (list (list N)))) | ROutY (r : res (list (list N)))
                   | ROutV (r : res (list (list N))) | RNone.
(** one operation: pyPDP/algorithms/ice.py:172, 192-198, 241-257, pyPDP/surrogate_models/__init__.py:49-56 *)
Definition ice_step (o : ice) (op : ice_op) : ice * ice_out :=
  match op with
  | OReadX => let (o', r) := read_x o in (o', ROutX r)
  | OReadY => let (o', r) := read_y o in (o', ROutY r)
  | OReadV => let (o', r) := read_v o in (o', ROutV r)
  | OReset => (ice_reset o, RNone)
  | OCenter b => (mkiceobj (ic_alg o) b (ic_predict o) (ic_x o) (ic_y o) (ic_v o), RNone)
  | ORefit p => (mkiceobj (ic_alg o) (ic_centered o) p (ic_x o) (ic_y o) (ic_v o), RNone)
  end.
(** any history of operations on one object (pyPDP/algorithms/ice.py:172-257) *)
Fixpoint ice_run_ops (o : ice) (ops : list ice_op) : ice * list ice_out :=
  match ops with
  | [] => (o, [])
  | op :: t => let (o1, r) := ice_step o op in
               let (o2, rs) := ice_run_ops o1 t in (o2, r :: rs)
  end.

(** PDP.x_pdp / y_pdp / y_variances: means over axis 0 of the ICE arrays,
    pyPDP/algorithms/pdp.py:57-67.  [g] is the number of grid points, [f] the
    number of features. *)
Definition mean3_axis0 (g f : nat) (x : list (list (list N))) : list (list N) :=
  map (fun k => map (fun j => nmean (map (fun m => nth j (nth k m []) n0) x)) (seq 0 f)) (seq 0 g).
(** x_pdp: pyPDP/algorithms/pdp.py:57-59 *)
Definition x_pdp (a : algorithm) (d : icedata) : list (list N) :=
  mean3_axis0 (num_grid_points a) (num_features a) (i_x d).
(** y_pdp: pyPDP/algorithms/pdp.py:61-63 *)
Definition y_pdp (a : algorithm) (d : icedata) : list N := mean_axis0 (num_grid_points a) (i_y d).
(** y_variances: pyPDP/algorithms/pdp.py:65-67 *)
Definition v_pdp (a : algorithm) (d : icedata) : list N := mean_axis0 (num_grid_points a) (i_v d).

(** The PDP object: pyPDP/algorithms/pdp.py:13-67.  Its three arrays are
    cached_property values, each filled by its own first read; the ICE object
    behind it (PDP.ice, or the one given to from_ICE, line 54) is shared with
    the user, who can go on operating on it. *)
Record pdp := mkpdp { pd_ice : ice; pd_x : option (list (list N)); pd_y : option (list N); pd_v : option (list N) }.
(** PDP.__init__ (pyPDP/algorithms/pdp.py:14-27) with the lazily created ICE of lines 29-39 *)
Definition pdp_new (a : algorithm) (p : predictor) : pdp := mkpdp (ice_new a p) None None None.
(** PDP.from_ICE: pyPDP/algorithms/pdp.py:45-55 *)
Definition pdp_from_ice (o : ice) : pdp := mkpdp o None None None.
(** what a user can do: operate on the shared ICE object, or read x_pdp, y_pdp, y_variances
    (pyPDP/algorithms/pdp.py:29-39, 57-67) *)
Inductive pdp_op := PIce (op : ice_op) | PX | PY | PV.
(** what those operations return (pyPDP/algorithms/pdp.py:57-67) *)
Inductive pdp_out := POIce (r : ice_out) | POX (r : res (list (list N))) | POY (r : res (list N)) | POV (r : res (list N)).
(** one operation; a cached_property is computed once, from the ICE object as it is then:
    pyPDP/algorithms/pdp.py:57-67 *)
Definition pdp_step (s : pdp) (op : pdp_op) : pdp * pdp_out :=
  let a := ic_alg (pd_ice s) in
  match op with
  | PIce o => let (i', r) := ice_step (pd_ice s) o in (mkpdp i' (pd_x s) (pd_y s) (pd_v s), POIce r)
  | PX => match pd_x s with
          | Some x => (s, POX (Ok x))
          | None => let (i', r) := read_x (pd_ice s) in
                    match r with
                    | Ok d => let m := mean3_axis0 (num_grid_points a) (num_features a) d in
                              (mkpdp i' (Some m) (pd_y s) (pd_v s), POX (Ok m))
                    | Err e => (mkpdp i' None (pd_y s) (pd_v s), POX (Err e))
                    end
          end
  | PY => match pd_y s with
          | Some y => (s, POY (Ok y))
          | None => let (i', r) := read_y (pd_ice s) in
                    match r with
                    | Ok d => let m := mean_axis0 (num_grid_points a) d in
                              (mkpdp i' (pd_x s) (Some m) (pd_v s), POY (Ok m))
                    | Err e => (mkpdp i' (pd_x s) None (pd_v s), POY (Err e))
                    end
          end
  | PV => match pd_v s with
          | Some v => (s, POV (Ok v))
          | None => let (i', r) := read_v (pd_ice s) in
                    match r with
                    | Ok d => let m := mean_axis0 (num_grid_points a) d in
                              (mkpdp i' (pd_x s) (pd_y s) (Some m), POV (Ok m))
                    | Err e => (mkpdp i' (pd_x s) (pd_y s) None, POV (Err e))
                    end
          end
  end.
(** any history of operations on one object (pyPDP/algorithms/pdp.py:13-67) *)
Fixpoint pdp_run (s : pdp) (ops : list pdp_op) : pdp * list pdp_out :=
  match ops with
  | [] => (s, [])
  | op :: t => let (s1, r) := pdp_step s op in let (s2, rs) := pdp_run s1 t in (s2, r :: rs)
  end.

(** np.min / np.max over axis 0 of a 2-d array with [f] columns (ValueError
    without rows), pyPDP/algorithms/ice.py:142-143 *)
Definition fold1 (op : N -> N -> N) (l : list N) : res N :=
  match l with [] => Err ValueError | x :: t => Ok (fold_left op t x) end.
(** np.min(x, axis=0), np.max(x, axis=0): pyPDP/algorithms/ice.py:142-143 *)
Definition reduce_axis0 (op : N -> N -> N) (f : nat) (x : list (list N)) : res (list N) :=
  mapM (fun j => fold1 op (column n0 j x)) (seq 0 f).

(** One hyperparameter of the result of ICECurve.implied_config_space.  pyPDP/algorithms/ice.py:147-150 *)
Inductive ihp := IConst (name : string) (v : N) | IUniform (name : string) (lo up : N) (log : bool).
(** the loop body, pyPDP/algorithms/ice.py:145-151.  Constructing an integer
    hyperparameter from non-integral bounds raises ValueError (ConfigSpace's
    check_int, whose tolerance of 1e-8 is not modelled). *)
Definition implied_hp (h : hp N) (lo up : N) : res ihp :=
  _ <- guard (is_numerical h) AssertionError ;;
  if neqb lo up then Ok (IConst (hp_name h) lo)
  else lg <- hp_log h ;;
       match hp_kind h with
       | KInt _ _ _ => if neqb (nround lo) lo && neqb (nround up) up
                       then Ok (IUniform (hp_name h) lo up lg) else Err ValueError
       | _ => Ok (IUniform (hp_name h) lo up lg)
       end.
(** ICECurve.implied_config_space: pyPDP/algorithms/ice.py:139-153 *)
Definition curve_implied_space (cs : cspace N) (x : list (list N)) : res (list ihp) :=
  mn <- reduce_axis0 np_minimum (List.length cs) x ;;
  umn <- unscale (A1 mn) cs ;;
  mx <- reduce_axis0 np_maximum (List.length cs) x ;;
  umx <- unscale (A1 mx) cs ;;
  match umn, umx with
  | A1 l, A1 u => mapM (fun q => implied_hp (fst q) (fst (snd q)) (snd (snd q))) (combine cs (combine l u))
  | _, _ => Err TypeError
  end.

End Ice.

Arguments predictor : clear implicits.
Arguments algorithm : clear implicits.
Arguments icedata : clear implicits.
Arguments ice : clear implicits.
Arguments ice_op : clear implicits.
Arguments ice_out : clear implicits.
Arguments pdp : clear implicits.
Arguments pdp_op : clear implicits.
Arguments pdp_out : clear implicits.
Arguments ihp : clear implicits.
