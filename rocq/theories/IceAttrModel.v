(** IceAttrModel.v - an ICE object whose public attributes are assigned after construction
    (pyPDP/algorithms/__init__.py:11-26, pyPDP/algorithms/ice.py:159-257).  No proofs here.

    The docstring of [reset] (pyPDP/algorithms/ice.py:193-195) offers to do the calculations
    again "maybe with different number of samples or centered".  [num_samples] and
    [num_grid_points] are computed once in the constructor and [grid_points] is cached, so the
    object keeps several copies of the same information. *)
From Verif Require Import Base Num NumpyModel ConfigSpaceModel UtilsModel IceModel.

Section Attr.
Context {N : Num}.

(** the attributes of an ICE object: pyPDP/algorithms/__init__.py:19-26, pyPDP/algorithms/ice.py:172-177, 234 *)
Record xice := mkx {
  x_cs : cspace N;
  x_sel : list (hp N);                          (* selected_hyperparameter *)
  x_samples : list (list N);                    (* samples *)
  x_nsamples : nat;                             (* num_samples *)
  x_gpa : nat;                                  (* num_grid_points_per_axis *)
  x_ngrid : nat;                                (* num_grid_points *)
  x_centered : bool;
  x_predict : predictor N;                      (* surrogate_model.predict *)
  x_grid : option (nat * list (list N));        (* the cached grid_points: columns and rows *)
  x_x : option (list (list (list N)));
  x_y : option (list (list N));
  x_v : option (list (list N))
}.

(** ICE.__init__: pyPDP/algorithms/__init__.py:11-26, pyPDP/algorithms/ice.py:159-177 *)
Definition x_new (a : algorithm N) (p : predictor N) : xice :=
  mkx (a_cs a) (a_sel a) (a_samples a) (List.length (a_samples a)) (a_gpa a) (a_gpa a ^ List.length (a_sel a))
      false p None None None None.

(** storing the cached grid: pyPDP/algorithms/ice.py:234 (cached_property) *)
Definition with_grid (o : xice) (g : nat * list (list N)) : xice :=
  mkx (x_cs o) (x_sel o) (x_samples o) (x_nsamples o) (x_gpa o) (x_ngrid o) (x_centered o) (x_predict o)
      (Some g) (x_x o) (x_y o) (x_v o).
(** storing the caches (None after a reset): pyPDP/algorithms/ice.py:196-198, 228-230 *)
Definition with_caches (o : xice) x y v : xice :=
  mkx (x_cs o) (x_sel o) (x_samples o) (x_nsamples o) (x_gpa o) (x_ngrid o) (x_centered o) (x_predict o)
      (x_grid o) x y v.

(** grid_points: pyPDP/algorithms/ice.py:234-239; an exception is not cached *)
Definition x_grid_points (o : xice) : xice * res (nat * list (list N)) :=
  match x_grid o with
  | Some g => (o, Ok g)
  | None => match mesh_points (linspace n0 n1 (x_gpa o)) (List.length (x_sel o)) with
            | Ok rows => (with_grid o (List.length (x_sel o), rows), Ok (List.length (x_sel o), rows))
            | Err e => (o, Err e)
            end
  end.

(** numpy broadcasting of the grid to (num_grid_points, number of selected columns) in
    x_ice[:, :, idx] = x_s: a dimension of length 1 is repeated.  pyPDP/algorithms/ice.py:214 *)
Definition broadcast (g d : nat) (b : nat * list (list N)) : res (list (list N)) :=
  rows <- (if Nat.eqb (List.length (snd b)) g then Ok (snd b)
           else match snd b with [r] => Ok (repeat r g) | _ => Err ValueError end) ;;
  if Nat.eqb (fst b) d then Ok rows
  else if Nat.eqb (fst b) 1 then Ok (map (fun r => repeat (nth 0 r n0) d) rows) else Err ValueError.

(** pyPDP/algorithms/ice.py:205-232, once the grid is there *)
Definition x_compute (o : xice) (idx : list nat) (x_s : nat * list (list N)) : res (icedata N) :=
  let f := List.length (x_cs o) in
  x3 <- reshape3 n0 (np_repeat (x_ngrid o) (List.concat (x_samples o))) (x_nsamples o) f (x_ngrid o) ;;
  b <- broadcast (x_ngrid o) (List.length idx) x_s ;;
  let x := assign_cols (transpose021 n0 f (x_ngrid o) x3) idx b in
  ms <- x_predict o (List.concat x) ;;
  y <- reshape2 n0 (fst ms) (x_nsamples o) (x_ngrid o) ;;
  stds <- reshape2 n0 (snd ms) (x_nsamples o) (x_ngrid o) ;;
  let variances := map (map (fun s => nmul s s)) stds in
  y' <- (if x_centered o then center_rows (x_ngrid o) y else Ok y) ;;
  _ <- guard (Nat.eqb (List.length y') (x_nsamples o) && Nat.eqb (List.length variances) (x_nsamples o))
             AssertionError ;;
  Ok (mkice x y' variances).

(** ICE._calculate: pyPDP/algorithms/ice.py:200-232 *)
Definition x_calculate (o : xice) : xice * res unit :=
  match get_selected_idx (x_sel o) (x_cs o) with
  | Err e => (o, Err e)
  | Ok idx =>
    let (o1, g) := x_grid_points o in
    match g with
    | Err e => (o1, Err e)
    | Ok x_s => match x_compute o1 idx x_s with
                | Ok d => (with_caches o1 (Some (i_x d)) (Some (i_y d)) (Some (i_v d)), Ok tt)
                | Err e => (o1, Err e)
                end
    end
  end.

(** the properties x_ice, y_ice, y_variances: pyPDP/algorithms/ice.py:241-257 *)
Definition x_read {A} (f : xice -> option A) (o : xice) : xice * res A :=
  match f o with
  | Some v => (o, Ok v)
  | None => let (o1, r) := x_calculate o in
            (o1, match r with
                 | Err e => Err e
                 | Ok _ => match f o1 with Some v => Ok v | None => Err AssertionError end
                 end)
  end.

(** operations: those of IceModel.v, reading grid_points, and assignments to the attributes
    set in pyPDP/algorithms/__init__.py:20-26 *)
Inductive xop := XIce (op : ice_op N) | XReadGrid
  | XSamples (s : list (list N)) | XNumSamples (n : nat) | XGpa (n : nat) | XNumGrid (n : nat).
(** what they return: pyPDP/algorithms/ice.py:234-257 *)
Inductive xout := YIce (r : ice_out N) | YGrid (r : res (list (list N))) | YNone.
(** one operation: pyPDP/algorithms/ice.py:172, 192-198, 234-257, pyPDP/algorithms/__init__.py:20-26 *)
Definition x_step (o : xice) (op : xop) : xice * xout :=
  match op with
  | XIce OReadX => let (o', r) := x_read x_x o in (o', YIce (ROutX r))
  | XIce OReadY => let (o', r) := x_read x_y o in (o', YIce (ROutY r))
  | XIce OReadV => let (o', r) := x_read x_v o in (o', YIce (ROutV r))
  | XIce OReset => (with_caches o None None None, YIce RNone)
  | XIce (OCenter b) =>
      (mkx (x_cs o) (x_sel o) (x_samples o) (x_nsamples o) (x_gpa o) (x_ngrid o) b (x_predict o)
           (x_grid o) (x_x o) (x_y o) (x_v o), YIce RNone)
  | XIce (ORefit p) =>
      (mkx (x_cs o) (x_sel o) (x_samples o) (x_nsamples o) (x_gpa o) (x_ngrid o) (x_centered o) p
           (x_grid o) (x_x o) (x_y o) (x_v o), YIce RNone)
  | XReadGrid => let (o', r) := x_grid_points o in
                 (o', YGrid (match r with Ok g => Ok (snd g) | Err e => Err e end))
  | XSamples s =>
      (mkx (x_cs o) (x_sel o) s (x_nsamples o) (x_gpa o) (x_ngrid o) (x_centered o) (x_predict o)
           (x_grid o) (x_x o) (x_y o) (x_v o), YNone)
  | XNumSamples n =>
      (mkx (x_cs o) (x_sel o) (x_samples o) n (x_gpa o) (x_ngrid o) (x_centered o) (x_predict o)
           (x_grid o) (x_x o) (x_y o) (x_v o), YNone)
  | XGpa n =>
      (mkx (x_cs o) (x_sel o) (x_samples o) (x_nsamples o) n (x_ngrid o) (x_centered o) (x_predict o)
           (x_grid o) (x_x o) (x_y o) (x_v o), YNone)
  | XNumGrid n =>
      (mkx (x_cs o) (x_sel o) (x_samples o) (x_nsamples o) (x_gpa o) n (x_centered o) (x_predict o)
           (x_grid o) (x_x o) (x_y o) (x_v o), YNone)
  end.
(** any history of operations (pyPDP/algorithms/ice.py:159-257) *)
Fixpoint x_run (o : xice) (ops : list xop) : xice * list xout :=
  match ops with
  | [] => (o, [])
  | op :: t => let (o1, r) := x_step o op in let (o2, rs) := x_run o1 t in (o2, r :: rs)
  end.

End Attr.

Arguments xice : clear implicits.
Arguments xop : clear implicits.
Arguments xout : clear implicits.
