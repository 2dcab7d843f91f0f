(** DrawModel.v - what the plotting code draws: pyPDP/utils/plotting.py, pyPDP/utils/advanced_plots.py and the
    plot methods of ICE curves, ICE, PDP, regions, partitioners, samplers, acquisition functions and
    surrogate models.

    A matplotlib axis is its labels, scales and limits (PlottingModel.v) and the list of things drawn on
    it.  Labels of legends, markers, titles, line styles and the layout of figures are left out.  Colours
    are values of an arbitrary type; resolving a colour (get_color, plotting.py:15-20) is taken to
    succeed.  get_ax (plotting.py:28-38) returns the axis it is given. *)
From Verif Require Import Base Num NumpyModel ConfigSpaceModel UtilsModel IceModel PartitionModel ForestModel SamplerModel
  AcquisitionModel PlottingModel.

Section Draw.
Context {N : Num}.
Context {Col : Type}.

(** the calls of matplotlib that draw something (plotting.py:163-296, ice.py:272, acquisition_function.py:87,
    sampler/__init__.py:222-233, surrogate_models/__init__.py:126, 162); coordinates are data coordinates *)
Inductive cmd :=
| CPlot (xs ys : list N) (alpha : option N)             (* ax.plot(xs, ys): one point per index *)
| CFill (xs lo up : list N)                             (* ax.fill_between(xs, lo, up) *)
| CMesh (xs ys : list N) (z : list (list N))            (* ax.pcolormesh: z[i][j] at (xs[j], ys[i]) *)
| CTri (xs ys vs : list N)                              (* ax.tripcolor and ax.tricontour: vs[i] at (xs[i], ys[i]) *)
| CVline (x : N)                                        (* ax.axvline *)
| CVspan (lo up alpha : N)                              (* ax.axvspan *)
| CRect (x1 x2 y1 y2 alpha : N)                         (* ax.fill_betweenx(y=[y1, y2], x1, x2) *)
| CScatter (xs ys : list N)                             (* ax.scatter *)
| CNote (x y : N).                                      (* ax.annotate *)

(** an axis and what was drawn on it, in order: the ax of every plot function, e.g. plotting.py:128-176 *)
Record canvas := mkcanvas { cv_axis : axis N; cv_drawn : list (Col * cmd) }.
(** a new axis: plt.figure, fig.gca, fig.add_subplot, plt.subplots at advanced_plots.py:19-22, 42-44, 65-66, 94,
    119-120 *)
Definition blank : canvas := mkcanvas fresh_axis [].

(** statements on an axis: a new state and a value or an exception
    (the bodies of the plot functions, e.g. plotting.py:128-300) *)
Definition D (A : Type) := canvas -> canvas * res A.
(** nothing left to do, e.g. the end of plotting.py:217-230 *)
Definition ret {A} (a : A) : D A := fun c => (c, Ok a).
(** raise, e.g. plotting.py:141, 143, 281, 291, 299 *)
Definition raise {A} (e : err) : D A := fun c => (c, Err e).
(** a computation that does not draw, e.g. plotting.py:145, 191, 214, 259 *)
Definition lift {A} (r : res A) : D A := fun c => (c, r).
(** one statement after the other; an exception ends the function and keeps what is drawn, e.g. plotting.py:257-300 *)
Definition bindD {A B} (m : D A) (k : A -> D B) : D B :=
  fun c => match m c with (c', Ok a) => k a c' | (c', Err e) => (c', Err e) end.
Notation "x <-- m ;;; k" := (bindD m (fun x => k)) (at level 61, m at next level, right associativity).
Notation "m ;;; k" := (bindD m (fun _ => k)) (at level 61, right associativity).
(** a for loop: plotting.py:193, 221, decision_tree_partitioner.py:323, random_forest_partitioner.py:143 *)
Fixpoint forD {A} (l : list A) (f : A -> D unit) : D unit :=
  match l with [] => ret tt | a :: t => f a ;;; forD t f end.

(** a call of matplotlib that draws, e.g. plotting.py:152, 163, 176, 195, 267-269, 293 *)
Definition emit (color : Col) (x : cmd) : D unit :=
  fun c => (mkcanvas (cv_axis c) (cv_drawn c ++ [(color, x)]), Ok tt).
(** check_and_set_axis (plotting.py:41-96) on the canvas *)
Definition set_axis (hps : list (hp N)) (set_bounds : bool) (ylabel : string) : D unit :=
  fun c => let (ax, r) := check_and_set_axis (cv_axis c) hps set_bounds ylabel in (mkcanvas ax (cv_drawn c), r).

(** matplotlib: an alpha outside 0..1 raises ValueError (plotting.py:199, 219, 229-230, ice.py:272) *)
Definition valid_alpha (a : N) : bool := nle n0 a && nle a n1.
(** matplotlib: ax.plot(x, y, alpha) raises ValueError for arrays of different lengths:
    plotting.py:219, 229-230 *)
Definition ax_plot (color : Col) (xs ys : list N) (alpha : option N) : D unit :=
  _ <-- lift (guard (Nat.eqb (length xs) (length ys)) ValueError) ;;;
  _ <-- lift (match alpha with Some a => guard (valid_alpha a) ValueError | None => Ok tt end) ;;;
  emit color (CPlot xs ys alpha).
(** matplotlib: ax.fill_between raises ValueError for arrays of different lengths: plotting.py:195-200 *)
Definition ax_fill (color : Col) (xs lo up : list N) : D unit :=
  _ <-- lift (guard (Nat.eqb (length xs) (length lo) && Nat.eqb (length lo) (length up)) ValueError) ;;;
  emit color (CFill xs lo up).
(** matplotlib: ax.pcolormesh raises TypeError when the shapes do not fit: plotting.py:163,
    surrogate_models/__init__.py:126, 162 *)
Definition ax_mesh (color : Col) (xs ys : list N) (z : list (list N)) : D unit :=
  _ <-- lift (guard (Nat.eqb (length ys) (length z) && forallb (fun r => Nat.eqb (length r) (length xs)) z) TypeError) ;;;
  emit color (CMesh xs ys z).
(** matplotlib's Delaunay triangulation: ValueError for fewer than three points, RuntimeError when all
    points are on one line (ax.tricontour, plotting.py:245) *)
Definition cross (p q r : N * N) : N :=
  nsub (nmul (nsub (fst q) (fst p)) (nsub (snd r) (snd p))) (nmul (nsub (snd q) (snd p)) (nsub (fst r) (fst p))).
(** points on one line: the triangulation of plot_2D, plotting.py:242, 245 *)
Definition collinear (ps : list (N * N)) : bool :=
  match ps with [] => true | p :: t => forallb (fun q => forallb (fun r => neqb (cross p q r) n0) t) t end.

(** ** pyPDP/utils/plotting.py *)

(** plot_line: plotting.py:168-176 *)
Definition plot_line (color : Col) (xs ys : list N) : D unit := ax_plot color xs ys None.

(** 0.2 and 0.3: plotting.py:199, 219, 229-230 *)
Definition tenths (z : Z) : N := ndiv (nofZ z) (nofZ 10).

(** plot_1D_confidence_color_gradients: plotting.py:179-201 *)
Definition plot_gradients (color : Col) (x means : list N) (stds variances : option (list N)) (steps : nat) (max_sigma : N) : D unit :=
  sd <-- lift (get_stds stds variances) ;;;
  forD (seq 0 steps) (fun i =>
    let sigma_factor := nmul (ndiv (nofZ (Z.of_nat i)) (nofZ (Z.of_nat steps))) max_sigma in
    y1 <-- lift (elementwise (fun m s => nsub m (nmul sigma_factor s)) means sd) ;;;
    y2 <-- lift (elementwise (fun m s => nadd m (nmul sigma_factor s)) means sd) ;;;
    ax_fill color x y1 y2).

(** an iterable of numbers: one that can be read again (a tuple, a list) or an iterator (a generator):
    k_sigmas: plotting.py:210 *)
Inductive kiter := KTuple (l : list N) | KOnce (l : list N).
(** all values of k_sigmas, as [0 in k_sigmas] sees them: plotting.py:218 *)
Definition kiter_list (k : kiter) : list N := match k with KTuple l | KOnce l => l end.
(** [0 in k_sigmas] (plotting.py:218) reads an iterator up to the first 0 *)
Definition has_zero (l : list N) : bool := existsb (fun k => neqb k n0) l.
(** what is left of an iterator after [0 in k_sigmas]: plotting.py:218, 221 *)
Fixpoint after_zero (l : list N) : list N :=
  match l with [] => [] | k :: t => if neqb k n0 then t else after_zero t end.
(** what sorted(k_sigmas) sees after the test of line 218: plotting.py:221 *)
Definition rest_of (k : kiter) : list N := match k with KTuple l => l | KOnce l => after_zero l end.
(** sorted(..): plotting.py:221 *)
Fixpoint insert (x : N) (l : list N) : list N :=
  match l with [] => [x] | y :: t => if nlt y x then y :: insert x t else x :: l end.
(** sorted(k_sigmas): plotting.py:221 *)
Definition py_sorted (l : list N) : list N := fold_right insert [] l.

(** plot_1D_confidence_lines: plotting.py:204-230 *)
Definition plot_lines (color : Col) (x means : list N) (stds variances : option (list N)) (k_sigmas : kiter) : D unit :=
  sd <-- lift (get_stds stds variances) ;;;
  _ <-- (if has_zero (kiter_list k_sigmas) then ax_plot color x means (Some (tenths 3)) else ret tt) ;;;
  forD (py_sorted (rest_of k_sigmas)) (fun k =>
    if neqb k n0 then ret tt else
    let alpha := nmul (ndiv n1 k) (tenths 2) in
    lo <-- lift (elementwise (fun m s => nsub m (nmul k s)) means sd) ;;;
    _ <-- ax_plot color x lo (Some alpha) ;;;
    up <-- lift (elementwise (fun m s => nadd m (nmul k s)) means sd) ;;;
    ax_plot color x up (Some alpha)).

(** plot_2D: plotting.py:233-246 *)
Definition plot_2D (color : Col) (xs ys vs : list N) : D unit :=
  _ <-- lift (guard (Nat.eqb (length xs) (length ys) && Nat.leb 3 (length xs)) ValueError) ;;;
  _ <-- lift (guard (negb (collinear (combine xs ys))) RuntimeError) ;;;
  _ <-- lift (guard (Nat.eqb (length vs) (length xs)) ValueError) ;;;
  emit color (CTri xs ys vs).

(** bounds of one axis of the box and its alpha: plotting.py:273-291.  A Constant with a string value is
    not modelled (TypeError here). *)
Definition box_side (h : hp N) (alpha : N) : res (N * N * N) :=
  match hp_kind h with
  | KFloat _ _ _ | KInt _ _ _ => lo <- hp_lower h ;; up <- hp_upper h ;; Ok (lo, up, alpha)
  | KConst (VNum v) => Ok (v, v, n1)
  | _ => Err TypeError
  end.
(** plot_config_space: plotting.py:249-300 *)
Definition plot_config_space (color : Col) (cs : cspace N) (sel : selection N) (alpha : N) : D unit :=
  hps <-- lift (get_hyperparameters sel cs) ;;;
  _ <-- set_axis hps false "Prediction" ;;;
  match hps with
  | [h] =>
      _ <-- lift (guard (is_numerical h) AssertionError) ;;;
      lo <-- lift (hp_lower h) ;;;
      up <-- lift (hp_upper h) ;;;
      _ <-- emit color (CVline lo) ;;;
      _ <-- emit color (CVline up) ;;;
      _ <-- lift (guard (valid_alpha alpha) ValueError) ;;;
      emit color (CVspan lo up alpha)
  | [h1; h2] =>
      s1 <-- lift (box_side h1 alpha) ;;;
      s2 <-- lift (box_side h2 (snd s1)) ;;;
      _ <-- lift (guard (valid_alpha (snd s2)) ValueError) ;;;
      emit color (CRect (fst (fst s1)) (snd (fst s1)) (fst (fst s2)) (snd (fst s2)) (snd s2))
  | _ => raise NotImplementedError
  end.

(** np.meshgrid(x, y) and reshape(-1) of both results: plotting.py:156-158 *)
Definition mesh_flat_x (x y : list N) : list N := List.concat (map (fun _ => x) y).
(** yy.reshape(-1): plotting.py:156-158 *)
Definition mesh_flat_y (x y : list N) : list N := List.concat (map (fun v => repeat v (length x)) y).
(** isinstance(hp, CSH.Constant): plotting.py:137-138 *)
Definition is_constant (h : hp N) : bool := match hp_kind h with KConst _ => true | _ => false end.
(** hp.value of a Constant: plotting.py:137 *)
Definition constants_of (cs : cspace N) : config N :=
  flat_map (fun h => match hp_kind h with KConst v => [(hp_name h, v)] | _ => [] end) cs.
(** plot_function: plotting.py:128-165; [f] is called with keyword arguments and has a name *)
Definition plot_function (color : Col) (f : config N -> res N) (cs : cspace N) (samples_per_axis : nat) : D unit :=
  let constants := constants_of cs in
  let parameters := filter (fun h => negb (is_constant h)) cs in
  _ <-- lift (guard (Nat.leb (length parameters) 2) ValueError) ;;;
  _ <-- lift (guard (negb (Nat.eqb (length parameters) 0)) ValueError) ;;;
  ranges <-- lift (get_ranges parameters samples_per_axis false) ;;;
  x <-- lift (py_nth ranges 0) ;;;
  _ <-- set_axis parameters true "Prediction" ;;;
  match parameters with
  | [p] =>
      y <-- lift (mapM (fun v => f ((hp_name p, VNum v) :: constants)) x) ;;;
      ax_plot color x y None
  | [p; q] =>
      y <-- lift (py_nth ranges 1) ;;;
      z <-- lift (mapM (fun v => f ((hp_name p, VNum (fst v)) :: (hp_name q, VNum (snd v)) :: constants))
                       (combine (mesh_flat_x x y) (mesh_flat_y x y))) ;;;
      z' <-- lift (reshape2 n0 z (length y) (length x)) ;;;
      ax_mesh color x y z'
  | _ => raise NotImplementedError
  end.

(** ** ICECurve: algorithms/ice.py:19-153 *)
Record curve := mkcurve { cu_cs : cspace N; cu_sel : list (hp N); cu_x : list (list N); cu_y : list N; cu_v : list N }.
(** x_unscaled: ice.py:46, 70, 107 *)
Definition unscale2 (x : list (list N)) (cs : cspace N) : res (list (list N)) :=
  r <- unscale (A2 x) cs ;; match r with A2 a => Ok a | _ => Err TypeError end.
(** unscale of a three-dimensional array: ice.py:269, decision_tree_partitioner.py:181 *)
Definition unscale3 (x : list (list (list N))) (cs : cspace N) : res (list (list (list N))) :=
  r <- unscale (A3 x) cs ;; match r with A3 a => Ok a | _ => Err TypeError end.

(** plot_values: ice.py:39-60 *)
Definition curve_plot_values (color : Col) (c : curve) : D unit :=
  _ <-- set_axis (cu_sel c) true "Prediction" ;;;
  idx <-- lift (get_selected_idx (cu_sel c) (cu_cs c)) ;;;
  xu <-- lift (unscale2 (cu_x c) (cu_cs c)) ;;;
  match idx with
  | [i] => plot_line color (column n0 i xu) (cu_y c)
  | [i; j] => plot_2D color (column n0 i xu) (column n0 j xu) (cu_y c)
  | _ => raise NotImplementedError
  end.
(** plot_incumbent: ice.py:62-95 *)
Definition curve_plot_incumbent (color : Col) (c : curve) : D unit :=
  _ <-- set_axis (cu_sel c) true "Prediction" ;;;
  idx <-- lift (get_selected_idx (cu_sel c) (cu_cs c)) ;;;
  xu <-- lift (unscale2 (cu_x c) (cu_cs c)) ;;;
  _ <-- lift (guard (negb (Nat.eqb (length (cu_y c)) 0)) ValueError) ;;;
  let min_idx := np_arg nlt (cu_y c) in
  match idx with
  | [i] => row <-- lift (py_nth xu min_idx) ;;;
           x <-- lift (py_nth row i) ;;;
           emit color (CVline x)
  | [i; j] => row <-- lift (py_nth xu min_idx) ;;;
              x <-- lift (py_nth row i) ;;;
              y <-- lift (py_nth row j) ;;;
              _ <-- emit color (CScatter [x] [y]) ;;;
              emit color (CNote x y)
  | _ => raise NotImplementedError
  end.
(** plot_confidences: ice.py:97-137 *)
Definition curve_plot_confidences (line_color gradient_color : Col) (max_sigma : N) (c : curve) : D unit :=
  _ <-- set_axis (cu_sel c) true "Prediction" ;;;
  idx <-- lift (get_selected_idx (cu_sel c) (cu_cs c)) ;;;
  let sigmas := map nsqrt (cu_v c) in
  xu <-- lift (unscale2 (cu_x c) (cu_cs c)) ;;;
  match idx with
  | [i] => _ <-- plot_gradients gradient_color (column n0 i xu) (cu_y c) (Some sigmas) None 100 max_sigma ;;;
           plot_lines line_color (column n0 i xu) (cu_y c) (Some sigmas) None (KTuple [n1; nofZ 2])
  | [i; j] => plot_2D line_color (column n0 i xu) (column n0 j xu) sigmas
  | _ => raise NotImplementedError
  end.

(** one line per row of x[:, :, idx] and y, as ax.plot of their transposes: ice.py:272,
    decision_tree_partitioner.py:185 *)
Definition plot_rows (color : Col) (x : list (list (list N))) (i : nat) (y : list (list N)) (alpha : N) : D unit :=
  _ <-- lift (guard (Nat.eqb (length x) (length y)) ValueError) ;;;
  forD (combine x y) (fun p => ax_plot color (column n0 i (fst p)) (snd p) (Some alpha)).

(** ICE.plot: ice.py:259-278; returns the ICE object as well, whose arrays are filled by the reads *)
Definition ice_plot (color : Col) (alpha : N) (o : ice N) (cv : canvas) : ice N * (canvas * res unit) :=
  let a := ic_alg o in
  let (cv1, r1) := set_axis (a_sel a) true "Prediction" cv in
  match r1 with
  | Err e => (o, (cv1, Err e))
  | Ok _ =>
    match a_sel a with
    | [h] =>
      let (o1, rx) := read_x o in
      match rx with
      | Err e => (o1, (cv1, Err e))
      | Ok x =>
        match unscale3 x (a_cs a) with
        | Err e => (o1, (cv1, Err e))
        | Ok xu =>
          let (o2, ry) := read_y o1 in
          (o2, (y <-- lift ry ;;;
                i <-- lift (cs_idx (a_cs a) (hp_name h)) ;;;
                _ <-- plot_rows color xu i y alpha ;;;
                ax_plot color [] [] None) cv1)
        end
      end
    | _ => (o, (cv1, Err NotImplementedError))
    end
  end.

(** ** PDP: algorithms/pdp.py *)
(** as_ice_curve: pdp.py:69-78 (its arrays are cached, so the curve never changes either) *)
Definition pdp_curve (s : pdp N) : pdp N * res curve :=
  let (s1, rx) := pdp_step s PX in
  match rx with
  | POX (Ok x) =>
    let (s2, ry) := pdp_step s1 PY in
    match ry with
    | POY (Ok y) =>
      let (s3, rv) := pdp_step s2 PV in
      let a := ic_alg (pd_ice s) in
      (s3, match rv with POV (Ok v) => Ok (mkcurve (a_cs a) (a_sel a) x y v) | POV (Err e) => Err e | _ => Err TypeError end)
    | POY (Err e) => (s2, Err e)
    | _ => (s2, Err TypeError)
    end
  | POX (Err e) => (s1, Err e)
  | _ => (s1, Err TypeError)
  end.
(** plot_values: pdp.py:80-83 *)
Definition pdp_plot_values (color : Col) (s : pdp N) (cv : canvas) : pdp N * (canvas * res unit) :=
  let (s', r) := pdp_curve s in (s', (c <-- lift r ;;; curve_plot_values color c) cv).
(** plot_confidences: pdp.py:85-95 *)
Definition pdp_plot_confidences (line_color gradient_color : Col) (max_sigma : N) (s : pdp N) (cv : canvas) : pdp N * (canvas * res unit) :=
  let (s', r) := pdp_curve s in (s', (c <-- lift r ;;; curve_plot_confidences line_color gradient_color max_sigma c) cv).

(** plot_full_pdp: advanced_plots.py:36-52, with the default alpha 0.1 of ice.py:261 and max_sigma 1.5 of pdp.py:88 *)
Definition plot_full_pdp (red black blue : Col) (s : pdp N) : pdp N * (canvas * res unit) :=
  let (i1, w1) := ice_plot red (tenths 1) (pd_ice s) blank in
  let s1 := mkpdp i1 (pd_x s) (pd_y s) (pd_v s) in
  match w1 with
  | (cv1, Err e) => (s1, (cv1, Err e))
  | (cv1, Ok _) =>
    let (s2, w2) := pdp_plot_values black s1 cv1 in
    match w2 with
    | (cv2, Err e) => (s2, (cv2, Err e))
    | (cv2, Ok _) => pdp_plot_confidences black blue (ndiv (nofZ 3) (nofZ 2)) s2 cv2
    end
  end.

(** ** Regions and trees *)
(** Region.pdp_as_ice_curve: partitioner/__init__.py:101-114 *)
Definition region_curve (cs : cspace N) (sel : list (hp N)) (r : region N) : curve :=
  mkcurve cs sel (mean3_axis0 (width (r_x r)) (length cs) (r_x r)) (region_pdp_y r) (region_pdp_v r).
(** Region.plot_values: partitioner/__init__.py:116-117 *)
Definition region_plot_values (color : Col) (cs : cspace N) (sel : list (hp N)) (r : region N) : D unit :=
  curve_plot_values color (region_curve cs sel r).
(** plot_confidences: partitioner/__init__.py:119-128 *)
Definition region_plot_confidences (line_color gradient_color : Col) (max_sigma : N) (cs : cspace N) (sel : list (hp N)) (r : region N) : D unit :=
  curve_plot_confidences line_color gradient_color max_sigma (region_curve cs sel r).

(** DTRegion.plot: decision_tree_partitioner.py:171-191 *)
Definition region_plot (color : Col) (alpha : N) (cs : cspace N) (sel : list (hp N)) (r : region N) : D unit :=
  _ <-- set_axis sel true "Prediction" ;;;
  match sel with
  | [h] =>
      xu <-- lift (unscale3 (r_x r) cs) ;;;
      i <-- lift (cs_idx cs (hp_name h)) ;;;
      plot_rows color xu i (r_y r) alpha
  | _ => raise NotImplementedError
  end.
(** DecisionTreePartitioner.plot: decision_tree_partitioner.py:312-324; [random] are the colours that
    get_random_color (plotting.py:23-25) gives *)
Definition tree_plot (colors : option (list Col)) (random : nat -> Col) (alpha : N) (p : dtp N) : D unit :=
  _ <-- lift (guard (negb (Nat.eqb (length (d_leaves p)) 0)) AssertionError) ;;;
  let color_list := match colors with Some l => l | None => map random (seq 0 (length (d_leaves p))) end in
  _ <-- lift (guard (Nat.eqb (length color_list) (length (d_leaves p))) AssertionError) ;;;
  forD (combine (d_leaves p) color_list) (fun lc =>
    match deref p (fst lc) with
    | None => raise IndexError
    | Some nd => region_plot (snd lc) alpha (d_cs p) (d_sel p) (n_region nd)
    end).

(** Hyperparameter.__eq__ of ConfigSpace for a hyperparameter of the original space and one made by
    implied_config_space (used by the set difference, decision_tree_partitioner.py:335): same class, name,
    bounds, scale and default value.  [std h]: the default value of h is the one ConfigSpace chooses when
    none is given. *)
Definition same_hp (std : hp N -> bool) (h : hp N) (b : fbox N) : bool :=
  match hp_kind h with
  | KFloat lo up lg => String.eqb (hp_name h) (b_name b) && neqb lo (b_lower b) && neqb up (b_upper b) && Bool.eqb lg (b_log b) && std h
  | _ => false
  end.
(** sorted(.., key=lambda hp: hp.name): decision_tree_partitioner.py:335 *)
Fixpoint insert_box (b : fbox N) (l : list (fbox N)) : list (fbox N) :=
  match l with [] => [b] | c :: t => if String.ltb (b_name c) (b_name b) then c :: insert_box b t else b :: l end.
(** sorted(.., key=lambda hp: hp.name): decision_tree_partitioner.py:335 *)
Definition sort_boxes (l : list (fbox N)) : list (fbox N) := fold_right insert_box [] l.
(** the CSH.UniformFloatHyperparameter made for a box: decision_tree_partitioner.py:102, 111-116 *)
Definition hp_of_box (b : fbox N) : hp N := mkhp (b_name b) (KFloat (b_lower b) (b_upper b) (b_log b)).
(** plot_incumbent_cs: decision_tree_partitioner.py:326-336; None has no implied_config_space *)
Definition plot_incumbent_cs (std : hp N -> bool) (color : Col) (alpha : N) (p : dtp N) (incumbent : config N) : D unit :=
  r <-- lift (get_incumbent_region p incumbent) ;;;
  match r with
  | None => raise AttributeError
  | Some id =>
    match deref p id with
    | None => raise IndexError
    | Some nd =>
        boxes <-- lift (implied_config_space (d_cs p) (n_conds nd)) ;;;
        let not_selected := filter (fun b => negb (existsb (fun h => same_hp std h b) (d_sel p))) boxes in
        plot_config_space color (map hp_of_box boxes) (SelList (map (fun b => SHp (hp_of_box b)) (sort_boxes not_selected))) alpha
    end
  end.
(** RandomForestPartitioner.plot_incumbent_regions: random_forest_partitioner.py:133-144 (iterating None
    raises TypeError) *)
Definition plot_incumbent_regions (std : hp N -> bool) (colors : option (list Col)) (random : nat -> Col) (alpha : N)
    (f : forest N) (incumbent : config N) : D unit :=
  match f_trees f with
  | None => raise TypeError
  | Some trees =>
      let color_list := match colors with Some l => l | None => map random (seq 0 (length trees)) end in
      forD (combine trees color_list) (fun tc => plot_incumbent_cs std (snd tc) alpha (fst tc) incumbent)
  end.

(** ** SurrogateModel.plot_means, plot_confidences: surrogate_models/__init__.py:97-165 *)
(** np.asarray([xx, yy]).T.reshape(-1, 2) for xx, yy = np.meshgrid(l, l): entry (c, a, b) of the array is
    xx[a][b] (c = 0) or yy[a][b] (c = 1), entry (b, a, c) of its transpose the same:
    surrogate_models/__init__.py:123-124, 159-160 *)
Definition mesh_xx (l : list N) : list (list N) := map (fun _ => l) l.
(** yy of np.meshgrid(linspace, linspace): surrogate_models/__init__.py:123, 159 *)
Definition mesh_yy (l : list N) : list (list N) := map (fun v => map (fun _ => v) l) l.
(** m[a][b] of an array given as rows, as used by the reshapes of surrogate_models/__init__.py:124-126, 160-162 *)
Definition entry (m : list (list N)) (a b : nat) : N := nth b (nth a m []) n0.
(** np.asarray([xx, yy]).T.reshape(-1, 2): surrogate_models/__init__.py:124, 160 *)
Definition mesh_rows (l : list N) : list (list N) :=
  let n := length l in
  flat_map (fun b => map (fun a => [entry (mesh_xx l) a b; entry (mesh_yy l) a b]) (seq 0 n)) (seq 0 n).
(** a.T of an n x n array: surrogate_models/__init__.py:126, 162 *)
Definition transpose_sq (n : nat) (m : list (list N)) : list (list N) :=
  map (fun i => map (fun j => entry m j i) (seq 0 n)) (seq 0 n).

(** surrogate_models/__init__.py:97-129 (show = false) and :131-165 (show = true: the standard deviations) *)
Definition surrogate_plot (show_std : bool) (color line_color gradient_color : Col) (predict : predictor N) (cs : cspace N) (samples_per_axis : nat) : D unit :=
  _ <-- lift (guard (Nat.ltb (length cs) 3) AssertionError) ;;;
  _ <-- set_axis cs true "Prediction" ;;;
  ranges <-- lift (get_ranges cs samples_per_axis false) ;;;
  let l := linspace n0 n1 samples_per_axis in
  match cs with
  | [_] =>
      ms <-- lift (predict (map (fun v => [v]) l)) ;;;
      x <-- lift (py_nth ranges 0) ;;;
      if show_std
      then _ <-- plot_gradients gradient_color x (fst ms) (Some (snd ms)) None 100 (ndiv (nofZ 3) (nofZ 2)) ;;;
           plot_lines line_color x (fst ms) (Some (snd ms)) None (KTuple [n1; nofZ 2])
      else plot_line color x (fst ms)
  | [_; _] =>
      x <-- lift (py_nth ranges 0) ;;;
      y <-- lift (py_nth ranges 1) ;;;
      ms <-- lift (predict (mesh_rows l)) ;;;
      z <-- lift (reshape2 n0 (if show_std then snd ms else fst ms) (length l) (length l)) ;;;
      ax_mesh color x y (transpose_sq (length l) z)
  | _ => raise NotImplementedError
  end.

(** ** Sampler.plot: sampler/__init__.py:195-233 *)
(** np.argsort (numpy's default sort is not stable: any order of equal values): sampler/__init__.py:224,
    acquisition_function.py:83 *)
Variable argsort : list N -> list nat.
(** config[name] (KeyError for an inactive hyperparameter); values that are strings are not modelled
    (TypeError here): sampler/__init__.py:223, 228, acquisition_function.py:74 *)
Definition num_value (c : conf N) (name : string) : res N :=
  match config_get (c_vals c) name with
  | None => Err KeyError
  | Some (VNum x) => Ok x
  | Some (VStr _) => Err TypeError
  end.
(** a[order]: sampler/__init__.py:225, acquisition_function.py:84-85 *)
Definition take (l : list N) (order : list nat) : res (list N) := mapM (py_nth l) order.
(** objective values that are not numbers are not modelled (TypeError here):
    Sampler.plot: sampler/__init__.py:195-233 *)
Definition sampler_plot (color : Col) (sel : selection N) (s : sampler N) : D unit :=
  hps <-- lift (get_hyperparameters sel (s_cs s)) ;;;
  _ <-- set_axis hps true "Prediction" ;;;
  match hps with
  | [h] =>
      x <-- lift (mapM (fun c => num_value c (hp_name h)) (s_configs s)) ;;;
      let order := argsort x in
      xs <-- lift (take x order) ;;;
      y <-- lift (mapM jnum (s_ys s)) ;;;
      ys <-- lift (take y order) ;;;
      ax_plot color xs ys None
  | [h1; h2] =>
      ps <-- lift (mapM (fun c => a <- num_value c (hp_name h1) ;; b <- num_value c (hp_name h2) ;; Ok (a, b)) (s_configs s)) ;;;
      _ <-- lift (guard (negb (Nat.eqb (length ps) 0)) ValueError) ;;;
      emit color (CScatter (map fst ps) (map snd ps))
  | _ => raise NotImplementedError
  end.

(** ** AcquisitionFunction.plot: sampler/acquisition_function.py:61-104 *)
(** self(x) for one element of configs; a name (an element of a bare configuration) has no copy():
    acquisition_function.py:73, 93 *)
Definition acq_one (call : xinput N -> res (list N)) (e : element N) : res (list N) :=
  match e with EConf c => call (XConf c) | EName _ => Err AttributeError end.
(** config[hp.name] for an element of configs: acquisition_function.py:74, advanced_plots.py:30 *)
Definition element_value (e : element N) (name : string) : res N :=
  match e with EConf c => num_value c name | EName _ => Err TypeError end.
(** list(optimum.values())[0]: acquisition_function.py:92 *)
Definition first_value (e : element N) : res N :=
  match e with
  | EConf c => match c_vals c with (_, VNum x) :: _ => Ok x | (_, VStr _) :: _ => Err TypeError | [] => Err IndexError end
  | EName _ => Err AttributeError
  end.
(** [d] and [d'] are what the two calls of sample_configuration return (line 72, and line 38 in get_optimum);
    [call] is __call__ of the acquisition function, [optimum] is get_optimum on a draw:
    AcquisitionFunction.plot: acquisition_function.py:61-104 *)
Definition acq_plot (color color_optimum : Col) (show_optimum : bool) (call : xinput N -> res (list N)) (optimum : drawn N -> res (element N))
    (cs : cspace N) (sel : selection N) (d d' : drawn N) : D unit :=
  hps <-- lift (get_hyperparameters sel cs) ;;;
  _ <-- set_axis hps true "Acquisition" ;;;
  ys <-- lift (mapM (acq_one call) (elements d)) ;;;
  let acquisition_y := List.concat ys in
  x <-- lift (mapM (fun e => mapM (fun h => element_value e (hp_name h)) hps) (elements d)) ;;;
  opt <-- lift (optimum d') ;;;
  match hps with
  | [_] =>
      let col := List.concat x in
      _ <-- lift (guard (negb (Nat.eqb (length col) 0)) IndexError) ;;;
      let order := argsort col in
      xs <-- lift (take col order) ;;;
      ays <-- lift (take acquisition_y order) ;;;
      _ <-- ax_fill color xs ays (map (fun _ => n0) ays) ;;;
      _ <-- ax_plot color xs ays None ;;;
      if show_optimum then
        ox <-- lift (first_value opt) ;;;
        oy <-- lift (acq_one call opt) ;;;
        _ <-- lift (guard (Nat.eqb (length oy) 1) ValueError) ;;;
        ax_plot color_optimum [ox] oy None
      else ret tt
  | _ => raise NotImplementedError
  end.

(** plot_full_bayesian: advanced_plots.py:13-33: the canvas of ax_function, then that of ax_acquisition.
    [d1], [d2], [d3]: the draws of acq_func.plot (two) and of get_optimum (line 30) *)
Definition plot_full_bayesian (blue lightblue red green : Col) (predict : predictor N) (call : xinput N -> res (list N)) (optimum : drawn N -> res (element N))
    (s : sampler N) (d1 d2 d3 : drawn N) : (canvas * canvas) * res unit :=
  let x1 := SelOne (SName "x1") in
  let (cf, rf) := (_ <-- surrogate_plot false blue blue lightblue predict (s_cs s) 100 ;;;
                   _ <-- surrogate_plot true blue blue lightblue predict (s_cs s) 100 ;;;
                   sampler_plot red x1 s) blank in
  match rf with
  | Err e => ((cf, blank), Err e)
  | Ok _ =>
    let (ca, ra) := (_ <-- acq_plot green red true call optimum (s_cs s) x1 d1 d2 ;;;
                     opt <-- lift (optimum d3) ;;;
                     v <-- lift (element_value opt "x1") ;;;
                     ax_plot red [n0] [v] None) blank in   (* ax.plot(v): x counts from 0 *)
    ((cf, ca), ra)
  end.

(** plot_2D_ICE_Curve_with_confidence: advanced_plots.py:55-80, the canvases of ax_mean and ax_sigma *)
Definition plot_curve_with_confidence (red white light_red : Col) (c : curve) : (canvas * canvas) * res unit :=
  let (cm, rm) := (_ <-- curve_plot_values red c ;;; curve_plot_incumbent white c) blank in
  match rm with
  | Err e => ((cm, blank), Err e)
  | Ok _ =>
    let (cg, rg) := (_ <-- curve_plot_confidences red light_red (ndiv (nofZ 3) (nofZ 2)) c ;;; curve_plot_incumbent white c) blank in
    ((cm, cg), rg)
  end.

(** the curve of PDP.from_random_points(..).as_ice_curve: algorithms/__init__.py:28-46, pdp.py:57-78;
    [samples] are the drawn configurations as rows *)
Definition random_curve (predict : predictor N) (cs : cspace N) (hps : list (hp N)) (samples : list (list N)) (gpa : nat) : res curve :=
  a <- algorithm_new cs (SelList (map SHp hps)) samples gpa ;;
  d <- ice_calculate a false predict ;;
  Ok (mkcurve cs (a_sel a) (x_pdp a d) (y_pdp a d) (v_pdp a d)).

(** plot_hyperparameter_array_1D: advanced_plots.py:83-106: one canvas per axis of the grid; [samples k] are
    the rows drawn for the k-th hyperparameter *)
Fixpoint array1 (red salmon : Col) (predict : predictor N) (cs : cspace N) (samples : nat -> list (list N)) (gpa k : nat)
    (l : list (hp N)) (axes : nat) : list canvas * res unit :=
  match l, axes with
  | h :: t, S m =>
    let (c, r) := (cu <-- lift (random_curve predict cs [h] (samples k) gpa) ;;;
                   _ <-- curve_plot_values red cu ;;;
                   curve_plot_confidences red salmon (ndiv (nofZ 3) (nofZ 2)) cu) blank in
    match r with
    | Err e => (c :: repeat blank m, Err e)
    | Ok _ => let (cs', r') := array1 red salmon predict cs samples gpa (S k) t m in (c :: cs', r')
    end
  | _, _ => (repeat blank axes, Ok tt)
  end.
(** plot_hyperparameter_array_1D: advanced_plots.py:83-106 *)
Definition plot_hyperparameter_array_1D (red salmon : Col) (ceil_sqrt : Z -> res Z) (predict : predictor N) (cs : cspace N) (samples : nat -> list (list N)) (gpa : nat)
  : res ((Z * Z) * (list canvas * res unit)) :=
  wh <- quadratic_shape ceil_sqrt (Z.of_nat (length cs)) ;;
  Ok (wh, array1 red salmon predict cs samples gpa 0 cs (Z.to_nat (fst wh * snd wh)%Z)).

(** plot_hyperparameter_array_2D: advanced_plots.py:109-148: the two canvases of row r, column c.  Every
    call draws the same rows (each uses the same seed).  hp1 == hp2 within one space: same position *)
Definition array2_cell (red salmon : Col) (predict : predictor N) (cs : cspace N) (samples : list (list N)) (gpa r c : nat) : (canvas * canvas) * res unit :=
  match nth_error cs c, nth_error cs r with
  | Some h1, Some h2 =>
    let hps := if Nat.eqb r c then [h1] else [h1; h2] in
    match random_curve predict cs hps samples gpa with
    | Err e => ((blank, blank), Err e)
    | Ok cu =>
      let conf := curve_plot_confidences red salmon (ndiv (nofZ 3) (nofZ 2)) cu in
      let (cm, rm) := (_ <-- curve_plot_values red cu ;;; if Nat.eqb r c then conf else ret tt) blank in
      match rm with
      | Err e => ((cm, blank), Err e)
      | Ok _ => let (cg, rg) := conf blank in ((cm, cg), rg)
      end
    end
  | _, _ => ((blank, blank), Err IndexError)
  end.

(** the loops of advanced_plots.py:125-146, row by row, up to the first exception *)
Fixpoint array2_cells (red salmon : Col) (predict : predictor N) (cs : cspace N) (samples : list (list N)) (gpa : nat) (l : list (nat * nat))
  : list (canvas * canvas) * res unit :=
  match l with
  | [] => ([], Ok tt)
  | rc :: t =>
    let (c, r) := array2_cell red salmon predict cs samples gpa (fst rc) (snd rc) in
    match r with
    | Err e => (c :: map (fun _ => (blank, blank)) t, Err e)
    | Ok _ => let (cs', r') := array2_cells red salmon predict cs samples gpa t in (c :: cs', r')
    end
  end.
(** plt.subplots(0, 0) raises ValueError: advanced_plots.py:119 *)
Definition plot_hyperparameter_array_2D (red salmon : Col) (predict : predictor N) (cs : cspace N) (samples : list (list N)) (gpa : nat)
  : res (list (canvas * canvas) * res unit) :=
  _ <- guard (negb (Nat.eqb (length cs) 0)) ValueError ;;
  Ok (array2_cells red salmon predict cs samples gpa (list_prod (seq 0 (length cs)) (seq 0 (length cs)))).

End Draw.

Arguments cmd : clear implicits.
Arguments canvas : clear implicits.
Arguments curve : clear implicits.
Arguments kiter : clear implicits.
