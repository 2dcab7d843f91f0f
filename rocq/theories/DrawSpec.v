(** DrawSpec.v - the words used in the properties of the plotting code. *)
From Coq Require Import Reals Sorted.
From Verif Require Import Base Num NumpyModel ConfigSpaceModel UtilsModel IceModel PartitionModel ForestModel SamplerModel
  AcquisitionModel PlottingModel PlottingSpec DrawModel.
Local Open Scope list_scope.

Section Spec.
Context {N : Num} {Col : Type}.
(** the axis with more things drawn on it *)
Definition adds (c : canvas N Col) (l : list (Col * cmd N)) : canvas N Col := mkcanvas (cv_axis c) (cv_drawn c ++ l).
(** the statement draws exactly l, on every axis, and leaves the axis itself alone *)
Definition draws (m : canvas N Col -> canvas N Col * res unit) (l : list (Col * cmd N)) : Prop := forall c, m c = (adds c l, Ok tt).
(** all in one colour *)
Definition colored (color : Col) (l : list (cmd N)) : list (Col * cmd N) := map (fun x => (color, x)) l.
(** [plots m hps b yl l]: check_and_set_axis (C57) with these hyperparameters, then l is drawn; if the axis
    belongs to other hyperparameters, the exception of check_and_set_axis *)
Definition plots (m : canvas N Col -> canvas N Col * res unit) (hps : list (hp N)) (b : bool) (yl : string) (l : list (Col * cmd N)) : Prop :=
  forall c, m c = match check_and_set_axis (cv_axis c) hps b yl with
                  | (ax, Ok _) => (mkcanvas ax (cv_drawn c ++ l), Ok tt)
                  | (_, Err e) => (c, Err e)
                  end.
(** [fails m hps b yl e]: the same, but then e is raised and nothing is drawn *)
Definition fails (m : canvas N Col -> canvas N Col * res unit) (hps : list (hp N)) (b : bool) (yl : string) (e : err) : Prop :=
  forall c, m c = match check_and_set_axis (cv_axis c) hps b yl with
                  | (ax, Ok _) => (mkcanvas ax (cv_drawn c), Err e)
                  | (_, Err e) => (c, Err e)
                  end.
(** [shows m hps yl l]: on an axis that is not used for other hyperparameters, m draws l and leaves such an axis *)
Definition shows (m : canvas N Col -> canvas N Col * res unit) (hps : list (hp N)) (yl : string) (l : list (Col * cmd N)) : Prop :=
  forall c, ~ conflict (cv_axis c) hps yl ->
  exists c', m c = (c', Ok tt) /\ cv_drawn c' = cv_drawn c ++ l /\ ~ conflict (cv_axis c') hps yl.
(** lower and upper bound of a numerical hyperparameter, or the value of a numerical constant *)
Definition extent (h : hp N) : option (N * N) :=
  match hp_kind h with
  | KFloat lo up _ => Some (lo, up)
  | KInt lo up _ => Some (nofZ lo, nofZ up)
  | KConst (VNum v) => Some (v, v)
  | _ => None
  end.
Definition not_constant (h : hp N) : Prop := match hp_kind h with KConst _ => False | _ => True end.
(** [keeps p l l']: l' are the elements of l that satisfy p, in order *)
Inductive keeps {A} (p : A -> Prop) : list A -> list A -> Prop :=
| keeps_nil : keeps p [] []
| keeps_yes a l l' : p a -> keeps p l l' -> keeps p (a :: l) (a :: l')
| keeps_no a l l' : ~ p a -> keeps p l l' -> keeps p (a :: l) l'.
End Spec.

Local Open Scope R_scope.
(** the points means + f * stds *)
Definition shifted (means stds : list R) (f : R) : list R := map (fun p => fst p + f * snd p) (combine means stds).
(** the band between means - f * stds and means + f * stds *)
Definition band (x means stds : list R) (f : R) : cmd RNum := CFill (N:=RNum) x (shifted means stds (- f)) (shifted means stds f).
(** the two lines at means - k * stds and means + k * stds, with alpha 1/(5k) *)
Definition line_pair (x means stds : list R) (k : R) : list (cmd RNum) :=
  [CPlot (N:=RNum) x (shifted means stds (- k)) (Some (1 / (5 * k))); CPlot (N:=RNum) x (shifted means stds k) (Some (1 / (5 * k)))].
(** the line of the means, if 0 is one of the factors *)
Definition mean_line (l : list R) (x means : list R) : list (cmd RNum) :=
  if existsb (fun k => Reqb k 0) l then [CPlot (N:=RNum) x means (Some (3/10))] else [].
Fixpoint ascending (l : list R) : Prop := match l with x :: (y :: _) as t => x <= y /\ ascending t | _ => True end.
Definition nonzero (l : list R) : list R := filter (fun k => negb (Reqb k 0)) l.
(** [inside c c']: the band c lies within the band c', over the same points *)
Definition inside (c c' : cmd RNum) : Prop :=
  exists (xs lo up lo' up' : list R), c = CFill (N:=RNum) xs lo up /\ c' = CFill (N:=RNum) xs lo' up' /\
    Forall2 Rle lo' lo /\ Forall2 Rle up up'.

(** the value of a numerical hyperparameter at the position u of its axis, 0 <= u <= 1 *)
Definition on_axis (lo up : R) (lg : bool) (u : R) : R :=
  if lg then exp (ln lo + u * (ln up - ln lo)) else lo + u * (up - lo).
Definition original (h : hp RNum) (u : R) : R :=
  match hp_kind h with
  | KFloat lo up lg => on_axis lo up lg u
  | KInt lo up lg => on_axis (IZR lo) (IZR up) lg u
  | _ => 0
  end.
(** n evenly spaced positions from 0 to 1 (0 alone for n = 1) *)
Definition positions (n : nat) : list R := map (fun i => if Nat.eqb n 1 then 0 else INR i / INR (n - 1)) (seq 0 n).
(** the values of h at these positions *)
Definition axis_values (n : nat) (h : hp RNum) : list RNum := map (original h) (positions n).
(** rows of values: row i, column j is g x_j y_i *)
Definition table {A} (g : A -> A -> R) (xs ys : list A) : list (list RNum) := map (fun y => map (fun x => g x y) xs) ys.
(** lower bound below upper bound, and positive bounds on a log scale *)
Definition sound_bounds (h : hp RNum) : Prop :=
  match hp_kind h with
  | KFloat lo up lg => lo < up /\ (lg = true -> 0 < lo)
  | KInt lo up lg => IZR lo < IZR up /\ (lg = true -> 0 < IZR lo)
  | _ => True
  end.

(** np.argsort: some order of the indices in which the values ascend *)
Definition sorts (argsort : list RNum -> list nat) : Prop :=
  forall l : list R, Permutation (argsort l) (seq 0 (length l)) /\ ascending (map (fun i => nth i l 0) (argsort l)).
(** the configuration has this value *)
Definition has_value {N : Num} (name : string) (c : conf N) (v : N) : Prop := config_get (c_vals c) name = Some (VNum v).
(** the same points, from left to right *)
Definition left_to_right (points : list (R * R)) (xs ys : list R) : Prop :=
  length xs = length ys /\ ascending xs /\ Permutation (combine xs ys) points.

(** ** curves *)
(** the value of the row on the axis of h *)
Definition coordinate (cs : cspace RNum) (h : hp RNum) (row : list R) (v : R) : Prop :=
  exists i u, nth_error cs i = Some h /\ nth_error row i = Some u /\ v = original h u.
(** only numerical hyperparameters, with different names and sound bounds *)
Definition plottable (cs : cspace RNum) : Prop := NoDup (map hp_name cs) /\ Forall (fun h => is_numerical h = true /\ sound_bounds h) cs.
(** a point of the unit cube *)
Definition unit_point (cs : cspace RNum) (row : list R) : Prop := length row = length cs /\ Forall (fun u => 0 <= u <= 1) row.
(** a curve in such a space: one value and one variance per point *)
Definition sound_curve (c : curve RNum) : Prop :=
  plottable (cu_cs c) /\ Forall (unit_point (cu_cs c)) (cu_x c) /\ length (cu_y c) = length (cu_x c) /\ length (cu_v c) = length (cu_x c) /\
  Forall (fun v : R => 0 <= v) (cu_v c).
(** the first of the smallest values *)
Definition first_minimum (l : list R) (i : nat) : Prop :=
  exists v, nth_error l i = Some v /\ (forall j u, nth_error l j = Some u -> v <= u) /\ (forall j u, (j < i)%nat -> nth_error l j = Some u -> v < u).
(** three of the points are the corners of a triangle *)
Definition spread (xs ys : list R) : Prop :=
  exists p q r, In p (combine xs ys) /\ In q (combine xs ys) /\ In r (combine xs ys) /\
    (fst q - fst p) * (snd r - snd p) <> (snd q - snd p) * (fst r - fst p).

(** ** ICE curves, partial dependence, regions *)
(** the row with the value of h replaced by u *)
Definition with_value (cs : cspace RNum) (h : hp RNum) (u : R) (row : list R) : list R :=
  map (fun p => if String.eqb (hp_name (fst p)) (hp_name h) then u else snd p) (combine cs row).
(** the line of one ICE curve over h: the prediction mu with the value of h moved along its axis *)
Definition ice_line (cs : cspace RNum) (h : hp RNum) (n : nat) (mu : list R -> R) (alpha : R) (row : list R) : cmd RNum :=
  CPlot (N:=RNum) (axis_values n h) (map (fun u => mu (with_value cs h u row)) (positions n)) (Some alpha).
(** the average of f over the samples *)
Definition average (f : list R -> R) (samples : list (list R)) : R := fold_right Rplus 0 (map f samples) / INR (length samples).
(** the difference to the value at the start of the axis *)
Definition from_start (cs : cspace RNum) (h : hp RNum) (mu : list R -> R) (row : list R) : R := mu row - mu (with_value cs h 0 row).
(** the averages over the samples, with the value of h moved along its axis *)
Definition average_values (cs : cspace RNum) (h : hp RNum) (n : nat) (f : list R -> R) (samples : list (list R)) : list R :=
  map (fun u => average (fun row => f (with_value cs h u row)) samples) (positions n).
(** the bands and lines around a line: 100 bands up to 1.5 standard deviations, lines at 1 and 2 of them *)
Definition confidence {Col : Type} (line_color gradient_color : Col) (max_sigma : R) (xs ys stds : list R) : list (Col * cmd RNum) :=
  colored gradient_color (map (fun i => band xs ys stds (INR i / INR 100 * max_sigma)) (seq 0 100)) ++
  colored line_color (line_pair xs ys stds 1 ++ line_pair xs ys stds 2).

(** ** boxes of incumbent regions *)
(** plot_incumbent_cs compares the selected hyperparameters with the hyperparameters of the implied space,
    which are all floats with standard defaults: it recognises those that are such floats themselves *)
Definition recognised {N : Num} (std : hp N -> bool) (h : hp N) : Prop := std h = true /\ exists lo up lg, hp_kind h = KFloat lo up lg.
(** [shown std sel cs hs]: hs are the hyperparameters that are not recognised as selected, by name *)
Definition shown {N : Num} (std : hp N -> bool) (sel cs hs : list (hp N)) : Prop :=
  NoDup hs /\ (forall h, In h hs <-> In h cs /\ ~ (In h sel /\ recognised std h)) /\
  Sorted (fun a b => String.ltb (hp_name a) (hp_name b) = true) hs.
(** the sides of the box that belong to these hyperparameters *)
Definition sides {N : Num} (boxes : list (fbox N)) (hs : list (hp N)) (l : list (fbox N)) : Prop :=
  Forall2 (fun h b => In b boxes /\ b_name b = hp_name h) hs l.
(** one side: two lines and the span between them; two sides: a rectangle *)
Definition box_picture {N : Num} (alpha : N) (l : list (fbox N)) : list (cmd N) :=
  match l with
  | [b] => [CVline (b_lower b); CVline (b_upper b); CVspan (b_lower b) (b_upper b) alpha]
  | [b; c] => [CRect (b_lower b) (b_upper b) (b_lower c) (b_upper c) alpha]
  | _ => []
  end.
(** the configuration lies within the side *)
Definition within (cfg : config RNum) (b : fbox RNum) : Prop :=
  exists x : R, config_get cfg (b_name b) = Some (VNum (N:=RNum) x) /\ b_lower b <= x <= b_upper b.
(** every hyperparameter has a value between its bounds *)
Definition legal_config (cs : cspace RNum) (cfg : config RNum) : Prop :=
  forall h lo up, In h cs -> extent h = Some (lo, up) -> exists x : R, config_get cfg (hp_name h) = Some (VNum (N:=RNum) x) /\ lo <= x <= up.
(** the region that contains the configuration, and the sides of its box *)
Definition incumbent_box (cs : cspace RNum) (p : dtp RNum) (cfg : config RNum) (hs : list (hp RNum)) (l : list (fbox RNum)) : Prop :=
  exists id nd boxes, get_incumbent_region p cfg = Ok (Some id) /\ deref p id = Some nd /\ implied_config_space cs (n_conds nd) = Ok boxes /\ sides boxes hs l.

(** ** grids of two hyperparameters *)
(** the points of the grid, the first value moving fastest *)
Definition grid_positions (n : nat) : list (R * R) := flat_map (fun v => map (fun u => (u, v)) (positions n)) (positions n).
(** the averages over the samples, with the values of h1 and h2 set to those of the grid points *)
Definition average_grid (cs : cspace RNum) (h1 h2 : hp RNum) (n : nat) (f : list R -> R) (samples : list (list R)) : list R :=
  map (fun q => average (fun row => f (with_value cs h2 (snd q) (with_value cs h1 (fst q) row))) samples) (grid_positions n).
(** this surface over the original values of both *)
Definition surface (h1 h2 : hp RNum) (n : nat) (zs : list R) : cmd RNum :=
  CTri (N:=RNum) (map (fun q => original h1 (fst q)) (grid_positions n)) (map (fun q => original h2 (snd q)) (grid_positions n)) zs.
(** the averages of the predicted means over one hyperparameter, and the bands and lines of the averaged variances *)
Definition pd_line {Col : Type} (color : Col) (cs : cspace RNum) (n : nat) (mu : list R -> R) (samples : list (list R)) (h : hp RNum) : Col * cmd RNum :=
  (color, CPlot (N:=RNum) (axis_values n h) (average_values cs h n mu samples) None).
Definition pd_bands {Col : Type} (line_color gradient_color : Col) (cs : cspace RNum) (n : nat) (mu sd : list R -> R) (samples : list (list R)) (h : hp RNum) : list (Col * cmd RNum) :=
  confidence line_color gradient_color (3 / 2) (axis_values n h) (average_values cs h n mu samples) (map sqrt (average_values cs h n (fun r => sd r * sd r) samples)).
(** over two hyperparameters: the surface of the averaged means, and that of the square root of the averaged variances *)
Definition pd_means {Col : Type} (color : Col) (cs : cspace RNum) (n : nat) (mu : list R -> R) (samples : list (list R)) (h1 h2 : hp RNum) : Col * cmd RNum :=
  (color, surface h1 h2 n (average_grid cs h1 h2 n mu samples)).
Definition pd_deviations {Col : Type} (color : Col) (cs : cspace RNum) (n : nat) (sd : list R -> R) (samples : list (list R)) (h1 h2 : hp RNum) : Col * cmd RNum :=
  (color, surface h1 h2 n (map sqrt (average_grid cs h1 h2 n (fun r => sd r * sd r) samples))).
