(** Prop_Arrays.v - the arrays an ICE object is given, keeps and hands out (C92-C94). *)
From Coq Require Import QArith Reals.
From Verif Require Import Base Num NumpyModel ConfigSpaceModel UtilsModel IceModel DtypeModel IceAttrModel MemoryModel
  ArraysSpec IceProofs IceProofs2 DtypeProofs IceAttrProofs MemoryProofs.
Local Open Scope nat_scope.
Local Open Scope list_scope.

(** ** C92 *)
(** float arrays are the model of C20-C27 *)
Theorem C92_float : forall (N : Num) (a : algorithm N) c p, ice_calculate_of KArrayFloat a c p = ice_calculate a c p.
Proof. exact @calculate_of_float. Qed.
Print Assumptions C92_float.

(** a list of rows raises AttributeError on the first read *)
Theorem C92_list : forall (N : Num) (a : algorithm N) c p, sel_known (a_cs a) (a_sel a) -> a_sel a <> [] ->
  ice_calculate_of KList a c p = Err AttributeError.
Proof. exact @calculate_of_list. Qed.
Print Assumptions C92_list.

(** integer and boolean arrays are accepted: nothing raises for a surrogate with one prediction per row *)
Theorem C92_accepted : forall (N : Num) k (a : algorithm N) p,
  rect (num_features a) (a_samples a) -> sel_known (a_cs a) (a_sel a) -> a_sel a <> [] -> k <> KList ->
  batch_predictor p -> exists d, ice_calculate_of k a false p = Ok d.
Proof. exact @calculate_of_total. Qed.
Print Assumptions C92_accepted.

(** but the surrogate is only asked about corners of the unit cube *)
Theorem C92_corners : forall k (a : algorithm RNum) c p d,
  NoDup (map hp_name (a_cs a)) -> rect (num_features a) (a_samples a) -> k = KArrayInt \/ k = KArrayBool ->
  ice_calculate_of k a c p = Ok d ->
  exists grid, grid_points a = Ok grid /\ length grid = num_grid_points a /\
    forall i g row gp, nth_error (a_samples a) i = Some row -> nth_error grid g = Some gp ->
      exists xrow, at3 (i_x d) i g = Some xrow /\
        (forall j t (u : R), selected_at (a_cs a) (a_sel a) j t -> nth_error gp t = Some (u : RNum) ->
           (0 <= u <= 1)%R /\
           nth_error xrow j = Some (match k with
                                    | KArrayInt => if Req_EM_T u 1 then 1 else 0
                                    | _ => if Req_EM_T u 0 then 0 else 1 end : RNum)%R) /\
        (forall j, not_selected (a_cs a) (a_sel a) j -> nth_error xrow j = nth_error row j).
Proof. exact corners_only. Qed.
Print Assumptions C92_corners.

(** for every kind of array, each value is the prediction at the x it is reported with *)
Theorem C92_predictions : forall (N : Num) k (a : algorithm N) (f s : list N -> N) d,
  rect (num_features a) (a_samples a) -> k <> KList ->
  ice_calculate_of k a false (fun rows => Ok (map f rows, map s rows)) = Ok d ->
  forall i g, i < num_samples a -> g < num_grid_points a ->
    exists xrow, at3 (i_x d) i g = Some xrow /\
      at2 (i_y d) i g = Some (f xrow) /\ at2 (i_v d) i g = Some (nmul (s xrow) (s xrow)).
Proof. exact @values_of. Qed.
Print Assumptions C92_predictions.

(** with one selected hyperparameter the curves take two values *)
Theorem C92_two_values : forall k (a : algorithm RNum) h (f s : list R -> R) d,
  rect (num_features a) (a_samples a) -> a_sel a = [h] -> k = KArrayInt \/ k = KArrayBool ->
  ice_calculate_of (N:=RNum) k a false (fun rows => Ok (map f rows, map s rows)) = Ok d ->
  forall i g, i < num_samples a -> g < a_gpa a ->
    let same := match k with KArrayInt => if Nat.ltb (S g) (a_gpa a) then 0 else g | _ => if Nat.eqb g 0 then 0 else a_gpa a - 1 end in
    at3 (i_x d) i g = at3 (i_x d) i same /\ at2 (i_y d) i g = at2 (i_y d) i same /\ at2 (i_v d) i g = at2 (i_v d) i same.
Proof. exact two_values. Qed.
Print Assumptions C92_two_values.

(** "the same samples give the same curves whatever the type of the array" is false: the curve of the surrogate
    a + c of the sample (1, 0), as floats, integers and booleans *)
Theorem C92_same_curve_refuted : t_curve KArrayFloat = Some [0#1; 1#4; 1#2; 3#4; 1#1]%Q /\
  t_curve KArrayInt = Some [0#1; 0#1; 0#1; 0#1; 1#1]%Q /\ t_curve KArrayBool = Some [0#1; 1#1; 1#1; 1#1; 1#1]%Q.
Proof. exact t_curves. Qed.
Print Assumptions C92_same_curve_refuted.

(** the same objects meet the hypotheses above *)
Example C92_example : NoDup (map hp_name (a_cs t_alg)) /\ rect (num_features t_alg) (a_samples t_alg) /\
  sel_known (a_cs t_alg) (a_sel t_alg) /\ a_sel t_alg <> [] /\ batch_predictor t_predict /\
  ice_calculate_of KList t_alg false t_predict = Err AttributeError.
Proof.
  split; [repeat constructor; cbn; intuition discriminate|]. split; [repeat constructor|]. split.
  - repeat constructor.
  - split; [discriminate|]. split; [|vm_compute; reflexivity]. intros rows. eexists _, _. split; [reflexivity|]. rewrite !map_length. auto.
Qed.

(** ** C93 *)
(** without assignments to the sizes and samples an object behaves as in C27, and grid_points is the grid *)
Theorem C93_no_assignments : forall (N : Num) (a : algorithm N) p ops, forallb plain ops = true ->
  ice_shown (snd (x_run (x_new a p) ops)) = snd (ice_run_ops (ice_new a p) (ice_part ops)) /\
  Forall (eq (grid_points a)) (grids (snd (x_run (x_new a p) ops))).
Proof. exact @no_assignments. Qed.
Print Assumptions C93_no_assignments.

(** new samples take effect after a reset if num_samples is assigned too, or if there are as many as before *)
Theorem C93_new_samples : forall (N : Num) (a : algorithm N) p before s later, forallb plain before = true -> forallb plain later = true ->
  let o := fst (x_run (x_new a p) before) in
  let fresh := mkiceobj (with_samples a s) (x_centered o) (x_predict o) None None None in
  ice_shown (snd (x_run (fst (x_run o [XSamples s; XNumSamples (length s); XIce OReset])) later)) = snd (ice_run_ops fresh (ice_part later)) /\
  (length s = num_samples a ->
   ice_shown (snd (x_run (fst (x_run o [XSamples s; XIce OReset])) later)) = snd (ice_run_ops fresh (ice_part later))).
Proof. exact @new_samples. Qed.
Print Assumptions C93_new_samples.

(** the docstring of reset ("maybe with different number of samples") is false: with another number of samples
    every later read raises *)
Theorem C93_other_number_refuted : forall (N : Num) (a : algorithm N) p before s later, forallb plain before = true -> forallb plain later = true ->
  sel_known (a_cs a) (a_sel a) -> a_sel a <> [] -> 1 <= a_gpa a -> rect (num_features a) s -> length s <> num_samples a ->
  Forall (raises ValueError)
    (ice_shown (snd (x_run (fst (x_run (fst (x_run (x_new a p) before)) [XSamples s; XIce OReset])) later))).
Proof. exact @other_number. Qed.
Print Assumptions C93_other_number_refuted.

(** num_grid_points_per_axis has no effect once the grid has been read, even after a reset *)
Theorem C93_resolution_ignored : forall (N : Num) (a : algorithm N) p before n later, forallb plain before = true -> forallb plain later = true ->
  sel_known (a_cs a) (a_sel a) -> a_sel a <> [] -> existsb looks before = true ->
  let o := fst (x_run (x_new a p) before) in
  snd (x_run (fst (x_step o (XGpa n))) later) = snd (x_run o later).
Proof. exact @resolution_ignored. Qed.
Print Assumptions C93_resolution_ignored.

(** before that it breaks the object, unless the number of grid points stays the same or becomes one *)
Theorem C93_resolution_breaks : forall (N : Num) (a : algorithm N) p before n later, forallb plain before = true -> forallb plain later = true ->
  sel_known (a_cs a) (a_sel a) -> a_sel a <> [] -> rect (num_features a) (a_samples a) -> existsb looks before = false ->
  n ^ n_selected a <> num_grid_points a -> n ^ n_selected a <> 1 ->
  Forall (raises ValueError) (ice_shown (snd (x_run (fst (x_step (fst (x_run (x_new a p) before)) (XGpa n))) later))).
Proof. exact @resolution_breaks. Qed.
Print Assumptions C93_resolution_breaks.

(** one grid point is repeated without an exception: all points of a curve are predictions at 0 *)
Theorem C93_resolution_one : forall (N : Num) (a : algorithm N) p before x, forallb plain before = true -> existsb looks before = false ->
  NoDup (map hp_name (a_cs a)) -> rect (num_features a) (a_samples a) ->
  snd (x_step (fst (x_step (fst (x_run (x_new a p) before)) (XGpa 1))) (XIce OReadX)) = YIce (ROutX (Ok x)) ->
  forall i g row, nth_error (a_samples a) i = Some row -> g < num_grid_points a ->
    exists xrow, at3 x i g = Some xrow /\
      (forall j t, selected_at (a_cs a) (a_sel a) j t -> nth_error xrow j = Some n0) /\
      (forall j, not_selected (a_cs a) (a_sel a) j -> nth_error xrow j = nth_error row j).
Proof. exact @resolution_one. Qed.
Print Assumptions C93_resolution_one.

(** two samples of five grid points; three samples after a reset, with and without num_samples, and other
    resolutions before and after the grid is read *)
Definition ax_y (o : list (xout QNum)) : list (res (list (list Q))) :=
  flat_map (fun r => match r with YIce (ROutY y) => [y] | _ => [] end) o.
Definition ax_run (ops : list (xop QNum)) : list (res (list (list Q))) := ax_y (snd (x_run (x_new t_alg t_predict) ops)).
Definition ax_three : list (list QNum) := [[0#1; 0#1]; [0#1; 1#2]; [0#1; 1#1]]%Q.
Example C93_example :
  ax_run [XIce OReadY; XSamples ax_three; XIce OReset; XIce OReadY] =
    [Ok [[0#1; 1#4; 1#2; 3#4; 1#1]; [1#1; 5#4; 3#2; 7#4; 2#1]]; Err ValueError]%Q /\
  ax_run [XIce OReadY; XSamples ax_three; XNumSamples 3; XIce OReset; XIce OReadY] =
    [Ok [[0#1; 1#4; 1#2; 3#4; 1#1]; [1#1; 5#4; 3#2; 7#4; 2#1]];
     Ok [[0#1; 1#4; 1#2; 3#4; 1#1]; [1#2; 3#4; 1#1; 5#4; 3#2]; [1#1; 5#4; 3#2; 7#4; 2#1]]]%Q /\
  ax_run [XReadGrid; XGpa 3; XIce OReadY; XIce OReset; XIce OReadY] =
    [Ok [[0#1; 1#4; 1#2; 3#4; 1#1]; [1#1; 5#4; 3#2; 7#4; 2#1]]; Ok [[0#1; 1#4; 1#2; 3#4; 1#1]; [1#1; 5#4; 3#2; 7#4; 2#1]]]%Q /\
  ax_run [XGpa 3; XIce OReadY] = [Err ValueError] /\
  ax_run [XGpa 1; XIce OReadY] = [Ok [[0#1; 0#1; 0#1; 0#1; 0#1]; [1#1; 1#1; 1#1; 1#1; 1#1]]]%Q.
Proof. vm_compute. repeat split. Qed.

(** ** C94 *)
(** an ICE object in memory behaves like the object of C20-C27, whose arrays are values, for every history of reads,
    resets, new flags and surrogates, writes into the returned arrays and writes into the samples - if surrogates
    return new arrays.  It writes to nothing but the samples array the user writes to and arrays of its own *)
Theorem C94_as_values : forall (N : Num) (h : heap N) a adr mp p ops pops, set_up h a adr mp p -> Forall2 (fits a) ops pops ->
  snd (m_run h (m_new a adr mp) ops) = snd (p_run (ice_new a p) pops) /\
  (forall c, c < length h -> c <> adr -> buf (fst (fst (m_run h (m_new a adr mp) ops))) c = buf h c) /\
  (forallb (fun op => negb (is_write_samples op)) ops = true -> buf (fst (fst (m_run h (m_new a adr mp) ops))) adr = buf h adr).
Proof. exact @as_values. Qed.
Print Assumptions C94_as_values.

(** what is written into y_ice is read again until a reset *)
Theorem C94_write_shows : forall (N : Num) (h : heap N) a adr mp p d y, set_up h a adr mp p -> ice_calculate a false p = Ok d ->
  shaped2 (num_samples a) (num_grid_points a) y ->
  snd (m_run h (m_new a adr mp) [MWriteY y; MReadY; MReadX; MReset; MReadY]) =
  [RNone; ROutY (Ok y); ROutX (Ok (i_x d)); RNone; ROutY (Ok (i_y d))].
Proof. exact @write_shows. Qed.
Print Assumptions C94_write_shows.

(** what is written into the samples is used after a reset *)
Theorem C94_samples_after_reset : forall (N : Num) (h : heap N) a adr mp p d d' smp, set_up h a adr mp p -> ice_calculate a false p = Ok d ->
  shaped2 (num_samples a) (num_features a) smp -> ice_calculate (mkalg (a_cs a) (a_sel a) smp (a_gpa a)) false p = Ok d' ->
  snd (m_run h (m_new a adr mp) [MReadY; MWriteSamples smp; MReadY; MReadX; MReset; MReadY; MReadX]) =
  [ROutY (Ok (i_y d)); RNone; ROutY (Ok (i_y d)); ROutX (Ok (i_x d)); RNone; ROutY (Ok (i_y d')); ROutX (Ok (i_x d'))].
Proof. exact @samples_after_reset. Qed.
Print Assumptions C94_samples_after_reset.

(** arrays handed out before a reset keep their contents whatever is done with the object afterwards *)
Theorem C94_handed_out : forall (N : Num) (h : heap N) a adr mp p ops pops ops' pops',
  set_up h a adr mp p -> Forall2 (fits a) ops pops -> Forall2 (fits a) ops' pops' ->
  let h1 := fst (fst (m_run h (m_new a adr mp) ops)) in
  let h2 := fst (fst (m_run h (m_new a adr mp) (ops ++ MReset :: ops'))) in
  forall c, c < length h1 -> c <> adr -> buf h2 c = buf h1 c.
Proof. exact @handed_out. Qed.
Print Assumptions C94_handed_out.

(** a curve is a view: writes into its values show in the object, and the other way round *)
Theorem C94_curve_is_view : forall (N : Num) (h : heap N) a adr mp p ops pops i h1 o1 r h2 o2 c,
  set_up h a adr mp p -> Forall2 (fits a) ops pops ->
  m_run h (m_new a adr mp) ops = (h1, o1, r) -> m_getitem h1 o1 i = (h2, o2, Ok c) ->
  exists y, snd (m_step h2 o2 MReadY) = ROutY (Ok y) /\ i < length y /\ curve_y h2 c = nth i y [] /\
  (forall row, length row = num_grid_points a -> snd (m_step (curve_write_y h2 c row) o2 MReadY) = ROutY (Ok (set_nth i row y))) /\
  (forall y', shaped2 (num_samples a) (num_grid_points a) y' -> curve_y (fst (fst (m_step h2 o2 (MWriteY y')))) c = nth i y' []).
Proof. exact @curve_is_view. Qed.
Print Assumptions C94_curve_is_view.

(** for any surrogate that leaves the samples alone and does not return them, they are never written to *)
Theorem C94_samples_untouched : forall (N : Num) (h : heap N) a adr mp ops,
  adr < length h -> harmless adr mp -> Forall (safe_op adr) ops -> buf (fst (fst (m_run h (m_new a adr mp) ops))) adr = buf h adr.
Proof. exact @samples_untouched. Qed.
Print Assumptions C94_samples_untouched.

(** a surrogate that overwrites its argument does not change x_ice, if there are two or more samples, features and
    grid points *)
Theorem C94_argument : forall (N : Num) (h : heap N) a adr mp x h' o' r,
  rect (num_features a) (a_samples a) -> adr < length h -> buf h adr = concat (a_samples a) -> scribbles mp ->
  2 <= num_samples a -> 2 <= num_features a -> 2 <= num_grid_points a -> ice_x a = Ok x ->
  m_step h (m_new a adr mp) MReadX = (h', o', ROutX (Ok r)) -> r = x.
Proof. exact @argument_is_copy. Qed.
Print Assumptions C94_argument.

(** with one sample it does: the array passed to predict is x_ice itself *)
Theorem C94_argument_refuted : ice_x (u_alg [[1#4; 1#2]]%Q) = Ok [[[0#1; 1#2]; [1#1; 1#2]]]%Q /\
  snd (m_step (N := QNum) [[1#4; 1#2]]%Q (m_new (u_alg [[1#4; 1#2]]%Q) 0 (scribble_of u_predict)) MReadX) =
  ROutX (N := QNum) (Ok [[[0#1; 0#1]; [0#1; 0#1]]])%Q.
Proof. exact argument_one_sample. Qed.
Print Assumptions C94_argument_refuted.

(** "two objects with the same surrogate do not disturb each other" is false for a surrogate that returns an array it
    keeps: reading y_ice of a centered object subtracts in that array.  The second component is what the uncentered
    object shows afterwards, the third the array of the surrogate *)
Theorem C94_shared_refuted : u_shared =
  Ok (ROutY (N := QNum) (Ok [[3#1; 4#1]; [5#1; 7#1]]), ROutY (N := QNum) (Ok [[0#1; 1#1]; [0#1; 2#1]]), [0#1; 1#1; 0#1; 2#1])%Q.
Proof. exact shared_changes. Qed.
Print Assumptions C94_shared_refuted.

(** surrogates of all three sorts exist, and an object of two samples meets the hypotheses *)
Definition ay_heap : heap QNum := [concat u_two].
Definition ay_new : mice QNum := m_new (u_alg u_two) 0 (fresh_of u_predict).
Definition ay_curve : res (list Q) := match m_getitem ay_heap ay_new 1 with (h, _, Ok c) => Ok (curve_y h c) | (_, _, Err e) => Err e end.
Example C94_example : set_up ay_heap (u_alg u_two) 0 (fresh_of u_predict) u_predict /\
  harmless 0 (fresh_of u_predict) /\ scribbles (scribble_of u_predict) /\
  (2 <= num_samples (u_alg u_two) /\ 2 <= num_features (u_alg u_two) /\ 2 <= num_grid_points (u_alg u_two)) /\
  is_ok (ice_calculate (u_alg u_two) false u_predict) = true /\ ay_curve = Ok [1#4; 5#4]%Q /\
  snd (m_step ay_heap (m_new (u_alg u_two) 0 (scribble_of u_predict)) MReadX) =
    ROutX (N := QNum) (Ok [[[0#1; 1#2]; [1#1; 1#2]]; [[0#1; 1#4]; [1#1; 1#4]]])%Q /\
  snd (m_run ay_heap ay_new [MCenter true; MReadY; MWriteY (N := QNum) [[5#1; 5#1]; [6#1; 6#1]]%Q; MReadY; MReset; MReadY]) =
    [RNone; ROutY (N := QNum) (Ok [[0#1; 1#1]; [0#1; 1#1]])%Q; RNone; ROutY (N := QNum) (Ok [[5#1; 5#1]; [6#1; 6#1]])%Q; RNone;
     ROutY (N := QNum) (Ok [[0#1; 1#1]; [0#1; 1#1]])%Q].
Proof.
  split; [|split; [apply fresh_of_harmless|split; [apply scribble_of_scribbles|]]].
  - split; [repeat constructor|]. split; [cbn; auto|]. split; [reflexivity|apply fresh_of_fresh].
  - repeat split; vm_compute; repeat constructor.
Qed.
