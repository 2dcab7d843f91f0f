(** DrawProofs5.v - what the plots of ICE, PDP, regions and trees draw (C76, C77). *)
From Coq Require Import Reals Lra Permutation.
From Verif Require Import Base Num NumLaws NumpyModel ListLemmas ConfigSpaceModel UtilsModel UtilsProofs UtilsProofs2 RealProofs RealSums IceModel IceProofs IceProofs2 IceReal PartitionModel PartitionSpec
  SamplerModel SamplerSpec SamplerProofs2 PlottingModel PlottingSpec DrawModel DrawSpec DrawProofs DrawProofs2 DrawProofs3 DrawProofs4.
Local Open Scope R_scope.
Local Open Scope list_scope.

Lemma list_ext {A} (X Y : list A) : length X = length Y -> (forall i x y, nth_error X i = Some x -> nth_error Y i = Some y -> x = y) -> X = Y.
Proof.
  intros L H. apply list_eq_nth_error. intro i. destruct (nth_error X i) as [x|] eqn:Ex, (nth_error Y i) as [y|] eqn:Ey.
  - f_equal. apply (H i); assumption.
  - apply nth_error_Some_lt in Ex. apply nth_error_None in Ey. lia.
  - apply nth_error_Some_lt in Ey. apply nth_error_None in Ex. lia.
  - reflexivity.
Qed.

Lemma nth_map_inv {A B} (f : A -> B) l i y : nth_error (map f l) i = Some y -> exists x, nth_error l i = Some x /\ y = f x.
Proof. rewrite nth_error_map. destruct (nth_error l i) as [x|]; [|discriminate]. intros [= <-]. eauto. Qed.

(** ** the arrays of ICE for one selected hyperparameter *)
Lemma grid_one (a : algorithm RNum) h : a_sel a = [h] -> grid_points a = Ok (map (fun u : R => [u]) (positions (a_gpa a))).
Proof.
  intro E. unfold grid_points, n_selected. rewrite E. cbn [length]. unfold mesh_points. rewrite (linspace_positions (a_gpa a) : linspace (n0 (N:=RNum)) n1 _ = _), positions_length.
  apply f_equal. rewrite Nat.pow_1_r. rewrite (map_via_seq (fun u : R => [u])), positions_length. apply map_ext_in. intros q Hq. apply in_seq in Hq. cbn [seq map].
  assert (D : digit (a_gpa a) 1 (mesh_dim 1 0) q = q) by (unfold digit; change (1 - 1 - mesh_dim 1 0)%nat with 0%nat; rewrite Nat.pow_0_r, Nat.div_1_r; apply Nat.mod_small; lia). rewrite D. reflexivity.
Qed.
Definition curve_rows (a : algorithm RNum) (h : hp RNum) (row : list R) : list (list R) := map (fun u => with_value (a_cs a) h u row) (positions (a_gpa a)).
Lemma with_value_length cs h u row : length row = length cs -> length (with_value cs h u row) = length cs.
Proof. intro L. unfold with_value. rewrite map_length, combine_length, L. apply Nat.min_id. Qed.

Section One.
Variable a : algorithm RNum.
Variable h : hp RNum.
Hypothesis Sel : a_sel a = [h].
Hypothesis Known : In h (a_cs a).
Hypothesis ND : NoDup (map hp_name (a_cs a)).
Hypothesis Rect : rect (num_features a) (a_samples a).
Hypothesis Gpa : (1 <= a_gpa a)%nat.
Variable mu sd : list R -> R.

Lemma points_one : num_grid_points a = a_gpa a.
Proof. unfold num_grid_points, n_selected. rewrite Sel. apply Nat.pow_1_r. Qed.
Lemma ice_x_one c p d : ice_calculate a c p = Ok d -> i_x d = map (curve_rows a h) (a_samples a).
Proof.
  intro E. destruct (ice_x_values a c p d ND Rect E) as (grid & Eg & _ & L1 & L2 & L3 & H). rewrite (grid_one a h Sel) in Eg. injection Eg as <-.
  apply list_ext; [rewrite map_length; exact L1|]. intros i m m' Em Em'. apply nth_map_inv in Em'. destruct Em' as (row & Er & ->).
  assert (Lr : length row = length (a_cs a)) by (unfold rect in Rect; rewrite Forall_forall in Rect; apply (Rect row), (nth_error_In _ _ Er)).
  apply list_ext.
  - unfold curve_rows. rewrite map_length, positions_length. rewrite Forall_forall in L2. rewrite (L2 m (nth_error_In _ _ Em)). apply points_one.
  - intros g r r' Hr Hr'. apply nth_map_inv in Hr'. destruct Hr' as (u & Eu & ->).
    destruct (H i g row [u] Er) as (xrow & A & H1 & H2); [rewrite nth_error_map; rewrite Eu; reflexivity|].
    unfold at3 in A. rewrite Em in A. assert (xrow = r) by (pose proof (eq_trans (eq_sym A) Hr) as Q; injection Q as Q; exact Q). subst xrow.
    apply list_ext.
    + rewrite with_value_length by exact Lr. rewrite Forall_forall in L3. specialize (L3 m (nth_error_In _ _ Em)). rewrite Forall_forall in L3. apply (L3 r), (nth_error_In _ _ Hr).
    + intros j x y Hx Hy. apply nth_map_inv in Hy. destruct Hy as ([k w] & Ec & ->). cbn [fst snd].
      assert (Ek : nth_error (a_cs a) j = Some k /\ nth_error row j = Some w).
      { clear -Ec. revert row j Ec. induction (a_cs a) as [|k' cs IH]; intros [|w' row] [|j]; cbn; try discriminate; [intros [= -> ->]; auto|apply IH]. }
      destruct Ek as (Ek & Ew). destruct (String.eqb_spec (hp_name k) (hp_name h)) as [Q|Q].
      * assert (A1 : nth_error r j = nth_error [u] 0).
        { apply H1. exists k, h. rewrite Sel. refine (conj Ek (conj eq_refl (conj (eq_sym Q) _))). intros [|[|t]] hs Ht; try lia; discriminate. }
        pose proof (eq_trans (eq_sym Hx) A1) as Z. injection Z as Z. exact Z.
      * assert (A2 : nth_error r j = nth_error row j).
        { apply H2. intros k' Ek' B. rewrite Sel in B. destruct B as [B|[]]. pose proof (eq_trans (eq_sym Ek) Ek') as Z. injection Z as Z. subst k'. apply Q. symmetry. exact B. }
        pose proof (eq_trans (eq_sym Hx) (eq_trans A2 Ew)) as Z. injection Z as Z. exact Z.
Qed.

Variable p : predictor RNum.
Hypothesis pointwise : forall rows : list (list RNum), p rows = Ok (map mu rows, map sd rows).
Lemma batch_one : batch_predictor p.
Proof. intro rows. exists (map mu rows), (map sd rows). rewrite pointwise, !map_length. auto. Qed.
Lemma known_one : sel_known (a_cs a) (a_sel a).
Proof. rewrite Sel. constructor; [apply in_map, Known|constructor]. Qed.
Lemma calculate_one c : exists d, ice_calculate a c p = Ok d.
Proof. apply ice_calculate_total; [exact Rect|apply known_one|rewrite Sel; discriminate|exact Gpa|apply batch_one]. Qed.


Definition row_values (c : bool) (m : list (list R)) : list R := map (fun r => mu r - (if c then mu (nth 0 m []) else 0)) m.
Lemma reshape_values (f : list R -> R) c d : ice_calculate a c p = Ok d ->
  reshape2 (n0 (N:=RNum)) (map f (concat (i_x d))) (num_samples a) (num_grid_points a) = Ok (map (map f) (i_x d)).
Proof.
  intro E. pose proof (ice_calculate_shapes a c p d Rect E) as (L1 & _ & _ & L2 & _). rewrite concat_map. apply (reshape2_concat (n0 (N:=RNum))); [rewrite map_length; exact L1|].
  apply Forall_forall. intros r Hr. apply in_map_iff in Hr. destruct Hr as (m & <- & Hm). rewrite map_length. rewrite Forall_forall in L2. apply (L2 m Hm).
Qed.
Lemma ice_data_one c d : ice_calculate a c p = Ok d ->
  i_x d = map (curve_rows a h) (a_samples a) /\ i_y d = map (row_values c) (i_x d) /\ i_v d = map (map (fun r => sd r * sd r)) (i_x d).
Proof.
  intro E. split; [apply (ice_x_one c p d E)|]. pose proof (ice_calculate_ok a c p d E) as (means & stds & _ & Ep & y & s & Ey & Es & Ev & Ec).
  rewrite pointwise in Ep. injection Ep as <- <-.
  pose proof (eq_trans (eq_sym Ey) (reshape_values mu c d E)) as Ey'. injection Ey' as ->. pose proof (eq_trans (eq_sym Es) (reshape_values sd c d E)) as Es'. injection Es' as ->.
  split; [|etransitivity; [exact Ev|]; rewrite map_map; apply map_ext; intro m; apply map_map].
  pose proof (ice_calculate_shapes a c p d Rect E) as (_ & _ & _ & L2 & _). rewrite points_one in L2.
  destruct c.
  - apply center_rows_closed in Ec.
    + destruct Ec as (_ & ->). rewrite map_map. apply map_ext_in. intros m Hm. unfold row_values. rewrite map_map.
      rewrite Forall_forall in L2. specialize (L2 m Hm). destruct m as [|r0 m]; [cbn in L2; lia|]. reflexivity.
    + apply Forall_forall. intros r Hr. apply in_map_iff in Hr. destruct Hr as (m & <- & Hm). rewrite map_length. rewrite points_one. rewrite Forall_forall in L2. apply (L2 m Hm).
  - injection Ec as <-. apply map_ext. intro m. unfold row_values. apply map_ext. intro r. symmetry. apply Rminus_0_r.
Qed.
End One.

(** ** ICE.plot *)
Lemma with_value_own cs h u row : In h cs -> NoDup (map hp_name cs) -> length row = length cs -> coordinate cs h (with_value cs h u row) (original h u).
Proof.
  intros Hin ND L. destruct (In_nth_error _ _ Hin) as (i & Ei). exists i, u. refine (conj Ei (conj _ eq_refl)).
  destruct (nth_error row i) as [w|] eqn:Ew; [|apply nth_error_None in Ew; apply nth_error_Some_lt in Ei; rewrite L in Ew; exfalso; apply (Nat.lt_irrefl i); eapply Nat.lt_le_trans; eassumption].
  unfold with_value. rewrite nth_error_map, (combine_nth_error _ _ _ _ _ Ei Ew). cbn. rewrite String.eqb_refl. reflexivity.
Qed.
Lemma with_value_unit cs h u row : unit_point cs row -> 0 <= u <= 1 -> unit_point cs (with_value cs h u row).
Proof.
  intros (L & F) Hu. split; [apply with_value_length, L|]. apply Forall_forall. intros v Hv. unfold with_value in Hv. apply in_map_iff in Hv. destruct Hv as ((k & w) & <- & Hk).
  cbn [fst snd]. destruct (String.eqb _ _); [exact Hu|]. rewrite Forall_forall in F. apply F. apply in_combine_r in Hk. exact Hk.
Qed.
Lemma positions_unit n u : In u (positions n) -> 0 <= u <= 1.
Proof.
  unfold positions. intro H. apply in_map_iff in H. destruct H as (i & <- & Hi). apply in_seq in Hi. destruct (Nat.eqb_spec n 1); [lra|].
  assert (0 < INR (n - 1)) by (apply lt_0_INR; lia). assert (INR i <= INR (n - 1)) by (apply le_INR; lia). pose proof (pos_INR i).
  split; [apply Rmult_le_pos; [assumption|left; apply Rinv_0_lt_compat; assumption]|]. apply (Rmult_le_reg_r (INR (n - 1))); [assumption|]. unfold Rdiv. rewrite Rmult_assoc, Rinv_l; lra.
Qed.
Lemma curve_rows_unit a h row : unit_point (a_cs a) row -> Forall (unit_point (a_cs a)) (curve_rows a h row).
Proof. intro U. apply Forall_forall. intros r Hr. unfold curve_rows in Hr. apply in_map_iff in Hr. destruct Hr as (u & <- & Hu). apply with_value_unit; [exact U|apply (positions_unit _ _ Hu)]. Qed.
Lemma curve_rows_coordinates a h row : In h (a_cs a) -> NoDup (map hp_name (a_cs a)) -> length row = length (a_cs a) ->
  Forall2 (coordinate (a_cs a) h) (curve_rows a h row) (axis_values (a_gpa a) h).
Proof.
  intros Hin ND L. unfold curve_rows, axis_values. induction (positions (a_gpa a)) as [|u l IH]; constructor; [apply with_value_own; assumption|exact IH].
Qed.

Section Plots.
Context {Col : Type}.
Lemma plot_rows_draws (color : Col) (alpha : R) cs h i (x : list (list (list R))) (y : list (list R)) (xss : list (list R)) : NoDup (map hp_name cs) -> nth_error cs i = Some h ->
  0 <= alpha <= 1 -> Forall2 (Forall2 (coordinate cs h)) x xss -> Forall2 (fun xs ys => length xs = length ys) xss y ->
  draws (plot_rows (N:=RNum) color (map (map (originals cs)) x) i y alpha)
    (colored color (map (fun p => CPlot (N:=RNum) (fst p) (snd p) (Some alpha)) (combine xss y))).
Proof.
  intros ND Ei Ha F FL. unfold plot_rows. assert (L1 : length x = length xss) by (eapply Forall2_length'; exact F). assert (L2 : length xss = length y) by (eapply Forall2_length'; exact FL).
  apply (draws_lift _ _ tt); [apply guard_true, Nat.eqb_eq; rewrite map_length; etransitivity; [exact L1|exact L2]|].
  assert (Q : colored color (map (fun p => CPlot (N:=RNum) (fst p) (snd p) (Some alpha)) (combine xss y)) =
    flat_map (fun p => [(color, CPlot (N:=RNum) (column (0 : R) i (fst p)) (snd p) (Some alpha))]) (combine (map (map (originals cs)) x) y)).
  { rewrite flat_map_single. unfold colored. rewrite map_map. clear L1 L2. revert y FL. induction F as [|m xs x xss C F IH]; intros y FL; [reflexivity|].
    inversion FL as [|? ys ? y' L FL']; subst. cbn [map combine]. f_equal; [|apply IH, FL']. cbn [fst snd]. rewrite (column_coordinates _ _ _ _ _ ND Ei C). reflexivity. }
  rewrite Q. apply forD_draws. intros (m & ys) Hin. cbn [fst snd]. apply ax_plot_draws; [|apply valid_alpha_R, Ha].
  clear Q L1 L2. revert y FL Hin. induction F as [|m' xs x xss C F IH]; intros y FL Hin; [destruct Hin|]. inversion FL as [|? ys' ? y' L FL']; subst. cbn [map combine] in Hin. destruct Hin as [E|Hin]; [|apply (IH y' FL' Hin)].
  injection E as <- <-. etransitivity; [|exact L]. apply (f_equal (length (A:=R))), (column_coordinates _ _ _ _ _ ND Ei C).
Qed.

Lemma ice_plot_arrays (color : Col) (alpha : R) (o o1 o2 : ice RNum) h x y xss : a_sel (ic_alg o) = [h] -> In h (a_cs (ic_alg o)) -> plottable (a_cs (ic_alg o)) -> 0 <= alpha <= 1 ->
  read_x o = (o1, Ok x) -> read_y o1 = (o2, Ok y) -> Forall (Forall (unit_point (a_cs (ic_alg o)))) x ->
  Forall2 (Forall2 (coordinate (a_cs (ic_alg o)) h)) x xss -> Forall2 (fun xs ys => length xs = length ys) xss y ->
  plots (fun cv => snd (ice_plot (N:=RNum) color alpha o cv)) [h] true "Prediction"
    (colored color (map (fun p => CPlot (N:=RNum) (fst p) (snd p) (Some alpha)) (combine xss y) ++ [CPlot (N:=RNum) [] [] None])) /\
  forall cv, fst (ice_plot (N:=RNum) color alpha o cv) = o2 \/ exists cv' e, ice_plot (N:=RNum) color alpha o cv = (o, (cv', Err e)).
Proof.
  intros Es Hin P Ha Ex Ey U F FL. destruct (In_nth_error _ _ Hin) as (i & Ei).
  set (k := bindD (lift (Ok y)) (fun y' => bindD (lift (cs_idx (a_cs (ic_alg o)) (hp_name h))) (fun j =>
    bindD (plot_rows (N:=RNum) (Col:=Col) color (map (map (originals (a_cs (ic_alg o)))) x) j y' alpha) (fun _ => ax_plot color [] [] None)))).
  assert (K : draws k (colored color (map (fun p => CPlot (N:=RNum) (fst p) (snd p) (Some alpha)) (combine xss y) ++ [CPlot (N:=RNum) [] [] None]))).
  { unfold k. apply (draws_lift _ _ y); [reflexivity|]. apply (draws_lift _ _ _ _ (cs_idx_nodup _ _ _ (proj1 P) Ei)). unfold colored. rewrite map_app.
    apply draws_seq; [apply (plot_rows_draws color alpha _ _ _ _ _ _ (proj1 P) Ei Ha F FL)|]. apply ax_plot_draws; [reflexivity|exact I]. }
  assert (Q : forall cv, ice_plot (N:=RNum) color alpha o cv = let (cv1, r1) := set_axis [h] true "Prediction" cv in match r1 with Err e => (o, (cv1, Err e)) | Ok _ => (o2, k cv1) end).
  { intro cv. unfold ice_plot. rewrite Es. destruct (set_axis [h] true "Prediction" cv) as [cv1 [u|e]]; [|reflexivity].
    rewrite Ex. rewrite (unscale3_originals _ _ P U : unscale3 _ _ = _). rewrite Ey. reflexivity. }
  split.
  - assert (R : forall cv, snd (ice_plot (N:=RNum) color alpha o cv) = bindD (set_axis [h] true "Prediction") (fun _ => k) cv).
    { intro cv. rewrite Q. unfold bindD. destruct (set_axis [h] true "Prediction" cv) as [cv1 [u|e]]; reflexivity. }
    pose proof (set_axis_draws k [h] true "Prediction" _ K) as S. intro cv. rewrite R. apply S.
  - intro cv. rewrite Q. destruct (set_axis [h] true "Prediction" cv) as [cv1 [u|e]]; [left; reflexivity|right; eauto].
Qed.

Lemma with_value_twice cs h u v row : length row = length cs -> with_value cs h u (with_value cs h v row) = with_value cs h u row.
Proof.
  revert row. induction cs as [|k cs IH]; intros [|w row] L; try discriminate; [reflexivity|]. injection L as L. unfold with_value in *. cbn [combine map fst snd].
  rewrite IH by exact L. destruct (String.eqb _ _); reflexivity.
Qed.
Lemma positions_head n : (1 <= n)%nat -> exists t, positions n = 0 :: t.
Proof.
  intro H. destruct n as [|n]; [lia|]. unfold positions. cbn [seq map]. eexists. f_equal. destruct (Nat.eqb (S n) 1); [reflexivity|]. cbn [INR]. unfold Rdiv. apply Rmult_0_l.
Qed.
Lemma ice_fresh (color : Col) (alpha : R) (o : ice RNum) h (mu sd : list R -> R) : clean o -> let a := ic_alg o in
  a_sel a = [h] -> In h (a_cs a) -> plottable (a_cs a) -> Forall (unit_point (a_cs a)) (a_samples a) -> (1 <= a_gpa a)%nat -> 0 <= alpha <= 1 ->
  (forall rows : list (list RNum), ic_predict o rows = Ok (map mu rows, map sd rows)) ->
  plots (fun cv => snd (ice_plot (N:=RNum) color alpha o cv)) [h] true "Prediction"
    (colored color (map (ice_line (a_cs a) h (a_gpa a) (if ic_centered o then from_start (a_cs a) h mu else mu) alpha) (a_samples a) ++ [CPlot (N:=RNum) [] [] None])).
Proof.
  intros (Cx & Cy & Cv) a Es Hin P U Hg Ha Hp.
  assert (Rc : rect (num_features a) (a_samples a)) by (eapply Forall_impl; [|exact U]; intros r (L & _); exact L).
  destruct (calculate_one a h Es Hin Rc Hg mu sd _ Hp (ic_centered o)) as (d & Ed). destruct (ice_data_one a h Es (proj1 P) Rc Hg mu sd _ Hp _ d Ed) as (Dx & Dy & _).
  set (o1 := mkiceobj a (ic_centered o) (ic_predict o) (Some (i_x d)) (Some (i_y d)) (Some (i_v d))).
  assert (E1 : read_x o = (o1, Ok (i_x d))) by (unfold read_x, read_field; rewrite Cx; unfold ice_run; fold a; rewrite Ed; reflexivity).
  assert (E2 : read_y o1 = (o1, Ok (i_y d))) by reflexivity.
  destruct (ice_plot_arrays color alpha o o1 o1 h (i_x d) (i_y d) (map (fun _ => axis_values (a_gpa a) h) (a_samples a)) Es Hin P Ha E1 E2) as (Q & _).
  - rewrite Dx. apply Forall_forall. intros m Hm. apply in_map_iff in Hm. destruct Hm as (row & <- & Hr). apply curve_rows_unit. rewrite Forall_forall in U. apply (U row Hr).
  - rewrite Dx. fold a. clear -Hin P U. induction U as [|row l Ur U IH]; constructor; [|exact IH]. apply curve_rows_coordinates; [exact Hin|exact (proj1 P)|exact (proj1 Ur)].
  - rewrite Dy, Dx. rewrite map_map. clear. induction (a_samples a) as [|row l IH]; constructor; [|exact IH].
    unfold row_values, curve_rows, axis_values. rewrite !map_length. reflexivity.
  - fold a in Q. assert (Z : map (fun p => CPlot (N:=RNum) (fst p) (snd p) (Some alpha)) (combine (map (fun _ => axis_values (a_gpa a) h) (a_samples a)) (i_y d)) =
      map (ice_line (a_cs a) h (a_gpa a) (if ic_centered o then from_start (a_cs a) h mu else mu) alpha) (a_samples a)); [|exact (eq_ind _ (fun l => plots _ _ _ _ (colored color (l ++ _))) Q _ Z)].
    rewrite Dy, Dx, map_map, combine_maps, map_map. apply map_ext_in. intros row Hr. unfold ice_line. cbn [fst snd].
    assert (Lr : length row = length (a_cs a)) by (rewrite Forall_forall in U; apply (U row Hr)).
    apply (f_equal (fun q => CPlot (N:=RNum) (axis_values (a_gpa a) h) q (Some alpha))). unfold row_values, curve_rows. rewrite map_map. apply map_ext. intro u.
    destruct (positions_head (a_gpa a) Hg) as (t & ->). cbn [map nth]. destruct (ic_centered o); [|apply Rminus_0_r]. unfold from_start. rewrite with_value_twice by exact Lr. reflexivity.
Qed.
End Plots.
