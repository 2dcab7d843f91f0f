(** DrawProofs6.v - what the plots of regions and trees draw (C76). *)
From Coq Require Import Reals Lra Permutation Sorted.
From Verif Require Import Base Num NumLaws NumpyModel ListLemmas ConfigSpaceModel UtilsModel UtilsProofs UtilsProofs2 RealProofs RealSums IceModel IceProofs IceProofs2 IceReal PartitionModel PartitionSpec
  PartitionProofs2 PartitionProofs3 PartitionReal SamplerModel SamplerSpec SamplerProofs2 PlottingModel PlottingSpec PlottingProofs DrawModel DrawSpec DrawProofs DrawProofs2 DrawProofs3 DrawProofs4 DrawProofs5.
Local Open Scope R_scope.
Local Open Scope list_scope.

Lemma reaches_sel {N} (L : order_laws N) (s : setup N) p sel : setup_ok s -> reaches s p -> convert_hyperparameters (su_sel s) (su_cs s) = Ok sel -> d_sel p = sel.
Proof.
  intros SO R C. destruct (reaches_inv L s p SO R) as (root & d & sel' & ns & p0 & Ec & _ & St & _).
  destruct (construct_spec s p0 SO Ec) as (sel2 & ns2 & d2 & root2 & C2 & _ & _ & _ & -> & _). destruct St as (_ & St & _). cbn in St. congruence.
Qed.

Lemma Forall2_nth_error {A B} (P : A -> B -> Prop) l l' : length l = length l' -> (forall i a b, nth_error l i = Some a -> nth_error l' i = Some b -> P a b) -> Forall2 P l l'.
Proof.
  revert l'. induction l as [|a l IH]; intros [|b l'] L H; try discriminate; constructor; [apply (H 0%nat); reflexivity|].
  apply IH; [injection L as L; exact L|]. intros i x y Ex Ey. apply (H (S i)); assumption.
Qed.
Lemma nth_error_combine {A B} (l : list A) (l' : list B) i a b : nth_error (combine l l') i = Some (a, b) -> nth_error l i = Some a /\ nth_error l' i = Some b.
Proof. revert l' i. induction l as [|x l IH]; intros [|y l'] [|i]; cbn; try discriminate; [intros [= -> ->]; auto|apply IH]. Qed.

Section Plots.
Context {Col : Type}.
Lemma forD_shows {A} (l : list A) (f : A -> canvas RNum Col -> canvas RNum Col * res unit) hps yl g : (forall a, In a l -> shows (f a) hps yl (g a)) ->
  shows (forD l f) hps yl (flat_map g l).
Proof.
  induction l as [|a l IH]; intro H; cbn [forD flat_map]; [apply draws_shows, draws_ret|].
  apply shows_seq; [apply H; left; reflexivity|apply IH; intros b Hb; apply H; right; exact Hb].
Qed.

(** a region whose curves come from these rows *)
Lemma region_plot_draws (color : Col) (alpha : R) a h (mu : list R -> R) (r : region RNum) rows : In h (a_cs a) -> plottable (a_cs a) -> Forall (unit_point (a_cs a)) rows ->
  0 <= alpha <= 1 -> r_x r = map (curve_rows a h) rows -> r_y r = map (fun row => map mu (curve_rows a h row)) rows ->
  plots (region_plot (N:=RNum) color alpha (a_cs a) [h] r) [h] true "Prediction" (colored color (map (ice_line (a_cs a) h (a_gpa a) mu alpha) rows)).
Proof.
  intros Hin P U Ha Ex Ey. destruct (In_nth_error _ _ Hin) as (i & Ei). unfold region_plot. apply set_axis_draws. rewrite Ex, Ey.
  apply (draws_lift _ _ (map (map (originals (a_cs a))) (map (curve_rows a h) rows))).
  { apply unscale3_originals; [exact P|]. apply Forall_forall. intros m Hm. apply in_map_iff in Hm. destruct Hm as (row & <- & Hr). apply curve_rows_unit. rewrite Forall_forall in U. apply (U row Hr). }
  apply (draws_lift _ _ _ _ (cs_idx_nodup _ _ _ (proj1 P) Ei)).
  assert (Z : map (ice_line (a_cs a) h (a_gpa a) mu alpha) rows =
    map (fun p => CPlot (N:=RNum) (fst p) (snd p) (Some alpha)) (combine (map (fun _ => axis_values (a_gpa a) h) rows) (map (fun row => map mu (curve_rows a h row)) rows))).
  { rewrite combine_maps, map_map. apply map_ext. intro row. unfold ice_line, curve_rows. cbn [fst snd]. rewrite map_map. reflexivity. }
  rewrite Z. apply plot_rows_draws with (h := h); [exact (proj1 P)|exact Ei|exact Ha| |].
  - clear -Hin P U. induction U as [|row l Ur U IH]; constructor; [|exact IH]. apply curve_rows_coordinates; [exact Hin|exact (proj1 P)|exact (proj1 Ur)].
  - clear. induction rows as [|row l IH]; constructor; [|exact IH]. unfold curve_rows, axis_values. rewrite !map_length. reflexivity.
Qed.

Lemma rows_of_indices {A B} (f : A -> B) (l : list A) d idxs part : Forall2 (fun i m => nth_error (map f l) i = Some m) idxs part -> part = map f (map (fun i => nth i l d) idxs).
Proof.
  induction 1 as [|i m idxs part E F IH]; [reflexivity|]. cbn [map]. f_equal; [|exact IH]. apply nth_map_inv in E. destruct E as (x & E & ->). f_equal. symmetry. apply nth_error_nth, E.
Qed.

(** ** averages of such curves *)
Section Mean.
Variable a : algorithm RNum.
Variable h : hp RNum.
Variable rows : list (list R).
Hypothesis Known : In h (a_cs a).
Hypothesis P : plottable (a_cs a).
Hypothesis U : Forall (unit_point (a_cs a)) rows.
Hypothesis Ne : rows <> [].

Lemma mean_values f : mean_axis0 (N:=RNum) (a_gpa a) (map (fun row => map f (curve_rows a h row)) rows) = average_values (a_cs a) h (a_gpa a) f rows.
Proof.
  unfold average_values, mean_axis0. rewrite (map_via_seq (fun u => average (fun row => f (with_value (a_cs a) h u row)) rows)), positions_length. apply map_ext_in. intros k Hk. apply in_seq in Hk.
  rewrite nmean_R. unfold Rmean, average. unfold column. rewrite map_map, !map_length. f_equal.
  assert (Q : map (fun row => nth k (map f (curve_rows a h row)) n0) rows = map (fun row => f (with_value (a_cs a) h (nth k (positions (a_gpa a)) 0) row)) rows).
  { apply map_ext. intro row. unfold curve_rows. rewrite map_map. rewrite (nth_indep _ _ (f (with_value (a_cs a) h 0 row))) by (rewrite map_length, positions_length; lia).
    apply (map_nth (fun u => f (with_value (a_cs a) h u row))). }
  rewrite Q. clear. induction rows as [|r l IH]; [reflexivity|]. cbn [map fold_right Rsum]. rewrite IH. reflexivity.
Qed.
Let xm : list (list R) := mean3_axis0 (N:=RNum) (a_gpa a) (length (a_cs a)) (map (curve_rows a h) rows).
Lemma mean_rows_length : length xm = a_gpa a.
Proof. unfold xm, mean3_axis0. rewrite map_length, seq_length. reflexivity. Qed.
Lemma mean_entry k j : (k < a_gpa a)%nat -> (j < length (a_cs a))%nat ->
  nth j (nth k xm []) 0 = Rmean (map (fun row => nth j (with_value (a_cs a) h (nth k (positions (a_gpa a)) 0) row) 0) rows).
Proof.
  intros Hk Hj. unfold xm, mean3_axis0. rewrite (nth_map_seq _ (a_gpa a) k [] Hk). etransitivity; [exact (nth_map_seq _ (length (a_cs a)) j 0 Hj)|].
  rewrite nmean_R, map_map. f_equal. apply map_ext. intro row. apply (f_equal (fun r => nth j r 0)). unfold curve_rows.
  rewrite (nth_indep _ _ (with_value (a_cs a) h 0 row)) by (rewrite map_length, positions_length; exact Hk). apply (map_nth (fun u => with_value (a_cs a) h u row)).
Qed.
Lemma mean_rows_unit : Forall (unit_point (a_cs a)) xm.
Proof.
  apply Forall_forall. intros r Hr. destruct (In_nth _ _ [] Hr) as (k & Hk & <-). rewrite mean_rows_length in Hk.
  assert (L : length (nth k xm []) = length (a_cs a)). { unfold xm, mean3_axis0. rewrite (nth_map_seq _ (a_gpa a) k [] Hk), map_length, seq_length. reflexivity. }
  split; [exact L|]. apply Forall_forall. intros v Hv. destruct (In_nth _ _ 0 Hv) as (j & Hj & <-). rewrite L in Hj. rewrite (mean_entry k j Hk Hj).
  apply Rmean_bounds; [destruct rows; [congruence|discriminate]|]. apply Forall_forall. intros w Hw. apply in_map_iff in Hw. destruct Hw as (row & <- & Hrow).
  rewrite Forall_forall in U. specialize (U row Hrow).
  destruct (with_value_unit (a_cs a) h (nth k (positions (a_gpa a)) 0) row U) as (L2 & F); [apply (positions_unit (a_gpa a)), nth_In; rewrite positions_length; exact Hk|].
  rewrite Forall_forall in F. apply F, nth_In. rewrite L2. exact Hj.
Qed.
Lemma mean_rows_coordinates : Forall2 (coordinate (a_cs a) h) xm (axis_values (a_gpa a) h).
Proof.
  destruct (In_nth_error _ _ Known) as (i & Ei). assert (Hi : (i < length (a_cs a))%nat) by (apply (nth_error_Some_lt _ _ _ Ei)).
  apply Forall2_nth_error; [rewrite mean_rows_length; unfold axis_values; rewrite map_length, positions_length; reflexivity|].
  intros k r v Er Ev. unfold axis_values in Ev. apply nth_map_inv in Ev. destruct Ev as (u & Eu & ->). exists i, u. refine (conj Ei (conj _ eq_refl)).
  assert (Hk : (k < a_gpa a)%nat) by (rewrite <- (positions_length (a_gpa a)); apply (nth_error_Some_lt _ _ _ Eu)).
  pose proof (nth_error_nth _ _ [] Er) as Q. assert (Lr : length r = length (a_cs a)) by (pose proof mean_rows_unit as F; rewrite Forall_forall in F; apply (F r), (nth_error_In _ _ Er)).
  rewrite (nth_error_nth' r 0) by (rewrite Lr; exact Hi). f_equal. rewrite <- Q. rewrite (mean_entry k i Hk Hi). apply Rmean_const; [destruct rows; [congruence|discriminate]|].
  apply Forall_forall. intros w Hw. apply in_map_iff in Hw. destruct Hw as (row & <- & Hrow). rewrite (nth_error_nth _ _ 0 Eu).
  rewrite Forall_forall in U. destruct (with_value_own (a_cs a) h u row Known (proj1 P) (proj1 (U row Hrow))) as (i' & u' & Ei' & Eu' & _).
  assert (i' = i). { pose proof (cs_idx_nodup _ _ _ (proj1 P) Ei) as A1. pose proof (cs_idx_nodup _ _ _ (proj1 P) Ei') as A2. congruence. } subst i'.
  unfold with_value in *. apply nth_map_inv in Eu'. destruct Eu' as ((kk & w) & Ec & Eq).
  erewrite nth_error_nth; [|rewrite nth_error_map, Ec; reflexivity]. cbn [fst snd] in *. apply nth_error_combine in Ec. destruct Ec as (Ec & _). pose proof (eq_trans (eq_sym Ei) Ec) as Z. injection Z as Z. subst kk. rewrite String.eqb_refl. reflexivity.
Qed.

Variable mu sd : list R -> R.
Definition mean_curve : curve RNum :=
  mkcurve (a_cs a) [h] xm (average_values (a_cs a) h (a_gpa a) mu rows) (average_values (a_cs a) h (a_gpa a) (fun r => sd r * sd r) rows).
Lemma mean_curve_sound : sound_curve mean_curve.
Proof.
  assert (L : forall f, length (average_values (a_cs a) h (a_gpa a) f rows) = length xm) by (intro f; rewrite mean_rows_length; unfold average_values; rewrite map_length; apply positions_length).
  refine (conj P (conj mean_rows_unit (conj (L _) (conj (L _) _)))). apply Forall_forall. intros v Hv. unfold mean_curve in Hv. cbn [cu_v] in Hv. unfold average_values in Hv. apply in_map_iff in Hv. destruct Hv as (u & <- & _).
  unfold average. apply Rmult_le_pos.
  - clear. induction rows as [|r l IH]; cbn [map fold_right]; [lra|]. pose proof (Rle_0_sqr (sd (with_value (a_cs a) h u r))) as Z. unfold Rsqr in Z. lra.
  - left. apply Rinv_0_lt_compat, lt_0_INR. destruct rows; [congruence|cbn; lia].
Qed.
Lemma mean_curve_values (color : Col) : plots (curve_plot_values color mean_curve) [h] true "Prediction" [(color, CPlot (N:=RNum) (axis_values (a_gpa a) h) (average_values (a_cs a) h (a_gpa a) mu rows) None)].
Proof. apply (curve_values_one color mean_curve h _ mean_curve_sound eq_refl Known mean_rows_coordinates). Qed.
Lemma mean_curve_confidences (lc gc : Col) ms : plots (curve_plot_confidences (N:=RNum) lc gc ms mean_curve) [h] true "Prediction"
  (confidence lc gc ms (axis_values (a_gpa a) h) (average_values (a_cs a) h (a_gpa a) mu rows) (map sqrt (average_values (a_cs a) h (a_gpa a) (fun r => sd r * sd r) rows))).
Proof. apply (curve_confidences_one lc gc ms mean_curve h _ mean_curve_sound eq_refl Known mean_rows_coordinates). Qed.
End Mean.

(** every ICE curve is drawn exactly once, in the colour of its leaf *)
Lemma tree_plot_draws (s : setup RNum) p d h (mu sd : list R -> R) (alpha : R) : setup_ok s -> plottable (su_cs s) -> Forall (unit_point (su_cs s)) (su_samples s) ->
  convert_hyperparameters (su_sel s) (su_cs s) = Ok [h] -> In h (su_cs s) ->
  (forall rows : list (list RNum), su_predict s rows = Ok (map mu rows, map sd rows)) -> 0 <= alpha <= 1 -> reaches s p -> (0 < d)%nat ->
  exists p' ids root parts, partition p d = (p', Ok ids) /\ deref p' 0 = Some root /\
    Permutation (concat parts) (seq 0 (length (su_samples s))) /\
    Forall2 (fun id idxs => exists nd, deref p' id = Some nd /\ is_rows (n_region root) idxs (n_region nd)) ids parts /\
    (forall i row, nth_error (su_samples s) i = Some row -> exists m, nth_error (r_y (n_region root)) i = Some m /\ m = map (fun u => mu (with_value (su_cs s) h u row)) (positions (su_gpa s))) /\
    forall (colors : list Col) random, length colors = length ids ->
      shows (tree_plot (N:=RNum) (Some colors) random alpha p') [h] "Prediction"
        (flat_map (fun q => colored (snd q) (map (fun i => ice_line (su_cs s) h (su_gpa s) mu alpha (nth i (su_samples s) [])) (fst q))) (combine parts colors)).
Proof.
  intros SO P U C Hin Hp Ha R Hd. destruct (leaves_partition_curves R_order_laws s p d SO (R_no_nan s) (R_splits_ordinary s) R Hd) as (p' & ids & leaves & root & parts & Ep & Fl & D0 & D0' & Len & Perm & _ & Fr).
  destruct (reaches_facts R_order_laws s p SO R) as (root' & dd & sel & ns & F). destruct (partition_facts R_order_laws s p root' dd sel ns d F Hd) as (q' & ids' & t & Uf).
  pose proof (eq_trans (eq_sym Ep) (ru_eq _ _ _ _ _ _ _ Uf)) as Q. injection Q as Q1 Q2. subst q' ids'.
  pose proof (eq_trans (eq_sym D0) (rf_deref _ _ _ _ _ _ F)) as Q. injection Q as Q. subst root'.
  pose proof (eq_trans (eq_sym C) (rf_sel _ _ _ _ _ _ F)) as Q. injection Q as Q. subst sel.
  pose proof (rf_ice _ _ _ _ _ _ F) as Ei. pose proof (rf_root _ _ _ _ _ _ F) as Er. set (a := alg_of s [h]) in *.
  assert (Rc : rect (num_features a) (a_samples a)) by exact (proj1 (proj2 SO)).
  destruct (ice_data_one a h eq_refl (proj1 P) Rc (proj2 (proj2 SO)) mu sd _ Hp _ dd Ei) as (Dx & Dy & _).
  assert (Dy' : i_y dd = map (fun row => map mu (curve_rows a h row)) (su_samples s)).
  { rewrite Dy, Dx, map_map. apply map_ext. intro row. unfold row_values. apply map_ext. intro r. apply Rminus_0_r. }
  exists p', ids, root, parts. split; [exact Ep|]. split; [exact D0'|]. split; [exact Perm|]. split.
  { clear -Fl Fr. revert parts Fr. induction Fl as [|id nd ids leaves E Fl IH]; intros parts Fr; inversion Fr; subst; constructor; [eauto|apply IH; assumption]. }
  split.
  { intros i row Hi. exists (map mu (curve_rows a h row)). split.
    - rewrite Er. cbn [n_region r_y]. etransitivity; [exact (f_equal (fun l => nth_error l i) Dy')|]. apply (map_nth_error (fun row => map mu (curve_rows a h row)) _ _ Hi).
    - unfold curve_rows. rewrite map_map. reflexivity. }
  intros colors random Lc.
  assert (Dl : d_leaves p' = ids) by exact (ru_dleaves _ _ _ _ _ _ _ Uf). assert (Ds : d_sel p' = [h] /\ d_cs p' = su_cs s).
  { destruct (ru_static _ _ _ _ _ _ _ Uf) as (S1 & S2 & _). split; [rewrite <- S2; apply (reaches_sel R_order_laws s p [h] SO R C)|rewrite <- S1; exact (rf_cs _ _ _ _ _ _ F)]. }
  destruct Ds as (Ds & Dc).
  assert (Ne : ids <> []).
  { intro Z. rewrite Z in Uf. pose proof (tree_leaf_count _ _ _ (ru_grown _ _ _ _ _ _ _ Uf)) as (G1 & _). pose proof (ru_leaves _ _ _ _ _ _ _ Uf) as G. apply Forall2_length' in G. rewrite <- G in G1. cbn in G1. lia. }
  unfold tree_plot. rewrite Dl, Ds, Dc.
  apply (shows_lift _ _ tt); [apply guard_true; destruct ids; [congruence|reflexivity]|]. cbv zeta. apply (shows_lift _ _ tt); [apply guard_true, Nat.eqb_eq, Lc|].
  set (g := fun (q : list nat * Col) => colored (N:=RNum) (snd q) (map (fun i => ice_line (su_cs s) h (su_gpa s) mu alpha (nth i (su_samples s) [])) (fst q))).
  assert (One : forall id idxs nd c, deref p' id = Some nd -> is_rows (n_region root) idxs (n_region nd) -> (forall i, In i idxs -> (i < length (su_samples s))%nat) ->
     shows (match deref p' id with None => raise IndexError | Some nd => region_plot (N:=RNum) c alpha (su_cs s) [h] (n_region nd) end) [h] "Prediction" (g (idxs, c))).
  { intros id idxs nd c E (I1 & I2 & _) Lt. rewrite E. unfold g. cbn [fst snd].
    rewrite Er in I1, I2. cbn [n_region r_x r_y] in I1, I2. rewrite Dx in I1. rewrite Dy' in I2. apply (rows_of_indices _ _ []) in I1. apply (rows_of_indices _ _ []) in I2.
    rewrite <- (map_map (fun i => nth i (su_samples s) []) (ice_line (su_cs s) h (su_gpa s) mu alpha)).
    apply plots_shows with (b := true). apply (region_plot_draws c alpha a h mu (n_region nd) (map (fun i => nth i (su_samples s) []) idxs) Hin P); [|exact Ha|exact I1|exact I2].
    apply Forall_forall. intros row Hr. apply in_map_iff in Hr. destruct Hr as (i & <- & Hi). rewrite Forall_forall in U. apply (U _ (nth_In _ _ (Lt i Hi))). }
  assert (Lt : forall idxs i, In idxs parts -> In i idxs -> (i < length (su_samples s))%nat).
  { intros idxs i H1 H2. assert (X : In i (concat parts)) by (apply in_concat; eauto). apply (Permutation_in _ Perm) in X. apply in_seq in X. lia. }
  clear -One Lt Fl Fr Lc. revert parts colors Fr Lc Lt. induction Fl as [|id nd ids leaves E Fl IH]; intros parts colors Fr Lc Lt.
  - inversion Fr; subst. cbn. apply draws_shows, draws_ret.
  - inversion Fr as [|idxs ? parts' ? I Fr']; subst. destruct colors as [|c colors]; [discriminate|]. cbn [combine forD flat_map fst snd].
    apply shows_seq; [apply (One id idxs nd c E I); intros i Hi; apply (Lt idxs i); [left; reflexivity|exact Hi]|].
    apply IH; [exact Fr'|injection Lc as Lc; exact Lc|]. intros idxs' i H1 H2. apply (Lt idxs' i); [right; exact H1|exact H2].
Qed.

Lemma tree_plot_checks (p : dtp RNum) (colors : list Col) random alpha cv :
  (d_leaves p = [] -> forall c, tree_plot (N:=RNum) c random alpha p cv = (cv, Err AssertionError)) /\
  (length colors <> length (d_leaves p) -> tree_plot (N:=RNum) (Some colors) random alpha p cv = (cv, Err AssertionError)) /\
  tree_plot (N:=RNum) None random alpha p = tree_plot (N:=RNum) (Some (map random (seq 0 (length (d_leaves p))))) random alpha p.
Proof.
  split; [|split].
  - intros E c. unfold tree_plot. rewrite E. reflexivity.
  - intro L. unfold tree_plot. destruct (d_leaves p) as [|i l]; [reflexivity|]. cbv zeta. rewrite (proj2 (Nat.eqb_neq _ _) L). reflexivity.
  - reflexivity.
Qed.

(** ** Region.plot_values and Region.plot_confidences of the regions of a tree *)
Lemma root_arrays (s : setup RNum) p h (mu sd : list R -> R) root : setup_ok s -> plottable (su_cs s) ->
  convert_hyperparameters (su_sel s) (su_cs s) = Ok [h] -> (forall rows : list (list RNum), su_predict s rows = Ok (map mu rows, map sd rows)) -> reaches s p -> deref p 0 = Some root ->
  let a := alg_of s [h] in
  r_x (n_region root) = map (curve_rows a h) (su_samples s) /\ r_y (n_region root) = map (fun row => map mu (curve_rows a h row)) (su_samples s) /\
  r_v (n_region root) = map (fun row => map (fun r => sd r * sd r) (curve_rows a h row)) (su_samples s).
Proof.
  intros SO P C Hp R D0 a. destruct (reaches_facts R_order_laws s p SO R) as (root' & dd & sel & ns & F).
  pose proof (eq_trans (eq_sym D0) (rf_deref _ _ _ _ _ _ F)) as Q. injection Q as Q. subst root'.
  pose proof (eq_trans (eq_sym C) (rf_sel _ _ _ _ _ _ F)) as Q. injection Q as Q. subst sel.
  pose proof (rf_ice _ _ _ _ _ _ F) as Ei. pose proof (rf_root _ _ _ _ _ _ F) as Er. fold a in Ei.
  assert (Rc : rect (num_features a) (a_samples a)) by exact (proj1 (proj2 SO)).
  destruct (ice_data_one a h eq_refl (proj1 P) Rc (proj2 (proj2 SO)) mu sd _ Hp _ dd Ei) as (Dx & Dy & Dv).
  rewrite Er. cbn [n_region r_x r_y r_v]. split; [exact Dx|]. split.
  - rewrite Dy, Dx, map_map. apply map_ext. intro row. unfold row_values. apply map_ext. intro r. apply Rminus_0_r.
  - rewrite Dv, Dx, map_map. reflexivity.
Qed.
Lemma region_curve_mean a h (mu sd : list R -> R) (r : region RNum) rows : (1 <= a_gpa a)%nat -> rows <> [] ->
  r_x r = map (curve_rows a h) rows -> r_y r = map (fun row => map mu (curve_rows a h row)) rows -> r_v r = map (fun row => map (fun r => sd r * sd r) (curve_rows a h row)) rows ->
  region_curve (a_cs a) [h] r = mean_curve a h rows mu sd.
Proof.
  intros Hg Ne Ex Ey Ev. unfold region_curve, mean_curve, region_pdp_y, region_pdp_v. rewrite Ex, Ey, Ev.
  assert (W : forall f : list R -> R, width (map (fun row => map f (curve_rows a h row)) rows) = a_gpa a).
  { intro f. destruct rows as [|r0 l]; [congruence|]. cbn [map width]. unfold curve_rows. rewrite !map_length. apply positions_length. }
  assert (W' : width (map (curve_rows a h) rows) = a_gpa a).
  { destruct rows as [|r0 l]; [congruence|]. cbn [map width]. unfold curve_rows. rewrite map_length. apply positions_length. }
  rewrite (W mu : width (A:=RNum) _ = _), (W (fun r => sd r * sd r) : width (A:=RNum) _ = _), (W' : width (A:=list RNum) _ = _). rewrite !(mean_values a h rows _ : mean_axis0 (N:=RNum) _ _ = _). reflexivity.
Qed.
Lemma region_mean_draws (s : setup RNum) p d h (mu sd : list R -> R) (color gc : Col) (ms : R) root id nd idxs : setup_ok s -> plottable (su_cs s) -> Forall (unit_point (su_cs s)) (su_samples s) ->
  convert_hyperparameters (su_sel s) (su_cs s) = Ok [h] -> In h (su_cs s) ->
  (forall rows : list (list RNum), su_predict s rows = Ok (map mu rows, map sd rows)) -> reaches s p -> (0 < d)%nat ->
  let p' := fst (partition p d) in deref p' 0 = Some root -> deref p' id = Some nd -> is_rows (n_region root) idxs (n_region nd) -> idxs <> [] ->
  let rows := map (fun i => nth i (su_samples s) []) idxs in
  let xs := axis_values (su_gpa s) h in let ys := average_values (su_cs s) h (su_gpa s) mu rows in
  plots (region_plot_values (N:=RNum) color (d_cs p') (d_sel p') (n_region nd)) [h] true "Prediction" [(color, CPlot (N:=RNum) xs ys None)] /\
  plots (region_plot_confidences (N:=RNum) color gc ms (d_cs p') (d_sel p') (n_region nd)) [h] true "Prediction"
    (confidence color gc ms xs ys (map sqrt (average_values (su_cs s) h (su_gpa s) (fun r => sd r * sd r) rows))).
Proof.
  intros SO P U C Hin Hp R Hd p' D0 Di (I1 & I2 & I3) Ne rows xs ys.
  assert (R' : reaches s p') by (destruct R as (p0 & ds & E1 & ->); exists p0, (ds ++ [d]); split; [exact E1|]; unfold p', run_history; rewrite fold_left_app; reflexivity).
  destruct (root_arrays s p' h mu sd root SO P C Hp R' D0) as (Ex & Ey & Ev). set (a := alg_of s [h]) in *.
  assert (Lt : forall i, In i idxs -> (i < length (su_samples s))%nat).
  { intros i Hi. clear -I1 Ex Hi. induction I1 as [|j m idxs part E F IH]; [destruct Hi|]. destruct Hi as [->|Hi]; [|apply IH, Hi]. rewrite Ex in E. apply nth_map_inv in E. destruct E as (row & E & _). apply (nth_error_Some_lt _ _ _ E). }
  rewrite Ex in I1. rewrite Ey in I2. rewrite Ev in I3. apply (rows_of_indices _ _ []) in I1. apply (rows_of_indices _ _ []) in I2. apply (rows_of_indices _ _ []) in I3. fold rows in I1, I2, I3.
  assert (Nr : rows <> []) by (unfold rows; destruct idxs; [congruence|discriminate]).
  assert (Ur : Forall (unit_point (a_cs a)) rows).
  { apply Forall_forall. intros row Hr. unfold rows in Hr. apply in_map_iff in Hr. destruct Hr as (i & <- & Hi). rewrite Forall_forall in U. apply (U _ (nth_In _ _ (Lt i Hi))). }
  rewrite (reaches_sel R_order_laws s p' [h] SO R' C). assert (Dc : d_cs p' = su_cs s) by (destruct (reaches_facts R_order_laws s p' SO R') as (? & ? & ? & ? & F'); exact (rf_cs _ _ _ _ _ _ F')).
  rewrite Dc. unfold region_plot_values, region_plot_confidences. pose proof (region_curve_mean a h mu sd (n_region nd) rows (proj2 (proj2 SO)) Nr I1 I2 I3) as Q.
  rewrite (Q : region_curve (su_cs s) [h] (n_region nd) = _). split; [apply (mean_curve_values a h rows Hin P Ur Nr mu sd)|apply (mean_curve_confidences a h rows Hin P Ur Nr mu sd)].
Qed.

(** ** PDP.plot_values, PDP.plot_confidences, plot_full_pdp *)
Lemma pdp_curve_fresh (s : pdp RNum) h (mu sd : list R -> R) : (clean (pd_ice s) \/ exists d, ice_calculate (ic_alg (pd_ice s)) (ic_centered (pd_ice s)) (ic_predict (pd_ice s)) = Ok d /\ holds (pd_ice s) d) ->
  pd_x s = None -> pd_y s = None -> pd_v s = None -> let a := ic_alg (pd_ice s) in
  a_sel a = [h] -> In h (a_cs a) -> plottable (a_cs a) -> Forall (unit_point (a_cs a)) (a_samples a) -> (1 <= a_gpa a)%nat ->
  (forall rows : list (list RNum), ic_predict (pd_ice s) rows = Ok (map mu rows, map sd rows)) ->
  let c := mean_curve a h (a_samples a) (if ic_centered (pd_ice s) then from_start (a_cs a) h mu else mu) sd in
  exists s', pdp_curve s = (s', Ok c) /\ pdp_curve s' = (s', Ok c).
Proof.
  intros Cl Px Py Pv a Es Hin P U Hg Hp c.
  assert (Rc : rect (num_features a) (a_samples a)) by (eapply Forall_impl; [|exact U]; intros r (L & _); exact L).
  destruct (calculate_one a h Es Hin Rc Hg mu sd _ Hp (ic_centered (pd_ice s))) as (d & Ed). destruct (ice_data_one a h Es (proj1 P) Rc Hg mu sd _ Hp _ d Ed) as (Dx & Dy & Dv).
  set (o1 := mkiceobj a (ic_centered (pd_ice s)) (ic_predict (pd_ice s)) (Some (i_x d)) (Some (i_y d)) (Some (i_v d))).
  assert (E1 : read_x (pd_ice s) = (o1, Ok (i_x d))).
  { unfold read_x, read_field. destruct Cl as [(Cx & Cy & Cv)|(d' & Ed' & Cx & Cy & Cv)].
    - rewrite Cx. unfold ice_run. fold a. rewrite Ed. reflexivity.
    - pose proof (eq_trans (eq_sym Ed) Ed') as Q. injection Q as Q. subst d'. rewrite Cx. f_equal. unfold o1, a. destruct (pd_ice s); cbn in *; subst. reflexivity. }
  assert (E2 : read_y o1 = (o1, Ok (i_y d))) by reflexivity. assert (E3 : read_v o1 = (o1, Ok (i_v d))) by reflexivity.
  assert (G : num_grid_points a = a_gpa a) by (unfold num_grid_points, n_selected; rewrite Es; apply Nat.pow_1_r).
  assert (Vy : mean_axis0 (N:=RNum) (a_gpa a) (i_y d) = cu_y c).
  { rewrite Dy, Dx, map_map. cbn [cu_y c mean_curve]. etransitivity; [|apply (mean_values a h (a_samples a))]. apply f_equal. apply map_ext_in. intros row Hr.
    assert (Lr : length row = length (a_cs a)) by (rewrite Forall_forall in U; apply (U row Hr)).
    unfold row_values, curve_rows. rewrite !map_map. apply map_ext. intro u. destruct (positions_head (a_gpa a) Hg) as (t & ->). cbn [map nth]. destruct (ic_centered (pd_ice s)); [|apply Rminus_0_r].
    unfold from_start. rewrite with_value_twice by exact Lr. reflexivity. }
  assert (Vv : mean_axis0 (N:=RNum) (a_gpa a) (i_v d) = cu_v c).
  { rewrite Dv, Dx, map_map. apply (mean_values a h (a_samples a) (fun r => sd r * sd r)). }
  assert (Vx : mean3_axis0 (N:=RNum) (a_gpa a) (num_features a) (i_x d) = cu_x c) by (rewrite Dx; reflexivity).
  exists (mkpdp o1 (Some (cu_x c)) (Some (cu_y c)) (Some (cu_v c))).
  assert (S : forall s2, ic_alg (pd_ice s2) = a -> pd_x s2 = Some (cu_x c) -> pd_y s2 = Some (cu_y c) -> pd_v s2 = Some (cu_v c) -> pdp_curve s2 = (s2, Ok c)).
  { intros s2 Ea X Y V. unfold pdp_curve. cbn [pdp_step]. rewrite X. cbn [pdp_step]. rewrite Y. cbn [pdp_step]. rewrite V. rewrite Ea, Es. reflexivity. }
  split; [|apply S; reflexivity].
  unfold pdp_curve. cbn [pdp_step]. rewrite Px, E1. fold a. rewrite G, Vx, Py, Pv. cbn [pdp_step pd_ice pd_y pd_x pd_v]. rewrite E2. cbn [ic_alg o1]. rewrite G, Vy. cbn [pdp_step pd_ice pd_y pd_x pd_v]. rewrite E3. cbn [ic_alg o1]. rewrite G, Vv, Es. reflexivity.
Qed.
Lemma pdp_plots_draw (s : pdp RNum) h (mu sd : list R -> R) (color gc : Col) (ms : R) : clean (pd_ice s) -> pd_x s = None -> pd_y s = None -> pd_v s = None -> let a := ic_alg (pd_ice s) in
  a_sel a = [h] -> In h (a_cs a) -> plottable (a_cs a) -> Forall (unit_point (a_cs a)) (a_samples a) -> a_samples a <> [] -> (1 <= a_gpa a)%nat ->
  (forall rows : list (list RNum), ic_predict (pd_ice s) rows = Ok (map mu rows, map sd rows)) ->
  let f := if ic_centered (pd_ice s) then from_start (a_cs a) h mu else mu in
  let xs := axis_values (a_gpa a) h in let ys := average_values (a_cs a) h (a_gpa a) f (a_samples a) in
  plots (fun cv => snd (pdp_plot_values (N:=RNum) color s cv)) [h] true "Prediction" [(color, CPlot (N:=RNum) xs ys None)] /\
  plots (fun cv => snd (pdp_plot_confidences (N:=RNum) color gc ms s cv)) [h] true "Prediction"
    (confidence color gc ms xs ys (map sqrt (average_values (a_cs a) h (a_gpa a) (fun r => sd r * sd r) (a_samples a)))).
Proof.
  intros Cl Px Py Pv a Es Hin P U Ne Hg Hp f xs ys. destruct (pdp_curve_fresh s h mu sd (or_introl Cl) Px Py Pv Es Hin P U Hg Hp) as (s' & E & _).
  unfold pdp_plot_values, pdp_plot_confidences. rewrite E. cbn [snd]. split; [apply (mean_curve_values a h (a_samples a) Hin P U Ne)|apply (mean_curve_confidences a h (a_samples a) Hin P U Ne)].
Qed.
Lemma full_pdp_draws (red black blue : Col) (s : pdp RNum) h (mu sd : list R -> R) : clean (pd_ice s) -> pd_x s = None -> pd_y s = None -> pd_v s = None -> let a := ic_alg (pd_ice s) in
  a_sel a = [h] -> In h (a_cs a) -> plottable (a_cs a) -> Forall (unit_point (a_cs a)) (a_samples a) -> a_samples a <> [] -> (1 <= a_gpa a)%nat ->
  (forall rows : list (list RNum), ic_predict (pd_ice s) rows = Ok (map mu rows, map sd rows)) ->
  let f := if ic_centered (pd_ice s) then from_start (a_cs a) h mu else mu in
  let xs := axis_values (a_gpa a) h in let ys := average_values (a_cs a) h (a_gpa a) f (a_samples a) in
  exists s' cv, plot_full_pdp (N:=RNum) red black blue s = (s', (cv, Ok tt)) /\
  cv_drawn cv = colored red (map (ice_line (a_cs a) h (a_gpa a) f (1 / 10)) (a_samples a) ++ [CPlot (N:=RNum) [] [] None]) ++
      (black, CPlot (N:=RNum) xs ys None) ::
      confidence black blue (3 / 2) xs ys (map sqrt (average_values (a_cs a) h (a_gpa a) (fun r => sd r * sd r) (a_samples a))).
Proof.
  intros Cl Px Py Pv a Es Hin P U Ne Hg Hp f xs ys.
  assert (A : 0 <= 1 / 10 <= 1) by lra.
  pose proof (plots_shows _ _ _ _ _ (ice_fresh red (1/10) (pd_ice s) h mu sd Cl Es Hin P U Hg A Hp)) as S1. fold a f in S1.
  unfold plot_full_pdp. change (tenths (N:=RNum) 1) with (1 / 10 : RNum). change (ndiv (nofZ 3) (nofZ 2) : RNum) with (3 / 2).
  destruct (S1 blank (fresh_no_conflict _ _)) as (cv1 & E1 & D1 & C1). destruct (ice_plot (N:=RNum) red (1 / 10) (pd_ice s) blank) as [i1 w1] eqn:E. cbn [snd] in E1. subst w1.
  assert (I1 : ic_alg i1 = a /\ ic_centered i1 = ic_centered (pd_ice s) /\ ic_predict i1 = ic_predict (pd_ice s) /\ exists d, ice_calculate a (ic_centered (pd_ice s)) (ic_predict (pd_ice s)) = Ok d /\ holds i1 d).
  { assert (Rc : rect (num_features a) (a_samples a)) by (eapply Forall_impl; [|exact U]; intros r (L & _); exact L).
    destruct (calculate_one a h Es Hin Rc Hg mu sd _ Hp (ic_centered (pd_ice s))) as (d & Ed). destruct Cl as (Cx & Cy & Cv).
    revert E. unfold ice_plot. fold a. rewrite Es. destruct (set_axis [h] true "Prediction" blank) as [cv' [u|e]]; [|intro Z; apply (f_equal (fun q => snd (snd q))) in Z; cbn [snd] in Z; discriminate Z].
    unfold read_x at 1, read_field. rewrite Cx. unfold ice_run. fold a. rewrite Ed. cbn [bind ic_x]. destruct (unscale3 (i_x d) (a_cs a)) as [xu|e]; [|intro Z; apply (f_equal (fun q => snd (snd q))) in Z; cbn [snd] in Z; discriminate Z].
    cbn [read_y read_field ic_y]. intro E. pose proof (f_equal fst E) as Z. cbn [fst] in Z. subst i1. cbn. refine (conj eq_refl (conj eq_refl (conj eq_refl _))). exists d. split; [first [exact Ed|reflexivity]|repeat split]. }
  destruct I1 as (Ia & Ic & Ip & d & Ed & Ho). set (s1 := mkpdp i1 (pd_x s) (pd_y s) (pd_v s)).
  assert (Hd1 : clean (pd_ice s1) \/ exists d, ice_calculate (ic_alg (pd_ice s1)) (ic_centered (pd_ice s1)) (ic_predict (pd_ice s1)) = Ok d /\ holds (pd_ice s1) d).
  { right. exists d. cbn [pd_ice s1]. rewrite Ia, Ic, Ip. split; assumption. }
  destruct (pdp_curve_fresh s1 h mu sd Hd1 Px Py Pv) as (s2 & K1 & K2); try (cbn [pd_ice s1]; rewrite ?Ia, ?Ip; assumption).
  cbn [pd_ice s1] in K1, K2. rewrite Ia, Ic in K1, K2. fold f in K1, K2.
  unfold pdp_plot_values. rewrite K1.
  pose proof (plots_shows _ _ _ _ _ (mean_curve_values a h (a_samples a) Hin P U Ne f sd black)) as S2. destruct (S2 cv1 C1) as (cv2 & E2 & D2 & C2).
  cbv beta iota. unfold bindD, lift. rewrite E2. unfold pdp_plot_confidences. rewrite K2. unfold bindD, lift.
  pose proof (plots_shows _ _ _ _ _ (mean_curve_confidences a h (a_samples a) Hin P U Ne f sd black blue (3/2))) as S3. destruct (S3 cv2 C2) as (cv3 & E3 & D3 & C3).
  exists s2, cv3. rewrite E3. split; [reflexivity|]. rewrite D3, D2, D1. rewrite <- app_assoc. reflexivity.
Qed.

(** for another number of selected hyperparameters *)
Lemma ice_plot_many (color : Col) alpha (o : ice RNum) : length (a_sel (ic_alg o)) <> 1%nat ->
  fails (fun cv => snd (ice_plot (N:=RNum) color alpha o cv)) (a_sel (ic_alg o)) true "Prediction" NotImplementedError.
Proof.
  intro H. assert (F : fails (bindD (set_axis (a_sel (ic_alg o)) true "Prediction") (fun _ => raise (N:=RNum) (Col:=Col) NotImplementedError)) (a_sel (ic_alg o)) true "Prediction" NotImplementedError) by (apply set_axis_errs; intro; reflexivity).
  intro cv. rewrite <- (F cv). unfold ice_plot, bindD. destruct (set_axis (a_sel (ic_alg o)) true "Prediction" cv) as [cv1 [u|e]]; [|reflexivity].
  destruct (a_sel (ic_alg o)) as [|h1 [|h2 t]]; try reflexivity. cbn in H. congruence.
Qed.
Lemma region_plot_many (color : Col) alpha cs (sel : list (hp RNum)) r : length sel <> 1%nat -> fails (region_plot (N:=RNum) color alpha cs sel r) sel true "Prediction" NotImplementedError.
Proof.
  intro H. unfold region_plot. apply set_axis_errs. intro cv. destruct sel as [|h1 [|h2 t]]; try reflexivity. cbn in H. congruence.
Qed.
Lemma full_pdp_many (red black blue : Col) (s : pdp RNum) : length (a_sel (ic_alg (pd_ice s))) <> 1%nat ->
  exists s' cv, plot_full_pdp (N:=RNum) red black blue s = (s', (cv, Err NotImplementedError)) /\ cv_drawn cv = [].
Proof.
  intro H. pose proof (ice_plot_many red (tenths (N:=RNum) 1) (pd_ice s) H blank) as F. cbv beta in F. unfold plot_full_pdp. destruct (ice_plot red (tenths 1) (pd_ice s) blank) as [i1 w1]. cbn [snd] in F.
  destruct (axis_raises (cv_axis (blank (N:=RNum) (Col:=Col))) (a_sel (ic_alg (pd_ice s))) true "Prediction"%string) as [_ A]. specialize (A (fresh_no_conflict _ _)).
  destruct (check_and_set_axis _ _ _ _) as [ax r]. cbn [snd] in A. rewrite A in F. rewrite F. eauto.
Qed.
End Plots.
