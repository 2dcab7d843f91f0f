(** DrawProofs8.v - the figures of advanced_plots.py (C80). *)
From Coq Require Import Reals Lra Permutation Sorted.
From Verif Require Import Base Num NumLaws NumpyModel ListLemmas ConfigSpaceModel UtilsModel UtilsProofs UtilsProofs2 RealProofs RealSums IceModel IceProofs IceProofs2 IceReal PartitionModel PartitionSpec
  PartitionProofs2 PartitionProofs3 PartitionProofs5 PartitionReal SamplerModel SamplerSpec SamplerProofs2 PlottingModel PlottingSpec PlottingProofs DrawModel DrawSpec DrawProofs DrawProofs2 DrawProofs3 DrawProofs4 DrawProofs5 DrawProofs6.
Local Open Scope R_scope.
Local Open Scope list_scope.

(** ** the grid of two hyperparameters *)
Lemma nth_flat_map {A B C} (g : A -> B -> C) (l : list A) (m : list B) k1 k2 a b : nth_error l k1 = Some a -> nth_error m k2 = Some b ->
  nth_error (flat_map (fun y => map (fun x => g x y) l) m) (k2 * length l + k1) = Some (g a b).
Proof.
  intros Ha. revert k2. induction m as [|y m IH]; intros [|k2] Hb; try discriminate; cbn [flat_map].
  - injection Hb as ->. cbn. rewrite nth_error_app1 by (rewrite map_length; apply (nth_error_Some_lt _ _ _ Ha)). rewrite nth_error_map, Ha. reflexivity.
  - rewrite nth_error_app2 by (rewrite map_length; cbn; lia). rewrite map_length. replace (S k2 * length l + k1 - length l)%nat with (k2 * length l + k1)%nat by (cbn; lia). apply IH, Hb.
Qed.
Lemma flat_map_length' {A B C} (g : A -> B -> C) (l : list A) (m : list B) : length (flat_map (fun y => map (fun x => g x y) l) m) = (length m * length l)%nat.
Proof. induction m as [|y m IH]; cbn; [reflexivity|]. rewrite app_length, map_length, IH. reflexivity. Qed.
Lemma grid_positions_length n : length (grid_positions n) = (n * n)%nat.
Proof. unfold grid_positions. rewrite (flat_map_length' (fun u v => (u, v))), positions_length. reflexivity. Qed.
Lemma grid_positions_unit n q : In q (grid_positions n) -> 0 <= fst q <= 1 /\ 0 <= snd q <= 1.
Proof.
  unfold grid_positions. intro H. apply in_flat_map in H. destruct H as (v & Hv & H). apply in_map_iff in H. destruct H as (u & <- & Hu).
  split; eapply positions_unit; eassumption.
Qed.
Lemma evenly_positions l n : evenly 0 1 l n -> l = positions n.
Proof.
  intros (L & H). apply list_ext; [rewrite positions_length; exact L|]. intros i x y Hx Hy.
  assert (Hi : (i < n)%nat) by (rewrite <- L; apply (nth_error_Some_lt _ _ _ Hx)). pose proof (eq_trans (eq_sym Hx) (H i Hi)) as Q. injection Q as ->.
  unfold positions in Hy. apply nth_map_inv in Hy. destruct Hy as (j & Ej & ->). assert (j = i) as ->.
  { pose proof (nth_error_nth _ _ 0%nat Ej) as Z. rewrite seq_nth in Z by exact Hi. lia. }
  destruct (Nat.eqb_spec n 1); [reflexivity|]. unfold Rdiv. rewrite Rminus_0_r, Rplus_0_l, Rmult_1_l. reflexivity.
Qed.
Lemma grid_two (a : algorithm RNum) h1 h2 grid : a_sel a = [h1; h2] -> grid_points a = Ok grid -> grid = map (fun q : R * R => [fst q; snd q]) (grid_positions (a_gpa a)).
Proof.
  intros Es E. destruct (ice_grid a grid E) as (axis & Ev & _ & _ & L & _ & _ & H). rewrite (evenly_positions _ _ Ev) in H. specialize (H ltac:(unfold n_selected; rewrite Es; reflexivity)).
  assert (L' : length grid = (a_gpa a * a_gpa a)%nat) by (rewrite L; unfold num_grid_points, n_selected; rewrite Es; cbn [length]; rewrite Nat.pow_2_r; reflexivity).
  apply list_ext; [rewrite map_length, grid_positions_length; exact L'|]. intros i x y Hx Hy. apply nth_map_inv in Hy. destruct Hy as (q & Eq & ->).
  assert (Hi : (i < a_gpa a * a_gpa a)%nat) by (rewrite <- L'; apply (nth_error_Some_lt _ _ _ Hx)).
  assert (Hg : a_gpa a <> 0%nat) by (intro Z; rewrite Z in Hi; cbn in Hi; lia).
  set (k1 := (i mod a_gpa a)%nat). set (k2 := (i / a_gpa a)%nat).
  assert (H1 : (k1 < a_gpa a)%nat) by (apply Nat.mod_upper_bound, Hg). assert (H2 : (k2 < a_gpa a)%nat) by (apply Nat.div_lt_upper_bound; assumption).
  assert (Ei : i = (k2 * a_gpa a + k1)%nat) by (unfold k1, k2; rewrite Nat.mul_comm; apply Nat.div_mod, Hg).
  rewrite Ei in Hx, Eq. pose proof (eq_trans (eq_sym Hx) (H k1 k2 H1 H2)) as Q. injection Q as ->.
  assert (N1 : nth_error (positions (a_gpa a)) k1 = Some (nth k1 (positions (a_gpa a)) 0)) by (apply nth_error_nth'; rewrite positions_length; exact H1).
  assert (N2 : nth_error (positions (a_gpa a)) k2 = Some (nth k2 (positions (a_gpa a)) 0)) by (apply nth_error_nth'; rewrite positions_length; exact H2).
  pose proof (nth_flat_map (fun u v : R => (u, v)) _ _ k1 k2 _ _ N1 N2) as Z. rewrite positions_length in Z. unfold grid_positions in Eq. rewrite Eq in Z. injection Z as ->. reflexivity.
Qed.

Definition both (cs : cspace RNum) (h1 h2 : hp RNum) (q : R * R) (row : list R) : list R := with_value cs h2 (snd q) (with_value cs h1 (fst q) row).
Lemma with_value_entry cs h u row j k w : nth_error cs j = Some k -> nth_error row j = Some w ->
  nth_error (with_value cs h u row) j = Some (if String.eqb (hp_name k) (hp_name h) then u else w).
Proof. intros Ek Ew. unfold with_value. rewrite nth_error_map, (combine_nth_error _ _ _ _ _ Ek Ew). reflexivity. Qed.

Section Two.
Variable a : algorithm RNum.
Variable h1 h2 : hp RNum.
Hypothesis Sel : a_sel a = [h1; h2].
Hypothesis Known1 : In h1 (a_cs a).
Hypothesis Known2 : In h2 (a_cs a).
Hypothesis Differ : hp_name h1 <> hp_name h2.
Hypothesis ND : NoDup (map hp_name (a_cs a)).
Hypothesis Rect : rect (num_features a) (a_samples a).
Hypothesis Gpa : (1 <= a_gpa a)%nat.
Variable mu sd : list R -> R.
Definition grid_rows (row : list R) : list (list R) := map (fun q => both (a_cs a) h1 h2 q row) (grid_positions (a_gpa a)).

Lemma points_two : num_grid_points a = (a_gpa a * a_gpa a)%nat.
Proof. unfold num_grid_points, n_selected. rewrite Sel. cbn [length]. apply Nat.pow_2_r. Qed.
Lemma ice_x_two c p d : ice_calculate a c p = Ok d -> i_x d = map grid_rows (a_samples a).
Proof.
  intro E. destruct (ice_x_values a c p d ND Rect E) as (grid & Eg & _ & L1 & L2 & L3 & H). pose proof (grid_two a h1 h2 grid Sel Eg) as ->.
  apply list_ext; [rewrite map_length; exact L1|]. intros i m m' Em Em'. apply nth_map_inv in Em'. destruct Em' as (row & Er & ->).
  assert (Lr : length row = length (a_cs a)) by (unfold rect in Rect; rewrite Forall_forall in Rect; apply (Rect row), (nth_error_In _ _ Er)).
  apply list_ext.
  - unfold grid_rows. rewrite map_length, grid_positions_length. rewrite Forall_forall in L2. rewrite (L2 m (nth_error_In _ _ Em)). apply points_two.
  - intros g r r' Hr Hr'. apply nth_map_inv in Hr'. destruct Hr' as (q & Eq & ->).
    destruct (H i g row [fst q; snd q] Er) as (xrow & A & H1 & H2); [rewrite nth_error_map; rewrite Eq; reflexivity|].
    unfold at3 in A. rewrite Em in A. assert (xrow = r) by (pose proof (eq_trans (eq_sym A) Hr) as Q; injection Q as Q; exact Q). subst xrow.
    assert (L4 : length r = length (a_cs a)) by (rewrite Forall_forall in L3; specialize (L3 m (nth_error_In _ _ Em)); rewrite Forall_forall in L3; apply (L3 r), (nth_error_In _ _ Hr)).
    apply list_ext; [unfold both; rewrite !with_value_length; try exact Lr; try exact L4; apply with_value_length, Lr|].
    intros j x y Hx Hy.
    assert (Hj : (j < length (a_cs a))%nat) by (rewrite <- L4; apply (nth_error_Some_lt _ _ _ Hx)).
    destruct (nth_error (a_cs a) j) as [k|] eqn:Ek; [|apply nth_error_None in Ek; exfalso; apply (Nat.lt_irrefl j); eapply Nat.lt_le_trans; eassumption].
    destruct (nth_error row j) as [w|] eqn:Ew; [|apply nth_error_None in Ew; rewrite Lr in Ew; exfalso; apply (Nat.lt_irrefl j); eapply Nat.lt_le_trans; eassumption].
    pose proof (with_value_entry (a_cs a) h2 (snd q) _ j k _ Ek (with_value_entry (a_cs a) h1 (fst q) row j k w Ek Ew)) as Z. unfold both in Hy.
    pose proof (eq_trans (eq_sym Hy) Z) as Z'. injection Z' as ->. clear Z Hy.
    destruct (String.eqb_spec (hp_name k) (hp_name h2)) as [Q2|Q2].
    + assert (A1 : nth_error r j = nth_error [fst q; snd q] 1).
      { apply H1. exists k, h2. rewrite Sel. refine (conj Ek (conj eq_refl (conj (eq_sym Q2) _))). intros [|[|[|t]]] hs Ht; try lia; discriminate. }
      pose proof (eq_trans (eq_sym Hx) A1) as Z. injection Z as Z. exact Z.
    + destruct (String.eqb_spec (hp_name k) (hp_name h1)) as [Q1|Q1].
      * assert (A1 : nth_error r j = nth_error [fst q; snd q] 0).
        { apply H1. exists k, h1. rewrite Sel. refine (conj Ek (conj eq_refl (conj (eq_sym Q1) _))). intros [|[|[|t]]] hs Ht; try lia; [|discriminate|destruct t; discriminate]. intros [= <-]. congruence. }
        pose proof (eq_trans (eq_sym Hx) A1) as Z. injection Z as Z. exact Z.
      * assert (A2 : nth_error r j = nth_error row j).
        { apply H2. intros k' Ek' B. rewrite Sel in B. pose proof (eq_trans (eq_sym Ek) Ek') as Z. injection Z as Z. subst k'. destruct B as [B|[B|[]]]; congruence. }
        pose proof (eq_trans (eq_sym Hx) (eq_trans A2 Ew)) as Z. injection Z as Z. exact Z.
Qed.

Variable p : predictor RNum.
Hypothesis pointwise : forall rows : list (list RNum), p rows = Ok (map mu rows, map sd rows).
Lemma calculate_two c : exists d, ice_calculate a c p = Ok d.
Proof.
  apply ice_calculate_total; [exact Rect|rewrite Sel; repeat constructor; apply in_map; assumption|rewrite Sel; discriminate|exact Gpa|].
  intro rows. exists (map mu rows), (map sd rows). rewrite pointwise, !map_length. auto.
Qed.
Lemma ice_data_two d : ice_calculate a false p = Ok d ->
  i_x d = map grid_rows (a_samples a) /\ i_y d = map (fun row => map mu (grid_rows row)) (a_samples a) /\ i_v d = map (fun row => map (fun r => sd r * sd r) (grid_rows row)) (a_samples a).
Proof.
  intro E. pose proof (ice_x_two false p d E) as Ex. split; [exact Ex|]. pose proof (ice_calculate_ok a false p d E) as (means & stds & _ & Ep & y & s & Ey & Es & Ev & Ec).
  rewrite pointwise in Ep. injection Ep as <- <-.
  assert (RV : forall f : list R -> R, reshape2 (n0 (N:=RNum)) (map f (concat (i_x d))) (num_samples a) (num_grid_points a) = Ok (map (map f) (i_x d))).
  { intro f. pose proof (ice_calculate_shapes a false p d Rect E) as (L1 & _ & _ & L2 & _). rewrite concat_map. apply (reshape2_concat (n0 (N:=RNum))); [rewrite map_length; exact L1|].
    apply Forall_forall. intros r Hr. apply in_map_iff in Hr. destruct Hr as (m & <- & Hm). rewrite map_length. rewrite Forall_forall in L2. apply (L2 m Hm). }
  pose proof (eq_trans (eq_sym Ey) (RV mu)) as Ey'. injection Ey' as ->. pose proof (eq_trans (eq_sym Es) (RV sd)) as Es'. injection Es' as ->.
  injection Ec as <-. rewrite Ex. split; [apply map_map|]. rewrite Ev, Ex, !map_map. apply map_ext. intro row. apply map_map.
Qed.
End Two.

(** ** averages over a grid *)
Section MeanGrid.
Context {Col : Type}.
Variable a : algorithm RNum.
Variable h1 h2 : hp RNum.
Variable rows : list (list R).
Hypothesis Known1 : In h1 (a_cs a).
Hypothesis Known2 : In h2 (a_cs a).
Hypothesis Differ : hp_name h1 <> hp_name h2.
Hypothesis P : plottable (a_cs a).
Hypothesis U : Forall (unit_point (a_cs a)) rows.
Hypothesis Ne : rows <> [].
Let G := grid_positions (a_gpa a).
Let n2 := (a_gpa a * a_gpa a)%nat.
Lemma LG : length G = n2. Proof. apply grid_positions_length. Qed.

Lemma map_via_seq' {A B} (f : A -> B) (l : list A) d : map f l = map (fun i => f (nth i l d)) (seq 0 (length l)).
Proof.
  apply list_ext; [rewrite !map_length, seq_length; reflexivity|]. intros i x y Hx Hy. apply nth_map_inv in Hx. destruct Hx as (u & Eu & ->).
  apply nth_map_inv in Hy. destruct Hy as (j & Ej & ->). f_equal. assert (j = i) as ->; [|symmetry; apply nth_error_nth, Eu].
  pose proof (nth_error_nth _ _ 0%nat Ej) as Z. rewrite seq_nth in Z by (apply (nth_error_Some_lt _ _ _ Eu)). lia.
Qed.
Lemma grid_values f : mean_axis0 (N:=RNum) n2 (map (fun row => map f (grid_rows a h1 h2 row)) rows) = average_grid (a_cs a) h1 h2 (a_gpa a) f rows.
Proof.
  unfold average_grid, mean_axis0. fold G. rewrite (map_via_seq' _ G (0, 0)), LG. apply map_ext_in. intros k Hk. apply in_seq in Hk.
  rewrite nmean_R. unfold Rmean, average, column. rewrite map_map, !map_length. f_equal.
  assert (Q : map (fun row => nth k (map f (grid_rows a h1 h2 row)) n0) rows = map (fun row => f (both (a_cs a) h1 h2 (nth k G (0, 0)) row)) rows).
  { apply map_ext. intro row. unfold grid_rows. fold G. rewrite map_map. rewrite (nth_indep _ _ (f (both (a_cs a) h1 h2 (0, 0) row))) by (rewrite map_length, LG; lia).
    apply (map_nth (fun q => f (both (a_cs a) h1 h2 q row))). }
  rewrite Q. unfold both. clear. induction rows as [|r l IH]; [reflexivity|]. cbn [map fold_right Rsum]. rewrite IH. reflexivity.
Qed.
Let xm : list (list R) := mean3_axis0 (N:=RNum) n2 (length (a_cs a)) (map (grid_rows a h1 h2) rows).
Lemma grid_mean_length : length xm = n2.
Proof. unfold xm, mean3_axis0. rewrite map_length, seq_length. reflexivity. Qed.
Lemma grid_entry k j : (k < n2)%nat -> (j < length (a_cs a))%nat -> nth j (nth k xm []) 0 = Rmean (map (fun row => nth j (both (a_cs a) h1 h2 (nth k G (0, 0)) row) 0) rows).
Proof.
  intros Hk Hj. unfold xm, mean3_axis0. rewrite (nth_map_seq _ n2 k [] Hk). etransitivity; [exact (nth_map_seq _ (length (a_cs a)) j 0 Hj)|].
  rewrite nmean_R, map_map. f_equal. apply map_ext. intro row. apply (f_equal (fun r => nth j r 0)). unfold grid_rows. fold G.
  rewrite (nth_indep _ _ (both (a_cs a) h1 h2 (0, 0) row)) by (rewrite map_length, LG; exact Hk). apply (map_nth (fun q => both (a_cs a) h1 h2 q row)).
Qed.
Lemma both_unit q row : In q G -> unit_point (a_cs a) row -> unit_point (a_cs a) (both (a_cs a) h1 h2 q row).
Proof. intros Hq Hr. destruct (grid_positions_unit _ _ Hq). unfold both. apply with_value_unit; [apply with_value_unit|]; assumption. Qed.
Lemma grid_mean_row k : (k < n2)%nat -> length (nth k xm []) = length (a_cs a).
Proof. intro Hk. unfold xm, mean3_axis0. rewrite (nth_map_seq _ n2 k [] Hk), map_length, seq_length. reflexivity. Qed.
Lemma grid_mean_unit : Forall (unit_point (a_cs a)) xm.
Proof.
  apply Forall_forall. intros r Hr. destruct (In_nth _ _ [] Hr) as (k & Hk & <-). rewrite grid_mean_length in Hk.
  pose proof (grid_mean_row k Hk) as L. split; [exact L|]. apply Forall_forall. intros v Hv. destruct (In_nth _ _ 0 Hv) as (j & Hj & <-). rewrite L in Hj. rewrite (grid_entry k j Hk Hj).
  apply Rmean_bounds; [destruct rows; [congruence|discriminate]|]. apply Forall_forall. intros w Hw. apply in_map_iff in Hw. destruct Hw as (row & <- & Hrow).
  rewrite Forall_forall in U. specialize (U row Hrow).
  destruct (both_unit (nth k G (0, 0)) row) as (L2 & F); [apply nth_In; rewrite LG; exact Hk|exact U|].
  rewrite Forall_forall in F. apply F, nth_In. rewrite L2. exact Hj.
Qed.
Lemma grid_coordinates h (pick : R * R -> R) : In h (a_cs a) ->
  (forall i q row, nth_error (a_cs a) i = Some h -> length row = length (a_cs a) -> nth i (both (a_cs a) h1 h2 q row) 0 = pick q) ->
  Forall2 (coordinate (a_cs a) h) xm (map (fun q => original h (pick q)) G).
Proof.
  intros Hin Hp. destruct (In_nth_error _ _ Hin) as (i & Ei). assert (Hi : (i < length (a_cs a))%nat) by (apply (nth_error_Some_lt _ _ _ Ei)).
  apply Forall2_nth_error; [rewrite grid_mean_length, map_length, LG; reflexivity|].
  intros k r v Er Ev. apply nth_map_inv in Ev. destruct Ev as (q & Eq & ->). exists i, (pick q). refine (conj Ei (conj _ eq_refl)).
  assert (Hk : (k < n2)%nat) by (rewrite <- LG; apply (nth_error_Some_lt _ _ _ Eq)).
  pose proof (nth_error_nth _ _ [] Er) as Q. assert (Lr : length r = length (a_cs a)) by (rewrite <- Q; apply grid_mean_row, Hk).
  rewrite (nth_error_nth' r 0) by (rewrite Lr; exact Hi). f_equal. rewrite <- Q. rewrite (grid_entry k i Hk Hi). apply Rmean_const; [destruct rows; [congruence|discriminate]|].
  apply Forall_forall. intros w Hw. apply in_map_iff in Hw. destruct Hw as (row & <- & Hrow). rewrite (nth_error_nth _ _ (0, 0) Eq).
  rewrite Forall_forall in U. apply Hp; [exact Ei|apply (U row Hrow)].
Qed.
Lemma both_entry i h q row : nth_error (a_cs a) i = Some h -> length row = length (a_cs a) ->
  nth i (both (a_cs a) h1 h2 q row) 0 = if String.eqb (hp_name h) (hp_name h2) then snd q else if String.eqb (hp_name h) (hp_name h1) then fst q else nth i row 0.
Proof.
  intros Ei L. destruct (nth_error row i) as [w|] eqn:Ew; [|apply nth_error_None in Ew; apply nth_error_Some_lt in Ei; exfalso; apply (Nat.lt_irrefl i); eapply Nat.lt_le_trans; [exact Ei|rewrite <- L; exact Ew]].
  unfold both. erewrite nth_error_nth; [|apply (with_value_entry _ _ _ _ _ _ _ Ei (with_value_entry _ _ _ _ _ _ _ Ei Ew))]. rewrite (nth_error_nth _ _ 0 Ew). reflexivity.
Qed.
Lemma grid_coordinates1 : Forall2 (coordinate (a_cs a) h1) xm (map (fun q => original h1 (fst q)) G).
Proof. apply grid_coordinates; [exact Known1|]. intros i q row Ei L. rewrite (both_entry i h1 q row Ei L), String.eqb_refl. destruct (String.eqb_spec (hp_name h1) (hp_name h2)); [congruence|reflexivity]. Qed.
Lemma grid_coordinates2 : Forall2 (coordinate (a_cs a) h2) xm (map (fun q => original h2 (snd q)) G).
Proof. apply grid_coordinates; [exact Known2|]. intros i q row Ei L. rewrite (both_entry i h2 q row Ei L), String.eqb_refl. reflexivity. Qed.

Variable mu sd : list R -> R.
Definition grid_curve : curve RNum :=
  mkcurve (a_cs a) [h1; h2] xm (average_grid (a_cs a) h1 h2 (a_gpa a) mu rows) (average_grid (a_cs a) h1 h2 (a_gpa a) (fun r => sd r * sd r) rows).
Lemma grid_curve_sound : sound_curve grid_curve.
Proof.
  assert (L : forall f, length (average_grid (a_cs a) h1 h2 (a_gpa a) f rows) = length xm) by (intro f; rewrite grid_mean_length; unfold average_grid; rewrite map_length; apply LG).
  refine (conj P (conj grid_mean_unit (conj (L _) (conj (L _) _)))). apply Forall_forall. intros v Hv. unfold grid_curve in Hv. cbn [cu_v] in Hv. unfold average_grid in Hv. apply in_map_iff in Hv. destruct Hv as (u & <- & _).
  unfold average. apply Rmult_le_pos.
  - clear. induction rows as [|r l IH]; cbn [map fold_right]; [lra|]. pose proof (Rle_0_sqr (sd (with_value (a_cs a) h2 (snd u) (with_value (a_cs a) h1 (fst u) r)))) as Z. unfold Rsqr in Z. lra.
  - left. apply Rinv_0_lt_compat, lt_0_INR. destruct rows; [congruence|cbn; lia].
Qed.
Lemma original_grows h : In h (a_cs a) -> original h 0 < original h 1.
Proof.
  intro Hin. destruct P as (_ & F). rewrite Forall_forall in F. destruct (F h Hin) as (Hn & Hb). destruct (numerical_is h Hn) as (lo & up & lg & Hi).
  rewrite !(original_raw h lo up lg _ Hi). apply raw_unscale_strict; [|lra]. unfold good_bounds. unfold sound_bounds in Hb. destruct Hi as [K|(l & u & K & -> & ->)]; rewrite K in Hb; exact Hb.
Qed.
Lemma positions_ends n : (2 <= n)%nat -> In 0 (positions n) /\ In 1 (positions n).
Proof.
  intro Hn. unfold positions. split; apply in_map_iff.
  - exists 0%nat. split; [|apply in_seq; lia]. destruct (Nat.eqb_spec n 1); [lia|]. unfold Rdiv. apply Rmult_0_l.
  - exists (n - 1)%nat. split; [|apply in_seq; lia]. destruct (Nat.eqb_spec n 1); [lia|]. unfold Rdiv. apply Rinv_r. apply not_0_INR. lia.
Qed.
Lemma in_grid n u v : In u (positions n) -> In v (positions n) -> In (u, v) (grid_positions n).
Proof. intros Hu Hv. unfold grid_positions. apply in_flat_map. exists v. split; [exact Hv|]. apply in_map_iff. exists u. auto. Qed.
Lemma grid_spread : (2 <= a_gpa a)%nat -> spread (map (fun q => original h1 (fst q)) G) (map (fun q => original h2 (snd q)) G).
Proof.
  intro Hg. destruct (positions_ends (a_gpa a) Hg) as (I0 & I1). unfold spread. rewrite combine_maps.
  assert (K : forall u v, In u (positions (a_gpa a)) -> In v (positions (a_gpa a)) -> In (original h1 u, original h2 v) (map (fun q => (original h1 (fst q), original h2 (snd q))) G)).
  { intros u v Hu Hv. apply in_map_iff. exists (u, v). split; [reflexivity|]. apply in_grid; assumption. }
  exists (original h1 0, original h2 0), (original h1 1, original h2 0), (original h1 0, original h2 1).
  refine (conj (K _ _ I0 I0) (conj (K _ _ I1 I0) (conj (K _ _ I0 I1) _))). cbn [fst snd].
  pose proof (original_grows h1 Known1) as G1. pose proof (original_grows h2 Known2) as G2.
  pose proof (Rmult_lt_0_compat (original h1 1 - original h1 0) (original h2 1 - original h2 0) ltac:(lra) ltac:(lra)) as Z. lra.
Qed.
Lemma grid_flat : a_gpa a = 1%nat -> ~ spread (map (fun q => original h1 (fst q)) G) (map (fun q => original h2 (snd q)) G).
Proof.
  intro Hg. unfold G. rewrite Hg. unfold grid_positions, positions. cbn. intros (p & q & r & Hp & Hq & Hr & H).
  destruct Hp as [<-|[]], Hq as [<-|[]], Hr as [<-|[]]. apply H. ring.
Qed.
Lemma grid_curve_values (color : Col) : (2 <= a_gpa a)%nat ->
  plots (curve_plot_values color grid_curve) [h1; h2] true "Prediction" [(color, surface h1 h2 (a_gpa a) (average_grid (a_cs a) h1 h2 (a_gpa a) mu rows))].
Proof. intro Hg. exact (curve_values_two color grid_curve h1 h2 _ _ grid_curve_sound eq_refl Known1 Known2 grid_coordinates1 grid_coordinates2 (grid_spread Hg)). Qed.
Lemma grid_curve_confidences (lc gc : Col) ms : (2 <= a_gpa a)%nat ->
  plots (curve_plot_confidences (N:=RNum) lc gc ms grid_curve) [h1; h2] true "Prediction" [(lc, surface h1 h2 (a_gpa a) (map sqrt (average_grid (a_cs a) h1 h2 (a_gpa a) (fun r => sd r * sd r) rows)))].
Proof. intro Hg. exact (curve_confidences_two lc gc ms grid_curve h1 h2 _ _ grid_curve_sound eq_refl Known1 Known2 grid_coordinates1 grid_coordinates2 (grid_spread Hg)). Qed.
Lemma grid_curve_flat (color : Col) : a_gpa a = 1%nat -> fails (curve_plot_values color grid_curve) [h1; h2] true "Prediction" ValueError.
Proof.
  intro Hg. pose proof (curve_two_flat false color color 0 grid_curve h1 h2 _ _ grid_curve_sound eq_refl Known1 Known2 grid_coordinates1 grid_coordinates2 (grid_flat Hg)) as F.
  assert (L : length (map (fun q => original h1 (fst q)) G) = 1%nat) by (rewrite map_length, LG; unfold n2; rewrite Hg; reflexivity).
  rewrite L in F. exact F.
Qed.
End MeanGrid.

(** ** the curve of PDP.from_random_points *)
Section Random.
Variable predict : predictor RNum.
Variable mu sd : list R -> R.
Variable cs : cspace RNum.
Variable samples : list (list R).
Variable gpa : nat.
Hypothesis pointwise : forall rows : list (list RNum), predict rows = Ok (map mu rows, map sd rows).
Hypothesis P : plottable cs.
Hypothesis U : Forall (unit_point cs) samples.
Hypothesis Gpa : (1 <= gpa)%nat.
Lemma random_rect sel : rect (num_features (mkalg cs sel samples gpa)) (a_samples (mkalg cs sel samples gpa)).
Proof. eapply Forall_impl; [|exact U]. intros r (L & _). exact L. Qed.
Lemma random_one h : In h cs -> random_curve (N:=RNum) predict cs [h] samples gpa = Ok (mean_curve (mkalg cs [h] samples gpa) h samples mu sd).
Proof.
  intro Hin. set (a := mkalg cs [h] samples gpa). unfold random_curve, algorithm_new. rewrite (convert_hps (N:=RNum) cs [h] : convert_hyperparameters (SelList (map SHp [h])) cs = _). cbn [bind]. fold a.
  destruct (calculate_one a h eq_refl Hin (random_rect [h]) Gpa mu sd predict pointwise false) as (d & Ed).
  destruct (ice_data_one a h eq_refl (proj1 P) (random_rect [h]) Gpa mu sd predict pointwise false d Ed) as (Dx & Dy & Dv).
  rewrite Ed. cbn [bind]. apply f_equal. unfold mean_curve, x_pdp, y_pdp, v_pdp.
  assert (G : num_grid_points a = a_gpa a) by (apply points_one with (h := h); reflexivity). rewrite G, Dv, Dy, Dx.
  assert (Y : map (row_values mu false) (map (curve_rows a h) (a_samples a)) = map (fun row => map mu (curve_rows a h row)) samples).
  { rewrite map_map. apply map_ext. intro row. unfold row_values. apply map_ext. intro r. apply Rminus_0_r. }
  assert (V : map (map (fun r => sd r * sd r)) (map (curve_rows a h) (a_samples a)) = map (fun row => map (fun r => sd r * sd r) (curve_rows a h row)) samples) by apply map_map.
  rewrite (Y : map (row_values mu false) _ = _), (V : map (map (fun r => sd r * sd r)) _ = _). rewrite !(mean_values a h samples _ : mean_axis0 (N:=RNum) _ _ = _). reflexivity.
Qed.
Lemma random_two h1 h2 : In h1 cs -> In h2 cs -> hp_name h1 <> hp_name h2 ->
  random_curve (N:=RNum) predict cs [h1; h2] samples gpa = Ok (grid_curve (mkalg cs [h1; h2] samples gpa) h1 h2 samples mu sd).
Proof.
  intros H1 H2 Hd. set (a := mkalg cs [h1; h2] samples gpa). unfold random_curve, algorithm_new.
  rewrite (convert_hps (N:=RNum) cs [h1; h2] : convert_hyperparameters (SelList (map SHp [h1; h2])) cs = _). cbn [bind]. fold a.
  destruct (calculate_two a h1 h2 eq_refl H1 H2 (random_rect _) Gpa mu sd predict pointwise false) as (d & Ed).
  destruct (ice_data_two a h1 h2 eq_refl Hd (proj1 P) (random_rect _) Gpa mu sd predict pointwise d Ed) as (Dx & Dy & Dv).
  rewrite Ed. cbn [bind]. apply f_equal. unfold grid_curve, x_pdp, y_pdp, v_pdp.
  assert (G : num_grid_points a = (a_gpa a * a_gpa a)%nat) by (apply points_two with (h1 := h1) (h2 := h2); reflexivity). rewrite G, Dv, Dy, Dx.
  rewrite !(grid_values a h1 h2 samples _ : mean_axis0 (N:=RNum) _ _ = _). reflexivity.
Qed.

Variable Col : Type.
Variable red salmon : Col.
Hypothesis Ne : samples <> [].
Definition one_axis h : canvas RNum Col -> canvas RNum Col * res unit :=
  bindD (lift (random_curve (N:=RNum) predict cs [h] samples gpa)) (fun cu => bindD (curve_plot_values red cu) (fun _ => curve_plot_confidences red salmon (ndiv (nofZ 3) (nofZ 2) : RNum) cu)).
Lemma one_axis_draws h : In h cs -> exists c, one_axis h blank = (c, Ok tt) /\ cv_drawn c = pd_line red cs gpa mu samples h :: pd_bands red salmon cs gpa mu sd samples h.
Proof.
  intro Hin. unfold one_axis. unfold lift at 1, bindD at 1. rewrite (random_one h Hin). set (a := mkalg cs [h] samples gpa).
  pose proof (plots_shows _ _ _ _ _ (mean_curve_values a h samples Hin P U Ne mu sd red)) as S1.
  pose proof (plots_shows _ _ _ _ _ (mean_curve_confidences a h samples Hin P U Ne mu sd red salmon (3/2))) as S2.
  destruct (shows_seq _ _ _ _ _ _ S1 S2 blank (fresh_no_conflict _ _)) as (c & E & D & _). exists c. split; [exact E|exact D].
Qed.

(** one cell of the array of pairs *)
Definition cell r c := array2_cell (N:=RNum) red salmon predict cs samples gpa r c.
Lemma cell_same r h : nth_error cs r = Some h ->
  exists cm cg, cell r r = ((cm, cg), Ok tt) /\ cv_drawn cm = pd_line red cs gpa mu samples h :: pd_bands red salmon cs gpa mu sd samples h /\
    cv_drawn cg = pd_bands red salmon cs gpa mu sd samples h.
Proof.
  intro E. assert (Hin : In h cs) by (apply (nth_error_In _ _ E)). unfold cell, array2_cell. rewrite E, Nat.eqb_refl, (random_one h Hin). set (a := mkalg cs [h] samples gpa).
  pose proof (plots_shows _ _ _ _ _ (mean_curve_values a h samples Hin P U Ne mu sd red)) as S1.
  pose proof (plots_shows _ _ _ _ _ (mean_curve_confidences a h samples Hin P U Ne mu sd red salmon (3/2))) as S2.
  destruct (shows_seq _ _ _ _ _ _ S1 S2 blank (fresh_no_conflict _ _)) as (cm & E1 & D1 & _). destruct (S2 blank (fresh_no_conflict _ _)) as (cg & E2 & D2 & _).
  exists cm, cg. refine (conj _ (conj D1 D2)).
  change (ndiv (nofZ 3) (nofZ 2) : RNum) with (3 / 2 : R). unfold bindD in E1 |- *. rewrite E1. rewrite E2. reflexivity.
Qed.
Lemma plots_blank (m : canvas RNum Col -> canvas RNum Col * res unit) h1 h2 l : plots m [h1; h2] true "Prediction" l ->
  exists c, m blank = (c, Ok tt) /\ cv_drawn c = l /\ ax_xlabel (cv_axis c) = hp_name h1 /\ ax_ylabel (cv_axis c) = hp_name h2.
Proof.
  intro H. specialize (H blank). pose proof (fresh_no_conflict [h1; h2] "Prediction" (N:=RNum)) as NC. 
  pose proof (proj2 (axis_raises (fresh_axis (N:=RNum)) [h1; h2] true "Prediction") NC) as Q.
  destruct (check_and_set_axis (cv_axis (blank (N:=RNum) (Col:=Col))) [h1; h2] true "Prediction") as [ax r] eqn:Ec. cbn [blank cv_axis] in Ec. rewrite Ec in Q. cbn [snd] in Q. subst r.
  eexists. split; [exact H|]. split; [reflexivity|]. cbn [cv_axis].
  cbn in Ec. injection Ec as <-. unfold set_y_bounds, set_x_bounds. cbn [andb]. split; (destruct (is_numerical h2); [destruct (hp_lower h2), (hp_upper h2), (hp_log h2)|]; cbn; destruct (is_numerical h1); [destruct (hp_lower h1), (hp_upper h1), (hp_log h1)| |destruct (hp_lower h1), (hp_upper h1), (hp_log h1)| |destruct (hp_lower h1), (hp_upper h1), (hp_log h1)| |destruct (hp_lower h1), (hp_upper h1), (hp_log h1)| |destruct (hp_lower h1), (hp_upper h1), (hp_log h1)| |destruct (hp_lower h1), (hp_upper h1), (hp_log h1)| |destruct (hp_lower h1), (hp_upper h1), (hp_log h1)| |destruct (hp_lower h1), (hp_upper h1), (hp_log h1)| |destruct (hp_lower h1), (hp_upper h1), (hp_log h1)|]; reflexivity).
Qed.
Lemma cell_two r c h2 h1 : r <> c -> nth_error cs r = Some h2 -> nth_error cs c = Some h1 -> (2 <= gpa)%nat ->
  exists cm cg, cell r c = ((cm, cg), Ok tt) /\ cv_drawn cm = [pd_means red cs gpa mu samples h1 h2] /\ cv_drawn cg = [pd_deviations red cs gpa sd samples h1 h2] /\
    Forall (fun cv => ax_xlabel (cv_axis cv) = hp_name h1 /\ ax_ylabel (cv_axis cv) = hp_name h2) [cm; cg].
Proof.
  intros Hn E2 E1 Hg. assert (I1 : In h1 cs) by (apply (nth_error_In _ _ E1)). assert (I2 : In h2 cs) by (apply (nth_error_In _ _ E2)).
  assert (Hd : hp_name h1 <> hp_name h2).
  { intro Q. apply Hn. pose proof (cs_idx_nodup _ _ _ (proj1 P) E1) as A1. pose proof (cs_idx_nodup _ _ _ (proj1 P) E2) as A2. rewrite Q in A1. congruence. }
  unfold cell, array2_cell. rewrite E1, E2. rewrite (proj2 (Nat.eqb_neq r c) Hn), (random_two h1 h2 I1 I2 Hd). set (a := mkalg cs [h1; h2] samples gpa).
  destruct (plots_blank _ _ _ _ (grid_curve_values a h1 h2 samples I1 I2 Hd P U Ne mu sd red Hg)) as (cm & F1 & D1 & X1 & Y1).
  destruct (plots_blank _ _ _ _ (grid_curve_confidences a h1 h2 samples I1 I2 Hd P U Ne mu sd red salmon (3/2) Hg)) as (cg & F2 & D2 & X2 & Y2).
  exists cm, cg. refine (conj _ (conj D1 (conj D2 _))); [|repeat constructor; assumption].
  change (ndiv (nofZ 3) (nofZ 2) : RNum) with (3 / 2 : R). unfold bindD. rewrite F1. unfold ret. rewrite F2. reflexivity.
Qed.
Lemma cell_flat r c h2 h1 : r <> c -> nth_error cs r = Some h2 -> nth_error cs c = Some h1 -> gpa = 1%nat -> snd (cell r c) = Err ValueError.
Proof.
  intros Hn E2 E1 Hg. assert (I1 : In h1 cs) by (apply (nth_error_In _ _ E1)). assert (I2 : In h2 cs) by (apply (nth_error_In _ _ E2)).
  assert (Hd : hp_name h1 <> hp_name h2).
  { intro Q. apply Hn. pose proof (cs_idx_nodup _ _ _ (proj1 P) E1) as A1. pose proof (cs_idx_nodup _ _ _ (proj1 P) E2) as A2. rewrite Q in A1. congruence. }
  unfold cell, array2_cell. rewrite E1, E2. rewrite (proj2 (Nat.eqb_neq r c) Hn), (random_two h1 h2 I1 I2 Hd). set (a := mkalg cs [h1; h2] samples gpa).
  pose proof (grid_curve_flat a h1 h2 samples I1 I2 Hd P U Ne mu sd red Hg blank) as F.
  pose proof (proj2 (axis_raises (fresh_axis (N:=RNum)) [h1; h2] true "Prediction") (fresh_no_conflict [h1; h2] "Prediction" (N:=RNum))) as Q.
  destruct (check_and_set_axis (cv_axis (blank (N:=RNum) (Col:=Col))) [h1; h2] true "Prediction") as [ax r'] eqn:Ec. cbn [blank cv_axis] in Ec. rewrite Ec in Q. cbn [snd] in Q. subst r'.
  unfold bindD. rewrite F. reflexivity.
Qed.
Lemma cells_all l : (forall rc, In rc l -> snd (cell (fst rc) (snd rc)) = Ok tt) ->
  array2_cells (N:=RNum) red salmon predict cs samples gpa l = (map (fun rc => fst (cell (fst rc) (snd rc))) l, Ok tt).
Proof.
  induction l as [|rc l IH]; intro H; cbn [array2_cells map]; [reflexivity|]. pose proof (H rc (or_introl eq_refl)) as Q. unfold cell in Q.
  unfold cell at 1. destruct (array2_cell _ _ _ _ _ _ _ _) as [c r]. cbn [snd] in Q. subst r. rewrite IH by (intros x Hx; apply H; right; exact Hx). reflexivity.
Qed.
Lemma cells_stop l e : (forall rc, In rc l -> snd (cell (fst rc) (snd rc)) = Ok tt \/ snd (cell (fst rc) (snd rc)) = Err e) ->
  (exists rc, In rc l /\ snd (cell (fst rc) (snd rc)) = Err e) -> snd (array2_cells (N:=RNum) red salmon predict cs samples gpa l) = Err e.
Proof.
  induction l as [|rc l IH]; intros H (x & Hx & Ex); [destruct Hx|]. cbn [array2_cells]. pose proof (H rc (or_introl eq_refl)) as Q. unfold cell in *.
  destruct (array2_cell red salmon predict cs samples gpa (fst rc) (snd rc)) as [c r] eqn:Er. cbn [snd] in Q. destruct r as [[]|e'].
  - destruct Hx as [->|Hx]; [rewrite Er in Ex; discriminate|].
    specialize (IH (fun y Hy => H y (or_intror Hy)) (ex_intro _ x (conj Hx Ex))). destruct (array2_cells _ _ _ _ _ _ _) as [cs' r']. cbn [snd] in IH |- *. exact IH.
  - destruct Q as [Q|Q]; [discriminate|]. exact Q.
Qed.
Lemma list_prod_flat {A B} (l : list A) (m : list B) : list_prod l m = flat_map (fun x => map (fun y => (x, y)) m) l.
Proof. induction l as [|x l IH]; cbn; [reflexivity|]. rewrite IH. reflexivity. Qed.

Theorem array_2D_draws : cs <> [] -> (2 <= gpa)%nat ->
  exists cells, plot_hyperparameter_array_2D (N:=RNum) red salmon predict cs samples gpa = Ok (cells, Ok tt) /\ length cells = (length cs * length cs)%nat /\
    (forall r h, nth_error cs r = Some h -> exists cm cg, nth_error cells (r * length cs + r) = Some (cm, cg) /\
       cv_drawn cm = pd_line red cs gpa mu samples h :: pd_bands red salmon cs gpa mu sd samples h /\ cv_drawn cg = pd_bands red salmon cs gpa mu sd samples h) /\
    (forall r c hr hc, r <> c -> nth_error cs r = Some hr -> nth_error cs c = Some hc -> exists cm cg, nth_error cells (r * length cs + c) = Some (cm, cg) /\
       cv_drawn cm = [pd_means red cs gpa mu samples hc hr] /\ cv_drawn cg = [pd_deviations red cs gpa sd samples hc hr] /\
       Forall (fun cv => ax_xlabel (cv_axis cv) = hp_name hc /\ ax_ylabel (cv_axis cv) = hp_name hr) [cm; cg]).
Proof.
  intros Hc Hg. set (n := length cs). set (l := list_prod (seq 0 n) (seq 0 n)).
  assert (A : forall rc, In rc l -> snd (cell (fst rc) (snd rc)) = Ok tt).
  { intros [r c] Hin. unfold l in Hin. apply in_prod_iff in Hin. destruct Hin as [Hr Hcc]. apply in_seq in Hr, Hcc. cbn [fst snd].
    destruct (nth_error cs r) as [hr|] eqn:Er; [|apply nth_error_None in Er; unfold n in *; exfalso; lia]. destruct (nth_error cs c) as [hc|] eqn:Ec; [|apply nth_error_None in Ec; unfold n in *; exfalso; lia].
    destruct (Nat.eq_dec r c) as [<-|Hn].
    - destruct (cell_same r hr Er) as (cm & cg & -> & _). reflexivity.
    - destruct (cell_two r c hr hc Hn Er Ec Hg) as (cm & cg & -> & _). reflexivity. }
  assert (N : forall r c hr hc, nth_error cs r = Some hr -> nth_error cs c = Some hc -> nth_error (map (fun rc => fst (cell (fst rc) (snd rc))) l) (r * n + c) = Some (fst (cell r c))).
  { intros r c hr hc Er Ec. rewrite nth_error_map. unfold l. rewrite list_prod_flat.
    assert (Hr : nth_error (seq 0 n) r = Some r) by (rewrite nth_error_nth' with (d := 0%nat); [rewrite seq_nth; [reflexivity|]|rewrite seq_length]; apply (nth_error_Some_lt _ _ _ Er)).
    assert (Hcc : nth_error (seq 0 n) c = Some c) by (rewrite nth_error_nth' with (d := 0%nat); [rewrite seq_nth; [reflexivity|]|rewrite seq_length]; apply (nth_error_Some_lt _ _ _ Ec)).
    pose proof (nth_flat_map (fun y x : nat => (x, y)) (seq 0 n) (seq 0 n) c r _ _ Hcc Hr) as Z. rewrite seq_length in Z. rewrite Z. reflexivity. }
  exists (map (fun rc => fst (cell (fst rc) (snd rc))) l). refine (conj _ (conj _ (conj _ _))).
  - unfold plot_hyperparameter_array_2D. assert (Z : negb (length cs =? 0)%nat = true) by (destruct cs; [congruence|reflexivity]). rewrite Z. cbn [guard bind]. fold n. fold l. rewrite (cells_all l A). reflexivity.
  - rewrite map_length. unfold l. rewrite prod_length, seq_length. reflexivity.
  - intros r h Er. destruct (cell_same r h Er) as (cm & cg & E & D). exists cm, cg. split; [|exact D]. etransitivity; [exact (N r r h h Er Er)|]. rewrite E. reflexivity.
  - intros r c hr hc Hn Er Ec. destruct (cell_two r c hr hc Hn Er Ec Hg) as (cm & cg & E & D). exists cm, cg. split; [|exact D]. etransitivity; [exact (N r c hr hc Er Ec)|]. rewrite E. reflexivity.
Qed.
Theorem array_2D_flat : (2 <= length cs)%nat -> gpa = 1%nat -> exists cells, plot_hyperparameter_array_2D (N:=RNum) red salmon predict cs samples gpa = Ok (cells, Err ValueError).
Proof.
  intros Hn Hg. set (n := length cs) in *. set (l := list_prod (seq 0 n) (seq 0 n)).
  assert (Z : negb (length cs =? 0)%nat = true) by (apply negb_true_iff, Nat.eqb_neq; unfold n in *; intro Q; rewrite Q in Hn; lia).
  unfold plot_hyperparameter_array_2D. rewrite Z. cbn [guard bind]. fold n. fold l.
  assert (Q : snd (array2_cells (N:=RNum) red salmon predict cs samples gpa l) = Err ValueError).
  { apply cells_stop.
    - intros [r c] Hin. unfold l in Hin. apply in_prod_iff in Hin. destruct Hin as [Hr Hcc]. apply in_seq in Hr, Hcc. cbn [fst snd].
      destruct (nth_error cs r) as [hr|] eqn:Er; [|apply nth_error_None in Er; unfold n in *; exfalso; lia]. destruct (nth_error cs c) as [hc|] eqn:Ec; [|apply nth_error_None in Ec; unfold n in *; exfalso; lia].
      destruct (Nat.eq_dec r c) as [<-|Hne].
      + left. destruct (cell_same r hr Er) as (cm & cg & -> & _). reflexivity.
      + right. apply (cell_flat r c hr hc Hne Er Ec Hg).
    - exists (0, 1)%nat. split; [unfold l; apply in_prod_iff; split; apply in_seq; lia|]. cbn [fst snd].
      destruct (nth_error cs 0) as [hr|] eqn:Er; [|apply nth_error_None in Er; unfold n in *; exfalso; lia]. destruct (nth_error cs 1) as [hc|] eqn:Ec; [|apply nth_error_None in Ec; unfold n in *; exfalso; lia].
      apply (cell_flat 0 1 hr hc); auto. }
  destruct (array2_cells _ _ _ _ _ _ _) as [cells r]. cbn [snd] in Q. subst r. eauto.
Qed.
End Random.

(** ** one axis per hyperparameter *)
Section Array1.
Variable predict : predictor RNum.
Variable mu sd : list R -> R.
Variable cs : cspace RNum.
Variable samples : nat -> list (list R).
Variable gpa : nat.
Variable Col : Type.
Variable red salmon : Col.
Hypothesis pointwise : forall rows : list (list RNum), predict rows = Ok (map mu rows, map sd rows).
Hypothesis P : plottable cs.
Hypothesis U : forall k, Forall (unit_point cs) (samples k) /\ samples k <> [].
Hypothesis Gpa : (1 <= gpa)%nat.
Lemma array1_draws l : incl l cs -> forall k m, (length l <= m)%nat ->
  exists cvs, array1 (N:=RNum) red salmon predict cs samples gpa k l m = (cvs, Ok tt) /\ length cvs = m /\
    (forall i h, nth_error l i = Some h -> exists c, nth_error cvs i = Some c /\
       cv_drawn c = pd_line red cs gpa mu (samples (k + i)) h :: pd_bands red salmon cs gpa mu sd (samples (k + i)) h) /\
    (forall i, (length l <= i < m)%nat -> nth_error cvs i = Some blank).
Proof.
  induction l as [|h l IH]; intros Hl k m Hm.
  - exists (repeat blank m). refine (conj _ (conj (repeat_length _ _) (conj _ _))); [destruct m; reflexivity|intros [|i] h E; discriminate|].
    intros i (_ & Hi). rewrite (nth_error_nth' _ blank) by (rewrite repeat_length; exact Hi). f_equal. apply nth_repeat.
  - destruct m as [|m]; cbn [length] in Hm; [lia|].
    destruct (IH (fun x Hx => Hl x (or_intror Hx)) (S k) m ltac:(lia)) as (cvs & E & L & V & B).
    destruct (one_axis_draws predict mu sd cs (samples k) gpa pointwise P (proj1 (U k)) Gpa Col red salmon (proj2 (U k)) h (Hl h (or_introl eq_refl))) as (c & E1 & D1).
    exists (c :: cvs). refine (conj _ (conj (f_equal S L) (conj _ _))).
    + cbn [array1]. unfold one_axis in E1. rewrite E1, E. reflexivity.
    + intros [|i] h' Eh; cbn [nth_error] in *.
      * injection Eh as <-. exists c. rewrite Nat.add_0_r. auto.
      * destruct (V i h' Eh) as (c' & Ec' & D'). exists c'. rewrite Nat.add_succ_r. auto.
    + intros [|i] Hi; cbn [length] in Hi; [lia|]. cbn [nth_error]. apply B. lia.
Qed.
Theorem array_1D_draws ceil_sqrt w h : quadratic_shape ceil_sqrt (Z.of_nat (length cs)) = Ok (w, h) -> best_shape (Z.of_nat (length cs)) w h ->
  exists cvs, plot_hyperparameter_array_1D (N:=RNum) red salmon ceil_sqrt predict cs samples gpa = Ok ((w, h), (cvs, Ok tt)) /\ length cvs = Z.to_nat (w * h) /\
    (forall i k, nth_error cs i = Some k -> exists c, nth_error cvs i = Some c /\
       cv_drawn c = pd_line red cs gpa mu (samples i) k :: pd_bands red salmon cs gpa mu sd (samples i) k) /\
    (forall i, (length cs <= i < Z.to_nat (w * h))%nat -> nth_error cvs i = Some blank).
Proof.
  intros E (Hh & Hn & _). unfold plot_hyperparameter_array_1D. rewrite E. cbn [bind fst snd].
  destruct (array1_draws cs (incl_refl _) 0 (Z.to_nat (w * h)) ltac:(lia)) as (cvs & E1 & L & V & B). exists cvs. rewrite E1. auto.
Qed.
End Array1.

(** ** plot_2D_ICE_Curve_with_confidence *)
Section Curve.
Context {Col : Type}.
Lemma curve_pair_draws (red white light_red : Col) (c : curve RNum) hps (l1 l2 l3 : list (Col * cmd RNum)) :
  plots (curve_plot_values red c) hps true "Prediction" l1 -> plots (curve_plot_confidences (N:=RNum) red light_red (3 / 2) c) hps true "Prediction" l2 ->
  plots (curve_plot_incumbent white c) hps true "Prediction" l3 ->
  exists cm cg, plot_curve_with_confidence (N:=RNum) red white light_red c = ((cm, cg), Ok tt) /\ cv_drawn cm = l1 ++ l3 /\ cv_drawn cg = l2 ++ l3.
Proof.
  intros P1 P2 P3. apply plots_shows in P1, P2, P3.
  destruct (shows_seq _ _ _ _ _ _ P1 P3 blank (fresh_no_conflict _ _)) as (cm & E1 & D1 & _).
  destruct (shows_seq _ _ _ _ _ _ P2 P3 blank (fresh_no_conflict _ _)) as (cg & E2 & D2 & _).
  exists cm, cg. refine (conj _ (conj D1 D2)). unfold plot_curve_with_confidence. rewrite E1. change (ndiv (nofZ 3) (nofZ 2) : RNum) with (3 / 2 : R). rewrite E2. reflexivity.
Qed.
Theorem curve_pair_two (red white light_red : Col) (c : curve RNum) h1 h2 xs ys k v w : sound_curve c -> cu_sel c = [h1; h2] -> In h1 (cu_cs c) -> In h2 (cu_cs c) ->
  Forall2 (coordinate (cu_cs c) h1) (cu_x c) xs -> Forall2 (coordinate (cu_cs c) h2) (cu_x c) ys -> spread xs ys ->
  first_minimum (cu_y c) k -> nth_error xs k = Some v -> nth_error ys k = Some w ->
  let marker := colored white [CScatter (N:=RNum) [v] [w]; CNote (N:=RNum) v w] in
  exists cm cg, plot_curve_with_confidence (N:=RNum) red white light_red c = ((cm, cg), Ok tt) /\
    cv_drawn cm = (red, CTri (N:=RNum) xs ys (cu_y c)) :: marker /\ cv_drawn cg = (red, CTri (N:=RNum) xs ys (map sqrt (cu_v c))) :: marker.
Proof.
  intros S E I1 I2 F1 F2 Sp M V W marker.
  exact (curve_pair_draws red white light_red c _ _ _ _ (curve_values_two red c h1 h2 xs ys S E I1 I2 F1 F2 Sp) (curve_confidences_two red light_red (3/2) c h1 h2 xs ys S E I1 I2 F1 F2 Sp) (curve_incumbent_two white c h1 h2 xs ys k v w S E I1 I2 F1 F2 M V W)).
Qed.
End Curve.
