(** DrawProofs4.v - what the plots of ICE curves draw (C75). *)
From Coq Require Import Reals Lra Permutation.
From Verif Require Import Base Num NumLaws NumpyModel ListLemmas ConfigSpaceModel UtilsModel UtilsProofs UtilsProofs2 RealProofs IceModel IceProofs IceProofs2 PartitionModel PartitionSpec
  SamplerModel SamplerSpec SamplerProofs2 PlottingModel PlottingSpec DrawModel DrawSpec DrawProofs DrawProofs2 DrawProofs3.
Local Open Scope R_scope.
Local Open Scope list_scope.

(** ** unscaling *)
Definition originals (cs : cspace RNum) (row : list R) : list R := map (fun p => original (fst p) (snd p)) (combine cs row).

Lemma original_raw h lo up lg u : hp_is h lo up lg -> original h u = raw_unscale lo up lg u.
Proof. intro H. rewrite (original_is _ _ _ _ _ H). unfold on_axis, raw_unscale. destruct lg; [f_equal|]; ring. Qed.
Lemma plottable_numerical cs : plottable cs -> all_numerical cs.
Proof. intros (_ & F). eapply Forall_impl; [|exact F]. intros h (H & _). exact H. Qed.
Lemma plottable_bounds cs : plottable cs -> bounds_good cs.
Proof. intros (_ & F). apply sound_all. eapply Forall_impl; [|exact F]. intros h (_ & H). exact H. Qed.
Lemma unscale_original cs h (u : R) : plottable cs -> In h cs -> 0 <= u <= 1 -> unscale_float (N:=RNum) u cs h = Ok (original h u).
Proof.
  intros (ND & F) Hin Hu. rewrite Forall_forall in F. destruct (F h Hin) as (Hn & Hs). destruct (numerical_is h Hn) as (lo & up & lg & Hi).
  rewrite (unscale_float_R cs h h lo up lg u (cs_get_nodup cs h ND Hin) Hi), (original_raw _ _ _ _ _ Hi).
  rewrite clamp_id; [reflexivity|]. apply raw_unscale_range; [exact (sound_good _ _ _ _ Hs Hi)|exact Hu].
Qed.
Lemma combine_nth_error {A B} (a : list A) (b : list B) i x y : nth_error a i = Some x -> nth_error b i = Some y -> nth_error (combine a b) i = Some (x, y).
Proof. revert b i. induction a as [|p a IH]; intros [|q b] [|i]; cbn; try discriminate; [intros [= ->] [= ->]; reflexivity|apply IH]. Qed.
Lemma row_originals cs row row' : plottable cs -> unit_point cs row -> row_of_unscale_float cs row row' -> row' = originals cs row.
Proof.
  intros P (L & U) (L' & H). apply list_eq_nth_error. intro j. unfold originals. rewrite nth_error_map.
  destruct (nth_error cs j) as [h|] eqn:Eh.
  - destruct (nth_error row j) as [u|] eqn:Eu.
    + destruct (H j h u Eh Eu) as (v & Ev & E). rewrite (combine_nth_error _ _ _ _ _ Eh Eu). cbn. rewrite Forall_forall in U.
      rewrite (unscale_original cs h u P (nth_error_In _ _ Eh) (U u (nth_error_In _ _ Eu))) in E. injection E as E. rewrite E. exact Ev.
    + apply nth_error_None in Eu. apply nth_error_Some_lt in Eh. rewrite <- L in Eh. exfalso. apply (Nat.lt_irrefl j). eapply Nat.lt_le_trans; eassumption.
  - apply nth_error_None in Eh. assert (Hr : (length row' <= j)%nat) by (eapply Nat.le_trans; [apply Nat.eq_le_incl; etransitivity; [exact L'|exact L]|exact Eh]). rewrite (proj2 (nth_error_None row' j) Hr).
    assert (Hc : (length (combine cs row) <= j)%nat) by (rewrite combine_length; lia). rewrite (proj2 (nth_error_None _ j) Hc). reflexivity.
Qed.
Lemma Forall2_map_eq {A B} (P : A -> Prop) (Q : A -> B -> Prop) (f : A -> B) l l' : Forall P l -> Forall2 Q l l' -> (forall a b, P a -> Q a b -> b = f a) -> l' = map f l.
Proof. intros FP F H. induction F as [|a b l l' Q1 F IH]; [reflexivity|]. inversion FP; subst. cbn. f_equal; [apply H; assumption|apply IH; assumption]. Qed.
Lemma unit_rows cs x : Forall (unit_point cs) x -> Forall (fun row : list RNum => length row = length cs /\ unit_row row) x.
Proof. intro H. eapply Forall_impl; [|exact H]. intros row (L & U). exact (conj L U). Qed.
Lemma unscale2_originals cs x : plottable cs -> Forall (unit_point cs) x -> unscale2 (N:=RNum) x cs = Ok (map (originals cs) x).
Proof.
  intros P U. destruct (unscale_arrays cs (proj1 P) (plottable_numerical cs P) (plottable_bounds cs P)) as (_ & H & _).
  destruct (H x (unit_rows cs x U)) as (x' & E & F). unfold unscale2. rewrite E. cbn [bind]. apply f_equal.
  apply (Forall2_map_eq _ _ _ _ _ U F). intros row row'. apply row_originals, P.
Qed.
Lemma unscale3_originals cs x : plottable cs -> Forall (Forall (unit_point cs)) x -> unscale3 (N:=RNum) x cs = Ok (map (map (originals cs)) x).
Proof.
  intros P U. destruct (unscale_arrays cs (proj1 P) (plottable_numerical cs P) (plottable_bounds cs P)) as (_ & _ & H).
  assert (U' : Forall (Forall (fun row : list RNum => length row = length cs /\ unit_row row)) x) by (eapply Forall_impl; [|exact U]; apply unit_rows).
  destruct (H x U') as (x' & E & F). unfold unscale3. rewrite E. cbn [bind]. apply f_equal.
  apply (Forall2_map_eq _ _ _ _ _ U F). intros m m' Um Fm. apply (Forall2_map_eq _ _ _ _ _ Um Fm). intros row row'. apply row_originals, P.
Qed.

(** ** coordinates *)
Lemma originals_nth cs i h row u : nth_error cs i = Some h -> nth_error row i = Some u -> nth_error (originals cs row) i = Some (original h u).
Proof. intros Eh Eu. unfold originals. rewrite nth_error_map, (combine_nth_error _ _ _ _ _ Eh Eu). reflexivity. Qed.
Lemma coordinate_nth cs i h row v : NoDup (map hp_name cs) -> nth_error cs i = Some h -> coordinate cs h row v -> nth_error (originals cs row) i = Some v.
Proof.
  intros ND Ei (j & u & Ej & Eu & ->). pose proof (cs_idx_nodup cs i h ND Ei) as A. rewrite (cs_idx_nodup cs j h ND Ej) in A. injection A as ->.
  apply originals_nth; assumption.
Qed.
Lemma column_coordinates cs i h x xs : NoDup (map hp_name cs) -> nth_error cs i = Some h -> Forall2 (coordinate cs h) x xs ->
  column (0 : R) i (map (originals cs) x) = xs.
Proof.
  intros ND Ei F. unfold column. rewrite map_map. induction F as [|row v x xs C F IH]; [reflexivity|]. cbn [map]. f_equal; [|exact IH].
  apply nth_error_nth. apply (coordinate_nth _ _ _ _ _ ND Ei C).
Qed.
Lemma coordinates_exist cs h x : In h cs -> Forall (unit_point cs) x -> exists xs, Forall2 (coordinate cs h) x xs.
Proof.
  intros Hin. destruct (In_nth_error _ _ Hin) as (i & Ei). induction 1 as [|row x (L & U) _ (xs & IH)]; [exists []; constructor|].
  destruct (nth_error row i) as [u|] eqn:Eu; [|apply nth_error_None in Eu; apply nth_error_Some_lt in Ei; rewrite L in Eu; exfalso; apply (Nat.lt_irrefl i); eapply Nat.lt_le_trans; eassumption].
  exists (original h u :: xs). constructor; [exists i, u; auto|exact IH].
Qed.
Lemma idx_one (cs : cspace RNum) h i : NoDup (map hp_name cs) -> nth_error cs i = Some h -> get_selected_idx [h] cs = Ok [i].
Proof. intros ND E. unfold get_selected_idx. cbn [mapM]. rewrite (cs_idx_nodup cs i h ND E). reflexivity. Qed.
Lemma idx_two (cs : cspace RNum) h1 h2 i j : NoDup (map hp_name cs) -> nth_error cs i = Some h1 -> nth_error cs j = Some h2 -> get_selected_idx [h1; h2] cs = Ok [i; j].
Proof. intros ND E1 E2. unfold get_selected_idx. cbn [mapM]. rewrite (cs_idx_nodup cs i h1 ND E1), (cs_idx_nodup cs j h2 ND E2). reflexivity. Qed.

(** ** triangles *)
Lemma cross_R (p q r : R * R) : cross (N:=RNum) p q r = (fst q - fst p) * (snd r - snd p) - (snd q - snd p) * (fst r - fst p).
Proof. reflexivity. Qed.
Lemma parallel (a b c d e f : R) : a * d - b * c = 0 -> a * f - b * e = 0 -> (a <> 0 \/ b <> 0) -> c * f - d * e = 0.
Proof.
  intros H1 H2 [Ha|Hb].
  - apply (Rmult_eq_reg_l a); [|exact Ha]. rewrite Rmult_0_r. replace (a * (c * f - d * e)) with (c * (a * f - b * e) - e * (a * d - b * c)) by ring. rewrite H1, H2. ring.
  - apply (Rmult_eq_reg_l b); [|exact Hb]. rewrite Rmult_0_r. replace (b * (c * f - d * e)) with (d * (a * f - b * e) - f * (a * d - b * c)) by ring. rewrite H1, H2. ring.
Qed.
Lemma neqb_R (a b : R) : neqb (n:=RNum) a b = true <-> a = b.
Proof. cbn. unfold Reqb. destruct (Req_EM_T a b); split; congruence. Qed.
Lemma collinear_true (ps : list (R * R)) : collinear (N:=RNum) ps = true ->
  forall p q r, In p ps -> In q ps -> In r ps -> (fst q - fst p) * (snd r - snd p) = (snd q - snd p) * (fst r - fst p).
Proof.
  destruct ps as [|o t]; [intros _ p q r []|]. cbn [collinear]. rewrite forallb_forall. intro H.
  assert (H0 : forall q r, In q (o :: t) -> In r (o :: t) -> (fst q - fst o) * (snd r - snd o) - (snd q - snd o) * (fst r - fst o) = 0).
  { intros q r [<-|Hq] [<-|Hr]; try ring. specialize (H q Hq). rewrite forallb_forall in H. specialize (H r Hr). apply neqb_R in H. exact H. }
  intros p q r Hp Hq Hr. pose proof (H0 p q Hp Hq) as A. pose proof (H0 p r Hp Hr) as B. pose proof (H0 q r Hq Hr) as C.
  nra.
Qed.
Lemma spread_not_collinear (xs ys : list R) : spread xs ys -> collinear (N:=RNum) (combine xs ys) = false.
Proof.
  intros (p & q & r & Hp & Hq & Hr & H). destruct (collinear (N:=RNum) (combine xs ys)) eqn:E; [|reflexivity]. elim H.
  apply (collinear_true _ E p q r); assumption.
Qed.
Lemma not_spread_collinear (xs ys : list R) : ~ spread xs ys -> collinear (N:=RNum) (combine xs ys) = true.
Proof.
  intro H. destruct (combine xs ys) as [|o t] eqn:E; [reflexivity|]. cbn [collinear]. apply forallb_forall. intros q Hq. apply forallb_forall. intros r Hr.
  apply neqb_R. change (cross (N:=RNum) o q r = 0). rewrite cross_R. destruct (Req_EM_T ((fst q - fst o) * (snd r - snd o)) ((snd q - snd o) * (fst r - fst o))) as [Q|Q]; [apply Rminus_diag_eq; exact Q|].
  elim H. exists o, q, r. rewrite E. cbn. auto.
Qed.
Lemma spread_three (xs ys : list R) : length xs = length ys -> spread xs ys -> (3 <= length xs)%nat.
Proof.
  intros L (p & q & r & Hp & Hq & Hr & H). destruct xs as [|x1 [|x2 [|x3 xs]]]; destruct ys as [|y1 [|y2 [|y3 ys]]]; try discriminate L; cbn [combine In length] in *; try lia; exfalso; apply H; clear H L;
    repeat match goal with A : _ \/ _ |- _ => destruct A as [A|A]; [subst|] | A : False |- _ => destruct A end; cbn; ring.
Qed.

Lemma guard_true b e : b = true -> guard b e = Ok tt.
Proof. intros ->. reflexivity. Qed.
Lemma guard_false b e : b = false -> guard b e = Err e.
Proof. intros ->. reflexivity. Qed.

Section Curves.
Context {Col : Type}.
Lemma tri_draws (color : Col) (xs ys vs : list R) : length xs = length ys -> length vs = length xs -> spread xs ys ->
  draws (plot_2D (N:=RNum) color xs ys vs) [(color, CTri (N:=RNum) xs ys vs)].
Proof.
  intros L1 L2 S. unfold plot_2D. apply (draws_lift _ _ tt).
  { apply guard_true, andb_true_iff. split; [apply Nat.eqb_eq, L1|apply Nat.leb_le, (spread_three _ _ L1 S)]. }
  apply (draws_lift _ _ tt); [apply guard_true, negb_true_iff, spread_not_collinear, S|].
  apply (draws_lift _ _ tt); [apply guard_true, Nat.eqb_eq, L2|]. apply draws_emit.
Qed.

Lemma column_length {A} (d : A) i x : length (column d i x) = length x.
Proof. apply map_length. Qed.
Lemma coordinates_length cs h x xs : Forall2 (coordinate cs h) x xs -> length xs = length x.
Proof. intro F. symmetry. eapply Forall2_length'. exact F. Qed.

Lemma curve_values_one (color : Col) (c : curve RNum) h xs : sound_curve c -> cu_sel c = [h] -> In h (cu_cs c) -> Forall2 (coordinate (cu_cs c) h) (cu_x c) xs ->
  plots (curve_plot_values color c) [h] true "Prediction" [(color, CPlot (N:=RNum) xs (cu_y c) None)].
Proof.
  intros (P & U & Ly & _) Es Hin F. destruct (In_nth_error _ _ Hin) as (i & Ei). unfold curve_plot_values. rewrite Es. apply set_axis_draws.
  apply (draws_lift _ _ _ _ (idx_one _ _ _ (proj1 P) Ei)). apply (draws_lift _ _ _ _ (unscale2_originals _ _ P U)).
  rewrite (column_coordinates _ _ _ _ _ (proj1 P) Ei F : column (n0 (N:=RNum)) i _ = xs). apply ax_plot_draws; [|exact I].
  etransitivity; [exact (coordinates_length _ _ _ _ F)|]. symmetry. exact Ly.
Qed.
Lemma curve_values_two (color : Col) (c : curve RNum) h1 h2 xs ys : sound_curve c -> cu_sel c = [h1; h2] -> In h1 (cu_cs c) -> In h2 (cu_cs c) ->
  Forall2 (coordinate (cu_cs c) h1) (cu_x c) xs -> Forall2 (coordinate (cu_cs c) h2) (cu_x c) ys -> spread xs ys ->
  plots (curve_plot_values color c) [h1; h2] true "Prediction" [(color, CTri (N:=RNum) xs ys (cu_y c))].
Proof.
  intros (P & U & Ly & _) Es Hin1 Hin2 F1 F2 S. destruct (In_nth_error _ _ Hin1) as (i & Ei). destruct (In_nth_error _ _ Hin2) as (j & Ej).
  unfold curve_plot_values. rewrite Es. apply set_axis_draws.
  apply (draws_lift _ _ _ _ (idx_two _ _ _ _ _ (proj1 P) Ei Ej)). apply (draws_lift _ _ _ _ (unscale2_originals _ _ P U)).
  rewrite (column_coordinates _ _ _ _ _ (proj1 P) Ei F1 : column (n0 (N:=RNum)) i _ = xs).
  rewrite (column_coordinates _ _ _ _ _ (proj1 P) Ej F2 : column (n0 (N:=RNum)) j _ = ys). apply tri_draws.
  - etransitivity; [exact (coordinates_length _ _ _ _ F1)|]. symmetry. apply (coordinates_length _ _ _ _ F2).
  - etransitivity; [exact Ly|]. symmetry. exact (coordinates_length _ _ _ _ F1).
  - exact S.
Qed.
Lemma tri_errs (color : Col) (xs ys vs : list R) (c : canvas RNum Col) : length xs = length ys -> ~ spread xs ys ->
  plot_2D (N:=RNum) color xs ys vs c = (c, Err (if Nat.ltb (length xs) 3 then ValueError else RuntimeError)).
Proof.
  intros L S. unfold plot_2D. destruct (Nat.ltb_spec (length xs) 3) as [H|H].
  - apply lift_err, guard_false, andb_false_iff. right. apply Nat.leb_gt. exact H.
  - rewrite (lift_ok _ _ _ tt); [apply lift_err, guard_false, negb_false_iff, not_spread_collinear, S|].
    apply guard_true, andb_true_iff. split; [apply Nat.eqb_eq, L|apply Nat.leb_le, H].
Qed.
Lemma curve_two_flat (std : bool) (color gc : Col) ms (c : curve RNum) h1 h2 xs ys : sound_curve c -> cu_sel c = [h1; h2] -> In h1 (cu_cs c) -> In h2 (cu_cs c) ->
  Forall2 (coordinate (cu_cs c) h1) (cu_x c) xs -> Forall2 (coordinate (cu_cs c) h2) (cu_x c) ys -> ~ spread xs ys ->
  fails (if std then curve_plot_confidences color gc ms c else curve_plot_values color c) [h1; h2] true "Prediction" (if Nat.ltb (length xs) 3 then ValueError else RuntimeError).
Proof.
  intros (P & U & Ly & _) Es Hin1 Hin2 F1 F2 S. destruct (In_nth_error _ _ Hin1) as (i & Ei). destruct (In_nth_error _ _ Hin2) as (j & Ej).
  assert (L : length xs = length ys) by (etransitivity; [exact (coordinates_length _ _ _ _ F1)|]; symmetry; apply (coordinates_length _ _ _ _ F2)).
  destruct std; unfold curve_plot_values, curve_plot_confidences; rewrite Es; apply set_axis_errs;
  apply (errs_lift _ _ _ _ (idx_two _ _ _ _ _ (proj1 P) Ei Ej)); cbv zeta; apply (errs_lift _ _ _ _ (unscale2_originals _ _ P U));
  rewrite (column_coordinates _ _ _ _ _ (proj1 P) Ei F1 : column (n0 (N:=RNum)) i _ = xs);
  rewrite (column_coordinates _ _ _ _ _ (proj1 P) Ej F2 : column (n0 (N:=RNum)) j _ = ys); intro cv; apply tri_errs; assumption.
Qed.

Lemma first_minimum_arg (l : list R) i : first_minimum l i -> np_arg (nlt (n:=RNum)) l = i.
Proof.
  intros (v & E & H1 & H2). assert (Hne : l <> []) by (intro Q; rewrite Q in E; destruct i; discriminate).
  destruct (np_arg_spec (N:=RNum) R_order_laws true l Hne) as (w & E' & H1' & H2'); [apply Forall_forall; intros z _; apply neqb_R; reflexivity|].
  set (k := np_arg (nlt (n:=RNum)) l) in *. destruct (Nat.lt_trichotomy k i) as [H|[H|H]]; [|exact H|]; exfalso.
  - pose proof (H2 k w H E'). pose proof (H1' i v E) as Q. cbn in Q. unfold Rleb in Q. destruct (Rle_dec w v); [lra|discriminate].
  - pose proof (H2' i v H E) as Q. cbn in Q. unfold Rltb in Q. destruct (Rlt_dec w v); [|discriminate]. pose proof (H1 k w E'). lra.
Qed.

Lemma nth_coordinate cs i h x (xs : list R) k v : NoDup (map hp_name cs) -> nth_error cs i = Some h -> Forall2 (coordinate cs h) x xs -> nth_error xs k = Some v ->
  exists row, py_nth (map (originals cs) x) k = Ok row /\ py_nth row i = Ok v.
Proof.
  intros ND Ei F. revert k. induction F as [|row w x xs C F IH]; intros [|k] E; try discriminate.
  - injection E as ->. exists (originals cs row). split; [reflexivity|]. apply py_nth_ok. apply (coordinate_nth _ _ _ _ _ ND Ei C).
  - destruct (IH k E) as (r & Er & Ev). exists r. split; [|exact Ev]. apply py_nth_ok. apply py_nth_ok in Er. exact Er.
Qed.
Lemma curve_incumbent_one (color : Col) (c : curve RNum) h xs k v : sound_curve c -> cu_sel c = [h] -> In h (cu_cs c) ->
  Forall2 (coordinate (cu_cs c) h) (cu_x c) xs -> first_minimum (cu_y c) k -> nth_error xs k = Some v ->
  plots (curve_plot_incumbent color c) [h] true "Prediction" [(color, CVline (N:=RNum) v)].
Proof.
  intros (P & U & Ly & _) Es Hin F M Ev. destruct (In_nth_error _ _ Hin) as (i & Ei). unfold curve_plot_incumbent. rewrite Es. apply set_axis_draws.
  apply (draws_lift _ _ _ _ (idx_one _ _ _ (proj1 P) Ei)). apply (draws_lift _ _ _ _ (unscale2_originals _ _ P U)).
  apply (draws_lift _ _ tt). { apply guard_true, negb_true_iff, Nat.eqb_neq. destruct M as (w & E & _). destruct (cu_y c); [destruct k; discriminate|discriminate]. }
  cbv zeta. rewrite (first_minimum_arg _ _ M). destruct (nth_coordinate _ _ _ _ _ _ _ (proj1 P) Ei F Ev) as (row & E1 & E2).
  apply (draws_lift _ _ row _ E1). apply (draws_lift _ _ _ _ E2). apply draws_emit.
Qed.
Lemma curve_incumbent_two (color : Col) (c : curve RNum) h1 h2 xs ys k v w : sound_curve c -> cu_sel c = [h1; h2] -> In h1 (cu_cs c) -> In h2 (cu_cs c) ->
  Forall2 (coordinate (cu_cs c) h1) (cu_x c) xs -> Forall2 (coordinate (cu_cs c) h2) (cu_x c) ys -> first_minimum (cu_y c) k ->
  nth_error xs k = Some v -> nth_error ys k = Some w ->
  plots (curve_plot_incumbent color c) [h1; h2] true "Prediction" (colored color [CScatter (N:=RNum) [v] [w]; CNote (N:=RNum) v w]).
Proof.
  intros (P & U & Ly & _) Es Hin1 Hin2 F1 F2 M Ev Ew. destruct (In_nth_error _ _ Hin1) as (i & Ei). destruct (In_nth_error _ _ Hin2) as (j & Ej).
  unfold curve_plot_incumbent. rewrite Es. apply set_axis_draws.
  apply (draws_lift _ _ _ _ (idx_two _ _ _ _ _ (proj1 P) Ei Ej)). apply (draws_lift _ _ _ _ (unscale2_originals _ _ P U)).
  apply (draws_lift _ _ tt). { apply guard_true, negb_true_iff, Nat.eqb_neq. destruct M as (z & E & _). destruct (cu_y c); [destruct k; discriminate|discriminate]. }
  cbv zeta. rewrite (first_minimum_arg _ _ M). destruct (nth_coordinate _ _ _ _ _ _ _ (proj1 P) Ei F1 Ev) as (row & E1 & E2).
  destruct (nth_coordinate _ _ _ _ _ _ _ (proj1 P) Ej F2 Ew) as (row' & E1' & E2'). assert (row' = row) by (pose proof (eq_trans (eq_sym E1) E1') as Q; injection Q as Q; symmetry; exact Q). subst row'.
  apply (draws_lift _ _ row _ E1). apply (draws_lift _ _ _ _ E2). apply (draws_lift _ _ _ _ E2'). eapply draws_bind; [apply draws_emit|apply draws_emit|reflexivity].
Qed.

Lemma curve_confidences_one (lc gc : Col) (ms : R) (c : curve RNum) h xs : sound_curve c -> cu_sel c = [h] -> In h (cu_cs c) -> Forall2 (coordinate (cu_cs c) h) (cu_x c) xs ->
  let s := map sqrt (cu_v c) in
  plots (curve_plot_confidences (N:=RNum) lc gc ms c) [h] true "Prediction"
    (colored gc (map (fun i => band xs (cu_y c) s (INR i / INR 100 * ms)) (seq 0 100)) ++ colored lc (line_pair xs (cu_y c) s 1 ++ line_pair xs (cu_y c) s 2)).
Proof.
  intros (P & U & Ly & Lv & _) Es Hin F s. destruct (In_nth_error _ _ Hin) as (i & Ei). unfold curve_plot_confidences. rewrite Es. apply set_axis_draws.
  apply (draws_lift _ _ _ _ (idx_one _ _ _ (proj1 P) Ei)). cbv zeta. apply (draws_lift _ _ _ _ (unscale2_originals _ _ P U)).
  rewrite (column_coordinates _ _ _ _ _ (proj1 P) Ei F : column (n0 (N:=RNum)) i _ = xs).
  assert (L1 : length xs = length (cu_y c)) by (etransitivity; [exact (coordinates_length _ _ _ _ F)|]; symmetry; exact Ly).
  assert (L2 : length (cu_y c) = length s) by (unfold s; rewrite map_length; etransitivity; [exact Ly|symmetry; exact Lv]).
  apply draws_seq; [apply (gradients_draw gc xs (cu_y c) s 100 ms L1 L2)|apply (default_lines lc xs (cu_y c) s L1 L2)].
Qed.
Lemma curve_confidences_two (lc gc : Col) ms (c : curve RNum) h1 h2 xs ys : sound_curve c -> cu_sel c = [h1; h2] -> In h1 (cu_cs c) -> In h2 (cu_cs c) ->
  Forall2 (coordinate (cu_cs c) h1) (cu_x c) xs -> Forall2 (coordinate (cu_cs c) h2) (cu_x c) ys -> spread xs ys ->
  plots (curve_plot_confidences lc gc ms c) [h1; h2] true "Prediction" [(lc, CTri (N:=RNum) xs ys (map sqrt (cu_v c)))].
Proof.
  intros (P & U & Ly & Lv & _) Es Hin1 Hin2 F1 F2 S. destruct (In_nth_error _ _ Hin1) as (i & Ei). destruct (In_nth_error _ _ Hin2) as (j & Ej).
  unfold curve_plot_confidences. rewrite Es. apply set_axis_draws.
  apply (draws_lift _ _ _ _ (idx_two _ _ _ _ _ (proj1 P) Ei Ej)). cbv zeta. apply (draws_lift _ _ _ _ (unscale2_originals _ _ P U)).
  rewrite (column_coordinates _ _ _ _ _ (proj1 P) Ei F1 : column (n0 (N:=RNum)) i _ = xs).
  rewrite (column_coordinates _ _ _ _ _ (proj1 P) Ej F2 : column (n0 (N:=RNum)) j _ = ys). apply tri_draws.
  - etransitivity; [exact (coordinates_length _ _ _ _ F1)|]. symmetry. apply (coordinates_length _ _ _ _ F2).
  - rewrite map_length. etransitivity; [exact Lv|]. symmetry. exact (coordinates_length _ _ _ _ F1).
  - exact S.
Qed.

(** ** errors *)
Lemma curve_many (color lc gc : Col) ms (c : curve RNum) : sound_curve c -> (forall h, In h (cu_sel c) -> In (hp_name h) (map hp_name (cu_cs c))) ->
  (length (cu_sel c) <> 1 -> length (cu_sel c) <> 2 ->
   fails (curve_plot_values color c) (cu_sel c) true "Prediction" NotImplementedError /\
   fails (curve_plot_confidences lc gc ms c) (cu_sel c) true "Prediction" NotImplementedError /\
   (cu_y c <> [] -> fails (curve_plot_incumbent color c) (cu_sel c) true "Prediction" NotImplementedError))%nat.
Proof.
  intros (P & U & Ly & Lv & _) K H1 H2. destruct (selected_idx_total (cu_cs c) (cu_sel c)) as (idx & Ei); [apply Forall_forall; intros h Hh; apply K, Hh|].
  assert (L : length idx = length (cu_sel c)) by (apply (mapM_length _ _ _ Ei)). rewrite <- L in H1, H2. unfold curve_plot_values, curve_plot_confidences, curve_plot_incumbent.
  refine (conj _ (conj _ _)); [| |intro Hy]; apply set_axis_errs; apply (errs_lift _ _ _ _ Ei); cbv zeta; apply (errs_lift _ _ _ _ (unscale2_originals _ _ P U)).
  3: apply (errs_lift _ _ tt); [apply guard_true, negb_true_iff, Nat.eqb_neq; destruct (cu_y c); [contradiction|discriminate]|cbv zeta].
  all: destruct idx as [|i1 [|i2 [|i3 t]]]; cbn in H1, H2; try lia; intro cv; reflexivity.
Qed.
Lemma curve_not_numerical (N : Num) (color lc gc : Col) ms (c : curve N) pre h post : cu_cs c = pre ++ h :: post -> all_numerical pre -> is_numerical h = false ->
  cu_x c <> [] -> Forall (fun row => length row = length (cu_cs c)) (cu_x c) -> (forall h, In h (cu_sel c) -> In (hp_name h) (map hp_name (cu_cs c))) ->
  fails (curve_plot_values color c) (cu_sel c) true "Prediction" TypeError /\
  fails (curve_plot_confidences lc gc ms c) (cu_sel c) true "Prediction" TypeError /\
  fails (curve_plot_incumbent color c) (cu_sel c) true "Prediction" TypeError.
Proof.
  intros Ec Hp Hh Hx Hr K. destruct (selected_idx_total (cu_cs c) (cu_sel c)) as (idx & Ei); [apply Forall_forall; intros k Hk; apply K, Hk|].
  destruct (unscale_categorical_raises (cu_cs c) pre h post Ec Hp Hh) as (_ & T & _). specialize (T _ Hx Hr).
  assert (T' : unscale2 (cu_x c) (cu_cs c) = Err TypeError) by (unfold unscale2; rewrite T; reflexivity).
  unfold curve_plot_values, curve_plot_confidences, curve_plot_incumbent.
  refine (conj _ (conj _ _)); apply set_axis_errs; apply (errs_lift _ _ _ _ Ei); cbv zeta; apply errs_here; exact T'.
Qed.
End Curves.
