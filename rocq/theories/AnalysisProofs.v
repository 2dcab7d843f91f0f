(** AnalysisProofs.v - what the figure of the sampler analysis shows (C119). *)
From Coq Require Import Reals Lra Lia Permutation.
From Coquelicot Require Import Coquelicot.
From Verif Require Import Base Num NumLaws NumpyModel ListLemmas ConfigSpaceModel UtilsModel UtilsProofs UtilsProofs2 RealProofs RealSums IceModel IceProofs IceProofs2 IceReal
  PartitionModel ForestModel SamplerModel AcquisitionModel PlottingModel PlottingSpec DrawModel DrawSpec DrawProofs DrawProofs2 DrawProofs3 DrawProofs4 DrawProofs5 DrawProofs6
  SyntheticModel SyntheticSpec SyntheticPd NllModel NllSpec NllProofs ForestProofs ExperimentProofs2 IceShapeSpec SpreadSpec SpreadProofs SpreadSynSpec SpreadIce SpreadSynthetic AnalysisModel AnalysisSpec.
Local Open Scope R_scope.
Local Open Scope list_scope.

Lemma linear_plottable (cs : cspace RNum) : NoDup (map hp_name cs) -> Forall linear_float cs -> plottable cs.
Proof.
  intros ND F. split; [exact ND|]. eapply Forall_impl; [|exact F]. intros h (lo & up & E & L). unfold is_numerical, sound_bounds. rewrite E. split; [reflexivity|]. split; [exact L|discriminate].
Qed.
Lemma linear_range (cs : cspace RNum) : Forall linear_float cs -> Forall float_range cs.
Proof. intro F. eapply Forall_impl; [|exact F]. intros h (lo & up & E & L). exists lo, up, false. auto. Qed.
Lemma selects_one (cs : cspace RNum) h : NoDup (map hp_name cs) -> In h cs -> convert_hyperparameters (N:=RNum) (SelList [SName (hp_name h)]) cs = Ok [h].
Proof. intros ND Hin. apply (names_convert cs [h] ND). intros x [<-|[]]. exact Hin. Qed.

Lemma at_pair {A B} (Q : A -> B -> Prop) l m j a b : Forall2 Q l m -> nth_error l j = Some a -> nth_error m j = Some b -> Q a b.
Proof. intro F. revert j. induction F as [|x y l m H F IH]; intros [|j] E1 E2; try discriminate; [injection E1 as <-; injection E2 as <-; exact H|exact (IH j E1 E2)]. Qed.
Lemma Rmean_nonneg l : Forall (fun x => 0 <= x) l -> 0 <= Rmean l.
Proof.
  intro F. destruct l as [|x l]; [unfold Rmean; cbn; lra|]. unfold Rmean. apply Rmult_le_pos; [|left; apply Rinv_0_lt_compat, lt_0_INR; cbn; lia].
  induction F as [|y t H F IH]; cbn [Rsum]; [lra|]. lra.
Qed.

(** ** the curves of the repetitions *)
Section Reps.
Variables (cs : cspace RNum) (h : hp RNum) (gpa : nat).
Hypothesis P : plottable cs.
Hypothesis Known : In h cs.
Hypothesis Gpa : (1 <= gpa)%nat.
Let alg (r : repetition RNum) : algorithm RNum := mkalg (N:=RNum) cs [h] (rp_samples (N:=RNum) r) gpa.
Let crv (q : repetition RNum * ((list R -> R) * (list R -> R))) : curve RNum := mean_curve (alg (fst q)) h (rp_samples (N:=RNum) (fst q)) (fst (snd q)) (snd (snd q)).

Lemma one_repetition r m : sound_repetition cs r m -> repetition_curve cs (SelList [SName (hp_name h)]) gpa r = Ok (crv (r, m)).
Proof.
  intros (Hp & U & Ne). unfold repetition_curve, algorithm_new. rewrite (selects_one cs h (proj1 P) Known). cbn [bind].
  destruct (pdp_curve_fresh (pdp_new (alg r) (rp_predict r)) h (fst m) (snd m)) as (s' & E & _); try reflexivity; try assumption.
  - left. repeat split; reflexivity.
  - unfold alg in E. etransitivity; [exact (f_equal snd E)|]. reflexivity.
Qed.
Lemma all_repetitions reps models : Forall2 (sound_repetition cs) reps models ->
  mapM (repetition_curve cs (SelList [SName (hp_name h)]) gpa) reps = Ok (map crv (combine reps models)).
Proof.
  induction 1 as [|r m reps models H F IH]; [reflexivity|]. cbn [mapM combine map]. rewrite (one_repetition r m H). cbn [bind]. rewrite IH. reflexivity.
Qed.
Lemma average_length (f : list R -> R) rows : length (average_values cs h gpa f rows) = gpa.
Proof. unfold average_values. rewrite map_length. apply positions_length. Qed.

Lemma mean_lists (f : (list R -> R) * (list R -> R) -> list R -> R) qs : qs <> [] ->
  let l := map (fun q => average_values cs h gpa (f (snd q)) (rp_samples (N:=RNum) (fst q))) qs in
  mean_axis0 (N:=RNum) (width l) l = mean_of_averages cs h gpa f qs.
Proof.
  intros Ne l. assert (W : width l = gpa) by (unfold l; destruct qs as [|q qs]; [congruence|]; cbn [map width]; apply average_length).
  rewrite W. unfold mean_axis0, mean_of_averages. rewrite (map_via_seq (fun u => Rmean (map (fun q => DrawSpec.average (fun row => f (snd q) (with_value cs h u row)) (rp_samples (N:=RNum) (fst q))) qs))), positions_length.
  apply map_ext_in. intros k Hk. apply in_seq in Hk. rewrite nmean_R. apply (f_equal Rmean). unfold column, l. rewrite map_map. apply map_ext. intro q.
  unfold average_values. etransitivity; [apply nth_indep with (d' := DrawSpec.average (fun row => f (snd q) (with_value cs h 0 row)) (rp_samples (N:=RNum) (fst q)))|].
  - rewrite map_length, positions_length. lia.
  - apply (map_nth (fun u => DrawSpec.average (fun row => f (snd q) (with_value cs h u row)) (rp_samples (N:=RNum) (fst q)))).
Qed.

Section Sound.
Variables (reps : list (repetition RNum)) (models : list ((list R -> R) * (list R -> R))).
Hypothesis S : Forall2 (sound_repetition cs) reps models.
Hypothesis Ne : reps <> [].
Let qs := combine reps models.
Lemma qs_not_nil : qs <> [].
Proof. unfold qs. destruct S; [congruence|discriminate]. Qed.
Lemma qs_sound q : In q qs -> sound_repetition cs (fst q) (snd q).
Proof.
  unfold qs. clear Ne. induction S as [|r m rs ms H F IH]; intro Hq; [destruct Hq|]. destruct Hq as [<-|Hq]; [exact H|]. apply IH; assumption.
Qed.
Lemma averaged_curve : exists c, averaged cs (SelList [SName (hp_name h)]) (map crv qs) = Ok c /\ sound_curve c /\ cu_cs c = cs /\ cu_sel c = [h] /\
  Forall2 (coordinate cs h) (cu_x c) (axis_values gpa h) /\ cu_y c = mean_of_averages cs h gpa mean_part qs /\ cu_v c = mean_of_averages cs h gpa variance_part qs.
Proof.
  set (l := map crv qs). set (c := mkcurve (N:=RNum) cs [h] (last (map cu_x l) []) (mean_axis0 (N:=RNum) (width (map cu_y l)) (map cu_y l)) (mean_axis0 (N:=RNum) (width (map cu_v l)) (map cu_v l))).
  exists c. split; [unfold averaged; rewrite (selects_one cs h (proj1 P) Known); reflexivity|].
  assert (Ey : cu_y c = mean_of_averages cs h gpa mean_part qs).
  { unfold c, l. cbn [cu_y]. rewrite map_map. exact (mean_lists mean_part qs qs_not_nil). }
  assert (Ev : cu_v c = mean_of_averages cs h gpa variance_part qs).
  { unfold c, l. cbn [cu_v]. rewrite map_map. exact (mean_lists variance_part qs qs_not_nil). }
  destruct (exists_last qs_not_nil) as (qs' & q & Eq). assert (Hq : In q qs) by (rewrite Eq; apply in_or_app; right; left; reflexivity).
  destruct (qs_sound q Hq) as (Hp & U & N1).
  assert (Ex : cu_x c = cu_x (crv q)) by (unfold c, l; cbn [cu_x]; rewrite map_map, Eq, map_app; apply last_last).
  pose proof (mean_rows_coordinates (alg (fst q)) h (rp_samples (fst q)) Known P U N1) as C1. pose proof (mean_rows_unit (alg (fst q)) h (rp_samples (fst q)) U N1) as U1.
  pose proof (mean_rows_length (alg (fst q)) h (rp_samples (fst q))) as L1.
  split; [|split; [reflexivity|split; [reflexivity|split; [rewrite Ex; exact C1|split; [exact Ey|exact Ev]]]]].
  split; [exact P|]. rewrite Ex, Ey, Ev. split; [exact U1|]. split; [|split].
  - etransitivity; [|symmetry; exact L1]. unfold mean_of_averages. rewrite map_length. apply positions_length.
  - etransitivity; [|symmetry; exact L1]. unfold mean_of_averages. rewrite map_length. apply positions_length.
  - apply Forall_forall. intros v Hv. unfold mean_of_averages in Hv. apply in_map_iff in Hv. destruct Hv as (u & <- & _).
    apply Rmean_nonneg. apply Forall_forall. intros w Hw. apply in_map_iff in Hw. destruct Hw as (q' & <- & Hq'). destruct (qs_sound q' Hq') as (_ & _ & N2).
    unfold DrawSpec.average. apply Rmult_le_pos.
    + generalize (rp_samples (N:=RNum) (fst q')). intro t. induction t as [|r t IH]; cbn [map fold_right]; [lra|]. unfold variance_part at 1. pose proof (Rle_0_sqr (snd (snd q') (with_value cs h u r))) as Z. unfold Rsqr in Z. lra.
    + left. apply Rinv_0_lt_compat, lt_0_INR. destruct (rp_samples (N:=RNum) (fst q')); [congruence|cbn; lia].
Qed.
End Sound.
End Reps.

(** ** the truth *)
Lemma names_not_selected (cs : cspace RNum) h :
  map (fun n => SName (N:=RNum) n) (filter (fun n => negb (existsb (String.eqb n) [hp_name h])) (map hp_name cs)) = map (fun k => SName (N:=RNum) (hp_name k)) (NllModel.not_selected [h] cs).
Proof.
  unfold NllModel.not_selected. change (map hp_name [h]) with [hp_name h]. induction cs as [|k cs IH]; [reflexivity|]. cbn [map filter].
  destruct (negb (existsb (String.eqb (hp_name k)) [hp_name h])); [cbn [map]; f_equal; exact IH|exact IH].
Qed.
Lemma original_linear h lo up (u : R) : hp_kind h = KFloat (lo : RNum) (up : RNum) false -> lo < up -> 0 <= u <= 1 -> original h u = lo + u * (up - lo) /\ lo <= original h u <= up.
Proof. intros E L U. unfold original. rewrite E. unfold on_axis. split; [reflexivity|]. nra. Qed.
Lemma truth_value (cs : cspace RNum) h : NoDup (map hp_name cs) -> Forall linear_float cs -> In h cs -> (2 <= length cs)%nat ->
  exists f, truth_of cs [hp_name h] = Ok ([h], f) /\ forall u : R, 0 <= u <= 1 -> f [(hp_name h, VNum (N:=RNum) (original h u))] = Ok (true_pd cs h (original h u)).
Proof.
  intros ND F Hin L. destruct (integral_of h 0 cs ND (linear_range cs F) Hin L) as (EI & _). unfold truth_of. rewrite names_not_selected, EI. cbn [bind fst]. eexists. split; [reflexivity|].
  intros u Hu. destruct (proj1 (Forall_forall _ _) F h Hin) as (lo & up & E & Hlt). destruct (original_linear h lo up u E Hlt Hu) as (_ & B).
  set (v := original h u) in *. unfold bb_call, make_configuration. cbn [forallb existsb fst hp_name map config_get find mapM]. 
  unfold config_get. cbn [find fst]. rewrite String.eqb_refl. cbn [orb andb guard bind snd]. unfold legal_value. rewrite E. cbn [nle RNum].
  unfold Rleb. destruct (Rle_dec lo v) as [_|]; [|exfalso; tauto]. destruct (Rle_dec v up) as [_|]; [|exfalso; tauto]. cbn [andb bind].
  unfold pd_value. cbn [fst snd]. change [(hp_name h, VNum (N:=RNum) v)] with (conf_at [h] (fun _ => v)). rewrite stybtang_at. cbn [bind]. f_equal.
  destruct (integral_of h v cs ND (linear_range cs F) Hin L) as (_ & ET). rewrite ET. unfold asum, g. cbn. lra.
Qed.

(** ** the panels *)
Section Figure.
Context {Col : Type}.
Variables (blue lightblue black cycle : Col) (cs : cspace RNum) (h : hp RNum) (gpa : nat).
Hypothesis ND : NoDup (map hp_name cs).
Hypothesis F : Forall linear_float cs.
Hypothesis Known : In h cs.
Hypothesis L2 : (2 <= length cs)%nat.
Hypothesis Gpa : (1 <= gpa)%nat.

Theorem panel_shows reps models : Forall2 (sound_repetition cs) reps models -> reps <> [] ->
  let qs := combine reps models in let xs := axis_values gpa h in
  let ys := mean_of_averages cs h gpa mean_part qs in let sds := map sqrt (mean_of_averages cs h gpa variance_part qs) in
  exists ca cb, panel blue lightblue black cycle cs (SelList [SName (hp_name h)]) gpa (truth_of cs [hp_name h]) reps = ((ca, cb), Ok tt) /\
    cv_drawn ca = (blue, CPlot (N:=RNum) xs ys None) :: confidence blue lightblue 3 xs ys sds ++
      [(black, CPlot (N:=RNum) (axis_values 200 h) (map (true_pd cs h) (axis_values 200 h)) None)] /\
    cv_drawn cb = [(cycle, CPlot (N:=RNum) xs sds None)].
Proof.
  intros S Ne qs xs ys sds. pose proof (linear_plottable cs ND F) as P.
  destruct (averaged_curve cs h gpa P Known Gpa reps models S Ne) as (c & Ec & Sc & Ecs & Es & Co & Ey & Ev).
  destruct (truth_value cs h ND F Known L2) as (f & Et & Hf).
  assert (EM : (l <- mapM (repetition_curve cs (SelList [SName (hp_name h)]) gpa) reps ;; c0 <- averaged cs (SelList [SName (hp_name h)]) l ;; Ok c0) = Ok c).
  { rewrite (all_repetitions cs h gpa P Known Gpa reps models S). exact (f_equal (fun r => c0 <- r ;; Ok c0) Ec). }
  unfold panel. rewrite EM.
  assert (B : negb (Nat.eqb (length reps) 0) = true) by (destruct reps; [congruence|reflexivity]). rewrite B.
  assert (Known' : In h (cu_cs c)) by (rewrite Ecs; exact Known). assert (Co' : Forall2 (coordinate (cu_cs c) h) (cu_x c) (axis_values gpa h)) by (rewrite Ecs; exact Co).
  pose proof (curve_values_one blue c h xs Sc Es Known' Co') as P1. pose proof (curve_confidences_one blue lightblue 3 c h xs Sc Es Known' Co') as P2. cbv zeta in P2.
  destruct (proj1 (Forall_forall _ _) (proj2 P) h Known) as (Hn & Hs).
  assert (R200 : get_ranges (N:=RNum) [h] 200 false = Ok [axis_values 200 h]) by (apply (ranges_values [h] 200); repeat constructor; assumption).
  assert (K : keeps not_constant [h] [h]).
  { apply keeps_yes; [|apply keeps_nil]. destruct (proj1 (Forall_forall _ _) F h Known) as (lo & up & E & _). unfold not_constant. rewrite E. exact I. }
  assert (P3 : plots (plot_function (N:=RNum) black f [h] 200) [h] true "Prediction" [(black, CPlot (N:=RNum) (axis_values 200 h) (map (true_pd cs h) (axis_values 200 h)) None)]).
  { apply (function1 (N:=RNum) black f [h] 200 h (axis_values 200 h) (true_pd cs h) K R200). intros v Hv. unfold axis_values in Hv. apply in_map_iff in Hv. destruct Hv as (u & <- & Hu).
    replace (constants_of (N:=RNum) [h]) with (@nil (string * cval RNum)); [apply Hf, (positions_unit 200), Hu|].
    destruct (proj1 (Forall_forall _ _) F h Known) as (lo & up & E & _). unfold constants_of. cbn. rewrite E. reflexivity. }
  assert (EA : exists ca, pdp_axis blue lightblue black true c (truth_of cs [hp_name h]) blank = (ca, Ok tt) /\
    cv_drawn ca = (blue, CPlot (N:=RNum) xs (cu_y c) None) :: confidence blue lightblue 3 xs (cu_y c) (map sqrt (cu_v c)) ++ [(black, CPlot (N:=RNum) (axis_values 200 h) (map (true_pd cs h) (axis_values 200 h)) None)]).
  { unfold pdp_axis. rewrite Et.
    destruct (shows_seq _ _ _ _ _ _ (plots_shows _ _ _ _ _ P1) (shows_seq _ _ _ _ _ _ (plots_shows _ _ _ _ _ P2) (plots_shows _ _ _ _ _ P3)) blank (fresh_no_conflict _ _)) as (ca & E1 & D1 & _).
    exists ca. split; [exact E1|]. rewrite D1. cbn [blank cv_drawn app]. reflexivity. }
  destruct EA as (ca & E1 & D1). rewrite E1.
  assert (LV : length (cu_v c) = gpa) by (rewrite Ev; unfold mean_of_averages; rewrite map_length; apply positions_length).
  assert (EB : exists cb, std_axis cycle cs (SelList [SName (hp_name h)]) c blank = (cb, Ok tt) /\ cv_drawn cb = [(cycle, CPlot (N:=RNum) xs (map sqrt (cu_v c)) None)]).
  { assert (D : draws (std_axis cycle cs (SelList [SName (hp_name h)]) c) [(cycle, CPlot (N:=RNum) xs (map sqrt (cu_v c)) None)]).
    { unfold std_axis. apply (draws_lift _ _ [h] _ (selects_one cs h ND Known)). rewrite LV.
      assert (Rg : get_ranges (N:=RNum) [h] gpa false = Ok [axis_values gpa h]) by (apply (ranges_values [h] gpa); repeat constructor; assumption).
      apply (draws_lift _ _ [xs] _ Rg). apply (draws_lift _ _ xs); [reflexivity|]. apply ax_plot_draws; [|exact I].
      etransitivity; [|symmetry; etransitivity; [apply map_length|exact LV]]. unfold xs, axis_values. rewrite map_length. apply positions_length. }
    exists (adds blank [(cycle, CPlot (N:=RNum) xs (map sqrt (cu_v c)) None)]). split; [apply D|reflexivity]. }
  destruct EB as (cb & E2 & D2). rewrite E2. exists ca, cb. split; [reflexivity|].
  unfold ys, sds. rewrite D1, D2, Ey, Ev. split; reflexivity.
Qed.

Lemma exact_average (samples : list (list R)) (Jk : list (nat * nat)) (C : R) : Forall (unit_point cs) samples -> Forall (fun k => slope_at_most k C) cs ->
  NoDup (map fst Jk) -> (forall j, In j (map fst Jk) <-> (j < length cs)%nat /\ nth_error cs j <> Some h) -> SpreadSpec.spread Jk samples ->
  forall g u, nth_error (positions gpa) g = Some u ->
  Rabs (DrawSpec.average (fun row => exact_model cs (with_value cs h u row)) samples - true_pd cs h (original h u)) <=
    spread_error (fun j => C * match nth_error cs j with Some k => hp_width k | None => 0 end) Jk.
Proof.
  intros U Sl NJ HJ Sp g u Eu. set (a := mkalg (N:=RNum) cs [h] samples gpa). pose proof (linear_plottable cs ND F) as P.
  pose proof (spread_nonempty _ _ Sp) as Ne. set (s := fun _ : list R => 0). set (pr := rowwise (N:=RNum) (exact_model cs) s).
  assert (Rc : rect (num_features a) (a_samples a)) by (eapply Forall_impl; [|exact U]; intros r (L & _); exact L).
  assert (HC : Forall in_cube (a_samples a)) by (eapply Forall_impl; [|exact U]; intros r (_ & L); exact L).
  assert (Hp : forall rows : list (list RNum), pr rows = Ok (map (exact_model cs) rows, map s rows)) by reflexivity.
  destruct (calculate_one a h eq_refl Known Rc Gpa (exact_model cs) s pr Hp false) as (d & Ed). destruct (ice_data_one a h eq_refl ND Rc Gpa (exact_model cs) s pr Hp false d Ed) as (Dx & Dy & _).
  assert (Gg : num_grid_points a = gpa) by (unfold num_grid_points, n_selected; cbn; lia).
  assert (Hg : (g < num_grid_points a)%nat) by (rewrite Gg, <- (positions_length gpa); apply (nth_error_Some_lt _ _ _ Eu)).
  set (hps := NllModel.not_selected [h] cs).
  assert (IC : incl hps cs) by (intros k Hk; apply filter_In in Hk; tauto).
  assert (Hh : forall k, In k hps <-> In k cs /\ ~ In (hp_name k) (map hp_name (a_sel a))).
  { intro k. unfold hps, NllModel.not_selected. rewrite filter_In. cbn [map a_sel a existsb In]. rewrite orb_false_r. destruct (String.eqb_spec (hp_name k) (hp_name h)) as [E|E]; cbn [negb]; split; intros (A & B); split; try exact A; try discriminate; try reflexivity.
    - exfalso. apply B. left. symmetry. exact E.
    - intros [Q|[]]. apply E. symmetry. exact Q. }
  assert (HJ2 : SpreadSynSpec.rest_of a (map fst Jk)).
  { intro j. rewrite HJ. change (num_features a) with (length cs). unfold not_selected. cbn [a_cs a a_sel map]. split; intros (A & B); split; try exact A.
    - intros k Ek [Q|[]]. apply B. rewrite Ek. f_equal. apply (nodup_name_inj cs k h ND (nth_error_In _ _ Ek) Known). symmetry. exact Q.
    - intro Q. apply (B h Q). left. reflexivity. }
  assert (Hne : map (fun k => SName (N:=RNum) (hp_name k)) hps <> []).
  { pose proof (sty_others cs h (mkregion (N:=RNum) [[[]]] [[0]] [[0]]) ND (linear_range cs F) Known L2 (le_n 1) eq_refl eq_refl) as Q. fold hps in Q. destruct hps; [congruence|discriminate]. }
  destruct (pdp_stybtang a s d Jk _ hps C g F ND Rc HC Ed NJ HJ2 Sp Hne (names_convert cs hps ND IC)) as (row & c & y & p & v & Erow & Ecf & Ey & Ep & Hfst & Hv & B); auto.
  - apply nodup_filter. exact ND.
  - apply Forall_forall. intros k Hk. exact (proj1 (Forall_forall _ _) Sl k (IC k Hk)).
  - assert (Yv : y = DrawSpec.average (fun row => exact_model cs (with_value cs h u row)) samples).
    { assert (Q : y_pdp a d = average_values cs h gpa (exact_model cs) samples).
      { unfold y_pdp. rewrite Gg, Dy, Dx, map_map. etransitivity; [|exact (mean_values a h samples (exact_model cs))]. apply (f_equal (mean_axis0 (N:=RNum) gpa)). apply map_ext. intro r. unfold row_values. apply map_ext. intro q. lra. }
      rewrite Q in Ey. unfold average_values in Ey. rewrite nth_error_map, Eu in Ey. cbn in Ey. injection Ey as Ey. symmetry. exact Ey. }
    pose proof (mean_rows_coordinates a h samples Known P U Ne) as Co.
    assert (Er2 : nth_error (mean3_axis0 (N:=RNum) (a_gpa a) (length (a_cs a)) (map (curve_rows a h) samples)) g = Some row) by (rewrite <- Erow; unfold x_pdp; rewrite Gg, Dx; reflexivity).
    assert (Ex2 : nth_error (axis_values gpa h) g = Some (original h u)) by (unfold axis_values; rewrite nth_error_map, Eu; reflexivity).
    destruct (at_pair _ _ _ g row (original h u) Co Er2 Ex2) as (i & u' & Ei & Eui & Eo).
    assert (Urow : unit_point cs row) by (pose proof (mean_rows_unit a h samples U Ne) as Q; exact (proj1 (Forall_forall _ _) Q row (nth_error_In _ _ Er2))).
    destruct (config_linear cs row F ND (proj1 Urow) (proj2 Urow)) as (c2 & Ec2 & _ & Hc2). change (config_of_vector (N:=RNum) cs row = Ok c) in Ecf. rewrite Ecf in Ec2. injection Ec2 as <-.
    destruct (integral_of h (original h u) cs ND (linear_range cs F) Known L2) as (EI & ET). pose proof (eq_trans (eq_sym Ep) EI) as Q. injection Q as ->.
    assert (Ev : v = true_pd cs h (original h u)).
    { specialize (Hv [(hp_name h, VNum (N:=RNum) (original h u))]). rewrite ET.
      assert (Hv2 : pd_value ([h], rsum (map hp_mean (NllModel.not_selected [h] cs))) [(hp_name h, VNum (N:=RNum) (original h u))] = Ok v).
      { apply Hv. intros k [<-|[]]. rewrite (Hc2 i h u' Ei Eui). unfold config_get. cbn [find fst]. rewrite String.eqb_refl. cbn. do 2 f_equal.
        destruct (proj1 (Forall_forall _ _) F h Known) as (lo & up & E & Hlt). rewrite Eo. unfold original, value_at. rewrite E. unfold on_axis. lra. }
      unfold pd_value in Hv2. cbn [fst snd] in Hv2. change [(hp_name h, VNum (N:=RNum) (original h u))] with (conf_at [h] (fun _ => original h u)) in Hv2. rewrite stybtang_at in Hv2. cbn [bind] in Hv2.
      injection Hv2 as <-. unfold asum, SyntheticPd.g. cbn. lra. }
    rewrite <- Yv, <- Ev. exact B.
Qed.

Lemma Rsum_diff {A} (f g : A -> R) (eps : R) l : (forall x, In x l -> Rabs (f x - g x) <= eps) -> Rabs (Rsum (map f l) - Rsum (map g l)) <= INR (length l) * eps.
Proof.
  induction l as [|x l IH]; intro H; [cbn; rewrite Rminus_0_r, Rabs_R0; lra|]. cbn [map Rsum length]. rewrite S_INR.
  replace (f x + Rsum (map f l) - (g x + Rsum (map g l))) with ((f x - g x) + (Rsum (map f l) - Rsum (map g l))) by ring.
  eapply Rle_trans; [apply Rabs_triang|]. pose proof (H x (or_introl eq_refl)). pose proof (IH (fun y Hy => H y (or_intror Hy))). lra.
Qed.
Lemma Rmean_diff {A} (f g : A -> R) (eps : R) l : l <> [] -> (forall x, In x l -> Rabs (f x - g x) <= eps) -> Rabs (Rmean (map f l) - Rmean (map g l)) <= eps.
Proof.
  intros Ne H. pose proof (Rsum_diff f g eps l H) as B. unfold Rmean. rewrite !map_length.
  assert (Q : 0 < INR (length l)) by (apply lt_0_INR; destruct l; [congruence|cbn; lia]).
  replace (Rsum (map f l) / INR (length l) - Rsum (map g l) / INR (length l)) with ((Rsum (map f l) - Rsum (map g l)) / INR (length l)) by (field; lra).
  unfold Rdiv. rewrite Rabs_mult, (Rabs_pos_eq (/ INR (length l))) by (left; apply Rinv_0_lt_compat; exact Q).
  apply (Rmult_le_reg_l (INR (length l))); [exact Q|]. rewrite (Rmult_comm (Rabs _)), <- Rmult_assoc, Rinv_r, Rmult_1_l by lra. exact B.
Qed.
Lemma average_is_mean (f : list R -> R) l : DrawSpec.average f l = Rmean (map f l).
Proof. unfold DrawSpec.average, Rmean. rewrite map_length. f_equal. Qed.

Theorem blue_near reps models (C eps E : R) : Forall2 (sound_repetition cs) reps models -> reps <> [] ->
  Forall (fun k => slope_at_most k C) cs ->
  Forall (fun m => forall row, unit_point cs row -> Rabs (fst m row - exact_model cs row) <= eps) models ->
  Forall (fun r => exists Jk, NoDup (map fst Jk) /\ (forall j, In j (map fst Jk) <-> (j < length cs)%nat /\ nth_error cs j <> Some h) /\ SpreadSpec.spread Jk (rp_samples (N:=RNum) r) /\
    spread_error (fun j => C * match nth_error cs j with Some k => hp_width k | None => 0 end) Jk <= E) reps ->
  forall i x y, nth_error (axis_values gpa h) i = Some x -> nth_error (mean_of_averages cs h gpa mean_part (combine reps models)) i = Some y ->
  Rabs (y - true_pd cs h x) <= eps + E.
Proof.
  intros S Ne Sl M Sp i x y Ex Ey. unfold axis_values in Ex. rewrite nth_error_map in Ex. unfold mean_of_averages in Ey. rewrite nth_error_map in Ey.
  destruct (nth_error (positions gpa) i) as [u|] eqn:Eu; [|discriminate]. cbn in Ex, Ey. injection Ex as <-. injection Ey as <-.
  assert (Hu : 0 <= u <= 1) by (apply (positions_unit gpa), (nth_error_In _ _ Eu)).
  pose proof (qs_not_nil cs reps models S Ne) as Nq.
  rewrite <- (Rmean_const (true_pd cs h (original h u)) (map (fun _ => true_pd cs h (original h u)) (combine reps models))); [|intro Q; apply map_eq_nil in Q; contradiction|apply Forall_forall; intros w Hw; apply in_map_iff in Hw; destruct Hw as (? & <- & _); reflexivity].
  apply Rmean_diff; [exact Nq|]. intros (r & m) Hq. cbn [fst snd]. destruct (qs_sound cs reps models S _ Hq) as (_ & U & N1). cbn [fst snd] in U, N1.
  pose proof (proj1 (Forall_forall _ _) M m (in_combine_r _ _ _ _ Hq)) as Hm. destruct (proj1 (Forall_forall _ _) Sp r (in_combine_l _ _ _ _ Hq)) as (Jk & NJ & HJ & SJ & BJ).
  pose proof (exact_average (rp_samples (N:=RNum) r) Jk C U Sl NJ HJ SJ i u Eu) as B2.
  assert (B1 : Rabs (DrawSpec.average (fun row => mean_part m (with_value cs h u row)) (rp_samples (N:=RNum) r) - DrawSpec.average (fun row => exact_model cs (with_value cs h u row)) (rp_samples (N:=RNum) r)) <= eps).
  { rewrite !average_is_mean. apply Rmean_diff; [exact N1|]. intros row Hr. apply Hm. apply with_value_unit; [|exact Hu]. exact (proj1 (Forall_forall _ _) U row Hr). }
  replace (DrawSpec.average (fun row => mean_part m (with_value cs h u row)) (rp_samples (N:=RNum) r) - true_pd cs h (original h u)) with
    ((DrawSpec.average (fun row => mean_part m (with_value cs h u row)) (rp_samples (N:=RNum) r) - DrawSpec.average (fun row => exact_model cs (with_value cs h u row)) (rp_samples (N:=RNum) r)) +
     (DrawSpec.average (fun row => exact_model cs (with_value cs h u row)) (rp_samples (N:=RNum) r) - true_pd cs h (original h u))) by ring.
  eapply Rle_trans; [apply Rabs_triang|]. apply Rplus_le_compat; [exact B1|]. eapply Rle_trans; [exact B2|exact BJ].
Qed.

(** equally many samples in every repetition: the average over all curves *)
Theorem pooled f (qs : list (repetition RNum * ((list R -> R) * (list R -> R)))) n : (0 < n)%nat -> Forall (fun q => length (rp_samples (N:=RNum) (fst q)) = n) qs ->
  mean_of_averages cs h gpa f qs = pooled_average cs h gpa f qs.
Proof.
  clear ND F Known L2 Gpa. intros Hn Hl. unfold mean_of_averages, pooled_average. apply map_ext. intro u.
  assert (Q : INR (length qs) * INR n = INR (length (flat_map (fun q => map (fun row => f (snd q) (with_value cs h u row)) (rp_samples (N:=RNum) (fst q))) qs)) /\
    INR n * Rsum (map (fun q => DrawSpec.average (fun row => f (snd q) (with_value cs h u row)) (rp_samples (N:=RNum) (fst q))) qs) =
    Rsum (flat_map (fun q => map (fun row => f (snd q) (with_value cs h u row)) (rp_samples (N:=RNum) (fst q))) qs)).
  { induction Hl as [|q qs Hq Hl (IH1 & IH2)]; [cbn; split; ring|]. assert (Hq' : @length (list R) (rp_samples (N:=RNum) (fst q)) = n) by exact Hq. cbn [flat_map map Rsum length]. rewrite app_length, plus_INR, Rsum_app, map_length, S_INR, <- IH1, <- IH2. split; [rewrite Hq'; ring|].
    rewrite average_is_mean. unfold Rmean. rewrite map_length, Hq'. field. apply not_0_INR. lia. }
  destruct Q as (Q1 & Q2). unfold Rmean. rewrite map_length, <- Q1, <- Q2. destruct qs as [|q qs]; [cbn; lra|]. field. split; apply not_0_INR; [lia|discriminate].
Qed.

(** ** the figure *)
Theorem figure_shows (samplers : list (list (repetition RNum) * list ((list R -> R) * (list R -> R)))) : (2 <= length samplers)%nat ->
  Forall (fun q => Forall2 (sound_repetition cs) (fst q) (snd q) /\ fst q <> []) samplers ->
  exists ps, figure blue lightblue black cycle cs (SelList [SName (hp_name h)]) gpa (truth_of cs [hp_name h]) (map fst samplers) = (ps, Ok tt) /\
  Forall2 (fun q p => panel blue lightblue black cycle cs (SelList [SName (hp_name h)]) gpa (truth_of cs [hp_name h]) (fst q) = (p, Ok tt)) samplers ps.
Proof.
  intros Hl A. assert (Q : exists ps, panels blue lightblue black cycle cs (SelList [SName (hp_name h)]) gpa (truth_of cs [hp_name h]) (map fst samplers) = (ps, Ok tt) /\
    Forall2 (fun q p => panel blue lightblue black cycle cs (SelList [SName (hp_name h)]) gpa (truth_of cs [hp_name h]) (fst q) = (p, Ok tt)) samplers ps).
  { clear Hl. induction A as [|q l (S & Ne) A (ps & E & IH)]; [exists []; split; [reflexivity|constructor]|].
    destruct (panel_shows _ _ S Ne) as (ca & cb & Ep & _). exists ((ca, cb) :: ps). split; [|constructor; assumption]. cbn [map panels]. rewrite Ep, E. reflexivity. }
  destruct samplers as [|q1 [|q2 l]]; [cbn in Hl; lia|cbn in Hl; lia|]. exact Q.
Qed.
(** a single sampler: all the work is done, then the exception *)
Theorem figure_single reps models : Forall2 (sound_repetition cs) reps models ->
  figure blue lightblue black cycle cs (SelList [SName (hp_name h)]) gpa (truth_of cs [hp_name h]) [reps] = ([(blank, blank)], Err TypeError).
Proof. intro S. unfold figure. rewrite (all_repetitions cs h gpa (linear_plottable cs ND F) Known Gpa reps models S). reflexivity. Qed.
(** no repetition *)
Theorem panel_none : exists ca, panel blue lightblue black cycle cs (SelList [SName (hp_name h)]) gpa (truth_of cs [hp_name h]) [] = ((ca, blank), Err AttributeError) /\ cv_drawn ca = [].
Proof.
  unfold panel, averaged. cbn [mapM bind]. rewrite (selects_one cs h ND Known). cbn [bind length Nat.eqb negb]. unfold pdp_axis. cbn [cu_sel]. eexists. split; reflexivity.
Qed.
End Figure.
