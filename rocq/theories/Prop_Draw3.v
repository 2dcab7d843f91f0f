(** Prop_Draw3.v - plots of single curves, of ICE and PDP objects, of regions and trees (C75-C77). *)
From Coq Require Import Reals Lra Permutation.
From Verif Require Import Base Num NumLaws NumpyModel ConfigSpaceModel UtilsModel IceModel IceProofs2 PartitionModel PartitionSpec PlottingModel PlottingSpec
  DrawModel DrawSpec DrawProofs DrawProofs2 DrawProofs3 DrawProofs4 DrawProofs5 DrawProofs6 Examples.
Local Open Scope list_scope.

(** ** C75: ICECurve.plot_values, plot_confidences, plot_incumbent *)
Theorem C75_values_one : forall (Col : Type) (color : Col) (c : curve RNum) h xs,
  sound_curve c -> cu_sel c = [h] -> In h (cu_cs c) -> Forall2 (coordinate (cu_cs c) h) (cu_x c) xs ->
  plots (curve_plot_values color c) [h] true "Prediction" [(color, CPlot (N:=RNum) xs (cu_y c) None)].
Proof. exact @curve_values_one. Qed.
Print Assumptions C75_values_one.

Theorem C75_values_two : forall (Col : Type) (color : Col) (c : curve RNum) h1 h2 xs ys,
  sound_curve c -> cu_sel c = [h1; h2] -> In h1 (cu_cs c) -> In h2 (cu_cs c) ->
  Forall2 (coordinate (cu_cs c) h1) (cu_x c) xs -> Forall2 (coordinate (cu_cs c) h2) (cu_x c) ys -> spread xs ys ->
  plots (curve_plot_values color c) [h1; h2] true "Prediction" [(color, CTri (N:=RNum) xs ys (cu_y c))].
Proof. exact @curve_values_two. Qed.
Print Assumptions C75_values_two.

Theorem C75_confidences_one : forall (Col : Type) (lc gc : Col) (ms : R) (c : curve RNum) h xs,
  sound_curve c -> cu_sel c = [h] -> In h (cu_cs c) -> Forall2 (coordinate (cu_cs c) h) (cu_x c) xs ->
  let s := map sqrt (cu_v c) in
  plots (curve_plot_confidences (N:=RNum) lc gc ms c) [h] true "Prediction"
    (colored gc (map (fun i => band xs (cu_y c) s (INR i / INR 100 * ms)) (seq 0 100)) ++
     colored lc (line_pair xs (cu_y c) s 1 ++ line_pair xs (cu_y c) s 2)).
Proof. exact @curve_confidences_one. Qed.
Print Assumptions C75_confidences_one.

Theorem C75_confidences_two : forall (Col : Type) (lc gc : Col) ms (c : curve RNum) h1 h2 xs ys,
  sound_curve c -> cu_sel c = [h1; h2] -> In h1 (cu_cs c) -> In h2 (cu_cs c) ->
  Forall2 (coordinate (cu_cs c) h1) (cu_x c) xs -> Forall2 (coordinate (cu_cs c) h2) (cu_x c) ys -> spread xs ys ->
  plots (curve_plot_confidences lc gc ms c) [h1; h2] true "Prediction" [(lc, CTri (N:=RNum) xs ys (map sqrt (cu_v c)))].
Proof. exact @curve_confidences_two. Qed.
Print Assumptions C75_confidences_two.

Theorem C75_incumbent_one : forall (Col : Type) (color : Col) (c : curve RNum) h xs k v,
  sound_curve c -> cu_sel c = [h] -> In h (cu_cs c) -> Forall2 (coordinate (cu_cs c) h) (cu_x c) xs ->
  first_minimum (cu_y c) k -> nth_error xs k = Some v ->
  plots (curve_plot_incumbent color c) [h] true "Prediction" [(color, CVline (N:=RNum) v)].
Proof. exact @curve_incumbent_one. Qed.
Print Assumptions C75_incumbent_one.

Theorem C75_incumbent_two : forall (Col : Type) (color : Col) (c : curve RNum) h1 h2 xs ys k v w,
  sound_curve c -> cu_sel c = [h1; h2] -> In h1 (cu_cs c) -> In h2 (cu_cs c) ->
  Forall2 (coordinate (cu_cs c) h1) (cu_x c) xs -> Forall2 (coordinate (cu_cs c) h2) (cu_x c) ys ->
  first_minimum (cu_y c) k -> nth_error xs k = Some v -> nth_error ys k = Some w ->
  plots (curve_plot_incumbent color c) [h1; h2] true "Prediction" (colored color [CScatter (N:=RNum) [v] [w]; CNote (N:=RNum) v w]).
Proof. exact @curve_incumbent_two. Qed.
Print Assumptions C75_incumbent_two.

(** points on one line have no triangulation: the plot of a curve over two hyperparameters needs three
    points that are not on a line *)
Theorem C75_flat_refuted : forall (Col : Type) (std : bool) (color gc : Col) ms (c : curve RNum) h1 h2 xs ys,
  sound_curve c -> cu_sel c = [h1; h2] -> In h1 (cu_cs c) -> In h2 (cu_cs c) ->
  Forall2 (coordinate (cu_cs c) h1) (cu_x c) xs -> Forall2 (coordinate (cu_cs c) h2) (cu_x c) ys -> ~ spread xs ys ->
  fails (if std then curve_plot_confidences color gc ms c else curve_plot_values color c) [h1; h2] true "Prediction"
    (if Nat.ltb (length xs) 3 then ValueError else RuntimeError).
Proof. exact @curve_two_flat. Qed.
Print Assumptions C75_flat_refuted.

Theorem C75_many : forall (Col : Type) (color lc gc : Col) ms (c : curve RNum),
  sound_curve c -> (forall h, In h (cu_sel c) -> In (hp_name h) (map hp_name (cu_cs c))) ->
  length (cu_sel c) <> 1 -> length (cu_sel c) <> 2 ->
  fails (curve_plot_values color c) (cu_sel c) true "Prediction" NotImplementedError /\
  fails (curve_plot_confidences lc gc ms c) (cu_sel c) true "Prediction" NotImplementedError /\
  (cu_y c <> [] -> fails (curve_plot_incumbent color c) (cu_sel c) true "Prediction" NotImplementedError).
Proof. exact @curve_many. Qed.
Print Assumptions C75_many.

(** no curve can be plotted in a space with a hyperparameter that is not numerical, not even a constant *)
Theorem C75_not_numerical_refuted : forall (Col : Type) (N : Num) (color lc gc : Col) ms (c : curve N) pre h post,
  cu_cs c = pre ++ h :: post -> all_numerical pre -> is_numerical h = false ->
  cu_x c <> [] -> Forall (fun row => length row = length (cu_cs c)) (cu_x c) -> (forall h, In h (cu_sel c) -> In (hp_name h) (map hp_name (cu_cs c))) ->
  fails (curve_plot_values color c) (cu_sel c) true "Prediction" TypeError /\
  fails (curve_plot_confidences lc gc ms c) (cu_sel c) true "Prediction" TypeError /\
  fails (curve_plot_incumbent color c) (cu_sel c) true "Prediction" TypeError.
Proof. exact @curve_not_numerical. Qed.
Print Assumptions C75_not_numerical_refuted.

Definition cx_a : hp RNum := mkhp "a" (KFloat (0:RNum)%R (4:RNum)%R false).
Definition cx_b : hp RNum := mkhp "b" (KInt 1 5 false).
Definition cx_curve (sel : list (hp RNum)) : curve RNum :=
  mkcurve [cx_a; cx_b] sel [[0; 0]; [1/2; 0]; [1; 1]]%R [3; 1; 2]%R [4; 9; 1]%R.
Lemma cx_sound sel : sound_curve (cx_curve sel).
Proof.
  refine (conj (conj _ _) (conj _ (conj eq_refl (conj eq_refl _)))).
  - cbn. repeat constructor; cbn; intuition discriminate.
  - repeat constructor; cbn; try lra; discriminate.
  - cbn. repeat constructor; lra.
  - cbn. repeat constructor; lra.
Qed.
Example C75_example : sound_curve (cx_curve [cx_a; cx_b]) /\ first_minimum (cu_y (cx_curve [cx_a])) 1 /\
  Forall2 (coordinate [cx_a; cx_b] cx_a) (cu_x (cx_curve [cx_a; cx_b])) [0; 2; 4]%R /\
  Forall2 (coordinate [cx_a; cx_b] cx_b) (cu_x (cx_curve [cx_a; cx_b])) [1; 1; 5]%R /\
  spread [0; 2; 4]%R [1; 1; 5]%R /\ ~ spread [0; 2; 4]%R [1; 1; 1]%R /\ is_numerical (mkhp "k" (KConst (VNum (1:RNum)%R))) = false.
Proof.
  refine (conj (cx_sound _) (conj _ (conj _ (conj _ (conj _ (conj _ eq_refl)))))).
  - exists 1%R. refine (conj eq_refl (conj _ _)).
    + intros [|[|[|j]]] u E; cbn in E; try (injection E as <-; lra). destruct j; discriminate.
    + intros [|[|j]] u Hj E; try lia. cbn in E. injection E as <-. lra.
  - repeat constructor; [exists 0, 0%R|exists 0, (1/2)%R|exists 0, 1%R]; refine (conj eq_refl (conj eq_refl _)); unfold original, on_axis; cbn; lra.
  - repeat constructor; [exists 1, 0%R|exists 1, 0%R|exists 1, 1%R]; refine (conj eq_refl (conj eq_refl _)); unfold original, on_axis; cbn; lra.
  - exists (0, 1)%R, (2, 1)%R, (4, 5)%R. cbn. repeat split; auto. lra.
  - intros (p & q & r & Hp & Hq & Hr & H). cbn in Hp, Hq, Hr.
    destruct Hp as [<-|[<-|[<-|[]]]], Hq as [<-|[<-|[<-|[]]]], Hr as [<-|[<-|[<-|[]]]]; cbn in H; lra.
Qed.

(** ** C76: ICE.plot, DTRegion.plot, DecisionTreePartitioner.plot.  [mu], [sd]: the predictions of the surrogate *)
Theorem C76_ice : forall (Col : Type) (color : Col) (alpha : R) (o : ice RNum) h (mu sd : list R -> R), clean o -> let a := ic_alg o in
  a_sel a = [h] -> In h (a_cs a) -> plottable (a_cs a) -> Forall (unit_point (a_cs a)) (a_samples a) -> 1 <= a_gpa a -> (0 <= alpha <= 1)%R ->
  (forall rows : list (list RNum), ic_predict o rows = Ok (map mu rows, map sd rows)) ->
  plots (fun cv => snd (ice_plot (N:=RNum) color alpha o cv)) [h] true "Prediction"
    (colored color (map (ice_line (a_cs a) h (a_gpa a) (if ic_centered o then from_start (a_cs a) h mu else mu) alpha) (a_samples a) ++ [CPlot (N:=RNum) [] [] None])).
Proof. exact @ice_fresh. Qed.
Print Assumptions C76_ice.

(** every ICE curve is drawn exactly once, in the colour of its leaf *)
Theorem C76_tree : forall (Col : Type) (s : setup RNum) p d h (mu sd : list R -> R) (alpha : R),
  setup_ok s -> plottable (su_cs s) -> Forall (unit_point (su_cs s)) (su_samples s) ->
  convert_hyperparameters (su_sel s) (su_cs s) = Ok [h] -> In h (su_cs s) ->
  (forall rows : list (list RNum), su_predict s rows = Ok (map mu rows, map sd rows)) -> (0 <= alpha <= 1)%R -> reaches s p -> 0 < d ->
  exists p' ids root parts, partition p d = (p', Ok ids) /\ deref p' 0 = Some root /\
    Permutation (concat parts) (seq 0 (length (su_samples s))) /\
    Forall2 (fun id idxs => exists nd, deref p' id = Some nd /\ is_rows (n_region root) idxs (n_region nd)) ids parts /\
    (forall i row, nth_error (su_samples s) i = Some row ->
       exists m, nth_error (r_y (n_region root)) i = Some m /\ m = map (fun u => mu (with_value (su_cs s) h u row)) (positions (su_gpa s))) /\
    forall (colors : list Col) random, length colors = length ids ->
      shows (tree_plot (N:=RNum) (Some colors) random alpha p') [h] "Prediction"
        (flat_map (fun q => colored (snd q) (map (fun i => ice_line (su_cs s) h (su_gpa s) mu alpha (nth i (su_samples s) [])) (fst q))) (combine parts colors)).
Proof. exact @tree_plot_draws. Qed.
Print Assumptions C76_tree.

(** before partition there are no leaves; the number of colours has to be right; without colours, random ones *)
Theorem C76_colors : forall (Col : Type) (p : dtp RNum) (colors : list Col) random alpha cv,
  (d_leaves p = [] -> forall c, tree_plot (N:=RNum) c random alpha p cv = (cv, Err AssertionError)) /\
  (length colors <> length (d_leaves p) -> tree_plot (N:=RNum) (Some colors) random alpha p cv = (cv, Err AssertionError)) /\
  tree_plot (N:=RNum) None random alpha p = tree_plot (N:=RNum) (Some (map random (seq 0 (length (d_leaves p))))) random alpha p.
Proof. exact @tree_plot_checks. Qed.
Print Assumptions C76_colors.

Theorem C76_many : forall (Col : Type) (color : Col) alpha,
  (forall o : ice RNum, length (a_sel (ic_alg o)) <> 1 ->
     fails (fun cv => snd (ice_plot (N:=RNum) color alpha o cv)) (a_sel (ic_alg o)) true "Prediction" NotImplementedError) /\
  (forall cs (sel : list (hp RNum)) r, length sel <> 1 -> fails (region_plot (N:=RNum) color alpha cs sel r) sel true "Prediction" NotImplementedError).
Proof. exact (fun Col color alpha => conj (@ice_plot_many Col color alpha) (@region_plot_many Col color alpha)). Qed.
Print Assumptions C76_many.

Lemma ex_plottable : plottable (ex_cs (N:=RNum)).
Proof.
  split; [cbn; repeat constructor; cbn; intuition discriminate|].
  unfold ex_cs; repeat constructor; cbn; try lra; discriminate.
Qed.
Lemma ex_unit : Forall (unit_point (ex_cs (N:=RNum))) (ex_rows (N:=RNum)).
Proof. unfold ex_rows, frac; cbn. repeat constructor; lra. Qed.
Example C76_example : setup_ok (ex_setup (N:=RNum)) /\ plottable (su_cs (ex_setup (N:=RNum))) /\
  Forall (unit_point (su_cs (ex_setup (N:=RNum)))) (su_samples (ex_setup (N:=RNum))) /\
  convert_hyperparameters (su_sel (ex_setup (N:=RNum))) (su_cs (ex_setup (N:=RNum))) = Ok [mkhp "a" (KFloat n0 n1 false)] /\
  (exists p, reaches (ex_setup (N:=RNum)) p) /\ (exists mu sd : list R -> R, forall rows : list (list RNum), su_predict (ex_setup (N:=RNum)) rows = Ok (map mu rows, map sd rows)) /\
  (exists q ids, partition exq 1 = (q, Ok ids) /\ length ids = 2).
Proof.
  refine (conj ex_setup_ok (conj ex_plottable (conj ex_unit (conj eq_refl (conj ex_reaches (conj _ _)))))).
  - do 2 eexists. intro rows. reflexivity.
  - assert (E : match snd (partition exq 1) with Ok ids => Nat.eqb (length ids) 2 | Err _ => false end = true) by (vm_compute; reflexivity).
    destruct (partition exq 1) as [q [ids|e]]; [|discriminate]. exists q, ids. split; [reflexivity|]. apply Nat.eqb_eq, E.
Qed.

(** ** C77: plots of averages: PDP.plot_values, PDP.plot_confidences, plot_full_pdp, Region.plot_values, Region.plot_confidences *)
Theorem C77_pdp : forall (Col : Type) (s : pdp RNum) h (mu sd : list R -> R) (color gc : Col) (ms : R),
  clean (pd_ice s) -> pd_x s = None -> pd_y s = None -> pd_v s = None -> let a := ic_alg (pd_ice s) in
  a_sel a = [h] -> In h (a_cs a) -> plottable (a_cs a) -> Forall (unit_point (a_cs a)) (a_samples a) -> a_samples a <> [] -> 1 <= a_gpa a ->
  (forall rows : list (list RNum), ic_predict (pd_ice s) rows = Ok (map mu rows, map sd rows)) ->
  let f := if ic_centered (pd_ice s) then from_start (a_cs a) h mu else mu in
  let xs := axis_values (a_gpa a) h in let ys := average_values (a_cs a) h (a_gpa a) f (a_samples a) in
  plots (fun cv => snd (pdp_plot_values (N:=RNum) color s cv)) [h] true "Prediction" [(color, CPlot (N:=RNum) xs ys None)] /\
  plots (fun cv => snd (pdp_plot_confidences (N:=RNum) color gc ms s cv)) [h] true "Prediction"
    (confidence color gc ms xs ys (map sqrt (average_values (a_cs a) h (a_gpa a) (fun r => (sd r * sd r)%R) (a_samples a)))).
Proof. exact @pdp_plots_draw. Qed.
Print Assumptions C77_pdp.

Theorem C77_full : forall (Col : Type) (red black blue : Col) (s : pdp RNum) h (mu sd : list R -> R),
  clean (pd_ice s) -> pd_x s = None -> pd_y s = None -> pd_v s = None -> let a := ic_alg (pd_ice s) in
  a_sel a = [h] -> In h (a_cs a) -> plottable (a_cs a) -> Forall (unit_point (a_cs a)) (a_samples a) -> a_samples a <> [] -> 1 <= a_gpa a ->
  (forall rows : list (list RNum), ic_predict (pd_ice s) rows = Ok (map mu rows, map sd rows)) ->
  let f := if ic_centered (pd_ice s) then from_start (a_cs a) h mu else mu in
  let xs := axis_values (a_gpa a) h in let ys := average_values (a_cs a) h (a_gpa a) f (a_samples a) in
  exists s' cv, plot_full_pdp (N:=RNum) red black blue s = (s', (cv, Ok tt)) /\
    cv_drawn cv = colored red (map (ice_line (a_cs a) h (a_gpa a) f (1 / 10)) (a_samples a) ++ [CPlot (N:=RNum) [] [] None]) ++
      (black, CPlot (N:=RNum) xs ys None) ::
      confidence black blue (3 / 2) xs ys (map sqrt (average_values (a_cs a) h (a_gpa a) (fun r => (sd r * sd r)%R) (a_samples a))).
Proof. exact @full_pdp_draws. Qed.
Print Assumptions C77_full.

Theorem C77_full_many : forall (Col : Type) (red black blue : Col) (s : pdp RNum), length (a_sel (ic_alg (pd_ice s))) <> 1 ->
  exists s' cv, plot_full_pdp (N:=RNum) red black blue s = (s', (cv, Err NotImplementedError)) /\ cv_drawn cv = [].
Proof. exact @full_pdp_many. Qed.
Print Assumptions C77_full_many.

(** a region's plot averages over the samples of its curves *)
Theorem C77_region : forall (Col : Type) (s : setup RNum) p d h (mu sd : list R -> R) (color gc : Col) (ms : R) root id nd idxs,
  setup_ok s -> plottable (su_cs s) -> Forall (unit_point (su_cs s)) (su_samples s) ->
  convert_hyperparameters (su_sel s) (su_cs s) = Ok [h] -> In h (su_cs s) ->
  (forall rows : list (list RNum), su_predict s rows = Ok (map mu rows, map sd rows)) -> reaches s p -> 0 < d ->
  let p' := fst (partition p d) in deref p' 0 = Some root -> deref p' id = Some nd -> is_rows (n_region root) idxs (n_region nd) -> idxs <> [] ->
  let rows := map (fun i => nth i (su_samples s) []) idxs in
  let xs := axis_values (su_gpa s) h in let ys := average_values (su_cs s) h (su_gpa s) mu rows in
  plots (region_plot_values (N:=RNum) color (d_cs p') (d_sel p') (n_region nd)) [h] true "Prediction" [(color, CPlot (N:=RNum) xs ys None)] /\
  plots (region_plot_confidences (N:=RNum) color gc ms (d_cs p') (d_sel p') (n_region nd)) [h] true "Prediction"
    (confidence color gc ms xs ys (map sqrt (average_values (su_cs s) h (su_gpa s) (fun r => (sd r * sd r)%R) rows))).
Proof. exact @region_mean_draws. Qed.
Print Assumptions C77_region.

Definition px_alg : algorithm RNum := mkalg [cx_a; cx_b] [cx_a] [[0; 1/2]; [1/4; 1]]%R 2.
Definition px_predict : predictor RNum := fun rows => Ok (map (fun r : list RNum => nth 0 r 0 + 2 * nth 1 r 0)%R rows, map (fun r : list RNum => nth 1 r 0)%R rows).
Example C77_example : clean (pd_ice (pdp_new px_alg px_predict)) /\ plottable (a_cs px_alg) /\ Forall (unit_point (a_cs px_alg)) (a_samples px_alg) /\
  axis_values 2 cx_a = [0; 4]%R /\ average_values [cx_a; cx_b] cx_a 2 (fun r => nth 0 r 0 + 2 * nth 1 r 0)%R (a_samples px_alg) = [3/2; 5/2]%R.
Proof.
  refine (conj (conj eq_refl (conj eq_refl eq_refl)) (conj (proj1 (cx_sound [])) (conj _ (conj _ _)))).
  - cbn. repeat constructor; lra.
  - unfold axis_values, positions, original, on_axis. cbn. repeat (apply f_equal2; [lra|]). reflexivity.
  - unfold average_values, positions, average. cbn. repeat (apply f_equal2; [lra|]). reflexivity.
Qed.
