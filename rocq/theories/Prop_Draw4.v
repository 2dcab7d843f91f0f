(** Prop_Draw4.v - the boxes of the incumbent's regions and the figures of advanced_plots.py (C78-C80). *)
From Coq Require Import Reals QArith Lra Sorted.
From Verif Require Import Base Num NumLaws NumpyModel ConfigSpaceModel UtilsModel ListLemmas IceModel IceProofs IceProofs2 PartitionModel PartitionSpec PartitionProofs3 PartitionProofs4 PartitionProofs6 PartitionReal PartitionReal2
  ForestModel ForestSpec ForestProofs ForestProofs2 PlottingModel PlottingSpec PlottingProofs PlottingShape
  DrawModel DrawSpec DrawProofs DrawProofs2 DrawProofs3 DrawProofs4 DrawProofs5 DrawProofs6 DrawProofs7 DrawProofs8 Examples ForestExamples Prop_Draw3.
Local Open Scope nat_scope.
Local Open Scope list_scope.

(** ** C78: DecisionTreePartitioner.plot_incumbent_cs.  [std h]: h has ConfigSpace's default value *)
Theorem C78_box : forall (Col : Type) (std : hp RNum -> bool) (s : setup RNum) p sel cfg id,
  setup_ok s -> numeric_space (su_cs s) -> reaches s p -> convert_hyperparameters (su_sel s) (su_cs s) = Ok sel -> Forall (fun h => In h (su_cs s)) sel ->
  get_incumbent_region p cfg = Ok (Some id) ->
  exists nd boxes hs l, deref p id = Some nd /\ implied_config_space (su_cs s) (n_conds nd) = Ok boxes /\ shown std sel (su_cs s) hs /\ sides boxes hs l /\
    (legal_config (su_cs s) cfg -> Forall (within cfg) l) /\
    (forall (color : Col) (alpha : R), (0 <= alpha <= 1)%R -> length hs = 1 \/ length hs = 2 ->
       plots (plot_incumbent_cs (N:=RNum) std color alpha p cfg) hs false "Prediction" (colored color (box_picture (N:=RNum) alpha l))) /\
    (forall (color : Col) (alpha : R) c, length hs <> 1 -> length hs <> 2 -> plot_incumbent_cs (N:=RNum) std color alpha p cfg c = (c, Err NotImplementedError)).
Proof. exact @incumbent_cs_draws. Qed.
Print Assumptions C78_box.

Theorem C78_no_region : forall (Col : Type) (std : hp RNum -> bool) (color : Col) (alpha : R) (p : dtp RNum) cfg c,
  (forall e, get_incumbent_region p cfg = Err e -> plot_incumbent_cs (N:=RNum) std color alpha p cfg c = (c, Err e)) /\
  (get_incumbent_region p cfg = Ok None -> plot_incumbent_cs (N:=RNum) std color alpha p cfg c = (c, Err AttributeError)).
Proof. exact @incumbent_cs_errors. Qed.
Print Assumptions C78_no_region.

(** "the box is drawn over the hyperparameters that are not selected" is false: a selected integer one is drawn too *)
Theorem C78_integer_refuted : forall (Col : Type) (std : hp RNum -> bool) (s : setup RNum) p cfg id h g lo up lg,
  setup_ok s -> numeric_space (su_cs s) -> reaches s p -> su_cs s = [h; g] -> convert_hyperparameters (su_sel s) (su_cs s) = Ok [h] -> hp_kind h = KInt lo up lg ->
  get_incumbent_region p cfg = Ok (Some id) ->
  exists hs (x1 x2 y1 y2 : R), In h hs /\ forall (color : Col) (alpha : R), (0 <= alpha <= 1)%R ->
    plots (plot_incumbent_cs (N:=RNum) std color alpha p cfg) hs false "Prediction" [(color, CRect (N:=RNum) x1 x2 y1 y2 alpha)].
Proof. exact @integer_shown. Qed.
Print Assumptions C78_integer_refuted.

(** the configuration a = 1/2, b = 2, c = 3 *)
Definition dx_cfg : config RNum := [("a", VNum (N:=RNum) (1/2)%R); ("b", VNum (N:=RNum) 2%R); ("c", VNum (N:=RNum) 3%R)]%string.
Lemma dx_legal : legal_config (ex_cs (N:=RNum)) dx_cfg.
Proof.
  intros h lo up Hin E. cbn in Hin. destruct Hin as [<-|[<-|[<-|[]]]]; injection E as <- <-; eexists; (split; [reflexivity|]); cbn; lra.
Qed.
Lemma dx_numeric : numeric_space (ex_cs (N:=RNum)).
Proof.
  repeat constructor.
  - exists 0%R, 1%R, false. split; [left; reflexivity|]. split; [lra|discriminate].
  - exists 0%R, 10%R, false. split; [left; reflexivity|]. split; [lra|discriminate].
  - exists 1%R, 5%R, false. split; [left; reflexivity|]. split; [lra|discriminate].
Qed.
Lemma region_exists (s : setup RNum) cfg : setup_ok s -> all_numerical (su_cs s) -> legal_config (su_cs s) cfg -> numeric_space (su_cs s) -> (exists p, reaches s p) ->
  exists p id, reaches s p /\ get_incumbent_region p cfg = Ok (Some id).
Proof.
  intros SO AN LC NS (p & Rp).
  destruct (config_in_exactly_one_leaf R_order_laws s p 1 cfg SO AN (R_unscaled_ordinary s) (legal_total _ _ NS LC) Rp ltac:(lia)) as (p' & ids & leaves & k & E & F & Hk & _ & G).
  assert (Hk' : k < length ids) by (rewrite (Forall2_length _ _ _ F); exact Hk). destruct (nth_error ids k) as [id|] eqn:Ek; [|apply nth_error_None in Ek; lia].
  exists p', id. split; [|exact G]. pose proof (reaches_partition s p 1 Rp) as Q. rewrite E in Q. exact Q.
Qed.
(** the selected integer "n" beside the float "x" *)
Definition iz_cs : cspace RNum := [mkhp "n" (KInt 1 8 false); mkhp "x" (KFloat (0:RNum)%R (1:RNum)%R false)].
Definition iz_setup : setup RNum := mksetup iz_cs ex_predict (SelOne (SName "n")) [[1/2; 1/4]; [0; 3/4]]%R 2 4 1 None.
Definition iz_cfg : config RNum := [("n", VNum (N:=RNum) 3%R); ("x", VNum (N:=RNum) (1/2)%R)]%string.
Lemma iz_ok : setup_ok iz_setup.
Proof. refine (conj _ (conj _ _)); cbn; [repeat constructor; cbn; intuition discriminate|repeat constructor|lia]. Qed.
Lemma iz_legal : legal_config iz_cs iz_cfg.
Proof. intros h lo up Hin E. cbn in Hin. destruct Hin as [<-|[<-|[]]]; injection E as <- <-; eexists; (split; [reflexivity|]); cbn; lra. Qed.
Lemma iz_numeric : numeric_space iz_cs.
Proof.
  repeat constructor.
  - exists 1%R, 8%R, false. split; [right; exists 1%Z, 8%Z; repeat split|]. split; [lra|discriminate].
  - exists 0%R, 1%R, false. split; [left; reflexivity|]. split; [lra|discriminate].
Qed.
Lemma iz_reaches : exists p, reaches iz_setup p.
Proof.
  assert (E : exists p0, construct iz_setup = Ok p0).
  { apply (construct_total iz_setup [mkhp "n" (KInt 1 8 false)]); [apply iz_ok|reflexivity|discriminate|repeat constructor|discriminate|apply ex_batch]. }
  destruct E as (p0 & E). exists p0, p0, []. split; [exact E|reflexivity].
Qed.
Example C78_integer_example : setup_ok iz_setup /\ numeric_space (su_cs iz_setup) /\ convert_hyperparameters (su_sel iz_setup) (su_cs iz_setup) = Ok [mkhp "n" (KInt 1 8 false)] /\
  exists p id, reaches iz_setup p /\ get_incumbent_region p iz_cfg = Ok (Some id).
Proof.
  refine (conj iz_ok (conj iz_numeric (conj eq_refl (region_exists _ _ iz_ok _ iz_legal iz_numeric iz_reaches)))). repeat constructor.
Qed.

(** over the rationals, after one split: b and c of the region; with the selected a a box of three sides cannot be drawn *)
Definition dq_cfg : config QNum := [("a", VNum (N:=QNum) (1#2)%Q); ("b", VNum (N:=QNum) 2%Q); ("c", VNum (N:=QNum) 3%Q)]%string.
Definition rect_of (l : list (unit * cmd QNum)) : list (list Q) :=
  map (fun q => match snd q with CRect a b c d _ => [a; b; c; d] | _ => [] end) l.
Example C78_example : setup_ok (ex_setup (N:=RNum)) /\ numeric_space (su_cs (ex_setup (N:=RNum))) /\ legal_config (su_cs (ex_setup (N:=RNum))) dx_cfg /\
  (exists p id, reaches (ex_setup (N:=RNum)) p /\ get_incumbent_region p dx_cfg = Ok (Some id)) /\
  rect_of (cv_drawn (fst (plot_incumbent_cs (N:=QNum) (fun _ => true) tt (1#2)%Q (fst (partition exq 1)) dq_cfg blank))) = [[0; 2; 1; 5]]%Q /\
  snd (plot_incumbent_cs (N:=QNum) (fun _ => false) tt (1#2)%Q (fst (partition exq 1)) dq_cfg blank) = Err NotImplementedError.
Proof.
  refine (conj ex_setup_ok (conj dx_numeric (conj dx_legal (conj (region_exists _ _ ex_setup_ok ex_all_numerical dx_legal dx_numeric ex_reaches) (conj _ _))))); vm_compute; reflexivity.
Qed.

(** ** C79: RandomForestPartitioner.plot_incumbent_regions *)
Theorem C79_boxes : forall (Col : Type) (std : hp RNum -> bool) (f : forest RNum) ts cfg,
  forest_reaches f -> forest_ok f -> numeric_space (a_cs (f_alg f)) -> f_trees f = Some ts ->
  legal_config (a_cs (f_alg f)) cfg -> Forall (fun h => In h (a_cs (f_alg f))) (a_sel (f_alg f)) ->
  exists hs ls, shown std (a_sel (f_alg f)) (a_cs (f_alg f)) hs /\
    Forall2 (fun t l => incumbent_box (a_cs (f_alg f)) t cfg hs l /\ Forall (within cfg) l) ts ls /\
    (forall (colors : list Col) random (alpha : R), (0 <= alpha <= 1)%R -> length hs = 1 \/ length hs = 2 ->
       shows (plot_incumbent_regions (N:=RNum) std (Some colors) random alpha f cfg) hs "Prediction"
         (flat_map (fun q => colored (snd q) (box_picture (N:=RNum) alpha (fst q))) (combine ls colors))) /\
    (forall (colors : list Col) random (alpha : R) c, length hs <> 1 -> length hs <> 2 -> ts <> [] -> colors <> [] ->
       plot_incumbent_regions (N:=RNum) std (Some colors) random alpha f cfg c = (c, Err NotImplementedError)).
Proof. exact @incumbent_regions_draw. Qed.
Print Assumptions C79_boxes.

(** before partition there are no trees; without colours, one random colour per tree *)
Theorem C79_colors : forall (Col : Type) (std : hp RNum -> bool) (f : forest RNum) cfg (random : nat -> Col) (alpha : R) c,
  (f_trees f = None -> forall colors, plot_incumbent_regions (N:=RNum) std colors random alpha f cfg c = (c, Err TypeError)) /\
  (forall ts, f_trees f = Some ts ->
     plot_incumbent_regions (N:=RNum) std None random alpha f cfg c = plot_incumbent_regions (N:=RNum) std (Some (map random (seq 0 (length ts)))) random alpha f cfg c).
Proof. exact @incumbent_regions_colors. Qed.
Print Assumptions C79_colors.

(** "every tree is drawn" is false when there are fewer colours than trees: the other trees are left out without an error *)
Theorem C79_short_refuted : forall (Col : Type) (std : hp RNum -> bool) (f f' : forest RNum) ts cfg (colors : list Col) (random : nat -> Col) (alpha : R),
  f_trees f = Some ts -> f_trees f' = Some (firstn (length colors) ts) ->
  plot_incumbent_regions (N:=RNum) std (Some colors) random alpha f cfg = plot_incumbent_regions (N:=RNum) std (Some colors) random alpha f' cfg.
Proof. exact @incumbent_regions_short. Qed.
Print Assumptions C79_short_refuted.

Definition fx_forest : res (forest RNum) := forest_new (ex_cs (N:=RNum)) ex_predict (SelOne (SName "a"%string)) ex_rows 3 1 10 (fun i => (i * i + i / 3)%nat).
Example C79_example : (exists f ts, forest_reaches f /\ forest_ok f /\ a_cs (f_alg f) = ex_cs /\ numeric_space (a_cs (f_alg f)) /\ f_trees f = Some ts /\ length ts = 3 /\
    legal_config (a_cs (f_alg f)) dx_cfg /\ Forall (fun h => In h (a_cs (f_alg f))) (a_sel (f_alg f))) /\
  rect_of (cv_drawn (fst (plot_incumbent_regions (N:=QNum) (fun _ => true) (Some [tt; tt; tt]) (fun _ => tt) (1#2)%Q ex_forest1 dq_cfg blank))) = [[110#101; 10; 1; 5]; [0; 210#101; 1; 5]; [0; 210#101; 1; 5]]%Q /\
  length (cv_drawn (fst (plot_incumbent_regions (N:=QNum) (fun _ => true) (Some [tt]) (fun _ => tt) (1#2)%Q ex_forest1 dq_cfg blank))) = 1.
Proof.
  refine (conj _ (conj _ _)); [|vm_compute; reflexivity|vm_compute; reflexivity].
  assert (E : exists f, fx_forest = Ok f) by (eexists; reflexivity). destruct E as (f & E).
  assert (Rf : forest_reaches f) by (exists f, []; split; [exact (start_new _ _ _ _ _ _ _ _ _ E)|reflexivity]).
  assert (A : f_alg f = mkalg ex_cs [mkhp "a" (KFloat n0 n1 false)] ex_rows 3) by (injection E as <-; reflexivity).
  assert (P : ic_predict (f_ice f) = ex_predict) by (injection E as <-; reflexivity).
  assert (O : forest_ok f) by (unfold forest_ok; rewrite A; refine (conj _ (conj _ _)); cbn; [repeat constructor; cbn; intuition discriminate|repeat constructor|lia]).
  destruct (forest_trees R_order_laws f 3 1 4 Rf O eq_refl eq_refl eq_refl) as (f' & ts & E' & T & L & I & _).
  - rewrite A. discriminate.
  - exists (mkhp "b" (KFloat n0 (nofZ 10) false)). unfold may_split. rewrite A. cbn. split; [auto|intuition discriminate].
  - rewrite A. repeat constructor.
  - rewrite A. discriminate.
  - rewrite P. apply ex_batch.
  - assert (A' : f_alg f' = f_alg f) by (unfold f_alg; rewrite I; reflexivity).
    assert (Rf' : forest_reaches f') by (exists f, [FPartition 3 1 (Some 4%Z)]; split; [exact (start_new _ _ _ _ _ _ _ _ _ E)|cbn [forest_run forest_step]; rewrite E'; reflexivity]).
    exists f', ts. refine (conj Rf' _). unfold forest_ok in *. rewrite A', A in *. refine (conj O (conj eq_refl (conj dx_numeric (conj T (conj L (conj dx_legal _)))))). repeat constructor.
Qed.

(** ** C80: the figures of advanced_plots.py.  [mu], [sd]: the predictions of the surrogate *)
(** one curve over two hyperparameters: means and deviations, each with its minimum marked *)
Theorem C80_curve : forall (Col : Type) (red white light_red : Col) (c : curve RNum) h1 h2 xs ys k v w, sound_curve c -> cu_sel c = [h1; h2] -> In h1 (cu_cs c) -> In h2 (cu_cs c) ->
  Forall2 (coordinate (cu_cs c) h1) (cu_x c) xs -> Forall2 (coordinate (cu_cs c) h2) (cu_x c) ys -> spread xs ys ->
  first_minimum (cu_y c) k -> nth_error xs k = Some v -> nth_error ys k = Some w ->
  let marker := colored white [CScatter (N:=RNum) [v] [w]; CNote (N:=RNum) v w] in
  exists cm cg, plot_curve_with_confidence (N:=RNum) red white light_red c = ((cm, cg), Ok tt) /\
    cv_drawn cm = (red, CTri (N:=RNum) xs ys (cu_y c)) :: marker /\ cv_drawn cg = (red, CTri (N:=RNum) xs ys (map sqrt (cu_v c))) :: marker.
Proof. exact @curve_pair_two. Qed.
Print Assumptions C80_curve.

(** one axis per hyperparameter, each with the partial dependence on it; the other axes stay empty *)
Theorem C80_one : forall (predict : predictor RNum) (mu sd : list R -> R) (cs : cspace RNum) (samples : nat -> list (list R)) gpa (Col : Type) (red salmon : Col),
  (forall rows : list (list RNum), predict rows = Ok (map mu rows, map sd rows)) -> plottable cs ->
  (forall k, Forall (unit_point cs) (samples k) /\ samples k <> []) -> 1 <= gpa ->
  forall ceil_sqrt w h, quadratic_shape ceil_sqrt (Z.of_nat (length cs)) = Ok (w, h) -> best_shape (Z.of_nat (length cs)) w h ->
  exists cvs, plot_hyperparameter_array_1D (N:=RNum) red salmon ceil_sqrt predict cs samples gpa = Ok ((w, h), (cvs, Ok tt)) /\ length cvs = Z.to_nat (w * h) /\
    (forall i k, nth_error cs i = Some k -> exists c, nth_error cvs i = Some c /\
       cv_drawn c = pd_line red cs gpa mu (samples i) k :: pd_bands red salmon cs gpa mu sd (samples i) k) /\
    (forall i, length cs <= i < Z.to_nat (w * h) -> nth_error cvs i = Some blank).
Proof. exact array_1D_draws. Qed.
Print Assumptions C80_one.

(** one cell per pair: column by row; on the diagonal the dependence on one hyperparameter *)
Theorem C80_two : forall (predict : predictor RNum) (mu sd : list R -> R) (cs : cspace RNum) (samples : list (list R)) gpa (Col : Type) (red salmon : Col),
  (forall rows : list (list RNum), predict rows = Ok (map mu rows, map sd rows)) -> plottable cs -> Forall (unit_point cs) samples -> samples <> [] -> cs <> [] -> 2 <= gpa ->
  exists cells, plot_hyperparameter_array_2D (N:=RNum) red salmon predict cs samples gpa = Ok (cells, Ok tt) /\ length cells = length cs * length cs /\
    (forall r h, nth_error cs r = Some h -> exists cm cg, nth_error cells (r * length cs + r) = Some (cm, cg) /\
       cv_drawn cm = pd_line red cs gpa mu samples h :: pd_bands red salmon cs gpa mu sd samples h /\ cv_drawn cg = pd_bands red salmon cs gpa mu sd samples h) /\
    (forall r c hr hc, r <> c -> nth_error cs r = Some hr -> nth_error cs c = Some hc -> exists cm cg, nth_error cells (r * length cs + c) = Some (cm, cg) /\
       cv_drawn cm = [pd_means red cs gpa mu samples hc hr] /\ cv_drawn cg = [pd_deviations red cs gpa sd samples hc hr] /\
       Forall (fun cv => ax_xlabel (cv_axis cv) = hp_name hc /\ ax_ylabel (cv_axis cv) = hp_name hr) [cm; cg]).
Proof. exact (fun p mu sd cs sm g Col r s PW P U Ne C G => array_2D_draws p mu sd cs sm g PW P U (Nat.le_trans 1 2 g (le_S 1 1 (le_n 1)) G) Col r s Ne C G). Qed.
Print Assumptions C80_two.

(** "any number of grid points per axis works" is false: with one there is no surface *)
Theorem C80_one_point_refuted : forall (predict : predictor RNum) (mu sd : list R -> R) (cs : cspace RNum) (samples : list (list R)) (Col : Type) (red salmon : Col),
  (forall rows : list (list RNum), predict rows = Ok (map mu rows, map sd rows)) -> plottable cs -> Forall (unit_point cs) samples -> samples <> [] -> 2 <= length cs ->
  exists cells, plot_hyperparameter_array_2D (N:=RNum) red salmon predict cs samples 1 = Ok (cells, Err ValueError).
Proof. exact (fun p mu sd cs sm Col r s PW P U Ne C => array_2D_flat p mu sd cs sm 1 PW P U (le_n 1) Col r s Ne C eq_refl). Qed.
Print Assumptions C80_one_point_refuted.

(** two hyperparameters, two samples *)
Example C80_example : (forall rows : list (list RNum), px_predict rows = Ok (map (fun r => nth 0 r 0 + 2 * nth 1 r 0)%R rows, map (fun r => nth 1 r 0)%R rows)) /\
  plottable (a_cs px_alg) /\ Forall (unit_point (a_cs px_alg)) (a_samples px_alg) /\ a_samples px_alg <> [] /\
  (exists w h, quadratic_shape real_ceil_sqrt (Z.of_nat (length (a_cs px_alg))) = Ok (w, h) /\ best_shape (Z.of_nat (length (a_cs px_alg))) w h) /\
  average_grid [cx_a; cx_b] cx_a cx_b 2 (fun r => nth 0 r 0 + 2 * nth 1 r 0)%R (a_samples px_alg) = [0; 1; 2; 3]%R /\
  map (fun q => (original cx_a (fst q), original cx_b (snd q))) (grid_positions 2) = [(0, 1); (4, 1); (0, 5); (4, 5)]%R.
Proof.
  refine (conj (fun _ => eq_refl) (conj (proj1 (cx_sound [])) (conj (proj1 (proj2 (proj2 C77_example))) (conj _ (conj (shape_exact _ _) (conj _ _)))))).
  - discriminate.
  - cbn. lia.
  - unfold average_grid, grid_positions, positions, average. cbn. repeat (apply f_equal2; [lra|]). reflexivity.
  - unfold grid_positions, positions, original, on_axis. cbn. repeat (apply f_equal2; [apply f_equal2; lra|]). reflexivity.
Qed.
