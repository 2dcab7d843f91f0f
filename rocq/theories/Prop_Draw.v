(** Prop_Draw.v - what the plotting functions draw (C67-C71). *)
From Coq Require Import Reals Lra.
From Verif Require Import Base Num NumLaws NumpyModel ConfigSpaceModel UtilsModel IceModel PlottingModel DrawModel DrawSpec DrawProofs DrawProofs2.
Local Open Scope list_scope.

(** ** C67: confidence gradients *)
Theorem C67_bands : forall (Col : Type) (color : Col) (x means stds : list RNum) steps (mx : R),
  length x = length means -> length means = length stds ->
  draws (plot_gradients color x means (Some stds) None steps mx)
    (colored color (map (fun i => band x means stds (INR i / INR steps * mx)) (seq 0 steps))).
Proof. exact @gradients_draw. Qed.
Print Assumptions C67_bands.

Theorem C67_nested : forall (x means stds : list R) steps (mx : R) i j, Forall (fun s => (0 <= s)%R) stds -> (0 <= mx)%R -> i <= j < steps ->
  inside (band x means stds (INR i / INR steps * mx)) (band x means stds (INR j / INR steps * mx)).
Proof. exact bands_nested. Qed.
Print Assumptions C67_nested.

(** the widest band stays inside max_sigma *)
Theorem C67_below_max_sigma : forall (mx : R) steps i, (0 < mx)%R -> i < steps -> (INR i / INR steps * mx < mx)%R.
Proof. exact factor_below. Qed.
Print Assumptions C67_below_max_sigma.

Theorem C67_stds_or_variances : forall (N : Num) (Col : Type) (color : Col) (x means s v : list N) steps mx ki (c : canvas N Col),
  plot_gradients color x means (Some s) (Some v) steps mx c = (c, Err RuntimeError) /\
  plot_gradients color x means None None steps mx c = (c, Err RuntimeError) /\
  plot_lines color x means (Some s) (Some v) ki c = (c, Err RuntimeError) /\
  plot_lines color x means None None ki c = (c, Err RuntimeError) /\
  plot_gradients color x means None (Some v) steps mx c = plot_gradients color x means (Some (map nsqrt v)) None steps mx c /\
  plot_lines color x means None (Some v) ki c = plot_lines color x means (Some (map nsqrt v)) None ki c.
Proof. exact @confidence_choice. Qed.
Print Assumptions C67_stds_or_variances.

Example C67_example : exists (l : list (string * cmd RNum)) lo up, draws (plot_gradients "lightblue"%string [0%R : RNum; 1%R : RNum] [1%R : RNum; 2%R : RNum] (Some [1%R : RNum; 3%R : RNum]) None 2 (3/2)%R) l /\
  length l = 2 /\ nth_error l 1 = Some ("lightblue"%string, CFill (N:=RNum) [0%R; 1%R] lo up) /\ lo = [(1/4)%R; (-1/4)%R] /\ up = [(7/4)%R; (17/4)%R].
Proof.
  eexists; do 2 eexists. split; [apply C67_bands; reflexivity|]. split; [reflexivity|]. split; [reflexivity|].
  unfold shifted; cbn. split; (apply f_equal2; [|apply f_equal2; [|reflexivity]]); lra.
Qed.

(** ** C68: confidence lines *)
Theorem C68_lines : forall (Col : Type) (color : Col) (x means stds : list RNum) (l : list R),
  length x = length means -> length means = length stds -> (forall k, In k l -> k = 0 \/ 1/5 <= k)%R ->
  exists ks, Permutation ks (nonzero l) /\ ascending ks /\
    draws (plot_lines color x means (Some stds) None (KTuple (N:=RNum) l)) (colored color (mean_line l x means ++ flat_map (line_pair x means stds) ks)).
Proof. exact @lines_tuple. Qed.
Print Assumptions C68_lines.

(** the alpha of lines closer than a fifth of a standard deviation is above 1 *)
Theorem C68_close_lines_refuted : forall (Col : Type) (color : Col) (x means stds : list RNum) (k : R) (c : canvas RNum Col),
  length x = length means -> length means = length stds -> (0 < k < 1/5)%R ->
  plot_lines color x means (Some stds) None (KTuple (N:=RNum) [k]) c = (c, Err ValueError).
Proof. exact @lines_small. Qed.
Print Assumptions C68_close_lines_refuted.

(** an iterator is used up by `0 in k_sigmas` *)
Theorem C68_iterator_refuted : forall (Col : Type) (color : Col) (x means stds : list RNum) (l : list R), ~ In 0%R l ->
  draws (plot_lines color x means (Some stds) None (KOnce (N:=RNum) l)) [].
Proof. exact @lines_iterator. Qed.
Print Assumptions C68_iterator_refuted.

Theorem C68_iterator_after_zero : forall (Col : Type) (color : Col) (x means stds : list RNum) (pre post : list R),
  length x = length means -> length means = length stds -> ~ In 0%R pre -> (forall k, In k post -> k = 0 \/ 1/5 <= k)%R ->
  exists ks, Permutation ks (nonzero post) /\ ascending ks /\
    draws (plot_lines color x means (Some stds) None (KOnce (N:=RNum) (pre ++ 0%R :: post)))
      (colored color (CPlot (N:=RNum) x means (Some (3/10)%R) :: flat_map (line_pair x means stds) ks)).
Proof. exact @lines_iterator_zero. Qed.
Print Assumptions C68_iterator_after_zero.

Example C68_example : (forall k, In k [2; 0; 1]%R -> k = 0 \/ 1/5 <= k)%R /\ ~ In 0%R [2; 1]%R /\ nonzero [2; 0; 1]%R = [2; 1]%R /\
  mean_line [2; 0; 1]%R [0]%R [5]%R = [CPlot (N:=RNum) [0%R] [5%R] (Some (3/10)%R)] /\ line_pair [0]%R [5]%R [1]%R 2%R =
    [CPlot (N:=RNum) [0%R] [(5 + (-2) * 1)%R] (Some (1/(5*2))%R); CPlot (N:=RNum) [0%R] [(5 + 2 * 1)%R] (Some (1/(5*2))%R)].
Proof.
  assert (E0 : Reqb 0 0 = true) by (unfold Reqb; destruct (Req_EM_T 0 0); [reflexivity|lra]).
  assert (E1 : Reqb 1 0 = false) by (unfold Reqb; destruct (Req_EM_T 1 0); [lra|reflexivity]).
  assert (E2 : Reqb 2 0 = false) by (unfold Reqb; destruct (Req_EM_T 2 0); [lra|reflexivity]).
  refine (conj _ (conj _ (conj _ (conj _ eq_refl)))).
  - intros k [<-|[<-|[<-|[]]]]; [right|left|right]; lra.
  - intros [H|[H|[]]]; lra.
  - unfold nonzero. cbn. rewrite E0, E1, E2. reflexivity.
  - unfold mean_line. cbn. rewrite E0, E2. reflexivity.
Qed.

(** ** C69: boxes around a space *)
Theorem C69_one : forall (Col : Type) (color : Col) (cs : cspace RNum) sel (alpha : RNum) h lo up,
  get_hyperparameters sel cs = Ok [h] -> is_numerical h = true -> extent h = Some (lo, up) -> (0 <= alpha <= 1)%R ->
  plots (plot_config_space color cs sel alpha) [h] false "Prediction" (colored color [CVline lo; CVline up; CVspan lo up alpha]).
Proof. exact @box1_R. Qed.
Print Assumptions C69_one.

Theorem C69_two : forall (Col : Type) (color : Col) (cs : cspace RNum) sel (alpha : RNum) h1 h2 x1 x2 y1 y2,
  get_hyperparameters sel cs = Ok [h1; h2] -> extent h1 = Some (x1, x2) -> extent h2 = Some (y1, y2) -> (0 <= alpha <= 1)%R ->
  exists a : RNum, (not_constant h1 /\ not_constant h2 -> a = alpha) /\ (~ (not_constant h1 /\ not_constant h2) -> a = 1%R) /\
    plots (plot_config_space color cs sel alpha) [h1; h2] false "Prediction" (colored color [CRect x1 x2 y1 y2 a]).
Proof. exact @box2_R. Qed.
Print Assumptions C69_two.

Theorem C69_errors : forall (N : Num) (Col : Type) (color : Col) (cs : cspace N) sel (alpha : N) hps, get_hyperparameters sel cs = Ok hps ->
  match hps with
  | [h] => is_numerical h = false -> fails (plot_config_space color cs sel alpha) hps false "Prediction" AssertionError
  | [h1; h2] => extent h1 = None \/ extent h2 = None -> fails (plot_config_space color cs sel alpha) hps false "Prediction" TypeError
  | _ => forall c, plot_config_space color cs sel alpha c = (c, Err NotImplementedError)
  end.
Proof. exact @box_errors. Qed.
Print Assumptions C69_errors.

Definition dx_a : hp RNum := mkhp "a" (KFloat (1/10 : RNum)%R (10 : RNum)%R true).
Definition dx_b : hp RNum := mkhp "b" (KInt 1 5 false).
Definition dx_c : hp RNum := mkhp "c" (KConst (VNum (7 : RNum)%R)).
Definition dx_k : hp RNum := mkhp "k" (KCat [VStr "p"; VStr "q"]).
Example C69_example : let cs := [dx_a; dx_b; dx_c; dx_k] in
  get_hyperparameters (SelOne (SName "b")) cs = Ok [dx_b] /\ extent dx_b = Some (1%R : RNum, 5%R : RNum) /\
  get_hyperparameters (SelList [SName "a"; SName "c"]) cs = Ok [dx_a; dx_c] /\ extent dx_c = Some (7%R : RNum, 7%R : RNum) /\
  ~ (not_constant dx_a /\ not_constant dx_c) /\ is_numerical dx_k = false /\ extent dx_k = None /\ get_hyperparameters SelNone cs = Ok cs /\
  (exists ax, check_and_set_axis (N:=RNum) fresh_axis [dx_b] false "Prediction" = (ax, Ok tt)).
Proof. cbv zeta. repeat (apply conj; [reflexivity|]). repeat split; try reflexivity; [intros [_ []]|eexists; reflexivity]. Qed.

(** ** C70: plots of a function *)
Theorem C70_one : forall (Col : Type) (color : Col) (f : config RNum -> res RNum) (cs : cspace RNum) n p (g : R -> R),
  keeps not_constant cs [p] -> is_numerical p = true -> sound_bounds p ->
  (forall v : R, f ((hp_name p, VNum (v : RNum)) :: constants_of cs) = Ok (g v : RNum)) ->
  plots (plot_function color f cs n) [p] true "Prediction" [(color, CPlot (axis_values n p) (map g (axis_values n p)) None)].
Proof. exact @function1_R. Qed.
Print Assumptions C70_one.

Theorem C70_two : forall (Col : Type) (color : Col) (f : config RNum -> res RNum) (cs : cspace RNum) n p q (g : R -> R -> R),
  keeps not_constant cs [p; q] -> is_numerical p = true -> sound_bounds p -> is_numerical q = true -> sound_bounds q ->
  (forall u v : R, f ((hp_name p, VNum (u : RNum)) :: (hp_name q, VNum (v : RNum)) :: constants_of cs) = Ok (g u v : RNum)) ->
  plots (plot_function color f cs n) [p; q] true "Prediction"
    [(color, CMesh (axis_values n p) (axis_values n q) (table g (axis_values n p) (axis_values n q)))].
Proof. exact @function2_R. Qed.
Print Assumptions C70_two.

(** constants are passed with their values *)
Theorem C70_constants : forall (N : Num) (cs : cspace N) n v, In (n, v) (constants_of cs) <-> exists h, In h cs /\ hp_name h = n /\ hp_kind h = KConst v.
Proof. exact @constants_spec. Qed.
Print Assumptions C70_constants.

Theorem C70_errors : forall (N : Num) (Col : Type) (color : Col) (f : config N -> res N) (cs : cspace N) n l (c : canvas N Col), keeps not_constant cs l ->
  (length l = 0 \/ 2 < length l -> plot_function color f cs n c = (c, Err ValueError)) /\
  (length l = 1 \/ length l = 2 -> Exists (fun h => is_numerical h = false) l -> plot_function color f cs n c = (c, Err AssertionError)).
Proof. exact @function_errors. Qed.
Print Assumptions C70_errors.

Example C70_example : keeps not_constant [dx_c; dx_a; dx_b] [dx_a; dx_b] /\ sound_bounds dx_a /\ sound_bounds dx_b /\
  constants_of [dx_c; dx_a; dx_b] = [("c"%string, VNum (7 : RNum)%R)] /\ axis_values 3 dx_b = [1; 3; 5]%R.
Proof.
  refine (conj _ (conj _ (conj _ (conj eq_refl _)))).
  - apply keeps_no; [intros []|]. repeat (apply keeps_yes; [exact I|]). constructor.
  - unfold sound_bounds; cbn. split; intros; lra.
  - unfold sound_bounds; cbn. split; [lra|discriminate].
  - unfold axis_values, positions. cbn. unfold original, on_axis; cbn. repeat (apply f_equal2; [lra|]). reflexivity.
Qed.

(** ** C71: plots of a surrogate model that predicts row by row *)
Theorem C71_means : forall (Col : Type) (predict : predictor RNum) (mu sd : list R -> R),
  (forall rows : list (list RNum), predict rows = Ok (map mu rows, map sd rows)) -> forall (color lc gc : Col) h n,
  is_numerical h = true -> sound_bounds h ->
  plots (surrogate_plot false color lc gc predict [h] n) [h] true "Prediction" [(color, CPlot (axis_values n h) (map (fun u => mu [u]) (positions n)) None)].
Proof. exact @surrogate_means1. Qed.
Print Assumptions C71_means.

Theorem C71_confidences : forall (Col : Type) (predict : predictor RNum) (mu sd : list R -> R),
  (forall rows : list (list RNum), predict rows = Ok (map mu rows, map sd rows)) -> forall (color lc gc : Col) h n,
  is_numerical h = true -> sound_bounds h ->
  let x := axis_values n h in let m := map (fun u => mu [u]) (positions n) in let s := map (fun u => sd [u]) (positions n) in
  plots (surrogate_plot true color lc gc predict [h] n) [h] true "Prediction"
    (colored gc (map (fun i => band x m s (INR i / INR 100 * (3/2))) (seq 0 100)) ++ colored lc (line_pair x m s 1 ++ line_pair x m s 2)).
Proof. exact @surrogate_confidences1. Qed.
Print Assumptions C71_confidences.

(** std = false: plot_means; std = true: plot_confidences *)
Theorem C71_two : forall (Col : Type) (predict : predictor RNum) (mu sd : list R -> R),
  (forall rows : list (list RNum), predict rows = Ok (map mu rows, map sd rows)) -> forall (std : bool) (color lc gc : Col) h h' n,
  is_numerical h = true -> sound_bounds h -> is_numerical h' = true -> sound_bounds h' ->
  plots (surrogate_plot std color lc gc predict [h; h'] n) [h; h'] true "Prediction"
    [(color, CMesh (axis_values n h) (axis_values n h') (table (fun u v => (if std then sd else mu) [u; v]) (positions n) (positions n)))].
Proof. exact @surrogate_2. Qed.
Print Assumptions C71_two.

Theorem C71_many : forall (Col : Type) (predict : predictor RNum) (std : bool) (color lc gc : Col) cs n (c : canvas RNum Col),
  3 <= length cs -> surrogate_plot std color lc gc predict cs n c = (c, Err AssertionError).
Proof. exact @surrogate_many. Qed.
Print Assumptions C71_many.

Example C71_example : exists (predict : predictor RNum) (mu sd : list R -> R),
  (forall rows : list (list RNum), predict rows = Ok (map mu rows, map sd rows)) /\ mu [1; 2]%R <> mu [2; 1]%R /\
  table (fun u v => mu [u; v]) [0; 1]%R [2; 3]%R = [[0; 1]; [0; 1]]%R.
Proof.
  exists (fun rows => Ok (map (fun r : list RNum => hd (0 : RNum)%R r) rows, map (fun r : list RNum => (1 : RNum)%R) rows)), (fun r => hd 0%R r), (fun _ => 1%R).
  refine (conj (fun _ => eq_refl) (conj _ _)); [cbn; lra|reflexivity].
Qed.
