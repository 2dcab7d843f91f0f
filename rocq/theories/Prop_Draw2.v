(** Prop_Draw2.v - plots of samplers, acquisition functions and Bayesian optimization (C72-C74). *)
From Coq Require Import Reals Lra.
From Verif Require Import Base Num NumLaws NumpyModel ConfigSpaceModel UtilsModel IceModel SamplerModel AcquisitionModel PlottingModel DrawModel DrawSpec
  DrawProofs DrawProofs2 DrawProofs3.
Local Open Scope list_scope.

(** ** C72: Sampler.plot *)
Theorem C72_one : forall (Col : Type) argsort, sorts argsort -> forall (color : Col) sel (s : sampler RNum) h xs ys,
  get_hyperparameters sel (s_cs s) = Ok [h] ->
  Forall2 (has_value (hp_name h)) (s_configs s) xs -> s_ys s = map (fun y : RNum => JNum y) ys -> length (s_configs s) = length (s_ys s) ->
  exists xs' ys', left_to_right (combine xs ys) xs' ys' /\
    plots (sampler_plot argsort color sel s) [h] true "Prediction" [(color, CPlot (N:=RNum) xs' ys' None)].
Proof. exact @sampler_one. Qed.
Print Assumptions C72_one.

Theorem C72_two : forall (Col : Type) argsort (color : Col) sel (s : sampler RNum) h1 h2 xs ys,
  get_hyperparameters sel (s_cs s) = Ok [h1; h2] -> s_configs s <> [] ->
  Forall2 (has_value (hp_name h1)) (s_configs s) xs -> Forall2 (has_value (hp_name h2)) (s_configs s) ys ->
  plots (sampler_plot argsort color sel s) [h1; h2] true "Prediction" [(color, CScatter xs ys)].
Proof. exact @sampler_two. Qed.
Print Assumptions C72_two.

(** an empty sampler can be plotted over one hyperparameter, not over two *)
Theorem C72_two_empty_refuted : forall (Col : Type) argsort (color : Col) sel (s : sampler RNum) h1 h2,
  get_hyperparameters sel (s_cs s) = Ok [h1; h2] -> s_configs s = [] ->
  fails (sampler_plot argsort color sel s) [h1; h2] true "Prediction" ValueError.
Proof. exact @sampler_two_empty. Qed.
Print Assumptions C72_two_empty_refuted.

Theorem C72_many : forall (Col : Type) argsort (color : Col) sel (s : sampler RNum) hps (c : canvas RNum Col),
  get_hyperparameters sel (s_cs s) = Ok hps -> length hps <> 1 -> length hps <> 2 ->
  sampler_plot argsort color sel s c = (c, Err NotImplementedError).
Proof. exact @sampler_many. Qed.
Print Assumptions C72_many.

(** ** C73: AcquisitionFunction.plot.  [value c]: the acquisition value of c; l: the sampled configurations;
    o: the optimum, which was searched for in another sample *)
Theorem C73_plot : forall (Col : Type) argsort, sorts argsort -> forall (color color' : Col) (show : bool) (call : xinput RNum -> res (list RNum)) (value : conf RNum -> R)
  (optimum : drawn RNum -> res (element RNum)) cs sel h l xs d' o n0 v0 rest,
  get_hyperparameters sel cs = Ok [h] -> (forall c, call (XConf c) = Ok [value c : RNum]) -> l <> [] ->
  Forall2 (has_value (hp_name h)) l xs -> optimum d' = Ok (EConf o) -> c_vals o = (n0, VNum v0) :: rest ->
  exists xs' ys', left_to_right (combine xs (map value l)) xs' ys' /\
    plots (acq_plot argsort color color' show call optimum cs sel (DList l) d') [h] true "Acquisition"
      ([(color, CFill (N:=RNum) xs' ys' (map (fun _ => 0%R) ys')); (color, CPlot (N:=RNum) xs' ys' None)] ++
       if show then [(color', CPlot (N:=RNum) [v0] [value o] None)] else []).
Proof. exact @acq_one_plot. Qed.
Print Assumptions C73_plot.

(** the star is at the first value of the optimum, whatever hyperparameter is plotted *)
Theorem C73_star_refuted : exists (cs : cspace RNum) sel h l d' o (v : RNum) (call : xinput RNum -> res (list RNum)) (optimum : drawn RNum -> res (element RNum)) c (x y : R),
  get_hyperparameters sel cs = Ok [h] /\ optimum d' = Ok (EConf o) /\ has_value (hp_name h) o v /\
  (forall argsort, sorts argsort -> snd (acq_plot argsort "g"%string "r"%string true call optimum cs sel (DList l) d' blank) = Ok tt /\
     last (cv_drawn (fst (acq_plot argsort "g"%string "r"%string true call optimum cs sel (DList l) d' blank))) (""%string, c) = ("r"%string, CPlot (N:=RNum) [x] [y] None)) /\
  x <> v.
Proof. exact star_elsewhere. Qed.
Print Assumptions C73_star_refuted.


(** ** C74: plot_full_bayesian *)
Theorem C74_x1 : forall (Col : Type) argsort, sorts argsort -> forall (predict : predictor RNum) (mu sd : list R -> R),
  (forall rows : list (list RNum), predict rows = Ok (map mu rows, map sd rows)) ->
  forall (call : xinput RNum -> res (list RNum)) (value : conf RNum -> R), (forall c, call (XConf c) = Ok [value c : RNum]) ->
  forall (optimum : drawn RNum -> res (element RNum)) (blue lightblue red green : Col) (s : sampler RNum) h xs ys l ls d2 d3 o2 v2 rest o3 v3,
  s_cs s = [h] -> hp_name h = "x1"%string -> is_numerical h = true -> sound_bounds h ->
  Forall2 (has_value "x1") (s_configs s) xs -> s_ys s = map (fun y : RNum => JNum y) ys -> length (s_configs s) = length (s_ys s) ->
  l <> [] -> Forall2 (has_value "x1") l ls -> optimum d2 = Ok (EConf o2) -> c_vals o2 = ("x1"%string, VNum v2) :: rest ->
  optimum d3 = Ok (EConf o3) -> has_value "x1" o3 v3 ->
  exists cf ca xs' ys' ls' lv',
    plot_full_bayesian argsort blue lightblue red green predict call optimum s (DList l) d2 d3 = ((cf, ca), Ok tt) /\
    left_to_right (combine xs ys) xs' ys' /\ left_to_right (combine ls (map value l)) ls' lv' /\
    (let x := axis_values 100 h in let m := map (fun u => mu [u]) (positions 100) in let s := map (fun u => sd [u]) (positions 100) in
     cv_drawn cf = [(blue, CPlot (N:=RNum) x m None)] ++
       (colored lightblue (map (fun i => band x m s (INR i / INR 100 * (3/2))) (seq 0 100)) ++ colored blue (line_pair x m s 1 ++ line_pair x m s 2)) ++
       [(red, CPlot (N:=RNum) xs' ys' None)]) /\
    (* the last marker is at (0, optimum): ax.plot got the value of x1 as y *)
    cv_drawn ca = ([(green, CFill (N:=RNum) ls' lv' (map (fun _ => 0%R) lv')); (green, CPlot (N:=RNum) ls' lv' None)] ++
       [(red, CPlot (N:=RNum) [v2] [value o2] None)]) ++ [(red, CPlot (N:=RNum) [0%R] [v3] None)].
Proof. exact @bayesian_x1. Qed.
Print Assumptions C74_x1.

(** no other space can be plotted *)
Theorem C74_two : forall (Col : Type) argsort (predict : predictor RNum) (mu sd : list R -> R),
  (forall rows : list (list RNum), predict rows = Ok (map mu rows, map sd rows)) ->
  forall (call : xinput RNum -> res (list RNum)) (optimum : drawn RNum -> res (element RNum)) (blue lightblue red green : Col) (s : sampler RNum) h1 h2 d1 d2 d3,
  s_cs s = [h1; h2] -> hp_name h1 = "x1"%string -> hp_name h2 <> ""%string -> hp_name h2 <> "Prediction"%string ->
  is_numerical h1 = true -> sound_bounds h1 -> is_numerical h2 = true -> sound_bounds h2 ->
  snd (plot_full_bayesian argsort blue lightblue red green predict call optimum s d1 d2 d3) = Err ValueError.
Proof. exact @bayesian_two. Qed.
Print Assumptions C74_two.

Theorem C74_other_name : forall (Col : Type) argsort (predict : predictor RNum) (mu sd : list R -> R),
  (forall rows : list (list RNum), predict rows = Ok (map mu rows, map sd rows)) ->
  forall (call : xinput RNum -> res (list RNum)) (optimum : drawn RNum -> res (element RNum)) (blue lightblue red green : Col) (s : sampler RNum) h d1 d2 d3,
  s_cs s = [h] -> hp_name h <> "x1"%string -> is_numerical h = true -> sound_bounds h ->
  snd (plot_full_bayesian argsort blue lightblue red green predict call optimum s d1 d2 d3) = Err KeyError.
Proof. exact @bayesian_name. Qed.
Print Assumptions C74_other_name.

Theorem C74_many : forall (Col : Type) argsort (predict : predictor RNum)
  (call : xinput RNum -> res (list RNum)) (optimum : drawn RNum -> res (element RNum)) (blue lightblue red green : Col) (s : sampler RNum) d1 d2 d3,
  3 <= length (s_cs s) -> plot_full_bayesian argsort blue lightblue red green predict call optimum s d1 d2 d3 = ((blank, blank), Err AssertionError).
Proof. exact @bayesian_many. Qed.
Print Assumptions C74_many.

(** ** examples *)
(** there are such argsorts *)
Example C72_argsort : exists argsort, sorts argsort.
Proof. exists insertion_argsort. exact insertion_sorts. Qed.

Definition dy_h : hp RNum := mkhp "x1" (KFloat (0 : RNum)%R (10 : RNum)%R false).
Definition dy_conf (v : R) : conf RNum := mkconf (N:=RNum) [(v / 10)%R] [("x1"%string, VNum (v : RNum))].
Definition dy_s : sampler RNum :=
  mksampler KRandom [dy_h] true "" [dy_conf 3; dy_conf 1] [JNum (30 : RNum)%R; JNum (10 : RNum)%R] [] [] 2 None 0 None 0 None 0 0 [].

(** samples (3, 30), (1, 10): drawn as (1, 10), (3, 30) *)
Example C72_example : get_hyperparameters (SelNone (N:=RNum)) (s_cs dy_s) = Ok [dy_h] /\
  Forall2 (has_value "x1") (s_configs dy_s) [3; 1]%R /\ s_ys dy_s = map (fun y : RNum => JNum y) [30; 10]%R /\
  (forall xs ys, left_to_right (combine [3; 1] [30; 10])%R xs ys -> xs = [1; 3]%R /\ ys = [10; 30]%R).
Proof.
  refine (conj eq_refl (conj _ (conj eq_refl _))); [repeat constructor|]. cbn [combine].
  intros xs ys (L & A & P). pose proof (Permutation.Permutation_length P) as PL. rewrite combine_length, L, Nat.min_id in PL. cbn in PL.
  destruct ys as [|y1 [|y2 [|]]]; try discriminate PL. destruct xs as [|x1 [|x2 [|]]]; try discriminate L. cbn [combine] in P. destruct A as [A _].
  destruct (Permutation.Permutation_length_2_inv (Permutation.Permutation_sym P)) as [E|E]; pose proof (f_equal (fun l => (nth 0 l (0, 0), nth 1 l (0, 0))%R) E) as E'; cbn in E'.
  - exfalso. assert (x1 = 3 /\ x2 = 1)%R as [-> ->] by (split; congruence). lra.
  - assert (x1 = 1 /\ x2 = 3 /\ y1 = 10 /\ y2 = 30)%R as (-> & -> & -> & ->) by (repeat split; congruence). split; reflexivity.
Qed.

Example C73_example : exists (call : xinput RNum -> res (list RNum)) (value : conf RNum -> R) (l : list (conf RNum)),
  get_hyperparameters (SelNone (N:=RNum)) [dy_h] = Ok [dy_h] /\ (forall c, call (XConf c) = Ok [value c : RNum]) /\ map value l = [3; 1]%R /\
  Forall2 (has_value (hp_name dy_h)) l [3; 1]%R.
Proof.
  exists (fun x : xinput RNum => match x with XConf c => Ok [match c_vals c with (_, VNum v) :: _ => v | _ => 0%R end] | _ => Err TypeError end),
    (fun c : conf RNum => match c_vals c with (_, VNum v) :: _ => v | _ => 0%R end), (s_configs dy_s).
  split; [reflexivity|]. split; [reflexivity|]. split; [reflexivity|]. repeat constructor.
Qed.

(** the hypotheses of C73 and C74 hold for this sampler *)
Example C74_example : s_cs dy_s = [dy_h] /\ hp_name dy_h = "x1"%string /\ is_numerical dy_h = true /\ sound_bounds dy_h /\
  Forall2 (has_value "x1") [dy_conf 4] [4%R] /\ c_vals (dy_conf 5) = [("x1"%string, VNum (5%R : RNum))] /\ has_value "x1" (dy_conf 6) (6%R : RNum).
Proof.
  refine (conj eq_refl (conj eq_refl (conj eq_refl (conj _ (conj _ (conj eq_refl eq_refl)))))); [|repeat constructor].
  unfold sound_bounds; cbn. split; [lra|discriminate].
Qed.
