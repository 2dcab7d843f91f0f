(** Prop_Analysis.v - C119: the figure of the sampler analysis (exact arithmetic). *)
From Coq Require Import Reals.
From Coquelicot Require Import Coquelicot.
From Verif Require Import Base Num NumpyModel ConfigSpaceModel UtilsModel IceModel RealSums PlottingModel DrawModel DrawSpec NllSpec SpreadSpec SpreadSynSpec SpreadExamples
  AnalysisModel AnalysisSpec AnalysisProofs AnalysisExamples.
Local Open Scope R_scope.
Local Open Scope list_scope.

(** ** C119: upper panel: the mean over the repetitions of their partial dependence in blue with its confidence bands, the
    exact partial dependence in black; lower panel: the root of the mean variance, over the same values *)
Theorem C119_panel : forall (Col : Type) (blue lightblue black cycle : Col) (cs : cspace RNum) (h : hp RNum) (gpa : nat),
  NoDup (map hp_name cs) -> Forall linear_float cs -> In h cs -> (2 <= length cs)%nat -> (1 <= gpa)%nat ->
  forall reps models, Forall2 (sound_repetition cs) reps models -> reps <> [] ->
  let qs := combine reps models in let xs := axis_values gpa h in
  let ys := mean_of_averages cs h gpa mean_part qs in let sds := map sqrt (mean_of_averages cs h gpa variance_part qs) in
  exists ca cb, panel blue lightblue black cycle cs (SelList [SName (hp_name h)]) gpa (truth_of cs [hp_name h]) reps = ((ca, cb), Ok tt) /\
    cv_drawn ca = (blue, CPlot (N:=RNum) xs ys None) :: confidence blue lightblue 3 xs ys sds ++
      [(black, CPlot (N:=RNum) (axis_values 200 h) (map (true_pd cs h) (axis_values 200 h)) None)] /\
    cv_drawn cb = [(cycle, CPlot (N:=RNum) xs sds None)].
Proof. exact @panel_shows. Qed.
Print Assumptions C119_panel.

(** with equally many samples in all repetitions (the code takes 4000) this is the average over all curves of all repetitions *)
Theorem C119_pooled : forall (cs : cspace RNum) (h : hp RNum) (gpa : nat) (f : (list R -> R) * (list R -> R) -> list R -> R)
  (qs : list (repetition RNum * ((list R -> R) * (list R -> R)))) n, (0 < n)%nat -> Forall (fun q => length (rp_samples (N:=RNum) (fst q)) = n) qs ->
  mean_of_averages cs h gpa f qs = pooled_average cs h gpa f qs.
Proof. exact pooled. Qed.
Print Assumptions C119_pooled.

(** surrogates within eps of the function and evenly spread samples: the blue line is within eps plus the error of C115 of the truth *)
Theorem C119_near : forall (cs : cspace RNum) (h : hp RNum) (gpa : nat),
  NoDup (map hp_name cs) -> Forall linear_float cs -> In h cs -> (2 <= length cs)%nat -> (1 <= gpa)%nat ->
  forall reps models (C eps E : R), Forall2 (sound_repetition cs) reps models -> reps <> [] ->
  Forall (fun k => slope_at_most k C) cs ->
  Forall (fun m => forall row, unit_point cs row -> Rabs (fst m row - exact_model cs row) <= eps) models ->
  Forall (fun r => exists Jk, NoDup (map fst Jk) /\ (forall j, In j (map fst Jk) <-> (j < length cs)%nat /\ nth_error cs j <> Some h) /\ SpreadSpec.spread Jk (rp_samples (N:=RNum) r) /\
    spread_error (fun j => C * match nth_error cs j with Some k => hp_width k | None => 0 end) Jk <= E) reps ->
  forall i x y, nth_error (axis_values gpa h) i = Some x -> nth_error (mean_of_averages cs h gpa mean_part (combine reps models)) i = Some y ->
  Rabs (y - true_pd cs h x) <= eps + E.
Proof. exact blue_near. Qed.
Print Assumptions C119_near.

(** two samplers or more: one such pair of panels for each, in order *)
Theorem C119_figure : forall (Col : Type) (blue lightblue black cycle : Col) (cs : cspace RNum) (h : hp RNum) (gpa : nat),
  NoDup (map hp_name cs) -> Forall linear_float cs -> In h cs -> (2 <= length cs)%nat -> (1 <= gpa)%nat ->
  forall (samplers : list (list (repetition RNum) * list ((list R -> R) * (list R -> R)))), (2 <= length samplers)%nat ->
  Forall (fun q => Forall2 (sound_repetition cs) (fst q) (snd q) /\ fst q <> []) samplers ->
  exists ps, figure blue lightblue black cycle cs (SelList [SName (hp_name h)]) gpa (truth_of cs [hp_name h]) (map fst samplers) = (ps, Ok tt) /\
  Forall2 (fun q p => panel blue lightblue black cycle cs (SelList [SName (hp_name h)]) gpa (truth_of cs [hp_name h]) (fst q) = (p, Ok tt)) samplers ps.
Proof. exact @figure_shows. Qed.
Print Assumptions C119_figure.

(** one sampler alone: once the repetitions are done TypeError is raised and nothing is drawn *)
Theorem C119_one_sampler_refuted : forall (Col : Type) (blue lightblue black cycle : Col) (cs : cspace RNum) (h : hp RNum) (gpa : nat),
  NoDup (map hp_name cs) -> Forall linear_float cs -> In h cs -> (1 <= gpa)%nat ->
  forall reps models, Forall2 (sound_repetition cs) reps models ->
  figure blue lightblue black cycle cs (SelList [SName (hp_name h)]) gpa (truth_of cs [hp_name h]) [reps] = ([(blank, blank)], Err TypeError).
Proof. exact @figure_single. Qed.
Print Assumptions C119_one_sampler_refuted.

(** no repetition: AttributeError, and nothing is drawn *)
Theorem C119_no_repetition : forall (Col : Type) (blue lightblue black cycle : Col) (cs : cspace RNum) (h : hp RNum) (gpa : nat),
  NoDup (map hp_name cs) -> In h cs ->
  exists ca, panel blue lightblue black cycle cs (SelList [SName (hp_name h)]) gpa (truth_of cs [hp_name h]) [] = ((ca, blank), Err AttributeError) /\ cv_drawn ca = [].
Proof. exact @panel_none. Qed.
Print Assumptions C119_no_repetition.

(** Styblinski-Tang in two dimensions, two repetitions on k samples, one surrogate exact and one off by 1 *)
Example C119_example : forall (blue lightblue black cycle : nat) k, (0 < k)%nat ->
  exists ys ca cb, panel blue lightblue black cycle [sp1; sp2] (SelList [SName "x1"]) 3 (truth_of [sp1; sp2] ["x1"%string]) (an_reps k) = ((ca, cb), Ok tt) /\
    cv_drawn cb = [(cycle, CPlot (N:=RNum) [-5; 0; 5] [sqrt 2; sqrt 2; sqrt 2] None)] /\
    nth_error (cv_drawn ca) 0 = Some (blue, CPlot (N:=RNum) [-5; 0; 5] ys None) /\
    (forall i x y, nth_error [-5; 0; 5] i = Some x -> nth_error ys i = Some y -> Rabs (y - true_pd [sp1; sp2] sp1 x) <= 1 + 1725 / INR k) /\
    figure blue lightblue black cycle [sp1; sp2] (SelList [SName "x1"]) 3 (truth_of [sp1; sp2] ["x1"%string]) [an_reps k; an_reps k] = ([(ca, cb); (ca, cb)], Ok tt) /\
    figure blue lightblue black cycle [sp1; sp2] (SelList [SName "x1"]) 3 (truth_of [sp1; sp2] ["x1"%string]) [an_reps k] = ([(blank, blank)], Err TypeError).
Proof. exact an_example. Qed.
