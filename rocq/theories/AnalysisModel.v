(** AnalysisModel.v - the figure of examples/main_sampler_analysis.py: plot_sampling_bias (30-157).

    A repetition is given by what is used of it: the predictions of the surrogate fitted to the points of its sampler
    and the configurations that PDP.from_random_points draws, as rows.  Titles, the common limits of the axes and the
    file are left out. *)
From Verif Require Import Base Num NumpyModel ConfigSpaceModel UtilsModel IceModel PartitionModel ForestModel SamplerModel
  AcquisitionModel PlottingModel DrawModel SyntheticModel.
From Coq Require Import Reals.
Local Open Scope list_scope.
Notation "x <-- m ;;; k" := (bindD m (fun x => k)) (at level 61, m at next level, right associativity).

Section Panel.
Context {N : Num} {Col : Type}.

(** surrogate (106-107) and the samples of the PDP (108-111): examples/main_sampler_analysis.py:98-111 *)
Record repetition := mkrep { rp_predict : predictor N; rp_samples : list (list N) }.
(** x_pdp, y_pdp and y_variances of the PDP, read in this order: examples/main_sampler_analysis.py:108-114 *)
Definition repetition_curve (cs : cspace N) (sel : selection N) (gpa : nat) (r : repetition) : res (curve N) :=
  a <- algorithm_new cs sel (rp_samples r) gpa ;;
  snd (pdp_curve (pdp_new a (rp_predict r))).
(** mean_pdp: examples/main_sampler_analysis.py:117-118, 126-133.  arr_x is the x_pdp of the last repetition (112) *)
Definition averaged (cs : cspace N) (sel : selection N) (l : list (curve N)) : res (curve N) :=
  sel' <- convert_hyperparameters sel cs ;;
  Ok (mkcurve cs sel' (last (map cu_x l) []) (mean_axis0 (width (map cu_y l)) (map cu_y l))
        (mean_axis0 (width (map cu_v l)) (map cu_v l))).

(** the axis of the PDP: examples/main_sampler_analysis.py:134-143.  Without a repetition arr_x is still the list []
    (95), which has no shape (utils/utils.py:98).  [truth] is f.pd_integral(..), its space and the call *)
Definition pdp_axis (blue lightblue black : Col) (any : bool) (c : curve N) (truth : res (cspace N * (config N -> res N)))
  : canvas N Col -> canvas N Col * res unit :=
  _ <-- (if any then curve_plot_values blue c
         else _ <-- set_axis (cu_sel c) true "Prediction" ;;; raise AttributeError) ;;;
  _ <-- curve_plot_confidences blue lightblue (nofZ 3) c ;;;
  t <-- lift truth ;;;
  plot_function black (snd t) (fst t) 200.
(** the axis of the deviations: examples/main_sampler_analysis.py:146-150 *)
Definition std_axis (cycle : Col) (cs : cspace N) (sel : selection N) (c : curve N) : canvas N Col -> canvas N Col * res unit :=
  hps <-- lift (convert_hyperparameters sel cs) ;;;
  ranges <-- lift (get_ranges hps (length (cu_v c)) false) ;;;
  x <-- lift (py_nth ranges 0) ;;;
  ax_plot cycle x (map nsqrt (cu_v c)) None.

(** one column of the figure: examples/main_sampler_analysis.py:92-153 *)
Definition panel (blue lightblue black cycle : Col) (cs : cspace N) (sel : selection N) (gpa : nat)
    (truth : res (cspace N * (config N -> res N))) (reps : list repetition) : (canvas N Col * canvas N Col) * res unit :=
  match (l <- mapM (repetition_curve cs sel gpa) reps ;; c <- averaged cs sel l ;; Ok c) with
  | Err e => ((blank, blank), Err e)
  | Ok c =>
    let (ca, ra) := pdp_axis blue lightblue black (negb (Nat.eqb (length reps) 0)) c truth blank in
    match ra with
    | Err e => ((ca, blank), Err e)
    | Ok _ => let (cb, rb) := std_axis cycle cs sel c blank in ((ca, cb), rb)
    end
  end.
(** the loop over the samplers: examples/main_sampler_analysis.py:92-153 *)
Fixpoint panels (blue lightblue black cycle : Col) (cs : cspace N) (sel : selection N) (gpa : nat)
    (truth : res (cspace N * (config N -> res N))) (samplers : list (list repetition)) : list (canvas N Col * canvas N Col) * res unit :=
  match samplers with
  | [] => ([], Ok tt)
  | reps :: t =>
    match panel blue lightblue black cycle cs sel gpa truth reps with
    | (p, Err e) => (p :: repeat (blank, blank) (length t), Err e)
    | (p, Ok _) => let (ps, r) := panels blue lightblue black cycle cs sel gpa truth t in (p :: ps, r)
    end
  end.
(** plot_sampling_bias: examples/main_sampler_analysis.py:89-153.  plt.subplots(2, n) raises ValueError for n = 0; for
    n = 1 it gives two axes and not two rows of them, so that ax3 is an axis and ax3[0] (120) raises TypeError once the
    repetitions are done *)
Definition figure (blue lightblue black cycle : Col) (cs : cspace N) (sel : selection N) (gpa : nat)
    (truth : res (cspace N * (config N -> res N))) (samplers : list (list repetition)) : list (canvas N Col * canvas N Col) * res unit :=
  match samplers with
  | [] => ([], Err ValueError)
  | [reps] => ([(blank, blank)], _ <- mapM (repetition_curve cs sel gpa) reps ;; Err TypeError)
  | _ => panels blue lightblue black cycle cs sel gpa truth samplers
  end.
End Panel.
Arguments repetition : clear implicits.

(** f.pd_integral over the names that are not selected, for Styblinski-Tang: examples/main_sampler_analysis.py:142,
    synthetic_functions.py:127-163 *)
Definition truth_of (cs : cspace RNum) (selected : list string) : res (cspace RNum * (config RNum -> res RNum)) :=
  p <- pd_integral cs (map (fun n => SName n) (filter (fun n => negb (existsb (String.eqb n) selected)) (map hp_name cs))) ;;
  Ok (fst p, bb_call (N:=RNum) (pd_value p) (fst p)).
