(** BoRegretSpec.v - the words of C123. *)
From Coq Require Import Reals Lra.
From Verif Require Import Base Num NumpyModel ConfigSpaceModel SamplerModel AcquisitionModel.
Local Open Scope R_scope.
Local Open Scope list_scope.

Notation predictor := (list (list RNum) -> res (list RNum * list RNum)).

(** the prediction for the candidates [l] has one row for each, and the value of [f] is within [tau] deviations of each mean *)
Definition band (tau : R) (f : config RNum -> R) (l : list (conf RNum)) (means stds : list R) : Prop :=
  length means = length l /\ length stds = length l /\
  forall i c m s, nth_error l i = Some c -> nth_error means i = Some m -> nth_error stds i = Some s -> Rabs (f (c_vals c) - m) <= tau * s.

(** the surrogate, fitted on values of [f], has [f] in its band wherever it predicts; for valid configurations *)
Definition calibrated (valid : conf RNum -> Prop) (tau : R) (f : config RNum -> R) (surr : option (list (list RNum) * list (json RNum)) -> predictor) : Prop :=
  forall (known l : list (conf RNum)) means stds, Forall valid known -> Forall valid l ->
    surr (Some (map (@c_vec RNum) known, map (fun c => @JNum RNum (f (c_vals c))) known)) (map (@c_vec RNum) l) = Ok (means, stds) -> band tau f l means stds.

(** the known values of the sampler are those of [f] *)
Definition values_of (f : config RNum -> R) (s : sampler RNum) : Prop := s_ys s = map (fun c => @JNum RNum (f (c_vals c))) (s_configs s).

(** the number [y] is at most [r] worse than the value of every candidate *)
Definition nearly_best (mn : bool) (f : config RNum -> R) (l : list (conf RNum)) (y r : R) : Prop :=
  forall c, In c l -> if mn then y <= f (c_vals c) + r else f (c_vals c) <= y + r.

(** [d] is the deviation predicted for the candidate [c] *)
Definition deviation (predict : predictor) (l : list (conf RNum)) (c : conf RNum) (d : R) : Prop :=
  exists i means stds, predict (map (@c_vec RNum) l) = Ok (means, stds) /\ nth_error l i = Some c /\ nth_error stds i = Some d.
