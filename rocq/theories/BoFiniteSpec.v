(** BoFiniteSpec.v - the words of C125. *)
From Coq Require Import Reals.
From Verif Require Import Base Num NumpyModel ConfigSpaceModel SamplerModel AcquisitionModel BoRegretSpec.
Local Open Scope R_scope.
Local Open Scope list_scope.

(** the surrogate fitted on values of [f] at [known] *)
Definition fitted_on (surr : option (list (list RNum) * list (json RNum)) -> predictor) (f : config RNum -> R) (known : list (conf RNum)) : predictor :=
  surr (Some (map (@c_vec RNum) known, map (fun c => @JNum RNum (f (c_vals c))) known)).

(** it predicts deviation 0 for the points it was fitted on; for valid configurations *)
Definition sure_of_known (valid : conf RNum -> Prop) surr f : Prop := forall known l means stds, Forall valid known -> Forall valid l -> fitted_on surr f known (map (@c_vec RNum) l) = Ok (means, stds) ->
  forall i c (s : R), nth_error l i = Some c -> nth_error stds i = Some s -> In c known -> s = 0.

(** it predicts one row for each candidate, with a positive deviation for all other points *)
Definition unsure_of_others (valid : conf RNum -> Prop) surr f : Prop := forall known l means stds, Forall valid known -> Forall valid l -> fitted_on surr f known (map (@c_vec RNum) l) = Ok (means, stds) ->
  length means = length l /\ length stds = length l /\ forall i c (s : R), nth_error l i = Some c -> nth_error stds i = Some s -> ~ In c known -> 0 < s.

(** it answers every question about valid candidates, once fitted on at least one valid point *)
Definition answers (valid : conf RNum -> Prop) surr f : Prop := forall known l, known <> [] -> Forall valid known -> Forall valid l ->
  exists means stds, fitted_on surr f known (map (@c_vec RNum) l) = Ok (means, stds) /\ length means = length l /\ length stds = length l.
