(** AnalysisSpec.v - the words used in the properties of the sampler analysis (C119). *)
From Coq Require Import Reals.
From Verif Require Import Base Num ConfigSpaceModel IceModel RealSums DrawSpec AnalysisModel.
Local Open Scope R_scope.
Local Open Scope list_scope.

(** the surrogate predicts mean [fst m] and standard deviation [snd m], row by row; the samples are points of the unit cube *)
Definition sound_repetition (cs : cspace RNum) (r : repetition RNum) (m : (list R -> R) * (list R -> R)) : Prop :=
  (forall rows : list (list RNum), rp_predict r rows = Ok (map (fst m) rows, map (snd m) rows)) /\
  Forall (unit_point cs) (rp_samples r) /\ rp_samples r <> [].
(** at every position of the axis of [h]: the mean over the repetitions of the averages of [f] over their samples *)
Definition mean_of_averages (cs : cspace RNum) (h : hp RNum) (n : nat) (f : (list R -> R) * (list R -> R) -> list R -> R)
    (qs : list (repetition RNum * ((list R -> R) * (list R -> R)))) : list R :=
  map (fun u => Rmean (map (fun q => average (fun row => f (snd q) (with_value cs h u row)) (rp_samples (N:=RNum) (fst q))) qs)) (positions n).
(** the average over all curves of all repetitions *)
Definition pooled_average (cs : cspace RNum) (h : hp RNum) (n : nat) (f : (list R -> R) * (list R -> R) -> list R -> R)
    (qs : list (repetition RNum * ((list R -> R) * (list R -> R)))) : list R :=
  map (fun u => Rmean (flat_map (fun q => map (fun row => f (snd q) (with_value cs h u row)) (rp_samples (N:=RNum) (fst q))) qs)) (positions n).
Definition mean_part (m : (list R -> R) * (list R -> R)) (row : list R) : R := fst m row.
Definition variance_part (m : (list R -> R) * (list R -> R)) (row : list R) : R := snd m row * snd m row.
