(** NllSpec.v - the words of C55. *)
From Coq Require Import Reals Lra Lia.
From Coquelicot Require Import Coquelicot.
From Verif Require Import Base Num NumLaws NumpyModel ConfigSpaceModel UtilsModel IceModel PartitionModel RealProofs RealSums SyntheticModel SyntheticSpec NllModel.
Local Open Scope R_scope.
Local Open Scope list_scope.

(** mean of column [k] *)
Definition col_mean (k : nat) (a : list (list R)) : R := Rmean (map (fun row => nth k row 0) a).
(** the negative log density of a normal distribution with mean m and variance v *)
Definition gauss_nll (t m v : R) : R := (t - m) ^ 2 / (2 * v) + ln (2 * PI * v) / 2.

(** the true partial dependence at a value of one hyperparameter: the others averaged out *)
Definition true_pd (cs : cspace RNum) (h : hp RNum) (u : R) : R :=
  average (not_selected [h] cs) (fun b => match stybtang_value cs (conf_at cs b) with Ok v => v | Err _ => 0 end) (fun _ => u).
(** grid point [i] of the first curve of a region, in the units of hyperparameter [h] *)
Definition grid_value (r : region RNum) (lo up : R) lg (idx i : nat) : R :=
  clamp lo up (raw_unscale lo up lg (nth idx (nth i (nth 0 (r_x r) []) []) 0)).
