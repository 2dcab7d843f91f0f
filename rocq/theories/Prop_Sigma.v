(** Prop_Sigma.v - C124: the acquisition functions for small deviations.

    [ei eta eps mean s], [pi mn eta eps mean s] and [lcb mn tau mean s] are the modelled formulas over the reals with the normal
    distribution.  [tends f l]: f(s) approaches l as s > 0 approaches 0.  [no_jump f]: it approaches f(0) (SigmaSpec.v). *)
From Coq Require Import Reals Lra.
From Coquelicot Require Import Coquelicot.
From Verif Require Import Base Num NumpyModel ConfigSpaceModel SamplerModel AcquisitionModel Gauss AcquisitionReal BoRegretSpec BoRegretExamples SigmaSpec SigmaLimit.
Local Open Scope R_scope.
Local Open Scope list_scope.

(** ** C124 *)
Theorem C124_ei_bounds : forall eta eps mean s, 0 < s -> Rmax (eta - mean - eps) 0 < ei eta eps mean s <= Rmax (eta - mean - eps) 0 + s / 2.
Proof. exact ei_bounds. Qed.
Print Assumptions C124_ei_bounds.

Theorem C124_ei : forall eta eps mean, tends (ei eta eps mean) (Rmax (eta - mean - eps) 0) /\ ei eta eps mean 0 = 0 /\ (no_jump (ei eta eps mean) <-> eta - mean - eps <= 0).
Proof. exact (fun eta eps mean => conj (ei_tends eta eps mean) (conj (ei_zero eta eps mean) (ei_jump eta eps mean))). Qed.
Print Assumptions C124_ei.

(** the improvement is eta - mean - eps when minimizing and mean - eta - eps when maximizing *)
Theorem C124_pi : forall (mn : bool) eta eps mean, let g := if mn then eta - mean - eps else mean - eta - eps in
  (0 < g -> tends (pi mn eta eps mean) 1) /\ (g = 0 -> tends (pi mn eta eps mean) (/ 2)) /\ (g < 0 -> tends (pi mn eta eps mean) 0) /\
  pi mn eta eps mean 0 = 0 /\ (no_jump (pi mn eta eps mean) <-> g < 0).
Proof.
  exact (fun mn eta eps mean => let t := pi_tends mn eta eps mean in
    conj (proj1 t) (conj (proj1 (proj2 t)) (conj (proj2 (proj2 t)) (conj (pi_zero mn eta eps mean) (pi_jump mn eta eps mean))))).
Qed.
Print Assumptions C124_pi.

Theorem C124_lcb : forall mn tau mean, no_jump (lcb mn tau mean).
Proof. exact lcb_no_jump. Qed.
Print Assumptions C124_lcb.

(** EI and PI: get_optimum returns a candidate with a positive deviation if there is one, whatever the means *)
Theorem C124_certain_last : forall (predict : predictor) a mn l means stds c, (forall tau, a <> ALCB (N:=RNum) tau) ->
  predict (map (@c_vec RNum) l) = Ok (means, stds) -> length means = length l -> length stds = length l -> (forall s : R, In s stds -> 0 <= s) -> (exists s : R, In s stds /\ 0 < s) ->
  get_optimum predict norm_cdf norm_pdf a mn (DList l) = Ok (EConf c) -> exists i (s : R), nth_error l i = Some c /\ nth_error stds i = Some s /\ 0 < s.
Proof. exact certain_last. Qed.
Print Assumptions C124_certain_last.

(** a jump: the improvement 3 is certain and counts as 0; and a prediction with deviations 0 and 1 for which each of EI and PI
    chooses the second candidate, although the first is known to improve by 3 and the second is expected to be worse than eta *)
Example C124_example : (~ no_jump (ei 4 0 1) /\ no_jump (ei 1 0 4)) /\
  (forall a, In a [AEI (N:=RNum) 4 0; API (N:=RNum) 4 0] ->
     get_optimum mixed_predict norm_cdf norm_pdf a true (DList [rx_conf 1; rx_conf 5]) = Ok (EConf (rx_conf 5))) /\
  mixed_predict (map (@c_vec RNum) [rx_conf 1; rx_conf 5]) = Ok ([1; 5], [0; 1]).
Proof. exact (conj jump_example (conj mixed_choice eq_refl)). Qed.
