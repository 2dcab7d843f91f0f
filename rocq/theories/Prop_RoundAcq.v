(** Prop_RoundAcq.v - C122: acquisition functions in binary64.

    [fin] are the finite floats and [val] the real numbers they stand for.  [exact_acq a] has the parameters of [a] as real numbers;
    its values are those of C48 and C49.  [in_range a m s]: the numbers are finite and nothing overflows; [acq_error d a m s]: the
    error allowed (RoundAcqSpec.v).  [accurate d c f]: [c] computes [f] with an error of at most [d]. *)
From Coq Require Import Reals Lra.
From Coquelicot Require Import Coquelicot.
From Flocq Require Import Core.Core.
From Verif Require Import Base Num NumpyModel ConfigSpaceModel SamplerModel AcquisitionModel Gauss AcquisitionReal B64Proofs RoundAcqSpec RoundAcq RoundAcqExamples.
Local Open Scope R_scope.
Local Open Scope list_scope.

(** ** C122 *)
(** the value computed for one prediction *)
Theorem C122_value : forall fe fl fr cdf pdf d, accurate fe fl fr d cdf norm_cdf -> accurate fe fl fr d pdf norm_pdf -> d <= / 8 ->
  forall (a : acq (B64 fe fl fr)) mn m s, in_range fe fl fr a m s ->
  fin fe fl fr (acq_value cdf pdf a mn m s) /\
  Rabs (val fe fl fr (acq_value cdf pdf a mn m s) - acq_value (N:=RNum) norm_cdf norm_pdf (exact_acq fe fl fr a) mn (val fe fl fr m) (val fe fl fr s)) <= acq_error fe fl fr d a m s.
Proof. exact acq_rounded. Qed.
Print Assumptions C122_value.

(** get_optimum: no candidate has an exact value above that of the chosen one by more than twice the largest error *)
Theorem C122_optimum : forall fe fl fr (predict : list (list (B64 fe fl fr)) -> res (list (B64 fe fl fr) * list (B64 fe fl fr))) cdf pdf d
  (a : acq (B64 fe fl fr)) mn (l : list (conf (B64 fe fl fr))) means stds E,
  accurate fe fl fr d cdf norm_cdf -> accurate fe fl fr d pdf norm_pdf -> d <= / 8 ->
  l <> [] -> predict (map (@c_vec (B64 fe fl fr)) l) = Ok (means, stds) -> length means = length l -> length stds = length l ->
  (forall i m s, nth_error means i = Some m -> nth_error stds i = Some s -> in_range fe fl fr a m s /\ acq_error fe fl fr d a m s <= E) ->
  exists i c m s, get_optimum predict cdf pdf a mn (DList l) = Ok (EConf c) /\ nth_error l i = Some c /\ nth_error means i = Some m /\ nth_error stds i = Some s /\
    forall j m' s', nth_error means j = Some m' -> nth_error stds j = Some s' ->
      acq_value (N:=RNum) norm_cdf norm_pdf (exact_acq fe fl fr a) mn (val fe fl fr m') (val fe fl fr s')
      <= acq_value (N:=RNum) norm_cdf norm_pdf (exact_acq fe fl fr a) mn (val fe fl fr m) (val fe fl fr s) + 2 * E.
Proof. exact optimum_near. Qed.
Print Assumptions C122_optimum.

(** that the best candidate is chosen is refuted: mean 1, deviations 0 and 2^-53, LCB with tau = 1 when maximizing *)
Theorem C122_best_refuted : forall fe fl fr cdf pdf, exists (predict : list (list (B64 fe fl fr)) -> res (list (B64 fe fl fr) * list (B64 fe fl fr))) (c c' : conf (B64 fe fl fr)) m s s',
  predict (map (@c_vec (B64 fe fl fr)) [c; c']) = Ok ([m; m], [s; s']) /\ get_optimum predict cdf pdf (ALCB n1) false (DList [c; c']) = Ok (EConf c) /\
  lcb_value (N:=RNum) false 1 (val fe fl fr m) (val fe fl fr s) < lcb_value (N:=RNum) false 1 (val fe fl fr m) (val fe fl fr s').
Proof.
  exact (fun fe fl fr cdf pdf => ex_intro _ (tie_predict fe fl fr) (ex_intro _ (tie_conf fe fl fr n0) (ex_intro _ (tie_conf fe fl fr n1) (ex_intro _ n1 (ex_intro _ n0 (ex_intro _ (half_ulp fe fl fr)
    (conj (tie_rows fe fl fr) (conj (tie_chosen fe fl fr cdf pdf) (tie_lower fe fl fr))))))))).
Qed.
Print Assumptions C122_best_refuted.

(** functions with an error of 2^-51 exist, and these candidates are in range for all three acquisition functions *)
Example C122_example : forall fe fl fr,
  (accurate fe fl fr (bpow radix2 (-51)) (near_cdf fe fl fr) norm_cdf /\ accurate fe fl fr (bpow radix2 (-51)) (near_pdf fe fl fr) norm_pdf /\ bpow radix2 (-51) <= / 8) /\
  tie_predict fe fl fr (map (@c_vec (B64 fe fl fr)) (tie_list fe fl fr)) = Ok ([n1; n1], [n0; half_ulp fe fl fr]) /\
  (forall a, In a [ALCB n1; API n1 n0; AEI n1 n0] -> forall i m s, nth_error [n1; n1] i = Some m -> nth_error [n0; half_ulp fe fl fr] i = Some s -> in_range fe fl fr a m s) /\
  (forall d s, In s [n0; half_ulp fe fl fr] -> acq_error fe fl fr d (ALCB n1) n1 s <= bpow radix2 (-52)).
Proof. exact (fun fe fl fr => conj (near_accurate fe fl fr) (conj (tie_rows fe fl fr) (conj (tie_ok fe fl fr) (tie_small fe fl fr)))). Qed.
