(** Prop_BoRegret.v - C123: how far the points chosen with the lower confidence bound are from the best.

    [band tau f l means stds]: every value of [f] is within tau predicted deviations of the predicted mean.  [calibrated]: so is every
    prediction of a surrogate fitted on values of [f].  [nearly_best mn f l y r]: y is at most r worse than every candidate.
    [deviation predict l c d]: d is predicted for c.  [with_choice]: the world whose choices are those of get_optimum over [cand k]
    (BoRegretSpec.v, SamplerMetaReal.v). *)
From Coq Require Import Reals Lra.
From Coquelicot Require Import Coquelicot.
From Flocq Require Import Core.Core.
From Verif Require Import Base Num NumpyModel ConfigSpaceModel SamplerModel AcquisitionModel Gauss AcquisitionReal SamplerSpec SamplerMetaReal B64Proofs RoundAcqSpec
  BoRegretSpec BoRegret BoRegretExamples BoFiniteExamples BoFirst.
Local Open Scope R_scope.
Local Open Scope list_scope.

(** ** C123 *)
(** one choice *)
Theorem C123_choice : forall (predict : predictor) (tau : R) f mn l c,
  (forall means stds, predict (map (@c_vec RNum) l) = Ok (means, stds) -> band tau f l means stds) ->
  get_optimum predict norm_cdf norm_pdf (ALCB (N:=RNum) tau) mn (DList l) = Ok (EConf c) ->
  In c l /\ exists d, deviation predict l c d /\ nearly_best mn f l (f (c_vals c)) (2 * tau * d).
Proof. exact step_regret. Qed.
Print Assumptions C123_choice.

(** one choice in binary64; E bounds the rounding errors of C122 *)
Theorem C123_binary64 : forall fe fl fr (predict : list (list (B64 fe fl fr)) -> res (list (B64 fe fl fr) * list (B64 fe fl fr))) cdf pdf d
  (tau : B64 fe fl fr) (f : config (B64 fe fl fr) -> R) mn (l : list (conf (B64 fe fl fr))) means stds E,
  accurate fe fl fr d cdf norm_cdf -> accurate fe fl fr d pdf norm_pdf -> d <= / 8 ->
  l <> [] -> predict (map (@c_vec (B64 fe fl fr)) l) = Ok (means, stds) -> length means = length l -> length stds = length l ->
  (forall i m s, nth_error means i = Some m -> nth_error stds i = Some s -> in_range fe fl fr (ALCB tau) m s /\ acq_error fe fl fr d (ALCB tau) m s <= E) ->
  (forall i c m s, nth_error l i = Some c -> nth_error means i = Some m -> nth_error stds i = Some s ->
     Rabs (f (c_vals c) - val fe fl fr m) <= val fe fl fr tau * val fe fl fr s) ->
  exists i c s, get_optimum predict cdf pdf (ALCB tau) mn (DList l) = Ok (EConf c) /\ nth_error l i = Some c /\ nth_error stds i = Some s /\
    forall c', In c' l -> if mn then f (c_vals c) <= f (c_vals c') + 2 * val fe fl fr tau * val fe fl fr s + 2 * E
                          else f (c_vals c') <= f (c_vals c) + 2 * val fe fl fr tau * val fe fl fr s + 2 * E.
Proof. exact step_regret_b64. Qed.
Print Assumptions C123_binary64.

(** sample(n) of a sampler that has its initial points and no cache: each new point, and the incumbent at the end *)
Theorem C123_run : forall (w : world RNum) surr valid (tau : R) f mn cand none fs s s' ip n,
  let v := with_choice w surr (ALCB (N:=RNum) tau) mn cand none in
  calibrated valid tau f surr -> (forall k l, cand k = DList l -> Forall valid l) -> Forall valid (s_configs s) -> (forall k vals, w_obj w k vals = Ok (@JNum RNum (f vals))) ->
  sreaches v fs s -> s_kind s = KBO ip -> s_min s = mn -> s_cache s = [] -> (ip <= slen s)%nat -> (0 < slen s)%nat -> values_of f s ->
  sample v n s = (s', Ok tt) ->
  values_of f s' /\ slen s' = (slen s + n)%nat /\ firstn (slen s) (s_configs s') = s_configs s /\
  forall i, (i < n)%nat -> exists l c d, cand (s_acqs s + i)%nat = DList l /\ nth_error (s_configs s') (slen s + i)%nat = Some c /\ In c l /\
    (let known := firstn (slen s + i) (s_configs s') in deviation (surr (Some (map (@c_vec RNum) known, map (fun c => @JNum RNum (f (c_vals c))) known))) l c d) /\
    nearly_best mn f l (f (c_vals c)) (2 * tau * d) /\
    exists best y, incumbent s' = Ok (Some (best, y)) /\ nearly_best mn f l y (2 * tau * d).
Proof. exact run_regret. Qed.
Print Assumptions C123_run.

(** the same for the call that draws the initial points, for the points after these *)
Theorem C123_first_call : forall (w : world RNum) surr valid (tau : R) f mn cand none fs s s' ip n,
  let v := with_choice w surr (ALCB (N:=RNum) tau) mn cand none in
  calibrated valid tau f surr -> (forall k l, cand k = DList l -> Forall valid l) -> Forall valid (s_configs s) -> (forall d k i, valid (w_batch w d k i)) ->
  (forall k vals, w_obj w k vals = Ok (@JNum RNum (f vals))) ->
  sreaches v fs s -> s_kind s = KBO ip -> s_min s = mn -> s_cache s = [] -> (slen s < ip)%nat -> (ip <= n)%nat -> values_of f s ->
  sample v n s = (s', Ok tt) ->
  values_of f s' /\ slen s' = (slen s + n)%nat /\ firstn (slen s) (s_configs s') = s_configs s /\
  forall i, (i < n - ip)%nat -> exists l c d, cand (s_acqs s + i)%nat = DList l /\ nth_error (s_configs s') (slen s + ip + i)%nat = Some c /\ In c l /\
    (let known := firstn (slen s + ip + i) (s_configs s') in deviation (surr (Some (map (@c_vec RNum) known, map (fun c => @JNum RNum (f (c_vals c))) known))) l c d) /\
    nearly_best mn f l (f (c_vals c)) (2 * tau * d) /\
    exists best y, incumbent s' = Ok (Some (best, y)) /\ nearly_best mn f l y (2 * tau * d).
Proof. exact first_regret. Qed.
Print Assumptions C123_first_call.

(** for the other two acquisition functions it is refuted: with a surrogate that is right and certain everywhere, both choose the first
    candidate, however much worse it is *)
Theorem C123_others_refuted : forall a, (forall tau, a <> ALCB (N:=RNum) tau) -> forall g : R, exists (predict : predictor) f l means stds c c',
  predict (map (@c_vec RNum) l) = Ok (means, stds) /\ (forall tau, band tau f l means stds) /\ (forall d, In d stds -> d = 0) /\
  get_optimum predict norm_cdf norm_pdf a true (DList l) = Ok (EConf c) /\ In c' l /\ f (c_vals c) = f (c_vals c') + g.
Proof.
  exact (fun a H g => ex_intro _ sure_predict (ex_intro _ rx_f (ex_intro _ [rx_conf g; rx_conf 0] (ex_intro _ [g; 0] (ex_intro _ [0; 0] (ex_intro _ (rx_conf g) (ex_intro _ (rx_conf 0)
    (conj eq_refl (conj (fun tau => sure_band tau g) (conj (sure_zero) (conj (sure_first a g H) (conj (or_intror (or_introl eq_refl)) (sure_gap g))))))))))))).
Qed.
Print Assumptions C123_others_refuted.

(** a run that meets the hypotheses: f(x) = x is minimized from x = 2, with candidates 4 and 1; the point 4 is chosen, 3 worse than the
    best candidate, and its deviation is 2 *)
Example C123_example : calibrated rx_valid 1 rx_f rx_surr /\
  (sreaches rx_v (fun _ => None) rx_s /\ s_kind rx_s = KBO 1 /\ s_min rx_s = true /\ s_cache rx_s = [] /\ s_configs rx_s = [rx_conf 2] /\ values_of rx_f rx_s) /\
  (forall k l, rx_cand k = DList l -> Forall rx_valid l) /\ Forall rx_valid (s_configs rx_s) /\
  exists s', sample rx_v 1 rx_s = (s', Ok tt) /\ s_configs s' = [rx_conf 2; rx_conf 4].
Proof. exact (conj rx_calibrated (conj rx_start (conj rx_cand_valid (conj rx_start_valid rx_run)))). Qed.

(** a new sampler with two initial points and three candidates in each step *)
Example C123_example_first_call : calibrated rx_valid 1 rx_f memo /\ Forall rx_valid mx_list /\ (forall d k i, rx_valid (w_batch rx_world d k i)) /\
  (forall a, sreaches (mx_v a) (fun _ => None) (nx_s a) /\ s_kind (nx_s a) = KBO 2 /\ s_min (nx_s a) = true /\ s_cache (nx_s a) = [] /\ slen (nx_s a) = 0%nat /\
    values_of rx_f (nx_s a) /\ Forall rx_valid (s_configs (nx_s a))) /\
  exists s', sample (mx_v (ALCB (N:=RNum) 1)) 5 (nx_s (ALCB (N:=RNum) 1)) = (s', Ok tt).
Proof. exact (conj memo_calibrated (conj mx_valid (conj nx_draws (conj nx_start first_regret_case)))). Qed.
