(** Prop_BoFinite.v - C125: Bayesian optimization over the same finitely many candidates in every step.

    [with_choice .. (fun _ => DList l) ..]: every acquisition step has the candidates [l].  [calibrated]: C123.  [sure_of_known]: the fitted
    surrogate has deviation 0 at the points it was fitted on; [unsure_of_others]: and a positive one at all others; [answers]: it predicts
    once fitted on a point (BoFiniteSpec.v); all three for valid configurations.  [nearly_best mn f l y 0]: no candidate is better than y. *)
From Coq Require Import Reals Lra.
From Coquelicot Require Import Coquelicot.
From Verif Require Import Base Num NumpyModel ConfigSpaceModel SamplerModel AcquisitionModel Gauss AcquisitionReal SamplerSpec SamplerMetaReal
  BoRegretSpec BoRegretExamples BoFiniteSpec BoFinite BoFiniteExamples.
Local Open Scope R_scope.
Local Open Scope list_scope.

(** ** C125 *)
(** the lower confidence bound finds the best candidate in as many steps as there are candidates *)
Theorem C125_lcb : forall (w : world RNum) surr valid (tau : R) f mn l none fs s s' ip n,
  let v := with_choice w surr (ALCB (N:=RNum) tau) mn (fun _ => DList l) none in
  calibrated valid tau f surr -> sure_of_known valid surr f -> Forall valid l -> Forall valid (s_configs s) -> (forall k vals, w_obj w k vals = Ok (@JNum RNum (f vals))) ->
  sreaches v fs s -> s_kind s = KBO ip -> s_min s = mn -> s_cache s = [] -> (ip <= slen s)%nat -> (0 < slen s)%nat -> values_of f s ->
  sample v n s = (s', Ok tt) -> (length l <= n)%nat ->
  exists best y, incumbent s' = Ok (Some (best, y)) /\ nearly_best mn f l y 0.
Proof. exact finite_lcb. Qed.
Print Assumptions C125_lcb.

(** EI and PI try every candidate *)
Theorem C125_improvement : forall (w : world RNum) surr valid a f mn l none fs s s' ip n, (forall tau, a <> ALCB (N:=RNum) tau) ->
  let v := with_choice w surr a mn (fun _ => DList l) none in
  unsure_of_others valid surr f -> sure_of_known valid surr f -> Forall valid l -> Forall valid (s_configs s) -> (forall k vals, w_obj w k vals = Ok (@JNum RNum (f vals))) ->
  sreaches v fs s -> s_kind s = KBO ip -> s_min s = mn -> s_cache s = [] -> (ip <= slen s)%nat -> (0 < slen s)%nat -> values_of f s ->
  sample v n s = (s', Ok tt) -> (length l <= n)%nat ->
  incl l (s_configs s') /\ exists best y, incumbent s' = Ok (Some (best, y)) /\ nearly_best mn f l y 0.
Proof. exact finite_improvement. Qed.
Print Assumptions C125_improvement.

(** with a surrogate that can be fitted and answers, no such run raises *)
Theorem C125_runs : forall (w : world RNum) surr valid a f mn l none,
  let v := with_choice w surr a mn (fun _ => DList l) none in
  answers valid surr f -> Forall valid l -> l <> [] -> (forall k vals, w_obj w k vals = Ok (@JNum RNum (f vals))) -> (forall k X ys, w_fit w k X ys = Ok tt) ->
  forall fs s ip n, sreaches v fs s -> s_kind s = KBO ip -> s_cache s = [] -> (ip <= slen s)%nat -> (0 < slen s)%nat -> values_of f s -> Forall valid (s_configs s) ->
  exists s', sample v n s = (s', Ok tt).
Proof. exact runs. Qed.
Print Assumptions C125_runs.

(** the call that draws the initial points: it does not raise and finds the best candidate with initial_points + len(l) points *)
Theorem C125_first_call : forall (w : world RNum) surr valid (tau : R) f mn l none fs s ip n,
  let v := with_choice w surr (ALCB (N:=RNum) tau) mn (fun _ => DList l) none in
  calibrated valid tau f surr -> sure_of_known valid surr f -> answers valid surr f -> Forall valid l -> l <> [] -> Forall valid (s_configs s) ->
  (forall k vals, w_obj w k vals = Ok (@JNum RNum (f vals))) -> (forall k X ys, w_fit w k X ys = Ok tt) -> w_bare w = true -> (forall d k i, valid (w_batch w d k i)) ->
  sreaches v fs s -> s_kind s = KBO ip -> s_min s = mn -> s_cache s = [] -> (slen s < ip)%nat -> values_of f s -> (ip + length l <= n)%nat ->
  exists s', sample v n s = (s', Ok tt) /\ slen s' = (slen s + n)%nat /\ exists best y, incumbent s' = Ok (Some (best, y)) /\ nearly_best mn f l y 0.
Proof. exact first_lcb. Qed.
Print Assumptions C125_first_call.

Theorem C125_first_call_improvement : forall (w : world RNum) surr valid a f mn l none fs s ip n, (forall tau, a <> ALCB (N:=RNum) tau) ->
  let v := with_choice w surr a mn (fun _ => DList l) none in
  unsure_of_others valid surr f -> sure_of_known valid surr f -> answers valid surr f -> Forall valid l -> l <> [] -> Forall valid (s_configs s) ->
  (forall k vals, w_obj w k vals = Ok (@JNum RNum (f vals))) -> (forall k X ys, w_fit w k X ys = Ok tt) -> w_bare w = true -> (forall d k i, valid (w_batch w d k i)) ->
  sreaches v fs s -> s_kind s = KBO ip -> s_min s = mn -> s_cache s = [] -> (slen s < ip)%nat -> values_of f s -> (ip + length l <= n)%nat ->
  exists s', sample v n s = (s', Ok tt) /\ slen s' = (slen s + n)%nat /\ incl l (s_configs s') /\ exists best y, incumbent s' = Ok (Some (best, y)) /\ nearly_best mn f l y 0.
Proof. exact first_improvement. Qed.
Print Assumptions C125_first_call_improvement.

(** that fewer steps suffice is refuted: f(x) = x is minimized from x = 2 over the candidates 4 and 1; one step tries 4 *)
Theorem C125_fewer_refuted : exists (w : world RNum) surr valid (tau : R) f mn l none fs s s' ip n,
  let v := with_choice w surr (ALCB (N:=RNum) tau) mn (fun _ => DList l) none in
  (calibrated valid tau f surr /\ sure_of_known valid surr f /\ Forall valid l /\ Forall valid (s_configs s) /\ (forall k vals, w_obj w k vals = Ok (@JNum RNum (f vals)))) /\
  (sreaches v fs s /\ s_kind s = KBO ip /\ s_min s = mn /\ s_cache s = [] /\ (ip <= slen s)%nat /\ (0 < slen s)%nat /\ values_of f s) /\
  sample v n s = (s', Ok tt) /\ length l = S n /\ forall best y, incumbent s' = Ok (Some (best, y)) -> ~ nearly_best mn f l y 0.
Proof. exact fx_refutes. Qed.
Print Assumptions C125_fewer_refuted.

(** a surrogate with all the properties, and runs over three candidates with every acquisition function *)
Example C125_example : (calibrated rx_valid 1 rx_f memo /\ sure_of_known rx_valid memo rx_f /\ unsure_of_others rx_valid memo rx_f /\ answers rx_valid memo rx_f) /\
  (forall a, (sreaches (mx_v a) (fun _ => None) (mx_s a) /\ s_kind (mx_s a) = KBO 1 /\ s_min (mx_s a) = true /\ s_cache (mx_s a) = [] /\ s_configs (mx_s a) = [rx_conf 2] /\ values_of rx_f (mx_s a)) /\
     Forall rx_valid (s_configs (mx_s a)) /\ exists s', sample (mx_v a) 3 (mx_s a) = (s', Ok tt)) /\
  Forall rx_valid mx_list.
Proof. exact (conj (conj memo_calibrated (conj memo_sure (conj memo_unsure memo_answers))) (conj (fun a => conj (mx_start a) (conj (mx_start_valid a) (mx_runs a 3))) mx_valid)). Qed.

(** a new sampler with two initial points: sample(5) finds the best of three candidates *)
Example C125_example_first_call : (forall a, sreaches (mx_v a) (fun _ => None) (nx_s a) /\ s_kind (nx_s a) = KBO 2 /\ s_min (nx_s a) = true /\ s_cache (nx_s a) = [] /\ slen (nx_s a) = 0%nat /\
    values_of rx_f (nx_s a) /\ Forall rx_valid (s_configs (nx_s a))) /\
  (w_bare rx_world = true /\ forall d k i, rx_valid (w_batch rx_world d k i)) /\
  exists s' best y, sample (mx_v (ALCB (N:=RNum) 1)) 5 (nx_s (ALCB (N:=RNum) 1)) = (s', Ok tt) /\ slen s' = 5%nat /\ incumbent s' = Ok (Some (best, y)) /\ nearly_best true rx_f mx_list y 0.
Proof. exact (conj nx_start (conj (conj eq_refl nx_draws) nx_best)). Qed.
