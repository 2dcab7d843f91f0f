(** ReadyProofs.v - the get_* functions (C110). *)
From Verif Require Import Base Num NumpyModel ConfigSpaceModel SamplerModel SamplerSpec SamplerProofs SamplerProofs2 SyntheticModel WrapperModel WrapperSpec WrapperProofs
  CacheTextModel CacheTextSpec CacheTextProofs ReadyModel ReadySpec.
Local Open Scope nat_scope.
Local Open Scope list_scope.

Section P.
Context {N : Num}.
Variable lib : string -> list Z -> option Z -> res (benchmark N).

Lemma ready_eq r : get_ready lib r =
  match lib (module_of r ++ class_of r)%string (task_of r) (seed_of r) with
  | Ok b => Ok (bm_space b (seed_of r), hpo_new b (seed_of r))
  | Err e => Err e
  end.
Proof. destruct r as [s|s|s|s [[|]|]|t s|t s|t s]; reflexivity. Qed.

Theorem ready_made r :
  (forall b, lib (module_of r ++ class_of r)%string (task_of r) (seed_of r) = Ok b ->
     exists f, get_ready lib r = Ok (hb_cs f, f) /\ hb_bench f = b /\ hb_seed f = seed_of r /\ hb_cs f = bm_space b (seed_of r)) /\
  (forall e, lib (module_of r ++ class_of r)%string (task_of r) (seed_of r) = Err e -> get_ready lib r = Err e).
Proof.
  rewrite ready_eq. split; intros x E; rewrite E; [|reflexivity].
  exists (hpo_new x (seed_of r)). repeat split.
Qed.

Lemma ready_inv r cs f : get_ready lib r = Ok (cs, f) -> exists b, lib (module_of r ++ class_of r)%string (task_of r) (seed_of r) = Ok b /\
  f = hpo_new b (seed_of r) /\ cs = hb_cs f.
Proof.
  rewrite ready_eq. destruct lib as [b|e]; [|discriminate]. intro E. injection E as <- <-. exists b. repeat split.
Qed.

Theorem ready_calls r cs f kw : get_ready lib r = Ok (cs, f) ->
  exists b, lib (module_of r ++ class_of r)%string (task_of r) (seed_of r) = Ok b /\ cs = bm_space b (seed_of r) /\
  (legal_keywords cs kw -> exists c, config_for cs kw c /\
     (forall d v, bm_objective b c (seed_of r) = Ok d -> NoDup (map fst d) -> In ("function_value"%string, v) d -> hpo_call f kw = Ok v) /\
     (forall d, bm_objective b c (seed_of r) = Ok d -> ~ In "function_value"%string (map fst d) -> hpo_call f kw = Err KeyError) /\
     (forall e, bm_objective b c (seed_of r) = Err e -> hpo_call f kw = Err e)) /\
  (illegal_keywords cs kw -> hpo_call f kw = Err ValueError).
Proof.
  intro E. destruct (ready_inv _ _ _ E) as (b & Eb & -> & ->). exists b. split; [exact Eb|]. exact (hpo_calls b (seed_of r) kw).
Qed.

Theorem ready_defaults t s red :
  get_ready lib (Cifar100 None) = get_ready lib (Cifar100 (Some (Some 0%Z))) /\
  get_ready lib (BNN None) = get_ready lib (BNN (Some (Some 0%Z))) /\
  get_ready lib (Paramnet None) = get_ready lib (Paramnet (Some (Some 0%Z))) /\
  get_ready lib (Cartpole None red) = get_ready lib (Cartpole (Some (Some 0%Z)) red) /\
  get_ready lib (Cartpole s None) = get_ready lib (Cartpole s (Some true)) /\
  get_ready lib (SVM t None) = get_ready lib (SVM t (Some (Some 0%Z))) /\ get_ready lib (SVM None s) = get_ready lib (SVM (Some 2079%Z) s) /\
  get_ready lib (RF t None) = get_ready lib (RF t (Some (Some 0%Z))) /\ get_ready lib (RF None s) = get_ready lib (RF (Some 2079%Z) s) /\
  get_ready lib (NN t None) = get_ready lib (NN t (Some (Some 0%Z))) /\ get_ready lib (NN None s) = get_ready lib (NN (Some 2079%Z) s).
Proof. repeat split. Qed.

Lemma append_cancel_l p a b : (p ++ a = p ++ b -> a = b)%string.
Proof. induction p as [|c p IH]; cbn; [auto|]. intro E. injection E as E. auto. Qed.
Lemma append_cancel_r a b c : (a ++ String c "" = b ++ String c "" -> a = b)%string.
Proof.
  revert b. induction a as [|x a IH]; intros [|y b]; cbn; intro E; [reflexivity| | |].
  - injection E as _ E. destruct b; discriminate.
  - injection E as _ E. destruct a; discriminate.
  - injection E as -> E. f_equal. auto.
Qed.
Theorem ready_text r r' cs cs' f f' : honest lib -> get_ready lib r = Ok (cs, f) -> get_ready lib r' = Ok (cs', f') ->
  hpo_str f = ("HPOBenchmark(benchmark=" ++ class_of r ++ ")")%string /\ (hpo_str f = hpo_str f' <-> class_of r = class_of r').
Proof.
  intros H E E'. destruct (ready_inv _ _ _ E) as (b & Eb & -> & _). destruct (ready_inv _ _ _ E') as (b' & Eb' & -> & _).
  unfold hpo_str, hpo_name. cbn [hb_bench hpo_new]. rewrite (H _ _ Eb), (H _ _ Eb'). split; [reflexivity|]. split; [|intros ->; reflexivity].
  intro X. apply append_cancel_l in X. apply append_cancel_r in X. exact X.
Qed.

(** the cache of a sampler does not tell two of one class apart *)
Theorem ready_cache (w : world N) r r' cs cs' f f' cls space seed rest k mn mn' fs ops s m :
  honest lib -> class_of r = class_of r' -> get_ready lib r = Ok (cs, f) -> get_ready lib r' = Ok (cs', f') -> cs = cs' ->
  let i := ident_of cls space seed (hpo_str f) rest in let i' := ident_of cls space seed (hpo_str f') rest in
  let w1 := with_objective w (hpo_call f) in let w2 := with_objective w (hpo_call f') in
  s = fst (srun w1 ops (sampler_make w1 k cs mn i fs)) ->
  json_ok w s -> s_cache s = [] -> s_configs s <> [] -> length (s_configs s) = length (s_ys s) ->
  Forall (legal cs) (s_configs s) -> m <= length (s_configs s) -> k <> KGrid -> fs (sampler_key w k i) = None ->
  let s2 := fst (sample w2 m (sampler_make w2 k cs' mn' i' (sampler_del w s fs))) in
  length (s_configs s2) = m /\ values_of (hpo_call f) (s_configs s2) (s_ys s2) /\ s_calls s2 = 0.
Proof.
  intros H C E E' Ecs. subst cs'. destruct (ready_inv _ _ _ E) as (b & Eb & -> & _). destruct (ready_inv _ _ _ E') as (b' & Eb' & -> & _).
  apply benchmarks_confused. rewrite (H _ _ Eb), (H _ _ Eb'). exact C.
Qed.
End P.
