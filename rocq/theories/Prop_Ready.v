(** Prop_Ready.v - the functions that make a benchmark of hpobench ready for use (C110). *)
From Coq Require Import QArith.
From Verif Require Import Base Num NumpyModel ConfigSpaceModel SamplerModel SamplerSpec SamplerProofs SamplerProofs2 SyntheticModel WrapperModel WrapperSpec
  CacheTextModel CacheTextSpec SamplerExamples CacheTextExamples ReadyModel ReadySpec ReadyProofs ReadyExamples.
Local Open Scope nat_scope.
Local Open Scope list_scope.

(** ** C110 *)
(** the benchmark is the one the library makes of the class, the task and the seed asked for; the space returned is
    that of the function, and it is the space of the benchmark for this seed; exceptions of the library are passed on *)
Theorem C110_made : forall (N : Num) (lib : string -> list Z -> option Z -> res (benchmark N)) r,
  (forall b, lib (module_of r ++ class_of r)%string (task_of r) (seed_of r) = Ok b ->
     exists f, get_ready lib r = Ok (hb_cs f, f) /\ hb_bench f = b /\ hb_seed f = seed_of r /\ hb_cs f = bm_space b (seed_of r)) /\
  (forall e, lib (module_of r ++ class_of r)%string (task_of r) (seed_of r) = Err e -> get_ready lib r = Err e).
Proof. exact @ready_made. Qed.
Print Assumptions C110_made.

(** every call evaluates this benchmark, with the seed it was made with *)
Theorem C110_calls : forall (N : Num) (lib : string -> list Z -> option Z -> res (benchmark N)) r cs f kw, get_ready lib r = Ok (cs, f) ->
  exists b, lib (module_of r ++ class_of r)%string (task_of r) (seed_of r) = Ok b /\ cs = bm_space b (seed_of r) /\
  (legal_keywords cs kw -> exists c, config_for cs kw c /\
     (forall d v, bm_objective b c (seed_of r) = Ok d -> NoDup (map fst d) -> In ("function_value"%string, v) d -> hpo_call f kw = Ok v) /\
     (forall d, bm_objective b c (seed_of r) = Ok d -> ~ In "function_value"%string (map fst d) -> hpo_call f kw = Err KeyError) /\
     (forall e, bm_objective b c (seed_of r) = Err e -> hpo_call f kw = Err e)) /\
  (illegal_keywords cs kw -> hpo_call f kw = Err ValueError).
Proof. exact @ready_calls. Qed.
Print Assumptions C110_calls.

(** an argument left out is the seed 0, the task 2079, the reduced Cartpole *)
Theorem C110_defaults : forall (N : Num) (lib : string -> list Z -> option Z -> res (benchmark N)) t s red,
  get_ready lib (Cifar100 None) = get_ready lib (Cifar100 (Some (Some 0%Z))) /\
  get_ready lib (BNN None) = get_ready lib (BNN (Some (Some 0%Z))) /\
  get_ready lib (Paramnet None) = get_ready lib (Paramnet (Some (Some 0%Z))) /\
  get_ready lib (Cartpole None red) = get_ready lib (Cartpole (Some (Some 0%Z)) red) /\
  get_ready lib (Cartpole s None) = get_ready lib (Cartpole s (Some true)) /\
  get_ready lib (SVM t None) = get_ready lib (SVM t (Some (Some 0%Z))) /\ get_ready lib (SVM None s) = get_ready lib (SVM (Some 2079%Z) s) /\
  get_ready lib (RF t None) = get_ready lib (RF t (Some (Some 0%Z))) /\ get_ready lib (RF None s) = get_ready lib (RF (Some 2079%Z) s) /\
  get_ready lib (NN t None) = get_ready lib (NN t (Some (Some 0%Z))) /\ get_ready lib (NN None s) = get_ready lib (NN (Some 2079%Z) s).
Proof. exact @ready_defaults. Qed.
Print Assumptions C110_defaults.

(** the text of the function tells the class only, not the task and not the seed *)
Theorem C110_text : forall (N : Num) (lib : string -> list Z -> option Z -> res (benchmark N)) r r' cs cs' f f',
  honest lib -> get_ready lib r = Ok (cs, f) -> get_ready lib r' = Ok (cs', f') ->
  hpo_str f = ("HPOBenchmark(benchmark=" ++ class_of r ++ ")")%string /\ (hpo_str f = hpo_str f' <-> class_of r = class_of r').
Proof. exact @ready_text. Qed.
Print Assumptions C110_text.

(** so a sampler on another task (or seed) of the same class, over an equal space, takes the values of the first *)
Theorem C110_cache : forall (N : Num) (lib : string -> list Z -> option Z -> res (benchmark N)) (w : world N) r r' cs cs' f f' cls space seed rest k mn mn' fs ops (s : sampler N) m,
  honest lib -> class_of r = class_of r' -> get_ready lib r = Ok (cs, f) -> get_ready lib r' = Ok (cs', f') -> cs = cs' ->
  let i := ident_of cls space seed (hpo_str f) rest in let i' := ident_of cls space seed (hpo_str f') rest in
  let w1 := with_objective w (hpo_call f) in let w2 := with_objective w (hpo_call f') in
  s = fst (srun w1 ops (sampler_make w1 k cs mn i fs)) ->
  json_ok w s -> s_cache s = [] -> s_configs s <> [] -> length (s_configs s) = length (s_ys s) ->
  Forall (legal cs) (s_configs s) -> m <= length (s_configs s) -> k <> KGrid -> fs (sampler_key w k i) = None ->
  let s2 := fst (sample w2 m (sampler_make w2 k cs' mn' i' (sampler_del w s fs))) in
  length (s_configs s2) = m /\ values_of (hpo_call f) (s_configs s2) (s_ys s2) /\ s_calls s2 = 0.
Proof. exact @ready_cache. Qed.
Print Assumptions C110_cache.

(** a library whose value is task * x + seed: the functions for task 4 and task 3 differ, have one
    text, and the sampler for task 3 gets the values for task 4 (2, 4/3, 1 instead of 3/2, 1, 3/4) *)
Example C110_example : honest rx_lib /\
  (let kw := [("x"%string, VNum (1#2 : QNum)%Q)] in
   hpo_call (rx_fun (SVM (Some 4%Z) None)) kw = Ok (JNum (2#1 : QNum)%Q) /\ hpo_call (rx_fun (SVM None (Some (Some 3%Z)))) kw = Ok (JNum (2085#2 : QNum)%Q) /\
   get_ready rx_lib (BNN None) = Err AttributeError /\ get_ready rx_lib (NN (Some 31337%Z) None) = Err ValueError) /\
  get_ready rx_lib (SVM (Some 4%Z) None) = Ok (sx_cs, rx_fun (SVM (Some 4%Z) None)) /\ get_ready rx_lib (SVM (Some 3%Z) None) = Ok (sx_cs, rx_fun (SVM (Some 3%Z) None)) /\
  hpo_str (rx_fun (SVM (Some 3%Z) None)) = "HPOBenchmark(benchmark=SVMBenchmarkMF)"%string.
Proof. split; [exact rx_honest|]. refine (conj (conj _ (conj _ (conj _ _))) (conj _ (conj _ _))); reflexivity. Qed.
Example C110_example_cache : json_ok rx_world rx_first /\ s_cache rx_first = [] /\ length (s_configs rx_first) = 4 /\ length (s_ys rx_first) = 4 /\
  Forall (legal sx_cs) (s_configs rx_first) /\ sx_fs (sampler_key rx_world KRandom (rx_id (SVM (Some 4%Z) None))) = None /\
  sx_points (rx_second 3) = ([1#2; 1#3; 1#4], [2#1; 4#3; 1#1])%Q /\ sx_points (rx_alone 3) = ([1#2; 1#3; 1#4], [3#2; 1#1; 3#4])%Q.
Proof.
  refine (conj _ (conj _ (conj _ (conj _ (conj _ (conj eq_refl (conj _ _))))))); [unfold json_ok; by_vm|by_vm|by_vm|by_vm|apply legal_list; by_vm|by_vm|by_vm].
Qed.
