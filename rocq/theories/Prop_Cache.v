(** Prop_Cache.v - the cache file of a sampler and the objective it belongs to (C95). *)
From Coq Require Import QArith.
From Verif Require Import Base Num NumpyModel ConfigSpaceModel SamplerModel SamplerSpec SamplerProofs SamplerProofs2 SyntheticModel WrapperModel
  CacheTextModel CacheTextSpec CacheTextProofs SamplerExamples CacheTextExamples.
Local Open Scope nat_scope.
Local Open Scope list_scope.

(** ** C95 *)
(** two objectives with the same key: the second sampler returns the values of the first objective and never calls its own *)
Theorem C95_same_key : forall (N : Num) (w : world N) f f' k cs mn mn' i i' fs ops (s : sampler N) m,
  sampler_key w k i = sampler_key w k i' ->
  s = fst (srun (with_objective w f) ops (sampler_make (with_objective w f) k cs mn i fs)) ->
  json_ok w s -> s_cache s = [] -> s_configs s <> [] -> length (s_configs s) = length (s_ys s) ->
  Forall (legal cs) (s_configs s) -> m <= length (s_configs s) ->
  let s2 := fst (sample (with_objective w f') m (sampler_make (with_objective w f') k cs mn' i' (sampler_del w s fs))) in
  s_configs s2 = firstn m (s_configs s) /\ s_ys s2 = firstn m (s_ys s) /\ s_calls s2 = 0.
Proof. exact @replay_other. Qed.
Print Assumptions C95_same_key.

(** CallableBlackboxFunction: whatever the functions and the names are, the space decides *)
Theorem C95_callables : forall (N : Num) (w : world N) (c c' : callable N) cls space seed rest k mn mn' fs ops (s : sampler N) m,
  cb_cs c = cb_cs c' ->
  let i := ident_of cls space seed (callable_str c) rest in let i' := ident_of cls space seed (callable_str c') rest in
  let w1 := with_objective w (callable_at c) in let w2 := with_objective w (callable_at c') in
  s = fst (srun w1 ops (sampler_make w1 k (cb_cs c) mn i fs)) ->
  json_ok w s -> s_cache s = [] -> s_configs s <> [] -> length (s_configs s) = length (s_ys s) ->
  Forall (legal (cb_cs c)) (s_configs s) -> m <= length (s_configs s) -> k <> KGrid -> fs (sampler_key w k i) = None ->
  let s2 := fst (sample w2 m (sampler_make w2 k (cb_cs c') mn' i' (sampler_del w s fs))) in
  length (s_configs s2) = m /\ values_of (callable_at c) (s_configs s2) (s_ys s2) /\ s_calls s2 = 0.
Proof. exact @callables_confused. Qed.
Print Assumptions C95_callables.

(** HPOBenchBlackbox: benchmarks of one class (other task, other seed of the wrapper) *)
Theorem C95_benchmarks : forall (N : Num) (w : world N) (b b' : benchmark N) sd sd' cls space seed rest k cs mn mn' fs ops (s : sampler N) m,
  bm_class b = bm_class b' ->
  let h := hpo_new b sd in let h' := hpo_new b' sd' in
  let i := ident_of cls space seed (hpo_str h) rest in let i' := ident_of cls space seed (hpo_str h') rest in
  let w1 := with_objective w (hpo_call h) in let w2 := with_objective w (hpo_call h') in
  s = fst (srun w1 ops (sampler_make w1 k cs mn i fs)) ->
  json_ok w s -> s_cache s = [] -> s_configs s <> [] -> length (s_configs s) = length (s_ys s) ->
  Forall (legal cs) (s_configs s) -> m <= length (s_configs s) -> k <> KGrid -> fs (sampler_key w k i) = None ->
  let s2 := fst (sample w2 m (sampler_make w2 k cs mn' i' (sampler_del w s fs))) in
  length (s_configs s2) = m /\ values_of (hpo_call h) (s_configs s2) (s_ys s2) /\ s_calls s2 = 0.
Proof. exact @benchmarks_confused. Qed.
Print Assumptions C95_benchmarks.

(** "a sampler's values are values of its objective" fails: 4 x was sampled before, now 1 - x; the best point found is not the best one *)
Theorem C95_own_values_refuted : exists (w : world QNum) (c c' : callable QNum) (i i' : ident) (s s2 : sampler QNum),
  let w1 := with_objective w (callable_at c) in let w2 := with_objective w (callable_at c') in
  cb_cs c = cb_cs c' /\ cb_given c <> cb_given c' /\
  i = ident_of "<class 'RandomSampler'>" "[x]" (Some 0%Z) (callable_str c) cx_rest /\
  i' = ident_of "<class 'RandomSampler'>" "[x]" (Some 0%Z) (callable_str c') cx_rest /\
  s = fst (srun w1 [OSample 4] (sampler_make w1 KRandom (cb_cs c) true i sx_fs)) /\
  s2 = fst (sample w2 3 (sampler_make w2 KRandom (cb_cs c') true i' (sampler_del w s sx_fs))) /\
  ~ values_of (callable_at c') (s_configs s2) (s_ys s2) /\
  sx_points s2 = ([1#2; 1#3; 1#4], [2#1; 4#3; 1#1])%Q /\
  map (fun p => callable_at c' (c_vals p)) (s_configs s2) = map (fun q : Q => Ok (JNum (q : QNum))) [1#2; 2#3; 3#4]%Q /\
  incumbent s2 = Ok (Some (sx_conf sx_cs [(1#4 : QNum)%Q], (1#1 : QNum)%Q)).
Proof.
  exists cx_world, cx_cost, cx_error, (cx_id cx_cost), (cx_id cx_error), cx_first, (cx_second 3). cbv zeta.
  split; [reflexivity|]. split; [discriminate|]. do 4 (split; [reflexivity|]).
  assert (E : s_configs (cx_second 3) = map (fun q : Q => sx_conf sx_cs [(q : QNum)]) [1#2; 1#3; 1#4]%Q) by by_vm.
  assert (Y : s_ys (cx_second 3) = map (fun q : Q => JNum (q : QNum)) [2#1; 4#3; 1#1]%Q) by by_vm.
  split.
  - unfold values_of. rewrite E, Y. intro H. inversion H as [|? ? ? ? H1 _]; subst. vm_compute in H1. discriminate H1.
  - split; [by_vm|]. split; [by_vm|by_vm].
Qed.
Print Assumptions C95_own_values_refuted.

(** with a digest without collisions, for one sampler class, one space and the same further
    arguments, the key tells the seed (None or an integer) and the text of the objective, if the
    text does not start with a digit *)
Theorem C95_key_tells : forall (N : Num) (w : world N) k cls space z z' o o' rest,
  (forall a b, w_md5 w a = w_md5 w b -> a = b) -> starts_outside is_digit o -> starts_outside is_digit o' ->
  (forall p, k = KBO p -> starts_outside is_digit (fst (fst (fst rest)))) ->
  sampler_key w k (ident_of cls space z o rest) = sampler_key w k (ident_of cls space z' o' rest) -> z = z' /\ o = o'.
Proof. exact @key_tells. Qed.
Print Assumptions C95_key_tells.

(** functions of the library: other classes and other dimensions have other keys *)
Theorem C95_library : forall (N : Num) (w : world N) k cls space z z' c c' d d' rest,
  (forall a b, w_md5 w a = w_md5 w b -> a = b) -> class_name c -> class_name c' ->
  (forall p, k = KBO p -> starts_outside is_digit (fst (fst (fst rest)))) ->
  (sampler_key w k (ident_of cls space z (bb_name c d) rest) = sampler_key w k (ident_of cls space z' (bb_name c' d') rest) <-> z = z' /\ c = c' /\ d = d').
Proof. exact @library_key. Qed.
Print Assumptions C95_library.

(** nothing separates the seed from what follows it *)
Theorem C95_ambiguous_refuted : forall (N : Num) (w : world N) cls space, exists z z' o o' rest, z <> z' /\ o <> o' /\
  sampler_key w KRandom (ident_of cls space z o rest) = sampler_key w KRandom (ident_of cls space z' o' rest).
Proof. exact @key_ambiguous. Qed.
Print Assumptions C95_ambiguous_refuted.

(** the name of a callable is shown in str(sampler), but it is not in the key *)
Theorem C95_name : forall (N : Num) (w : world N) (f : config N -> res (json N)) cs n n' cls k sc space z rest,
  let c := mkcallable f cs (Some n) in let c' := mkcallable f cs (Some n') in
  (sampler_str cls (callable_name (cb_cs c) (cb_given c)) = sampler_str cls (callable_name (cb_cs c') (cb_given c')) <-> n = n') /\
  sampler_key w k (ident_of sc space z (callable_str c) rest) = sampler_key w k (ident_of sc space z (callable_str c') rest).
Proof. exact @name_shown. Qed.
Print Assumptions C95_name.

(** the hypotheses of C95_callables hold for "cost" and "error"; without the file the values of "error" are found *)
Example C95_example : json_ok cx_world cx_first /\ s_cache cx_first = [] /\ length (s_configs cx_first) = 4 /\ length (s_ys cx_first) = 4 /\
  Forall (legal sx_cs) (s_configs cx_first) /\ sx_fs (sampler_key cx_world KRandom (cx_id cx_cost)) = None /\
  sx_points (cx_alone 3) = ([1#2; 1#3; 1#4], [1#2; 2#3; 3#4])%Q.
Proof.
  refine (conj _ (conj _ (conj _ (conj _ (conj _ (conj eq_refl _)))))); [unfold json_ok; by_vm|by_vm|by_vm|by_vm|apply legal_list; by_vm|by_vm].
Qed.
Example C95_example_benchmarks : let b := cx_bench (fun x => nmul (n := QNum) (4#1)%Q x) in let b' := cx_bench (fun x => nsub (n := QNum) (1#1)%Q x) in
  bm_class b = bm_class b' /\ hpo_str (hpo_new b (Some 0%Z)) = "HPOBenchmark(benchmark=XGBoostBenchmark)"%string /\
  (let kw := [("x"%string, VNum (1#2 : QNum)%Q)] in hpo_call (hpo_new b None) kw = Ok (JNum (2#1 : QNum)%Q) /\ hpo_call (hpo_new b' None) kw = Ok (JNum (1#2 : QNum)%Q)).
Proof. vm_compute. auto. Qed.
Example C95_example_classes : class_name "Levy" /\ class_name "Ackley" /\ class_name "CallableBlackboxFunction" /\ bb_name "Levy" 2 <> bb_name "Levy" 12 /\
  seed_text None = "None"%string /\ seed_text (Some (-17)%Z) = "-17"%string /\ callable_str cx_cost = "CallableBlackboxFunction(1)"%string /\ starts_outside is_digit "<class 'EI'>".
Proof.
  assert (C : forall c r, is_digit c = false -> all_chars not_paren (String c r) = true -> class_name (String c r)) by (intros c r H H'; split; [exists c, r; auto|exact H']).
  refine (conj _ (conj _ (conj _ (conj _ (conj _ (conj _ (conj _ _))))))); try (apply C; reflexivity); try reflexivity; try discriminate.
Qed.
