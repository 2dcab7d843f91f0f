(** WrapperModel.v - the classes that wrap foreign code: SurrogateModel.fit and
    pyPDP/surrogate_models/sklearn_surrogates.py; BlackboxFunction, CallableBlackboxFunction
    (pyPDP/blackbox_functions/__init__.py) and pyPDP/blackbox_functions/hpo_bench.py. *)
From Verif Require Import Base Num NumpyModel ConfigSpaceModel SamplerModel AcquisitionModel SyntheticModel.

(** ** surrogates *)
Section Surrogate.
Context {N : Num}.
(** the state of a sklearn pipeline (self.pipeline, sklearn_surrogates.py:14), its fit and its
    predict(.., return_std=True); a fit that raises may have changed the state *)
Context {P : Type}.
(** self.pipeline.fit(X, y): sklearn_surrogates.py:16-17 *)
Variable pipe_fit : P -> list (list N) -> list (json N) -> P * res unit.
(** self.pipeline.predict(X, return_std=True): sklearn_surrogates.py:19-27 *)
Variable pipe_predict : P -> list (list N) -> res (list N * list N).

(** the object: surrogate_models/__init__.py:17, sklearn_surrogates.py:14 *)
Record surrogate := mksurrogate { g_points : nat; g_pipe : P }.
(** SkLearnPipelineSurrogate.__init__: sklearn_surrogates.py:12-14, surrogate_models/__init__.py:15-17 *)
Definition surrogate_new (p : P) : surrogate := mksurrogate 0 p.

(** one element of a list that starts with a configuration: config.get_array() (utils/utils.py:46); an array
    has none *)
Definition get_array (i : item N) : res (list N) := match i with IConf c => Ok (c_vec c) | IRow _ => Err AttributeError end.
(** config_list_to_array: utils/utils.py:41-47.  np.asarray of a list that starts with an array and
    has configurations in it is not modelled (TypeError here); a bare configuration is outside of the signature (TypeError) *)
Definition config_list_to_array (x : xinput N) : res (list (list N)) :=
  match x with
  | XArr rows => Ok rows
  | XConf _ => Err TypeError
  | XList [] => Ok []
  | XList (IConf c :: l) => mapM get_array (IConf c :: l)
  | XList l => mapM (fun i => match i with IRow r => Ok r | IConf _ => Err TypeError end) l
  end.
(** fit: surrogate_models/__init__.py:49-56; _fit: sklearn_surrogates.py:16-17 *)
Definition surrogate_fit_data (s : surrogate) (x : xinput N) (y : list (json N)) : surrogate * res unit :=
  match config_list_to_array x with
  | Err e => (s, Err e)
  | Ok rows => let r := pipe_fit (g_pipe s) rows y in (mksurrogate (length y) (fst r), snd r)
  end.
(** predict: sklearn_surrogates.py:19-27 *)
Definition surrogate_predict (s : surrogate) (rows : list (list N)) : res (list N * list N) := pipe_predict (g_pipe s) rows.

(** what a user does with a surrogate: fit (surrogate_models/__init__.py:49), predict
    (sklearn_surrogates.py:19), call (surrogate_models/__init__.py:19) *)
Inductive sop := OFit (x : xinput N) (y : list (json N)) | OPredict (rows : list (list N)) | OCall (x : xinput N).
(** what these return: surrogate_models/__init__.py:34, 56, sklearn_surrogates.py:27 *)
Inductive sout := RFit (r : res unit) | RPredict (r : res (list N * list N)) | RCall (r : res (sresult N)).
(** one of them: surrogate_models/__init__.py:19-56, sklearn_surrogates.py:16-27 *)
Definition surrogate_step (s : surrogate) (o : sop) : surrogate * sout :=
  match o with
  | OFit x y => let r := surrogate_fit_data s x y in (fst r, RFit (snd r))
  | OPredict rows => (s, RPredict (surrogate_predict s rows))
  | OCall x => (s, RCall (surrogate_call (surrogate_predict s) x))
  end.
(** any history of operations on one object (surrogate_models/__init__.py:19-56) *)
Definition surrogate_run (s : surrogate) (ops : list sop) : surrogate := fold_left (fun s o => fst (surrogate_step s o)) ops s.

(** __str__: surrogate_models/__init__.py:36-37 *)
Definition surrogate_str (class_name : string) (s : surrogate) : string :=
  (class_name ++ "(fitted on " ++ dec (g_points s) ++ " points)")%string.
End Surrogate.
Arguments surrogate : clear implicits.
Arguments sop : clear implicits.
Arguments sout : clear implicits.

(** ** blackbox functions *)
Section Blackbox.
Context {N : Num}.
(** a benchmark of hpobench: get_configuration_space(seed) and objective_function(configuration=.., rng=..), a
    dictionary (hpo_bench.py:22, 29); seeds are integers or None *)
Record benchmark := mkbench {
  bm_class : string;
  bm_space : option Z -> cspace N;
  bm_objective : config N -> option Z -> res (list (string * json N))
}.
(** HPOBenchBlackbox.__init__: hpo_bench.py:20-23 *)
Record hpo := mkhpo { hb_bench : benchmark; hb_cs : cspace N; hb_seed : option Z }.
(** HPOBenchBlackbox.__init__: hpo_bench.py:20-23; the space is used as it is (blackbox_functions/__init__.py:12) *)
Definition hpo_new (b : benchmark) (seed : option Z) : hpo := mkhpo b (bm_space b seed) seed.
(** result_dict["function_value"]: hpo_bench.py:30 *)
Fixpoint dict_get (d : list (string * json N)) (k : string) : res (json N) :=
  match d with [] => Err KeyError | (n, v) :: t => if String.eqb n k then Ok v else dict_get t k end.
(** value_from_config: hpo_bench.py:28-30 *)
Definition hpo_value (h : hpo) (c : config N) : res (json N) :=
  d <- bm_objective (hb_bench h) c (hb_seed h) ;; dict_get d "function_value".
(** __call__: blackbox_functions/__init__.py:16-18 *)
Definition hpo_call (h : hpo) (kwargs : config N) : res (json N) := bb_call (hpo_value h) (hb_cs h) kwargs.

(** __name__: str(self), blackbox_functions/__init__.py:14, 20-21; hpo_bench.py:25-26;
    the name given to a CallableBlackboxFunction, blackbox_functions/__init__.py:70-71 *)
Definition bb_name (class_name : string) (ndim : nat) : string := (class_name ++ "(" ++ dec ndim ++ ")")%string.
(** CallableBlackboxFunction.__init__: blackbox_functions/__init__.py:67-71 *)
Definition callable_name (cs : cspace N) (name : option string) : string :=
  match name with Some n => n | None => bb_name "CallableBlackboxFunction" (length cs) end.
(** HPOBenchBlackbox.__repr__: hpo_bench.py:25-26 *)
Definition hpo_name (h : hpo) : string := ("HPOBenchmark(benchmark=" ++ bm_class (hb_bench h) ++ ")")%string.
(** CallableBlackboxFunction.__call__: blackbox_functions/__init__.py:16-18, 73-74; [f] is the user's function *)
Definition callable_call {A} (f : config N -> res A) (cs : cspace N) (kwargs : config N) : res A := bb_call f cs kwargs.
End Blackbox.
Arguments benchmark : clear implicits.
Arguments hpo : clear implicits.
