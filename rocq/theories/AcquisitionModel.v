(** AcquisitionModel.v - pyPDP/sampler/acquisition_function.py, pyPDP/surrogate_models/__init__.py
    and BayesianOptimizationSampler.surrogate_score (pyPDP/sampler/bayesian_optimization.py).
    Plotting is in DrawModel.v. *)
From Verif Require Import Base Num NumpyModel ConfigSpaceModel SamplerModel.

Section Acquisition.
Context {N : Num}.

(** Python values given to an acquisition function or to a surrogate: a CS.Configuration, a list
    (of configurations or of arrays), a two-dimensional np.ndarray: acquisition_function.py:44-59 *)
Inductive item := IConf (c : conf N) | IRow (r : list N).
(** the arguments that convert_configs (acquisition_function.py:44-59), __call__
    (surrogate_models/__init__.py:19-34) and surrogate_score (bayesian_optimization.py:115-124) tell apart *)
Inductive xinput := XConf (c : conf N) | XList (l : list item) | XArr (rows : list (list N)).

(** the row of one element: config.get_array() or the array itself, acquisition_function.py:52-55,
    utils/utils.py:45-46 *)
Definition item_vec (i : item) : list N := match i with IConf c => c_vec c | IRow r => r end.
(** isinstance(X[0], CS.Configuration): surrogate_models/__init__.py:26 *)
Definition is_conf (i : item) : bool := match i with IConf _ => true | IRow _ => false end.

(** AcquisitionFunction.convert_configs: acquisition_function.py:44-59 *)
Definition convert_configs (x : xinput) : list (list N) :=
  match x with
  | XConf c => [c_vec c]
  | XList l => map item_vec l
  | XArr rows => rows
  end.

(** elementwise operation on the arrays mean and sigma.  Arrays of different lengths do not
    broadcast (length-1 arrays, which do, are not modelled: predict returns arrays of equal length):
    mean, sigma: acquisition_function.py:133-137, 163-167, 193-195 *)
Fixpoint map2 {A B C} (f : A -> B -> C) (a : list A) (b : list B) : list C :=
  match a, b with x :: a', y :: b' => f x y :: map2 f a' b' | _, _ => [] end.
(** numpy arithmetic on mean and sigma, which raises ValueError for arrays that do not fit:
    acquisition_function.py:133-137, 163-167, 193-195; also means and stds at plotting.py:197-198, 229-230 *)
Definition elementwise (f : N -> N -> N) (a b : list N) : res (list N) :=
  if Nat.eqb (length a) (length b) then Ok (map2 f a b) else Err ValueError.

(** SurrogateModel.predict: surrogate_models/__init__.py:39-47 - abstract: means and stds, or an exception *)
Variable predict : list (list N) -> res (list N * list N).

(** scipy.stats.norm.cdf and norm.pdf: acquisition_function.py:134-135, 166 *)
Variable cdf pdf : N -> N.

(** the three acquisition functions and their attributes: eta and exploration of
    ExpectedImprovement (acquisition_function.py:125-126) and ProbabilityOfImprovement (:154-155), tau of
    LowerConfidenceBound (:186) *)
Inductive acq := AEI (eta eps : N) | API (eta eps : N) | ALCB (tau : N).

(** ExpectedImprovement.__init__: acquisition_function.py:108-126; the other constructors
    (:145-155, :177-186) accept both directions *)
Inductive acq_class := CEI (eps : N) | CPI (eps : N) | CLCB (tau : N).
(** the constructors: acquisition_function.py:108-126, 145-155, 177-186 *)
Definition acq_new (c : acq_class) (minimize : bool) : res (acq * bool) :=
  match c with
  | CEI eps => if minimize then Ok (AEI n0 eps, minimize) else Err NotImplementedError
  | CPI eps => Ok (API n0 eps, minimize)
  | CLCB tau => Ok (ALCB tau, minimize)
  end.

(** update: acquisition_function.py:31-32 (nothing for LCB), :140-141, :170-171 *)
Definition acq_update (a : acq) (eta : N) : acq :=
  match a with AEI _ eps => AEI eta eps | API _ eps => API eta eps | ALCB tau => ALCB tau end.

(** ExpectedImprovement.__call__: acquisition_function.py:133-138, for one mean and sigma *)
Definition ei_value (eta eps mean sigma : N) : N :=
  if neqb sigma n0 then n0
  else let Z := ndiv (nsub (nsub eta mean) eps) sigma in
       nmul sigma (nadd (nmul Z (cdf Z)) (pdf Z)).
(** ProbabilityOfImprovement.__call__: acquisition_function.py:162-168 *)
Definition pi_value (minimize : bool) (eta eps mean sigma : N) : N :=
  if neqb sigma n0 then n0
  else cdf (ndiv (if minimize then nsub (nsub eta mean) eps else nsub (nsub mean eta) eps) sigma).
(** LowerConfidenceBound.__call__: acquisition_function.py:192-195; -mean is (-1) * mean *)
Definition lcb_value (minimize : bool) (tau mean sigma : N) : N :=
  if minimize then nadd (nmul (nofZ (-1)) mean) (nmul tau sigma) else nadd mean (nmul tau sigma).

(** which formula __call__ of each class uses: acquisition_function.py:128-138, 157-168, 188-195 *)
Definition acq_value (a : acq) (minimize : bool) : N -> N -> N :=
  match a with
  | AEI eta eps => ei_value eta eps
  | API eta eps => pi_value minimize eta eps
  | ALCB tau => lcb_value minimize tau
  end.
(** __call__: acquisition_function.py:128-138, 157-168, 188-195 *)
Definition acq_call (a : acq) (minimize : bool) (x : xinput) : res (list N) :=
  p <- predict (convert_configs x) ;;
  elementwise (acq_value a minimize) (fst p) (snd p).

(** max(pairs, key=lambda x: x[1]) and min: the first pair that no other one beats
    (acquisition_function.py:42, surrogate_models/__init__.py:93-95) *)
Fixpoint py_best {A} (better : N -> N -> bool) (best : A * N) (l : list (A * N)) : A * N :=
  match l with
  | [] => best
  | p :: l' => py_best better (if better (snd p) (snd best) then p else best) l'
  end.
(** max and min of an empty list raise ValueError: acquisition_function.py:42, surrogate_models/__init__.py:93-95 *)
Definition py_extreme {A} (better : N -> N -> bool) (l : list (A * N)) : res (A * N) :=
  match l with [] => Err ValueError | p :: l' => Ok (py_best better p l') end.

(** [for config in configs]: a list gives its configurations, a bare configuration its names:
    acquisition_function.py:40, surrogate_models/__init__.py:91 *)
Inductive element := EConf (c : conf N) | EName (s : string).
(** what zip(configs, values) takes from configs: acquisition_function.py:40, surrogate_models/__init__.py:91 *)
Definition elements (d : drawn N) : list element :=
  match d with DList l => map EConf l | DBare c => map (fun p => EName (fst p)) (c_vals c) end.
(** self(configs) for what sample_configuration returned: acquisition_function.py:38-39,
    surrogate_models/__init__.py:89-90 *)
Definition as_input (d : drawn N) : xinput :=
  match d with DList l => XList (map IConf l) | DBare c => XConf c end.

(** _get_optimum_uniform_distribution: acquisition_function.py:37-42; [d] is what
    sample_configuration(n_samples_for_optimization) returned *)
Definition get_optimum_pair (a : acq) (minimize : bool) (d : drawn N) : res (element * N) :=
  values <- acq_call a minimize (as_input d) ;;
  py_extreme (fun x y => nlt y x) (combine (elements d) values).
(** get_optimum: acquisition_function.py:34-35 *)
Definition get_optimum (a : acq) (minimize : bool) (d : drawn N) : res element :=
  p <- get_optimum_pair a minimize d ;; Ok (fst p).

(** ** surrogate_models/__init__.py *)

(** values a call of a surrogate may return: surrogate_models/__init__.py:22, 34 *)
Inductive sresult := SFloat (x : N) | SList (l : list N).

(** predict_configs: surrogate_models/__init__.py:62-74; config_list_to_array: utils/utils.py:41-47 *)
Definition predict_configs (l : list item) : res (list N * list N) := predict (map item_vec l).
(** predict_config: surrogate_models/__init__.py:76-81.  mean[0] and std[0] are floats *)
Definition predict_config (c : conf N) : res (N * N) :=
  p <- predict [c_vec c] ;;
  m <- py_nth (fst p) 0 ;;
  s <- py_nth (snd p) 0 ;;
  Ok (m, s).
(** a, b = v: exactly two values: means, stds = self.predict(X)[0], surrogate_models/__init__.py:31 *)
Definition unpack2 (l : list N) : res (N * N) := match l with [a; b] => Ok (a, b) | _ => Err ValueError end.

(** __call__: surrogate_models/__init__.py:19-34.  The second test reads
    (isinstance(X, list) and len(X) == 0) or isinstance(X[0], CS.Configuration) *)
Definition surrogate_call (x : xinput) : res sresult :=
  match x with
  | XConf c => p <- predict_config c ;; Ok (SFloat (fst p))
  | XList [] => p <- predict_configs [] ;; Ok (SList (fst p))
  | XList (i :: l) => if is_conf i then p <- predict_configs (i :: l) ;; Ok (SList (fst p)) else Err TypeError
  | XArr rows => _ <- py_nth rows 0 ;; p <- predict rows ;; q <- unpack2 (fst p) ;; Ok (SFloat (fst q))
  end.

(** get_incumbent: surrogate_models/__init__.py:83-95.  zip(configs, values) of a float raises TypeError *)
Definition get_incumbent (minimize : bool) (d : drawn N) : res (element * N) :=
  values <- surrogate_call (as_input d) ;;
  match values with
  | SFloat _ => Err TypeError
  | SList l => py_extreme (if minimize then nlt else fun x y => nlt y x) (combine (elements d) l)
  end.

(** calling a function with a keyword argument it does not accept raises TypeError; no predict of
    the package accepts one (surrogate_models/__init__.py:40, sklearn_surrogates.py:19) *)
Definition predict_keywords : list string := [].
(** self.surrogate_model.predict(x, return_std=True): bayesian_optimization.py:124 *)
Definition with_keyword {A} (accepted : list string) (kw : string) (m : res A) : res A :=
  if existsb (String.eqb kw) accepted then m else Err TypeError.

(** surrogate_score: bayesian_optimization.py:115-124.  len of a configuration is the number of its
    hyperparameters; what np.asarray makes of one does not matter, as the keyword is refused first *)
Definition surrogate_score (x : xinput) : res (list N * list N) :=
  let len := match x with XConf c => length (c_vals c) | XList l => length l | XArr rows => length rows end in
  if Nat.eqb len 0 then Ok ([], []) else with_keyword predict_keywords "return_std" (predict (convert_configs x)).

End Acquisition.
Arguments item N : clear implicits.
Arguments xinput N : clear implicits.
Arguments acq N : clear implicits.
Arguments acq_class N : clear implicits.
Arguments element N : clear implicits.
Arguments sresult N : clear implicits.
