(** Prop_Wrapper.v - surrogates and blackbox functions around foreign code (C83, C84). *)
From Coq Require Import QArith.
From Verif Require Import Base Num NumpyModel ConfigSpaceModel SamplerModel AcquisitionModel SyntheticModel SyntheticSpec WrapperModel WrapperSpec WrapperProofs.
Local Open Scope nat_scope.
Local Open Scope list_scope.

(** ** C83 *)
(** num_fitted_points is the number of targets of the last fit that got as far as the pipeline, also when the
    pipeline raised *)
Theorem C83_fitted_points : forall (N : Num) (P : Type) pipe_fit pipe_predict (s : surrogate P) (ops : list (sop N)),
  g_points (surrogate_run pipe_fit pipe_predict s ops) = match last_fit ops with Some d => length (snd d) | None => g_points s end.
Proof. exact @points_of_history. Qed.
Print Assumptions C83_fitted_points.

(** for a pipeline whose fit forgets what it was fitted to before, predictions depend on the last fit only *)
Theorem C83_last_fit : forall (N : Num) (P : Type) pipe_fit pipe_predict (F : list (list N) -> list (json N) -> P * res unit),
  (forall p x y, pipe_fit p x y = F x y) ->
  forall s ops rows, pipe_predict (g_pipe (surrogate_run pipe_fit pipe_predict s ops)) rows =
    match last_fit ops with Some d => pipe_predict (fst (F (fst d) (snd d))) rows | None => pipe_predict (g_pipe s) rows end.
Proof. exact @predictions_of_history. Qed.
Print Assumptions C83_last_fit.

Theorem C83_only_fit_changes : forall (N : Num) (P : Type) pipe_fit pipe_predict (s : surrogate P) (o : sop N),
  (forall x y rows, o = OFit x y -> config_list_to_array x = Ok rows -> False) -> fst (surrogate_step pipe_fit pipe_predict s o) = s.
Proof. exact @only_fit_changes. Qed.
Print Assumptions C83_only_fit_changes.

(** the text of a surrogate tells the number of points *)
Theorem C83_text : forall (P : Type) (name : string) (s s' : surrogate P), surrogate_str name s = surrogate_str name s' <-> g_points s = g_points s'.
Proof. exact @str_points. Qed.
Print Assumptions C83_text.

(** a pipeline that remembers its targets and raises for none: fitted to two points, then to none, then a fit with
    a list that cannot be converted, then a prediction *)
Definition px_fit (p : list (json QNum)) (x : list (list QNum)) (y : list (json QNum)) : list (json QNum) * res unit := (y, match y with [] => Err ValueError | _ => Ok tt end).
Definition px_predict (p : list (json QNum)) (rows : list (list QNum)) : res (list QNum * list QNum) :=
  match p with [] => Err AttributeError | _ => Ok (map (fun _ => inject_Z (Z.of_nat (length p))) rows, map (fun _ => 0%Q) rows) end.
Definition px_row : item QNum := IRow [0%Q : QNum].
Definition px_conf : item QNum := IConf (mkconf [1%Q : QNum] []).
Definition px_ops : list (sop QNum) := [OFit (XList [px_row; px_row]) [JNum (0%Q : QNum); JNum (1%Q : QNum)]; OPredict [[0%Q : QNum]]].
Definition px_bad : list (sop QNum) := [OFit (XArr []) []; OFit (XList [px_conf; px_row]) [JNum (0%Q : QNum)]].
Example C83_example : let r ops := surrogate_run px_fit px_predict (surrogate_new []) ops in
  (forall p x y, px_fit p x y = px_fit [] x y) /\
  g_points (r px_ops) = 2 /\ surrogate_str "GaussianProcessSurrogate" (r px_ops) = "GaussianProcessSurrogate(fitted on 2 points)"%string /\
  is_ok (surrogate_predict px_predict (r px_ops) [[0%Q]]) = true /\
  g_points (r (px_ops ++ px_bad)) = 0 /\ surrogate_predict px_predict (r (px_ops ++ px_bad)) [[0%Q]] = Err AttributeError /\
  snd (surrogate_step px_fit px_predict (r px_ops) (OFit (XList [px_conf; px_row]) [])) = RFit (Err AttributeError).
Proof. repeat split. Qed.

(** ** C84 *)
(** every call evaluates the benchmark at the configuration of the keywords, with the seed of the constructor, and
    returns its function_value; a benchmark is not evaluated for illegal keywords *)
Theorem C84_benchmark : forall (N : Num) (b : benchmark N) seed kw, let h := hpo_new b seed in
  hb_cs h = bm_space b seed /\
  (legal_keywords (hb_cs h) kw -> exists c, config_for (hb_cs h) kw c /\
     (forall d v, bm_objective b c seed = Ok d -> NoDup (map fst d) -> In ("function_value"%string, v) d -> hpo_call h kw = Ok v) /\
     (forall d, bm_objective b c seed = Ok d -> ~ In "function_value"%string (map fst d) -> hpo_call h kw = Err KeyError) /\
     (forall e, bm_objective b c seed = Err e -> hpo_call h kw = Err e)) /\
  (illegal_keywords (hb_cs h) kw -> hpo_call h kw = Err ValueError).
Proof. exact @hpo_calls. Qed.
Print Assumptions C84_benchmark.

Theorem C84_callable : forall (N : Num) A (f : config N -> res A) (cs : cspace N) kw,
  (legal_keywords cs kw -> exists c, config_for cs kw c /\ callable_call f cs kw = f c) /\
  (illegal_keywords cs kw -> callable_call f cs kw = Err ValueError).
Proof. exact @callable_calls. Qed.
Print Assumptions C84_callable.

(** a given name is used; otherwise the name tells the number of hyperparameters *)
Theorem C84_names : forall (N : Num) (cs cs' : cspace N) cls n, callable_name cs (Some n) = n /\
  (callable_name cs None = callable_name cs' None <-> length cs = length cs') /\
  (forall d d', bb_name cls d = bb_name cls d' <-> d = d').
Proof. exact @names. Qed.
Print Assumptions C84_names.

(** a benchmark over one hyperparameter whose upper bound is the seed and whose value is x + seed *)
Definition bench_ex : benchmark QNum := mkbench "Bench"
  (fun s => [mkhp "x" (KFloat (0%Q : QNum) (inject_Z (match s with Some z => z | None => 1 end)) false)])
  (fun c s => match config_get c "x", s with
              | Some (VNum x), Some z => Ok [("cost"%string, JNull); ("function_value"%string, JNum (Qplus x (inject_Z z) : QNum))]
              | _, _ => Ok [("cost"%string, JNull)] end).
Example C84_example : let h := hpo_new bench_ex (Some 7%Z) in
  legal_keywords (hb_cs h) [("x"%string, VNum (2%Q : QNum))] /\ hpo_call h [("x"%string, VNum (2%Q : QNum))] = Ok (JNum (9%Q : QNum)) /\
  illegal_keywords (hb_cs h) [("x"%string, VNum (8%Q : QNum))] /\ hpo_call h [("x"%string, VNum (8%Q : QNum))] = Err ValueError /\
  hpo_call (hpo_new bench_ex None) [("x"%string, VNum (1%Q : QNum))] = Err KeyError /\
  hpo_name h = "HPOBenchmark(benchmark=Bench)"%string /\ callable_name (hb_cs h) None = "CallableBlackboxFunction(1)"%string.
Proof.
  cbv zeta. refine (conj (conj _ _) (conj eq_refl (conj _ (conj eq_refl (conj eq_refl (conj eq_refl eq_refl)))))).
  - cbn. tauto.
  - intros h [<-|[]]. eexists. split; reflexivity.
  - right. eexists. split; [left; reflexivity|]. intros v E. injection E as <-. reflexivity.
Qed.
