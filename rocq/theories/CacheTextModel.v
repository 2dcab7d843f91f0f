(** CacheTextModel.v - objectives as the cache key of a sampler sees them: by their text
    (sampler/__init__.py:33, 49-56; blackbox_functions/__init__.py:14-21, 66-74; hpo_bench.py:25-26).
    No proofs here. *)
From Coq Require Import DecimalString.
From Verif Require Import Base Num NumpyModel ConfigSpaceModel SamplerModel SyntheticModel WrapperModel.

Section Text.
Context {N : Num}.

(** CallableBlackboxFunction: the function, the space and the name given.
    blackbox_functions/__init__.py:66-74 *)
Record callable := mkcallable { cb_fun : config N -> res (json N); cb_cs : cspace N; cb_given : option string }.
(** str(callable) is its __repr__; the given name only replaces __name__:
    blackbox_functions/__init__.py:14, 20-21, 70-71 *)
Definition callable_str (c : callable) : string := bb_name "CallableBlackboxFunction" (List.length (cb_cs c)).
(** str of an HPOBenchBlackbox: hpo_bench.py:25-26 *)
Definition hpo_str (h : hpo N) : string := hpo_name h.
(** str(sampler) shows obj_func.__name__: sampler/__init__.py:40-41 *)
Definition sampler_str (class_name objective_name : string) : string := (class_name ++ "(" ++ objective_name ++ ")")%string.
(** str(seed) of None or an integer, as hashed in sampler/__init__.py:33, 53-54 *)
Definition seed_text (z : option Z) : string :=
  match z with None => "None" | Some z => NilEmpty.string_of_int (Z.to_int z) end.

(** the same interpreter, files and generators with another objective: obj_func(double-star config),
    sampler/__init__.py:30, random_sampler.py:25, bayesian_optimization.py:66, 104, grid_sampler.py:45 *)
Definition with_objective (w : world N) (f : config N -> res (json N)) : world N :=
  mkworld (fun _ c => f c) (w_batch w) (w_bare w) (w_rand w) (w_steps w) (w_ints w) (w_fit w) (w_acq w) (w_loads w) (w_dumps w) (w_md5 w).
(** calling the callable: blackbox_functions/__init__.py:16-18, 73-74 *)
Definition callable_at (c : callable) (kwargs : config N) : res (json N) := callable_call (cb_fun c) (cb_cs c) kwargs.

(** what the key of a random or grid sampler is made of (sampler/__init__.py:33, 49-56): str(class),
    str(hyperparameters), str(seed), str(obj_func); for BO the further texts [rest] of bayesian_optimization.py:53 *)
Definition ident_of (cls space : string) (seed : option Z) (objective : string) (rest : string * string * string * string) : ident :=
  let '(acq, kwargs, points, surrogate) := rest in
  mkident cls space (seed_text seed) objective acq kwargs points surrogate.
End Text.
Arguments callable : clear implicits.
