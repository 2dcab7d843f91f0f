(** RandomPointsModel.v - Algorithm.from_random_points (pyPDP/algorithms/__init__.py:28-46) over the heap of
    configuration spaces of SeedModel.v. *)
From Verif Require Import Base Num NumpyModel ConfigSpaceModel UtilsModel IceModel PartitionModel SeedModel.
From Coq Require Import ZArith.
Local Open Scope list_scope.

Section RandomPoints.
Context {N : Num} {X : Type}.
(** the arrays of the configurations that sample_configuration(n) returns in a random state
    (algorithms/__init__.py:37) *)
Variable draw : cspace N -> origin -> list nat -> nat -> list (list N).
(** sample_configuration(1) returns a configuration and not a list (algorithms/__init__.py:37) *)
Variable bare : bool.

(** cs.seed(seed) with the seed as it is given (algorithms/__init__.py:35, utils/utils.py:227): RandomState takes True
    as 1 and False as 0 *)
Definition raw_seed (seed : seedarg) : option Z :=
  match seed with SeedNone => None | SeedTrue => Some 1%Z | SeedFalse => Some 0%Z | SeedInt z => Some z end.

(** np.asarray([config.get_array() for config in ..]): algorithms/__init__.py:36-39.  Iterating a bare
    configuration gives the names of its hyperparameters, and a string has no get_array *)
Definition sample_array (cs : cspace N) (n : nat) (rows : list (list N)) : res (list (list N)) :=
  if bare && Nat.eqb n 1 then match cs with [] => Ok [] | _ => Err AttributeError end else Ok rows.

(** from_random_points: algorithms/__init__.py:28-46.  [l] is the space of the surrogate; [build] is the rest of
    cls.__init__ after ConfigSpaceHolder.__init__ (algorithms/__init__.py:19-26), given self.config_space and
    the samples.  Returns the heap, self.config_space and the object. *)
Definition from_random_points (cls : string) (clock : Z) (build : cspace N -> list (list N) -> res X)
    (n : nat) (seed : seedarg) (l : nat) (w : sworld (A:=cspace N)) : res (sworld (A:=cspace N) * (nat * X)) :=
  c <- copy_config_space l (raw_seed seed) w ;;
  o <- py_nth (w_heap (fst c)) (snd c) ;;
  s <- sample_space draw (snd c) n (fst c) ;;
  samples <- sample_array (o_space o) n (snd s) ;;
  h <- holder_init cls clock seed l (fst s) ;;
  o' <- py_nth (w_heap (fst h)) (snd h) ;;
  x <- build (o_space o') samples ;;
  Ok (fst h, (snd h, x)).

(** cls(...) of an ICE or a PDP: algorithms/__init__.py:19-26, ice.py:165-177, pdp.py:20-27 *)
Definition build_algorithm (sel : selection N) (gpa : nat) (cs : cspace N) (samples : list (list N)) : res (algorithm N) :=
  algorithm_new cs sel samples gpa.
(** cls(...) of a DecisionTreePartitioner with the default arguments: decision_tree_partitioner.py:194-225; the
    spaces that its ICE and its regions copy are not on the heap here *)
Definition build_tree (predict : predictor N) (sel : selection N) (gpa : nat) (cs : cspace N) (samples : list (list N)) : res (dtp N) :=
  dt_new cs predict sel samples gpa 100 10 None.
End RandomPoints.
