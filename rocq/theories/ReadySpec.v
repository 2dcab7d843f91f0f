(** ReadySpec.v - what a call of a get_* function asks for (C110). *)
From Verif Require Import Base Num ConfigSpaceModel SamplerModel WrapperModel ReadyModel.
Local Open Scope string_scope.

Definition given_seed (r : ready) : option (option Z) :=
  match r with Cifar100 s => s | BNN s => s | Paramnet s => s | Cartpole s _ => s | SVM _ s => s | RF _ s => s | NN _ s => s end.
(** 0 unless given; None is a value *)
Definition seed_of (r : ready) : option Z := match given_seed r with Some s => s | None => Some 0%Z end.
(** the OpenML task, 2079 unless given *)
Definition task_of (r : ready) : list Z :=
  match r with
  | SVM t _ | RF t _ | NN t _ => [match t with Some z => z | None => 2079%Z end]
  | _ => []
  end.
Definition module_of (r : ready) : string :=
  match r with
  | Cifar100 _ => "hpobench.benchmarks.nas.nasbench_201." | BNN _ => "hpobench.benchmarks.ml.pybnn."
  | Paramnet _ => "hpobench.benchmarks.surrogates.paramnet_benchmark." | Cartpole _ _ => "hpobench.benchmarks.rl.cartpole."
  | SVM _ _ | RF _ _ | NN _ _ => "hpobench.benchmarks.ml."
  end.
Definition class_of (r : ready) : string :=
  match r with
  | Cifar100 _ => "Cifar100NasBench201Benchmark" | BNN _ => "BNNOnBostonHousing" | Paramnet _ => "ParamNetAdultOnTimeBenchmark"
  | Cartpole _ (Some false) => "CartpoleFull" | Cartpole _ _ => "CartpoleReduced"
  | SVM _ _ => "SVMBenchmarkMF" | RF _ _ => "RandomForestBenchmarkMF" | NN _ _ => "NNBenchmarkMF"
  end.
(** the objects of the library know their class *)
Definition honest {N : Num} (lib : string -> list Z -> option Z -> res (benchmark N)) : Prop :=
  forall r b, lib (module_of r ++ class_of r) (task_of r) (seed_of r) = Ok b -> bm_class b = class_of r.
