(** ReadyModel.v - the functions get_* that make a benchmark and wrap it: hpo_bench.py:33-127.  No proofs here. *)
From Verif Require Import Base Num NumpyModel ConfigSpaceModel SamplerModel SyntheticModel WrapperModel.

Section Ready.
Context {N : Num}.
(** the library hpobench: importing a class and calling it with positional arguments and rng=..; either may raise
    (hpo_bench.py:40-41, 52-53, 63-64, 76-80, 93-94, 107-108, 121-122) *)
Variable lib : string -> list Z -> option Z -> res (benchmark N).

(** an argument that is not given has its default value: hpo_bench.py:33, 48, 60, 71, 88, 102, 116 *)
Definition arg {A} (default : A) (given : option A) : A := match given with Some x => x | None => default end.
(** f = HPOBenchBlackbox(b, seed=seed); cs = f.config_space; return cs, f: hpo_bench.py:42-45, 54-57, 65-68, 82-85, 96-99, 110-113, 124-127 *)
Definition wrapped (b : res (benchmark N)) (seed : option Z) : res (cspace N * hpo N) :=
  b <- b ;; let f := hpo_new b seed in Ok (hb_cs f, f).

(** get_Cifar100NasBench201Benchmark: hpo_bench.py:33-45 *)
Definition get_cifar100 (seed : option (option Z)) : res (cspace N * hpo N) :=
  let seed := arg (Some 0%Z) seed in wrapped (lib "hpobench.benchmarks.nas.nasbench_201.Cifar100NasBench201Benchmark" [] seed) seed.
(** get_BNNOnBostonHousing: hpo_bench.py:48-57 *)
Definition get_bnn (seed : option (option Z)) : res (cspace N * hpo N) :=
  let seed := arg (Some 0%Z) seed in wrapped (lib "hpobench.benchmarks.ml.pybnn.BNNOnBostonHousing" [] seed) seed.
(** get_Paramnet: hpo_bench.py:60-68 *)
Definition get_paramnet (seed : option (option Z)) : res (cspace N * hpo N) :=
  let seed := arg (Some 0%Z) seed in wrapped (lib "hpobench.benchmarks.surrogates.paramnet_benchmark.ParamNetAdultOnTimeBenchmark" [] seed) seed.
(** get_Cartpole: hpo_bench.py:71-85 *)
Definition get_cartpole (seed : option (option Z)) (reduced : option bool) : res (cspace N * hpo N) :=
  let seed := arg (Some 0%Z) seed in
  wrapped (if arg true reduced then lib "hpobench.benchmarks.rl.cartpole.CartpoleReduced" [] seed
           else lib "hpobench.benchmarks.rl.cartpole.CartpoleFull" [] seed) seed.
(** get_SVMBenchmarkMF: hpo_bench.py:88-99 *)
Definition get_svm (task : option Z) (seed : option (option Z)) : res (cspace N * hpo N) :=
  let seed := arg (Some 0%Z) seed in wrapped (lib "hpobench.benchmarks.ml.SVMBenchmarkMF" [arg 2079%Z task] seed) seed.
(** get_RFBenchmarkMF: hpo_bench.py:102-113 *)
Definition get_rf (task : option Z) (seed : option (option Z)) : res (cspace N * hpo N) :=
  let seed := arg (Some 0%Z) seed in wrapped (lib "hpobench.benchmarks.ml.RandomForestBenchmarkMF" [arg 2079%Z task] seed) seed.
(** get_NNBenchmarkMF: hpo_bench.py:116-127 *)
Definition get_nn (task : option Z) (seed : option (option Z)) : res (cspace N * hpo N) :=
  let seed := arg (Some 0%Z) seed in wrapped (lib "hpobench.benchmarks.ml.NNBenchmarkMF" [arg 2079%Z task] seed) seed.

(** a call of one of them, by its name: hpo_bench.py:33, 48, 60, 71, 88, 102, 116 *)
Inductive ready :=
| Cifar100 (seed : option (option Z)) | BNN (seed : option (option Z)) | Paramnet (seed : option (option Z))
| Cartpole (seed : option (option Z)) (reduced : option bool)
| SVM (task : option Z) (seed : option (option Z)) | RF (task : option Z) (seed : option (option Z)) | NN (task : option Z) (seed : option (option Z)).
(** its result: hpo_bench.py:33-127 *)
Definition get_ready (r : ready) : res (cspace N * hpo N) :=
  match r with
  | Cifar100 s => get_cifar100 s | BNN s => get_bnn s | Paramnet s => get_paramnet s
  | Cartpole s b => get_cartpole s b | SVM t s => get_svm t s | RF t s => get_rf t s | NN t s => get_nn t s
  end.
End Ready.
