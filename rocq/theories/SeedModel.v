(** SeedModel.v - ConfigSpaceHolder, copy_config_space and sampling (pyPDP/utils/utils.py:16-38,
    225-228) with configuration spaces as mutable objects on a heap. *)
From Verif Require Import Base Md5Model.
From Coq Require Import ZArith.
Local Open Scope Z_scope.

(** where the random state of a space started: RandomState(s), RandomState(None) number [k], or
    whatever the caller's space [k] was built with: utils/utils.py:21-35, 227 *)
Inductive origin := Seeded (s : Z) | Entropy (k : nat) | Given (k : nat).
(** a ConfigurationSpace object: what it contains, and its random state, as the origin and the
    sample_configuration calls since: utils/utils.py:24, 35, 38, 226-227 *)
Record space_obj (A : Type) := mkobj { o_space : A; o_origin : origin; o_calls : list nat }.
Arguments mkobj {A}. Arguments o_space {A}. Arguments o_origin {A}. Arguments o_calls {A}.

(** the seed argument of ConfigSpaceHolder: utils.py:17 *)
Inductive seedarg := SeedNone | SeedTrue | SeedFalse | SeedInt (z : Z).

Section Seeds.
Context {A B : Type}.
(** what sample_configuration(n) returns in a random state: sampler/__init__.py:174, random_sampler.py:22,
    bayesian_optimization.py:62, acquisition_function.py:38 *)
Variable draw : A -> origin -> list nat -> nat -> B.

(** the heap, and the number of RandomState(None) made so far: utils/utils.py:226-228 *)
Record sworld := mkw { w_heap : list (space_obj A); w_entropy : nat }.

(** cs.seed(seed): np.random.RandomState(seed) raises ValueError outside 0 .. 2**32 - 1: utils/utils.py:227 *)
Definition seed_space (seed : option Z) (w : sworld) (o : space_obj A) : res (sworld * space_obj A) :=
  match seed with
  | Some s => _ <- guard ((0 <=? s) && (s <? 4294967296)) ValueError ;; Ok (w, mkobj (o_space o) (Seeded s) [])
  | None => Ok (mkw (w_heap w) (w_entropy w + 1)%nat, mkobj (o_space o) (Entropy (w_entropy w)) [])
  end.
(** copy_config_space: utils.py:225-228 *)
Definition copy_config_space (l : nat) (seed : option Z) (w : sworld) : res (sworld * nat) :=
  o <- py_nth (w_heap w) l ;;
  p <- seed_space seed w o ;;
  Ok (mkw (w_heap (fst p) ++ [snd p]) (w_entropy (fst p)), length (w_heap (fst p))).
(** ConfigSpaceHolder.__init__ for a class name, the milliseconds of the clock and the caller's
    space; returns self.config_space: utils.py:17-35 *)
Definition holder_seed (cls : string) (clock : Z) (seed : seedarg) : option Z :=
  match seed with
  | SeedTrue => None
  | SeedNone => Some (clock mod 2147483648)
  | SeedFalse => Some ((class_hash cls + 0) mod 2147483648)
  | SeedInt z => Some ((class_hash cls + z) mod 2147483648)
  end.
(** ConfigSpaceHolder.__init__: utils/utils.py:17-35 *)
Definition holder_init (cls : string) (clock : Z) (seed : seedarg) (l : nat) (w : sworld) : res (sworld * nat) :=
  match holder_seed cls clock seed with
  | None => Ok (w, l)
  | Some s => copy_config_space l (Some s) w
  end.
(** sample_random_configuration: utils.py:37-38 *)
Definition sample_space (l : nat) (n : nat) (w : sworld) : res (sworld * B) :=
  o <- py_nth (w_heap w) l ;;
  Ok (mkw (set_nth l (mkobj (o_space o) (o_origin o) (o_calls o ++ [n])) (w_heap w)) (w_entropy w),
      draw (o_space o) (o_origin o) (o_calls o) n).

(** a program: holders are built on the spaces of earlier holders (or of the caller), copies are
    taken (sampler/__init__.py:173) and spaces are sampled; handle k is the k-th
    space named so far.  What was sampled is listed with the handle used *)
Inductive seedop :=
| OpHolder (cls : string) (clock : Z) (seed : seedarg) (src : nat)
| OpCopy (seed : option Z) (src : nat)
| OpSample (h : nat) (n : nat).
(** one step of such a program: utils/utils.py:17-38, 225-228 *)
Definition seed_step (st : sworld * list nat) (op : seedop) : res (sworld * list nat * list (nat * B)) :=
  let (w, hs) := st in
  match op with
  | OpHolder cls clock seed src =>
      l <- py_nth hs src ;; p <- holder_init cls clock seed l w ;; Ok (fst p, hs ++ [snd p], [])
  | OpCopy seed src =>
      l <- py_nth hs src ;; p <- copy_config_space l seed w ;; Ok (fst p, hs ++ [snd p], [])
  | OpSample h n =>
      l <- py_nth hs h ;; p <- sample_space l n w ;; Ok (fst p, hs, [(h, snd p)])
  end.
(** a program, up to the first exception: utils/utils.py:17-38, 225-228 *)
Fixpoint seed_run (st : sworld * list nat) (ops : list seedop) : res (sworld * list nat * list (nat * B)) :=
  match ops with
  | [] => Ok (st, [])
  | op :: rest => p <- seed_step st op ;; q <- seed_run (fst p) rest ;; Ok (fst q, snd p ++ snd q)
  end.
(** the caller's spaces: given to ConfigSpaceHolder.__init__, utils/utils.py:17 *)
Definition seed_start (spaces : list A) : sworld * list nat :=
  (mkw (map (fun p => mkobj (snd p) (Given (fst p)) []) (combine (seq 0 (length spaces)) spaces)) 0, seq 0 (length spaces)).
End Seeds.
