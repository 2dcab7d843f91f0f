(** Prop_RandomPoints.v - algorithms on random samples: Algorithm.from_random_points (C85).

    The theorems hold for every class: [build] is the rest of its constructor, given the space and the samples.
    [draw cs o calls n] are the rows of sample_configuration(n) of a space whose random state started at [o] and was
    asked for [calls] since. *)
From Coq Require Import ZArith QArith.
From Verif Require Import Base Num NumpyModel ConfigSpaceModel UtilsModel IceModel PartitionModel PartitionSpec SeedModel RandomPointsModel RandomPointsProofs.
Local Open Scope nat_scope.
Local Open Scope list_scope.

(** ** C85 *)
(** the samples are the first [n] drawn from a fresh copy of the surrogate's space with the given seed (True counts as
    1); no space that existed before is sampled or changed; the object shares the surrogate's space for True and
    has a new one otherwise *)
Theorem C85_samples : forall (N : Num) (X : Type) draw l seed (w : sworld (A:=cspace N)) o n bare cls clock (build : cspace N -> list (list N) -> res X),
  nth_error (w_heap w) l = Some o ->
  match seed with SeedInt z => (0 <= z < 2 ^ 32)%Z | _ => True end -> bare && Nat.eqb n 1 = false ->
  let samples := draw (o_space o) (match seed with SeedInt z => Seeded z | SeedTrue => Seeded 1 | SeedFalse => Seeded 0 | SeedNone => Entropy (w_entropy w) end) [] n in
  (forall e, build (o_space o) samples = Err e -> from_random_points draw bare cls clock build n seed l w = Err e) /\
  (forall x, build (o_space o) samples = Ok x -> exists w' k,
     from_random_points draw bare cls clock build n seed l w = Ok (w', (k, x)) /\
     (forall i, i < length (w_heap w) -> nth_error (w_heap w') i = nth_error (w_heap w) i) /\
     (seed = SeedTrue -> k = l) /\ (seed <> SeedTrue -> length (w_heap w) <= k) /\
     w_entropy w' = (match seed with SeedNone => w_entropy w + 1 | _ => w_entropy w end)).
Proof. exact @random_points_samples. Qed.
Print Assumptions C85_samples.

(** equal seeds and equal spaces give equal objects, whatever the class, the clock and the samples drawn before *)
Theorem C85_same_seed : forall (N : Num) (X : Type) draw z (w v : sworld (A:=cspace N)) l m o p n bare cls cls' clock clock' (build : cspace N -> list (list N) -> res X) r r',
  nth_error (w_heap w) l = Some o -> nth_error (w_heap v) m = Some p -> o_space o = o_space p ->
  from_random_points draw bare cls clock build n (SeedInt z) l w = Ok r -> from_random_points draw bare cls' clock' build n (SeedInt z) m v = Ok r' ->
  snd (snd r) = snd (snd r').
Proof. exact @random_points_same_int. Qed.
Print Assumptions C85_same_seed.

(** a seed that a constructor takes and from_random_points does not *)
Theorem C85_seed_range : forall (N : Num) (X : Type) draw l z (w : sworld (A:=cspace N)) o n bare cls clock (build : cspace N -> list (list N) -> res X),
  nth_error (w_heap w) l = Some o -> ~ (0 <= z < 2 ^ 32)%Z ->
  from_random_points draw bare cls clock build n (SeedInt z) l w = Err ValueError /\ exists w' k, holder_init cls clock (SeedInt z) l w = Ok (w', k).
Proof. exact @random_points_seed. Qed.
Print Assumptions C85_seed_range.

(** a tree from random points is a tree of the setup with a hundred split values per hyperparameter, ten curves per
    region and no hyperparameter excluded, so that all theorems about trees hold for it *)
Theorem C85_tree : forall (N : Num) draw l seed (w : sworld (A:=cspace N)) o n bare cls clock (predict : predictor N) sel gpa w' k p,
  nth_error (w_heap w) l = Some o ->
  match seed with SeedInt z => (0 <= z < 2 ^ 32)%Z | _ => True end -> bare && Nat.eqb n 1 = false ->
  from_random_points draw bare cls clock (build_tree predict sel gpa) n seed l w = Ok (w', (k, p)) ->
  let samples := draw (o_space o) (match seed with SeedInt z => Seeded z | SeedTrue => Seeded 1 | SeedFalse => Seeded 0 | SeedNone => Entropy (w_entropy w) end) [] n in
  let s := mksetup (o_space o) predict sel samples gpa 100 10 None in
  construct s = Ok p /\ reaches s p /\ d_nsplits p = 100 /\ d_minpts p = 10.
Proof. exact @random_points_tree. Qed.
Print Assumptions C85_tree.

(** that any number of samples works is refuted for one *)
Theorem C85_one_sample_refuted : forall (N : Num) (X : Type) draw l seed (w : sworld (A:=cspace N)) o cls clock (build : cspace N -> list (list N) -> res X),
  nth_error (w_heap w) l = Some o -> match seed with SeedInt z => (0 <= z < 2 ^ 32)%Z | _ => True end -> o_space o <> [] ->
  from_random_points draw true cls clock build 1 seed l w = Err AttributeError.
Proof. exact @random_points_one_seed. Qed.
Print Assumptions C85_one_sample_refuted.

(** a space of x1 and x2 and a generator that writes down where it was: an ICE with seed 3 after five other samples *)
Definition rp_space : cspace QNum := [mkhp "x1" (KFloat (0%Q : QNum) 1%Q false); mkhp "x2" (KFloat (0%Q : QNum) 1%Q false)].
Definition rp_draw (cs : cspace QNum) (o : origin) (calls : list nat) (n : nat) : list (list QNum) :=
  repeat [inject_Z (match o with Seeded z => z | _ => 0 end); inject_Z (Z.of_nat (length calls)) : QNum] n.
Definition rp_world : sworld (A:=cspace QNum) := mkw [mkobj rp_space (Given 0) [5]] 0.
Example C85_example : let run seed n := from_random_points rp_draw true "ICE" 17 (build_algorithm (SelOne (SName "x1")) 4) n seed 0 rp_world in
  let seen (r : res (sworld (A:=cspace QNum) * (nat * algorithm QNum))) := match r with Ok (w', (k, a)) => Ok (k, a_samples a : list (list Q), option_map (fun o => (o_origin o, o_calls o)) (nth_error (w_heap w') 0)) | Err e => Err e end in
  seen (run (SeedInt 3) 2) = Ok (2, [[3%Q; 0%Q]; [3%Q; 0%Q]], Some (Given 0, [5])) /\
  seen (run SeedTrue 2) = Ok (0, [[1%Q; 0%Q]; [1%Q; 0%Q]], Some (Given 0, [5])) /\
  seen (run (SeedInt 3) 1) = Err AttributeError /\ seen (run (SeedInt (-3)) 2) = Err ValueError.
Proof. vm_compute. repeat split. Qed.
(** a tree on three samples with seed 3 *)
Example C85_example_tree : match from_random_points rp_draw true "DecisionTreePartitioner" 17 (build_tree (fun rows => Ok (map (fun _ => 0%Q : QNum) rows, map (fun _ => 1%Q : QNum) rows)) (SelOne (SName "x1")) 2) 3 (SeedInt 3) 0 rp_world with
  | Ok (w', (k, p)) => k = 2 /\ d_nsplits p = 100 /\ option_map (fun nd => length (r_x (n_region nd))) (deref p 0) = Some 3
  | Err _ => False end.
Proof. vm_compute. repeat split. Qed.
