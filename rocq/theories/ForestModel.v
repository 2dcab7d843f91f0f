(** ForestModel.v - pyPDP/algorithms/partitioner/random_forest_partitioner.py *)
From Verif Require Import Base Num NumpyModel ConfigSpaceModel UtilsModel IceModel PartitionModel.

Section Forest.
Context {N : Num}.

(** A random generator (np.random.default_rng, random_forest_partitioner.py:41): an arbitrary infinite stream of
    numbers and the position of the next one.  The stream is a free parameter,
    so every outcome of the draws below is covered. *)
Definition stream := nat -> nat.
(** rng.integers(0, hi, size=k) for hi > 0: random_forest_partitioner.py:72, 84 *)
Definition draws (rng : stream) (pos k hi : nat) : list nat :=
  map (fun i => rng (pos + i) mod hi) (seq 0 k).

(** RandomForestPartitioner: random_forest_partitioner.py:18-42.  [f_ice] is
    self.ice, which holds the space, the selection, the samples, the grid size and
    the surrogate; the object created on first access (partitioner/__init__.py:167-176)
    is indistinguishable from one created at once. *)
Record forest := mkforest {
  f_ice : ice N;
  f_possible : list (hp N);                (* possible_split_parameters *)
  f_nsplits : nat;                         (* num_splits_per_axis *)
  f_minpts : nat;                          (* min_points_per_node *)
  f_rng : stream; f_pos : nat;             (* self.rng *)
  f_trees : option (list (dtp N))          (* self.trees *)
}.

(** __init__: random_forest_partitioner.py:20-42 *)
Definition forest_new (cs : cspace N) (predict : predictor N) (sel : selection N) (samples : list (list N))
    (gpa num_splits min_points : nat) (rng : stream) : res forest :=
  a <- algorithm_new cs sel samples gpa ;;
  Ok (mkforest (ice_new a predict) (split_parameters cs (a_sel a) []) num_splits min_points rng 0 None).

(** from_ICE: random_forest_partitioner.py:44-54, with the defaults of lines 25-26 *)
Definition forest_from_ice (o : ice N) (rng : stream) : res forest :=
  let a := ic_alg o in
  f <- forest_new (a_cs a) (ic_predict o) (SelList (map SHp (a_sel a))) (a_samples a) (a_gpa a) 100 10 rng ;;
  Ok (mkforest o (f_possible f) (f_nsplits f) (f_minpts f) (f_rng f) (f_pos f) (f_trees f)).

(** the attributes of Algorithm that the forest shares with its ICE object: random_forest_partitioner.py:29-35,
    partitioner/__init__.py:170-175 *)
Definition f_alg (f : forest) : algorithm N := ic_alg (f_ice f).

(** itertools.compress: random_forest_partitioner.py:85 *)
Definition compress {A} (l : list A) (mask : list nat) : list A :=
  mask_select (map (fun b => negb (Nat.eqb b 0)) mask) l.

(** the drawn feature subset and the new position: random_forest_partitioner.py:83-87
    (rng.choice of an empty list raises ValueError) *)
Definition feature_subset (f : forest) (pos : nat) : nat * res (list (hp N)) :=
  let n_params := List.length (f_possible f) in
  let chosen := compress (f_possible f) (draws (f_rng f) pos n_params 2) in
  let pos' := pos + n_params in
  match chosen with
  | _ :: _ => (pos', Ok chosen)
  | [] => match f_possible f with
          | [] => (pos', Err ValueError)
          | h :: _ => (S pos', Ok (map (fun i => nth i (f_possible f) h) (draws (f_rng f) pos' 1 n_params)))
          end
  end.

(** set(possible_split_parameters) - set(splittable_hp): random_forest_partitioner.py:88.
    Hyperparameters of one space have distinct names; the order of the list made
    from the set is arbitrary in Python and has no influence. *)
Definition hp_difference (l l' : list (hp N)) : list (hp N) :=
  filter (fun h => negb (mem_string (hp_name h) (map hp_name l'))) l.

(** one iteration of the loop: random_forest_partitioner.py:71-97 (without the
    final append).  rng.integers(0, 0) raises ValueError. *)
Definition grow_tree (f : forest) (max_depth sample_size pos : nat) : nat * res (dtp N) :=
  let a := f_alg f in
  match a_samples a with
  | [] => (pos, Err ValueError)
  | _ :: _ =>
    let subset := map (fun i => nth i (a_samples a) []) (draws (f_rng f) pos sample_size (num_samples a)) in
    let subset_ice := ice_new (mkalg (a_cs a) (a_sel a) subset (a_gpa a)) (ic_predict (f_ice f)) in
    let (pos', hps) := feature_subset f (pos + sample_size) in
    (pos',
     splittable <- hps ;;
     dt <- dt_from_ice subset_ice 100 1 (Some (SelList (map SHp (hp_difference (f_possible f) splittable)))) ;;
     let (dt', leaves) := partition dt max_depth in
     _ <- leaves ;;
     Ok dt')
  end.

(** the loop, self.trees growing: random_forest_partitioner.py:70-97.  An
    exception keeps the trees built so far. *)
Fixpoint grow_trees (f : forest) (max_depth sample_size n pos : nat) (trees : list (dtp N))
  : nat * list (dtp N) * res unit :=
  match n with
  | 0 => (pos, trees, Ok tt)
  | S n' => let (pos', r) := grow_tree f max_depth sample_size pos in
            match r with
            | Err e => (pos', trees, Err e)
            | Ok t => grow_trees f max_depth sample_size n' pos' (trees ++ [t])
            end
  end.

(** self.trees = .. (and the generator moved on): random_forest_partitioner.py:68, 97 *)
Definition with_trees (f : forest) (pos : nat) (trees : option (list (dtp N))) : forest :=
  mkforest (f_ice f) (f_possible f) (f_nsplits f) (f_minpts f) (f_rng f) pos trees.

(** partition: random_forest_partitioner.py:56-97.  [None > 0] raises TypeError (line 61),
    so the default of line 64 is never reached. *)
Definition forest_partition (f : forest) (num_trees max_depth : Z) (sample_size : option Z) : forest * res unit :=
  if negb (0 <? num_trees)%Z then (f, Err AssertionError) else
  match sample_size with
  | None => (f, Err TypeError)
  | Some k =>
    if negb (0 <? k)%Z then (f, Err AssertionError) else
    if negb (0 <? max_depth)%Z then (f, Err AssertionError) else
    let '(pos, trees, r) :=
      grow_trees f (Z.to_nat max_depth) (Z.to_nat k) (Z.to_nat num_trees) (f_pos f) [] in
    (with_trees f pos (Some trees), r)
  end.

(** the incumbent regions of the trees: random_forest_partitioner.py:105 *)
Definition tree_region (cfg : config N) (t : dtp N) : res (option (dnode N)) :=
  r <- get_incumbent_region t cfg ;;
  match r with
  | None => Ok None
  | Some id => match deref t id with None => Err IndexError | Some nd => Ok (Some nd) end
  end.

(** sum of the list comprehension in lines 111-112; [x in None] raises TypeError:
    random_forest_partitioner.py:111-112 *)
Definition count_regions (cs : cspace N) (regions : list (option (dnode N))) (c : config N) : res nat :=
  foldM (fun k r => match r with
                    | None => Err TypeError
                    | Some nd => b <- contains cs (n_conds nd) c ;; Ok (if (b : bool) then S k else k)
                    end) regions 0.

(** numpy row selection a[indices]: random_forest_partitioner.py:73, 115-117 *)
Definition pick {A} (idxs : list nat) (l : list A) : res (list A) := mapM (py_nth l) idxs.

(** get_incumbent_region: random_forest_partitioner.py:99-127 *)
Definition forest_incumbent_region (f : forest) (cfg : config N) (overlap : option Z) : forest * res (region N) :=
  let cs := a_cs (f_alg f) in
  match f_trees f with
  | None | Some [] => (f, Err AssertionError)
  | Some trees =>
    let k := match overlap with None => Z.of_nat (List.length trees) | Some z => z end in
    match (regions <- mapM (tree_region cfg) trees ;;
           mapM (fun row => c <- config_of_vector cs row ;; count_regions cs regions c) (a_samples (f_alg f))) with
    | Err e => (f, Err e)
    | Ok counts =>
      let idxs := filter (fun i => Z.leb k (Z.of_nat (nth i counts 0))) (seq 0 (List.length counts)) in
      let (i1, x) := read_x (f_ice f) in
      let (i2, y) := read_y i1 in
      let (i3, v) := read_v i2 in
      (mkforest i3 (f_possible f) (f_nsplits f) (f_minpts f) (f_rng f) (f_pos f) (f_trees f),
       x' <- x ;; px <- pick idxs x' ;;
       y' <- y ;; py <- pick idxs y' ;;
       v' <- v ;; pv <- pick idxs v' ;;
       region_new px py pv)
    end
  end.

(** operations on a forest: the two methods, and operations on its ICE object
    (forest.ice is a public property, partitioner/__init__.py:167-176) *)
Inductive forest_op :=
| FPartition (num_trees max_depth : Z) (sample_size : option Z)
| FIncumbent (cfg : config N) (overlap : option Z)
| FIce (op : ice_op N).
(** what the operations return: random_forest_partitioner.py:56-59, 99, and the reads of an ICE object,
    ice.py:241-257 *)
Inductive forest_out := FOPartition (r : res unit) | FORegion (r : res (region N)) | FOIce (o : ice_out N).
(** one operation on the object: random_forest_partitioner.py:56-97, 99-127; ice.py:172-257 for forest.ice *)
Definition forest_step (f : forest) (op : forest_op) : forest * forest_out :=
  match op with
  | FPartition n d s => let (f', r) := forest_partition f n d s in (f', FOPartition r)
  | FIncumbent c k => let (f', r) := forest_incumbent_region f c k in (f', FORegion r)
  | FIce o => let (i, r) := ice_step (f_ice f) o in
              (mkforest i (f_possible f) (f_nsplits f) (f_minpts f) (f_rng f) (f_pos f) (f_trees f), FOIce r)
  end.
(** any history of operations on one object (random_forest_partitioner.py:56-127) *)
Fixpoint forest_run (f : forest) (ops : list forest_op) : forest * list forest_out :=
  match ops with
  | [] => (f, [])
  | op :: t => let (f1, r) := forest_step f op in let (f2, rs) := forest_run f1 t in (f2, r :: rs)
  end.

End Forest.

Arguments forest : clear implicits.
Arguments forest_op : clear implicits.
Arguments forest_out : clear implicits.
