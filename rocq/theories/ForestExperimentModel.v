(** ForestExperimentModel.v - the experiment of examples/main_random_forest.py: the rows that generate_data_trees
    (37-83) writes for one seed once the sampler has run and the surrogate is fitted.  The file and the first column
    (the seed) are left out; None is nan.  n / 2 is exact for fewer than 2^53 trees. *)
From Verif Require Import Base Num NumpyModel ConfigSpaceModel UtilsModel IceModel PartitionModel ForestModel.
Local Open Scope list_scope.

Section Rows.
Context {N : Num}.

(** int(math.ceil(num_trees / 2)): examples/main_random_forest.py:64 *)
Definition half_overlap (num_trees : Z) : Z := (- ((- num_trees) / 2))%Z.
(** np.mean(np.sqrt(y_variances)), nan for no numbers: examples/main_random_forest.py:70, 77;
    partitioner/__init__.py:50-52 *)
Definition mean_std (v : list (list N)) : option N :=
  match List.concat v with [] => None | l => Some (nmean (map nsqrt l)) end.

(** for num_trees in num_tree_list: examples/main_random_forest.py:63-72.  A row is num_trees, base_mc and region_mc; the
    ICE object whose variances give base_mc is the one of the forest (53 of random_forest_partitioner.py) *)
Fixpoint forest_rows (f : forest N) (inc : config N) (depth size : Z) (tree_numbers : list Z)
  : forest N * res (list (Z * option N * option N)) :=
  match tree_numbers with
  | [] => (f, Ok [])
  | n :: t =>
    let (f1, r1) := forest_partition f n depth (Some size) in
    match r1 with
    | Err e => (f1, Err e)
    | Ok _ =>
      let (f2, r2) := forest_incumbent_region f1 inc (Some (half_overlap n)) in
      match r2 with
      | Err e => (f2, Err e)
      | Ok r =>
        let (i, rv) := read_v (f_ice f2) in
        let f3 := mkforest i (f_possible f2) (f_nsplits f2) (f_minpts f2) (f_rng f2) (f_pos f2) (f_trees f2) in
        match rv with
        | Err e => (f3, Err e)
        | Ok v => let (f4, rest) := forest_rows f3 inc depth size t in
                  (f4, rows <- rest ;; Ok ((n, mean_std v, mean_std (r_v r)) :: rows))
        end
      end
    end
  end.
(** compare to decision tree: examples/main_random_forest.py:75-79, with the defaults of
    decision_tree_partitioner.py:229-230.  Returns dt_base_mc and dt_region_mc *)
Definition tree_row (o : ice N) (inc : config N) (depth : nat) : res (option N * option N) :=
  dt <- dt_from_ice o 100 10 None ;;
  let (dt', r) := partition dt depth in
  _ <- r ;;
  id <- get_incumbent_region dt' inc ;;
  match id with
  | None => Err AttributeError
  | Some i => match deref dt' i with
              | None => Err IndexError
              | Some nd => v <- snd (read_v o) ;; Ok (mean_std v, mean_std (r_v (n_region nd)))
              end
  end.
(** one replication: examples/main_random_forest.py:59-81.  The rows of the forests and the row of the tree *)
Definition forest_experiment (o : ice N) (rng : stream) (inc : config N) (depth size : Z) (tree_numbers : list Z)
  : res (list (Z * option N * option N) * (option N * option N)) :=
  f <- forest_from_ice o rng ;;
  let (f', rows) := forest_rows f inc depth size tree_numbers in
  rs <- rows ;;
  row <- tree_row (f_ice f') inc (Z.to_nat depth) ;;
  Ok (rs, row).

End Rows.
