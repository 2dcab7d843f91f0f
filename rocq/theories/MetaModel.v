(** MetaModel.v - numbers that the examples derive from trees: the objective of examples/main_meta_pdp.py (31-67) and
    the points of plot_tree_data in examples/main_random_forest.py (86-137).

    None is nan.  A division by a mean confidence of 0 is taken to be nan. *)
From Verif Require Import Base Num NumpyModel ConfigSpaceModel UtilsModel IceModel PartitionModel.
Local Open Scope list_scope.

Section Meta.
Context {N : Num}.

(** calculate_log_delta with nan: utils/utils.py:196-197 *)
Definition log_gain (region_mc base_mc : option N) : option N :=
  match region_mc, base_mc with
  | Some mc, Some base => if neqb base n0 then None else Some (calculate_log_delta mc base)
  | _, _ => None
  end.
(** the numbers of a list without nan: examples/main_meta_pdp.py:67 and examples/main_random_forest.py:104-105, 127-128 *)
Fixpoint all_numbers (l : list (option N)) : option (list N) :=
  match l with
  | [] => Some []
  | x :: t => match x, all_numbers t with Some v, Some vs => Some (v :: vs) | _, _ => None end
  end.
(** np.mean with nan: examples/main_meta_pdp.py:67 and examples/main_random_forest.py:104, 127 *)
Definition np_mean (l : list (option N)) : option N :=
  match l, all_numbers l with
  | [], _ => None
  | _, Some vs => Some (nmean vs)
  | _, None => None
  end.
(** np.std with nan: examples/main_random_forest.py:105, 128 *)
Definition np_std (l : list (option N)) : option N :=
  match l, all_numbers l with
  | [], _ => None
  | _, Some vs => let m := nmean vs in Some (nsqrt (nmean (map (fun x => nmul (nsub x m) (nsub x m)) vs)))
  | _, None => None
  end.

(** one pass of the loop once the surrogate is fitted: examples/main_meta_pdp.py:54-65, with the settings of the
    partitioner as arguments.  Sampler, surrogate and partitioner are made anew from the same seeds in every pass,
    the loop variable s is not used: samples, predictions and incumbent are arguments *)
Definition meta_delta (cs : cspace N) (predict : predictor N) (selected : selection N) (samples : list (list N)) (gpa ns mp : nat)
    (inc : config N) (splits : nat) : res (option N) :=
  p <- dt_new cs predict selected samples gpa ns mp None ;;
  root <- (match deref p 0 with Some nd => Ok nd | None => Err IndexError end) ;;
  let (p', r) := partition p splits in
  _ <- r ;;
  id <- get_incumbent_region p' inc ;;
  match id with
  | None => Err AttributeError
  | Some i => match deref p' i with
              | None => Err IndexError
              | Some nd => Ok (log_gain (Some (mean_confidence (n_region nd))) (Some (mean_confidence (n_region root))))
              end
  end.
(** blackbox_function: examples/main_meta_pdp.py:31-67 *)
Definition meta_objective (cs : cspace N) (predict : predictor N) (selected : selection N) (samples : list (list N)) (gpa ns mp : nat)
    (inc : config N) (splits repetitions : nat) : res (option N) :=
  log_deltas <- mapM (fun _ => meta_delta cs predict selected samples gpa ns mp inc splits) (seq 0 repetitions) ;;
  Ok (option_map (fun m => nsub n0 m) (np_mean log_deltas)).

(** a line of the file: the number of trees, None for dt, base_mc and region_mc: examples/main_random_forest.py:72, 81, 87 *)
Definition line : Type := option Z * option N * option N.
(** df.groupby and the lists of its groups: examples/main_random_forest.py:89-94 *)
Definition group (key : option Z) (lines : list line) : list line :=
  filter (fun l => match fst (fst l), key with None, None => true | Some a, Some b => Z.eqb a b | _, _ => false end) lines.
(** mean and deviation of a group in percent: examples/main_random_forest.py:100-105, 122-130 *)
Definition point (g : list line) : option N * option N :=
  let deltas := map (fun l => log_gain (snd l) (snd (fst l))) g in
  (option_map (fun m => nmul m (nofZ 100)) (np_mean deltas), option_map (fun m => nmul m (nofZ 100)) (np_std deltas)).
(** sorted(x_vals) of distinct keys: examples/main_random_forest.py:114-117 *)
Fixpoint insert_key (k : Z) (l : list Z) : list Z :=
  match l with
  | [] => [k]
  | x :: t => if Z.ltb k x then k :: l else if Z.eqb k x then l else x :: insert_key k t
  end.
(** the numbers of trees in the file: examples/main_random_forest.py:114-117 *)
Definition tree_numbers (lines : list line) : list Z :=
  fold_right (fun l ks => match fst (fst l) with Some k => insert_key k ks | None => ks end) [] lines.
(** what plot_tree_data draws: the star of the decision tree and the line of the forests, without dt a KeyError:
    examples/main_random_forest.py:86-133 *)
Definition tree_data (lines : list line) : res ((option N * option N) * list (Z * (option N * option N))) :=
  match group None lines with
  | [] => Err KeyError
  | dt => Ok (point dt, map (fun k => (k, point (group (Some k) lines))) (tree_numbers lines))
  end.
End Meta.
