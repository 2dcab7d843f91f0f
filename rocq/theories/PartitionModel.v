(** PartitionModel.v - pyPDP/algorithms/partitioner/__init__.py (Region, Partitioner) and
    pyPDP/algorithms/partitioner/decision_tree_partitioner.py *)
From Verif Require Import Base Num NumpyModel ConfigSpaceModel UtilsModel IceModel.

Section Partition.
Context {N : Num}.

(** ** Region: pyPDP/algorithms/partitioner/__init__.py:22-48.
    The three arrays are separate, as in the code. *)
Record region := mkregion {
  r_x : list (list (list N));   (* x_points *)
  r_y : list (list N);          (* y_points *)
  r_v : list (list N)           (* y_variances *)
}.

(** Region.__init__ with its two assertions: partitioner/__init__.py:36-45.
    [shape[1]] is compared where rows exist. *)
Definition opt_nat_eqb (a b : option nat) : bool :=
  match a, b with Some x, Some y => Nat.eqb x y | None, None => true | _, _ => false end.
(** Region.__init__: partitioner/__init__.py:36-45 *)
Definition region_new (x : list (list (list N))) (y v : list (list N)) : res region :=
  _ <- guard (Nat.eqb (List.length x) (List.length y) && Nat.eqb (List.length y) (List.length v)) AssertionError ;;
  _ <- guard (opt_nat_eqb (shape1 x) (shape1 y) && opt_nat_eqb (shape1 y) (shape1 v)) AssertionError ;;
  Ok (mkregion x y v).

(** Region.__len__: partitioner/__init__.py:47-48 *)
Definition region_len (r : region) : nat := List.length (r_x r).

(** Region.loss: partitioner/__init__.py:54-60 (of an empty region: the mean is
    NaN, the array of deviations is empty and its sum is 0) *)
Definition region_loss (r : region) : N :=
  let g := width (r_v r) in
  let means := mean_axis0 g (r_v r) in
  let dev := map (fun row => map (fun vm => let e := nsub (fst vm) (snd vm) in nmul e e)
                                 (combine row means)) (r_v r) in
  nsum (List.concat dev).

(** Region.mean_confidence: partitioner/__init__.py:50-52 *)
Definition mean_confidence (r : region) : N := nmean (map nsqrt (List.concat (r_v r))).

(** Region.pdp_as_ice_curve (values): partitioner/__init__.py:101-114 *)
Definition region_pdp_y (r : region) : list N := mean_axis0 (width (r_y r)) (r_y r).
(** y_variances_pdp: partitioner/__init__.py:105 *)
Definition region_pdp_v (r : region) : list N := mean_axis0 (width (r_v r)) (r_v r).

(** ** SplitCondition: decision_tree_partitioner.py:16-67, as created by
    split_at_value (always with a normalized float and a less_equal flag). *)
Record cond := mkcond { c_hp : hp N; c_val : N; c_le : bool }.

(** value: decision_tree_partitioner.py:39-44 *)
Definition cond_value (cs : cspace N) (c : cond) : res N := unscale_float (c_val c) cs (c_hp c).

(** is_satisfied: decision_tree_partitioner.py:46-54.  Comparing None or a str
    with a float raises TypeError. *)
Definition is_satisfied (cs : cspace N) (c : cond) (cfg : config N) : res bool :=
  let config_value := config_get cfg (hp_name (c_hp c)) in
  v <- cond_value cs c ;;
  match config_value with
  | Some (VNum x) => Ok (if c_le c then nle x v else nlt v x)
  | _ => Err TypeError
  end.

(** ** DTRegion: decision_tree_partitioner.py:70-89.  [dnode] is the immutable
    part; the links to parent and children live in the heap below. *)
Record dnode := mkdnode {
  n_depth : nat;
  n_region : region;
  n_conds : list cond
}.

(** __contains__: decision_tree_partitioner.py:91-95 *)
Fixpoint contains (cs : cspace N) (conds : list cond) (cfg : config N) : res bool :=
  match conds with
  | [] => Ok true
  | c :: t => b <- is_satisfied cs c cfg ;;
              if (b : bool) then contains cs t cfg else Ok false
  end.

(** instance_vals_at_idx = x_points[:, 0, idx]: decision_tree_partitioner.py:128-129 *)
Definition curve_coord (idx : nat) (curve : list (list N)) : res N :=
  row <- py_nth curve 0 ;; py_nth row idx.

(** the boolean mask: decision_tree_partitioner.py:130-133 *)
Definition cond_mask (c : cond) (x : N) : bool :=
  if c_le c then nle x (c_val c) else nlt (c_val c) x.

(** filter_by_condition: decision_tree_partitioner.py:127-150 *)
Definition filter_by_condition (cs : cspace N) (nd : dnode) (c : cond) : res dnode :=
  idx <- cs_idx cs (hp_name (c_hp c)) ;;
  vals <- mapM (curve_coord idx) (r_x (n_region nd)) ;;
  let mask := map (cond_mask c) vals in
  r <- region_new (mask_select mask (r_x (n_region nd)))
                  (mask_select mask (r_y (n_region nd)))
                  (mask_select mask (r_v (n_region nd))) ;;
  Ok (mkdnode (S (n_depth nd)) r (n_conds nd ++ [c])).

(** is_splittable: decision_tree_partitioner.py:152-153 *)
Definition is_splittable (nd : dnode) : bool := Nat.ltb 1 (region_len (n_region nd)).

(** split_at_value: decision_tree_partitioner.py:158-169 *)
Definition split_at_value (cs : cspace N) (nd : dnode) (h : hp N) (v : N) : res (dnode * dnode) :=
  l <- filter_by_condition cs nd (mkcond h v true) ;;
  r <- filter_by_condition cs nd (mkcond h v false) ;;
  Ok (l, r).

(** possible_split_vals: decision_tree_partitioner.py:284, linspace(0, 1, n + 2)[1:-1] *)
Definition possible_split_vals (num_splits : nat) : list N :=
  removelast (tl (linspace n0 n1 (num_splits + 2))).

(** the candidates in the order of the two nested loops: decision_tree_partitioner.py:282-285 *)
Definition candidates (hps : list (hp N)) (num_splits : nat) : list (hp N * N) :=
  flat_map (fun h => map (fun v => (h, v)) (possible_split_vals num_splits)) hps.

(** loop body of calc_best_split: decision_tree_partitioner.py:286-300.
    [None] stands for best_loss = np.inf with no children yet. *)
Definition best := option (N * (dnode * dnode)).
(** one candidate: decision_tree_partitioner.py:286-300 *)
Definition split_step (cs : cspace N) (min_points : nat) (nd : dnode) (b : best) (hv : hp N * N) : res best :=
  lr <- split_at_value cs nd (fst hv) (snd hv) ;;
  let '(l, r) := lr in
  if Nat.ltb (region_len (n_region l)) min_points || Nat.ltb (region_len (n_region r)) min_points
  then Ok b
  else
    let total := nadd (region_loss (n_region l)) (region_loss (n_region r)) in
    let better := match b with None => nltinf total | Some (bl, _) => nlt total bl end in
    Ok (if better then Some (total, (l, r)) else b).

(** calc_best_split: decision_tree_partitioner.py:276-310 (the link update of
    lines 307-308 is done by the caller below) *)
Definition calc_best_split (cs : cspace N) (hps : list (hp N)) (num_splits min_points : nat) (nd : dnode)
  : res (option (dnode * dnode)) :=
  _ <- guard (is_splittable nd) AssertionError ;;
  b <- foldM (split_step cs min_points nd) (candidates hps num_splits) None ;;
  Ok (match b with None => None | Some (_, lr) => Some lr end).

(** ** DecisionTreePartitioner: decision_tree_partitioner.py:193-268.
    Regions are heap cells with parent and child links. *)
Record cell := mkcell {
  n_node : dnode;
  n_parent : option nat;
  n_left : option nat;
  n_right : option nat
}.

(** the object: decision_tree_partitioner.py:212-225, partitioner/__init__.py:155-165 *)
Record dtp := mkdtp {
  d_cs : cspace N;
  d_sel : list (hp N);               (* selected_hyperparameter *)
  d_possible : list (hp N);          (* possible_split_parameters *)
  d_nsplits : nat;                   (* num_splits_per_axis *)
  d_minpts : nat;                    (* min_points_per_node *)
  d_heap : list cell;                (* cell 0 is self.root *)
  d_leaves : list nat                (* self.leaves *)
}.

(** hp.name in a set of names: partitioner/__init__.py:160-164 *)
Definition mem_string (s : string) (l : list string) : bool := existsb (String.eqb s) l.

(** possible_split_parameters: partitioner/__init__.py:155-165 *)
Definition split_parameters (cs : cspace N) (sel nots : list (hp N)) : list (hp N) :=
  filter (fun h => negb (mem_string (hp_name h) (map hp_name sel ++ map hp_name nots))) cs.

(** Partitioner.__init__ + DecisionTreePartitioner.__init__:
    partitioner/__init__.py:132-176, decision_tree_partitioner.py:194-225.
    [nots = None] is not_splittable_hp=None.  self.ice is a fresh ICE object,
    never centered. *)
Definition dt_new (cs : cspace N) (predict : predictor N) (sel : selection N) (samples : list (list N))
    (gpa num_splits min_points : nat) (nots : option (selection N)) : res dtp :=
  a <- algorithm_new cs sel samples gpa ;;
  ns <- (match nots with None => Ok [] | Some s => get_hyperparameters s cs end) ;;
  d <- ice_calculate a false predict ;;
  root <- region_new (i_x d) (i_y d) (i_v d) ;;
  Ok (mkdtp cs (a_sel a) (split_parameters cs (a_sel a) ns) num_splits min_points
            [mkcell (mkdnode 0 root []) None None None] []).

(** DecisionTreePartitioner.from_ICE: decision_tree_partitioner.py:227-246.  The
    constructor runs first, with the surrogate's current predictions; the later
    assignment [partitioner._ice = ice] does not change the root. *)
Definition dt_from_ice (o : ice N) (num_splits min_points : nat) (nots : option (selection N)) : res dtp :=
  let a := ic_alg o in
  dt_new (a_cs a) (ic_predict o) (SelList (map SHp (a_sel a))) (a_samples a) (a_gpa a)
         num_splits min_points nots.

(** The while loop of partition: decision_tree_partitioner.py:254-266.
    [m_stack] is the queue with its last element (the next to pop) first. *)
Record machine := mkmachine {
  m_heap : list cell; m_leaves : list nat; m_stack : list nat; m_err : option err
}.

(** One iteration; an exception stops the machine and keeps the state reached.
    decision_tree_partitioner.py:255-266 *)
Definition part_step (p : dtp) (max_depth : nat) (m : machine) : machine :=
  match m_err m, m_stack m with
  | None, id :: q =>
    match nth_error (m_heap m) id with
    | None => mkmachine (m_heap m) (m_leaves m) q (Some IndexError)
    | Some c =>
      let nd := n_node c in
      if negb (is_splittable nd) || Nat.leb max_depth (n_depth nd)
      then mkmachine (m_heap m) (m_leaves m ++ [id]) q None
      else match calc_best_split (d_cs p) (d_possible p) (d_nsplits p) (d_minpts p) nd with
           | Err e => mkmachine (m_heap m) (m_leaves m) q (Some e)
           | Ok None => mkmachine (m_heap m) (m_leaves m ++ [id]) q None
           | Ok (Some (l, r)) =>
             let k := List.length (m_heap m) in
             mkmachine (set_nth id (mkcell nd (n_parent c) (Some k) (Some (S k))) (m_heap m)
                        ++ [mkcell l (Some id) None None; mkcell r (Some id) None None])
                       (m_leaves m) (S k :: k :: q) None
           end
    end
  | _, _ => m
  end.

(** 2^k iterations (a stopped machine stays as it is): The loop of decision_tree_partitioner.py:255-266 *)
Fixpoint loop_pow (p : dtp) (max_depth k : nat) (m : machine) : machine :=
  match k with
  | 0 => part_step p max_depth m
  | S k' => loop_pow p max_depth k' (loop_pow p max_depth k' m)
  end.

(** partition: decision_tree_partitioner.py:248-268.  Returns the new object
    state and the leaves (as heap references).  2^(max_depth + 1) iterations
    always suffice (C06), so the loop is not cut short. *)
Definition with_tree (p : dtp) (heap : list cell) (leaves : list nat) : dtp :=
  mkdtp (d_cs p) (d_sel p) (d_possible p) (d_nsplits p) (d_minpts p) heap leaves.
(** partition: decision_tree_partitioner.py:248-268 *)
Definition partition (p : dtp) (max_depth : nat) : dtp * res (list nat) :=
  if Nat.eqb max_depth 0 then (p, Err AssertionError) else
  let m := loop_pow p max_depth (S max_depth) (mkmachine (d_heap p) [] [0] None) in
  (with_tree p (m_heap m) (m_leaves m),
   match m_err m, m_stack m with
   | Some e, _ => Err e
   | None, [] => Ok (m_leaves m)
   | None, _ => Err OutOfFuel
   end).

(** any history of partition calls on one object: decision_tree_partitioner.py:248-268 *)
Definition run_history (p : dtp) (depths : list nat) : dtp :=
  fold_left (fun q d => fst (partition q d)) depths p.

(** the region a reference points to:
    self.root and the entries of self.leaves, decision_tree_partitioner.py:215-225, 258, 264 *)
Definition deref (p : dtp) (id : nat) : option dnode := option_map n_node (nth_error (d_heap p) id).

(** get_incumbent_region: decision_tree_partitioner.py:270-274 (None when no leaf matches) *)
Fixpoint find_leaf (p : dtp) (ids : list nat) (cfg : config N) : res (option nat) :=
  match ids with
  | [] => Ok None
  | id :: t => match deref p id with
               | None => Err IndexError
               | Some nd => b <- contains (d_cs p) (n_conds nd) cfg ;;
                            if (b : bool) then Ok (Some id) else find_leaf p t cfg
               end
  end.
(** get_incumbent_region: decision_tree_partitioner.py:270-274 *)
Definition get_incumbent_region (p : dtp) (cfg : config N) : res (option nat) :=
  match d_leaves p with
  | [] => Err AssertionError
  | _ => find_leaf p (d_leaves p) cfg
  end.

(** ** implied_config_space: decision_tree_partitioner.py:97-125.
    The result is the list of UniformFloat hyperparameters (name, lower, upper, log). *)
Record fbox := mkfbox { b_name : string; b_lower : N; b_upper : N; b_log : bool }.
(** the copy of one hyperparameter: decision_tree_partitioner.py:100-105 *)
Definition box_init (h : hp N) : res fbox :=
  if is_numerical h then
    lo <- hp_lower h ;; up <- hp_upper h ;; lg <- hp_log h ;;
    Ok (mkfbox (hp_name h) lo up lg)
  else Err NotImplementedError.
(** hp_dic[name] = ... for the entry with that name: decision_tree_partitioner.py:109-116 *)
Definition tighten (c : cond) (v : N) (b : fbox) : fbox :=
  if c_le c then (if nlt v (b_upper b) then mkfbox (b_name b) (b_lower b) v (b_log b) else b)
  else (if nlt (b_lower b) v then mkfbox (b_name b) v (b_upper b) (b_log b) else b).
(** hp = hp_dic[cond.hyperparameter.name] and its update: decision_tree_partitioner.py:109-116 *)
Fixpoint box_update (name : string) (f : fbox -> fbox) (l : list fbox) : res (list fbox) :=
  match l with
  | [] => Err KeyError
  | b :: t => if String.eqb (b_name b) name then Ok (f b :: t)
              else t' <- box_update name f t ;; Ok (b :: t')
  end.
(** one condition: decision_tree_partitioner.py:108-118 *)
Definition box_step (cs : cspace N) (l : list fbox) (c : cond) : res (list fbox) :=
  v <- cond_value cs c ;; box_update (hp_name (c_hp c)) (tighten c v) l.
(** implied_config_space: decision_tree_partitioner.py:97-125 *)
Definition implied_config_space (cs : cspace N) (conds : list cond) : res (list fbox) :=
  boxes <- mapM box_init cs ;; foldM (box_step cs) conds boxes.

End Partition.

Arguments region : clear implicits.
Arguments cond : clear implicits.
Arguments dnode : clear implicits.
Arguments cell : clear implicits.
Arguments dtp : clear implicits.
Arguments machine : clear implicits.
Arguments best : clear implicits.
Arguments fbox : clear implicits.
