(** Prop_Forest.v - property theorems C17-C20 and C62: the random forest partitioner.

    [forest_reaches f]: [f] is the state after any operations on a constructed forest.
    [forest_ok f]: distinct names, rectangular samples, at least one grid point per axis.
    The random generator is an arbitrary stream, fixed in the object. *)
From Coq Require Import QArith Sorted.
From Verif Require Import Base Num NumLaws NumpyModel ConfigSpaceModel UtilsModel IceModel PartitionModel PartitionSpec
  ListLemmas IceProofs IceProofs2 PartitionProofs PartitionProofs2 PartitionProofs3 PartitionProofs4 Examples ForestModel ForestSpec ForestProofs ForestProofs2 ForestExamples.
Local Open Scope nat_scope.
Local Open Scope list_scope.

(** ** C17 *)
Theorem C17_sample_size_required : forall (N : Num) (f : forest N) n d, (0 < n)%Z ->
  forest_partition f n d None = (f, Err TypeError).
Proof. exact (@forest_needs_size). Qed.
Print Assumptions C17_sample_size_required.

(** partition() with the defaults of the README: 10 trees of depth 1 *)
Example C17_example : forest_partition ex_forest 10 1 None = (ex_forest, Err TypeError) /\ f_trees ex_forest = None.
Proof. split; reflexivity. Qed.

(** ** C18 *)
Theorem C18_region_is_the_overlap : forall (N : Num) (f : forest N) cfg k r,
  snd (forest_incumbent_region f cfg k) = Ok r -> a_samples (f_alg f) <> [] ->
  exists nds x y v idxs, incumbent_regions f cfg nds /\ shows f x y v /\
    StronglySorted lt idxs /\ is_rows (mkregion x y v) idxs r /\
    forall i, In i idxs <-> exists row c, nth_error (a_samples (f_alg f)) i = Some row /\ config_of_vector (a_cs (f_alg f)) row = Ok c /\
                                overlaps (a_cs (f_alg f)) c nds (threshold f k).
Proof. exact (@forest_region_is_overlap). Qed.
Print Assumptions C18_region_is_the_overlap.

(** default: all incumbent regions; k <= 0: all curves; k > number of trees: none; a sample
    equal to the incumbent is always in the region *)
Theorem C18_thresholds : forall (N : Num), order_laws N -> forall (f : forest N) cfg k r,
  forest_reaches f -> forest_ok f -> a_samples (f_alg f) <> [] ->
  snd (forest_incumbent_region f cfg k) = Ok r ->
  exists ts nds x y v idxs, f_trees f = Some ts /\ incumbent_regions f cfg nds /\ length nds = length ts /\ shows f x y v /\
    StronglySorted lt idxs /\ is_rows (mkregion x y v) idxs r /\
    (k = None -> forall i, In i idxs <-> exists row c, nth_error (a_samples (f_alg f)) i = Some row /\
                           config_of_vector (a_cs (f_alg f)) row = Ok c /\ Forall (lies_in (a_cs (f_alg f)) c) nds) /\
    (forall z, k = Some z -> (z <= 0)%Z -> r = mkregion x y v) /\
    (forall z, k = Some z -> (Z.of_nat (length ts) < z)%Z -> r = mkregion [] [] []) /\
    (forall i row, match k with None => True | Some z => (z <= Z.of_nat (length ts))%Z end ->
        nth_error (a_samples (f_alg f)) i = Some row -> config_of_vector (a_cs (f_alg f)) row = Ok cfg -> In i idxs).
Proof. exact (fun N L => @forest_region_thresholds N L). Qed.
Print Assumptions C18_thresholds.

Theorem C18_shrinks_with_the_threshold : forall (N : Num) (f : forest N) cfg k k' r r', a_samples (f_alg f) <> [] -> (k <= k')%Z ->
  snd (forest_incumbent_region f cfg (Some k)) = Ok r -> snd (forest_incumbent_region f cfg (Some k')) = Ok r' ->
  exists x y v idxs idxs', StronglySorted lt idxs /\ StronglySorted lt idxs' /\ incl idxs' idxs /\
    is_rows (mkregion x y v) idxs r /\ is_rows (mkregion x y v) idxs' r'.
Proof. exact (@forest_region_shrinks). Qed.
Print Assumptions C18_shrinks_with_the_threshold.

(** the call succeeds on numerical spaces, after any history that left trees *)
Theorem C18_call_succeeds : forall (N : Num), order_laws N -> forall (f : forest N) ts cfg k,
  forest_reaches f -> forest_ok f -> all_numerical (a_cs (f_alg f)) ->
  (forall h v u, In h (a_cs (f_alg f)) -> In v (possible_split_vals (N:=N) 100) -> unscale_float v (a_cs (f_alg f)) h = Ok u -> ordinary u) ->
  f_trees f = Some ts -> ts <> [] -> total_config (a_cs (f_alg f)) cfg ->
  Forall (fun row => exists c, config_of_vector (a_cs (f_alg f)) row = Ok c /\ total_config (a_cs (f_alg f)) c) (a_samples (f_alg f)) ->
  sel_known (a_cs (f_alg f)) (a_sel (f_alg f)) -> a_sel (f_alg f) <> [] -> batch_predictor (ic_predict (f_ice f)) ->
  exists r, snd (forest_incumbent_region f cfg k) = Ok r.
Proof. exact (fun N L => @forest_region_total N L). Qed.
Print Assumptions C18_call_succeeds.

(** three trees of depth 1; the incumbent is sample 2.  Hyperparameter c of the curves returned:
    the default threshold leaves one curve, 2 leaves three, 1 and 0 all six, 4 none *)
Definition ex_region (k : option Z) : option (list Q) :=
  match config_of_vector (ex_cs (N:=QNum)) (nth 2 ex_rows []) with
  | Ok c => match snd (forest_incumbent_region ex_forest1 c k) with Ok r => Some (map (fun m => nth 2 (nth 0 m []) (0#1)%Q) (r_x r)) | Err _ => None end
  | Err _ => None end.
Example C18_example : forest_reaches ex_forest1 /\ a_samples (f_alg ex_forest1) <> [] /\
  ex_region None = Some [7#10]%Q /\ ex_region (Some 2%Z) = Some [1#5; 7#10; 4#5]%Q /\
  ex_region (Some 1%Z) = Some [1#5; 3#10; 7#10; 9#10; 4#5; 1#1]%Q /\ ex_region (Some 0%Z) = ex_region (Some 1%Z) /\
  ex_region (Some 4%Z) = Some [].
Proof.
  refine (conj (ex_forest_reaches _) (conj _ _)).
  - vm_compute. discriminate.
  - repeat split; vm_compute; reflexivity.
Qed.

(** ** C19 *)
Theorem C19_trees_of_a_partition : forall (N : Num), order_laws N -> forall (f : forest N) n d k,
  forest_reaches f -> forest_ok f -> (0 < n)%Z -> (0 < d)%Z -> (0 < k)%Z ->
  a_samples (f_alg f) <> [] -> (exists h, may_split f h) ->
  sel_known (a_cs (f_alg f)) (a_sel (f_alg f)) -> a_sel (f_alg f) <> [] -> batch_predictor (ic_predict (f_ice f)) ->
  exists f' ts, forest_partition f n d (Some k) = (f', Ok tt) /\ f_trees f' = Some ts /\ length ts = Z.to_nat n /\ f_ice f' = f_ice f /\
    Forall (fun t => exists rows hps, bootstrap f (Z.to_nat k) rows /\ hps <> [] /\ Forall (may_split f) hps /\
                                      tree_of f (Z.to_nat d) rows hps t) ts.
Proof. exact (fun N L => @forest_trees N L). Qed.
Print Assumptions C19_trees_of_a_partition.

(** even when a call raises (a surrogate that fails), the trees kept are trees of this call *)
Theorem C19_trees_if_raised : forall (N : Num), order_laws N -> forall (f : forest N) n d k e f',
  forest_reaches f -> forest_ok f -> (0 < n)%Z -> (0 < d)%Z -> (0 < k)%Z ->
  forest_partition f n d (Some k) = (f', Err e) ->
  exists ts, f_trees f' = Some ts /\ length ts <= Z.to_nat n /\
    Forall (fun t => exists rows hps, bootstrap f (Z.to_nat k) rows /\ hps <> [] /\ Forall (may_split f) hps /\
                                      tree_of f (Z.to_nat d) rows hps t) ts.
Proof. exact (fun N L => @forest_trees_if_raised N L). Qed.
Print Assumptions C19_trees_if_raised.

(** three trees after one call, two after another call; splits on b and on c *)
Example C19_example : forest_reaches ex_forest1 /\
  tree_summary ex_forest1 = Some
    [[Some (1, [("b"%string, (11#101)%Q, false)]); Some (3, [("b"%string, (11#101)%Q, true)])];
     [Some (1, [("b"%string, (21#101)%Q, false)]); Some (3, [("b"%string, (21#101)%Q, true)])];
     [Some (1, [("b"%string, (21#101)%Q, false)]); Some (3, [("b"%string, (21#101)%Q, true)])]] /\
  option_map (@length _) (f_trees (fst (forest_partition ex_forest1 2 1 (Some 3%Z)))) = Some 2.
Proof. refine (conj (ex_forest_reaches _) (conj _ _)); vm_compute; reflexivity. Qed.

(** ** C20 *)
Theorem C20_settings_have_no_influence : forall (N : Num) cs predict sel samples gpa ns mp ns' mp' rng ops (f f' : forest N),
  forest_new cs predict sel samples gpa ns mp rng = Ok f -> forest_new cs predict sel samples gpa ns' mp' rng = Ok f' ->
  snd (forest_run f ops) = snd (forest_run f' ops) /\ f_trees (fst (forest_run f ops)) = f_trees (fst (forest_run f' ops)).
Proof. exact (@forest_constructor_settings). Qed.
Print Assumptions C20_settings_have_no_influence.

(** a forest with min_points_per_node = 10 and one split per axis: a leaf with one curve, split at 11/101 *)
Theorem C20_single_curve_leaf : exists f, forest_new (ex_cs (N:=QNum)) ex_predict (SelOne (SName "a"%string)) ex_rows 3 1 10
    (fun i => (i * i + i / 3)%nat) = Ok f /\
  exists t ts nd, f_trees (fst (forest_partition f 3 1 (Some 4%Z))) = Some (t :: ts) /\ In (nth 0 (d_leaves t) 0) (d_leaves t) /\
    deref t (nth 0 (d_leaves t) 0) = Some nd /\ region_len (n_region nd) = 1 /\
    map (fun c => (hp_name (c_hp c), c_val c)) (n_conds nd) = [("b"%string, (11#101)%Q : QNum)].
Proof. exact min_points_ignored. Qed.
Print Assumptions C20_single_curve_leaf.

(** ** C62 *)
Theorem C62_nothing_to_split : forall (N : Num), order_laws N -> forall (f : forest N) n d k,
  forest_reaches f -> (0 < n)%Z -> (0 < d)%Z -> (0 < k)%Z ->
  (a_samples (f_alg f) = [] \/ forall h, ~ may_split f h) ->
  exists f', forest_partition f n d (Some k) = (f', Err ValueError) /\ f_trees f' = Some [].
Proof. exact (fun N L => @forest_nothing_to_split N L). Qed.
Print Assumptions C62_nothing_to_split.

(** all three hyperparameters selected *)
Example C62_example : exists f, forest_new (ex_cs (N:=QNum)) ex_predict (SelList (map SHp (ex_cs (N:=QNum)))) ex_rows 2 1 1 (fun i => i) = Ok f /\
  forest_reaches f /\ (forall h, ~ may_split f h) /\ is_ok (snd (forest_partition f 1 1 (Some 2%Z))) = false.
Proof.
  eexists. refine (conj eq_refl (conj _ (conj _ _))).
  - eexists _, []. split; [|reflexivity]. exact (start_new (ex_cs (N:=QNum)) ex_predict (SelList (map SHp (ex_cs (N:=QNum)))) ex_rows 2 1 1 (fun i => i) _ eq_refl).
  - intros h [H1 H2]. apply H2. apply (in_map hp_name). exact H1.
  - reflexivity.
Qed.
