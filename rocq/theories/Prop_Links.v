(** Prop_Links.v - C13 and C15 (conditions along the links of a tree), C24 (order of the grid points). *)
From Coq Require Import QArith.
From Verif Require Import Base Num NumLaws NumpyModel ConfigSpaceModel UtilsModel IceModel PartitionModel PartitionSpec IceProofs IceProofs2 PartitionLinks MeshProofs Examples Witness.
Local Open Scope nat_scope.
Local Open Scope list_scope.

(** ** C13: every region created by a call has the conditions of its parent and one more; its sibling has the opposite one, and
    "less or equal" is on the left *)
Theorem C13_conditions : forall (N : Num) (L : order_laws N) (s : setup N) p d, setup_ok s -> reaches s p -> 0 < d ->
  exists p' ids, partition p d = (p', Ok ids) /\
    (exists c0, nth_error (d_heap p') 0 = Some c0 /\ n_conds (n_node c0) = []) /\
    (forall id c, length (d_heap p) <= id -> nth_error (d_heap p') id = Some c ->
       exists par pc sib sc h v,
         n_parent c = Some par /\ nth_error (d_heap p') par = Some pc /\ nth_error (d_heap p') sib = Some sc /\
         ((n_left pc = Some id /\ n_right pc = Some sib /\ n_conds (n_node c) = n_conds (n_node pc) ++ [mkcond h v true] /\ n_conds (n_node sc) = n_conds (n_node pc) ++ [mkcond h v false]) \/
          (n_left pc = Some sib /\ n_right pc = Some id /\ n_conds (n_node c) = n_conds (n_node pc) ++ [mkcond h v false] /\ n_conds (n_node sc) = n_conds (n_node pc) ++ [mkcond h v true]))).
Proof. exact (fun N L => @link_conditions N L). Qed.
Print Assumptions C13_conditions.

Example C13_conditions_example : setup_ok (ex_setup (N:=QNum)) /\ reaches (ex_setup (N:=QNum)) (run_history exq [1]) /\
  exists p' ids, partition (run_history exq [1]) 2 = (p', Ok ids) /\
    map (fun id => option_map (fun nd => map (fun c => (hp_name (c_hp c), c_val c, c_le c)) (n_conds nd)) (deref p' id)) [3; 4; 5] =
    [Some [("b"%string, 1#5, true)]; Some [("b"%string, 1#5, false)]; Some [("b"%string, 1#5, false); ("b"%string, 4#5, true)]]%Q.
Proof.
  split; [exact ex_setup_ok|]. split; [exists exq, [1]; split; [exact exq_ok|reflexivity]|]. apply (run_check (run_history exq [1]) 2 (fun p' ids =>
    map (fun id => option_map (fun nd => map (fun c => (hp_name (c_hp c), c_val c, c_le c)) (n_conds nd)) (deref p' id)) [3; 4; 5])). vm_compute. reflexivity.
Qed.

(** ** C15: if the root was split on a hyperparameter that is not numerical, get_incumbent_region raises for every configuration *)
Theorem C15_root : forall (N : Num) (L : order_laws N) (s : setup N) p d, setup_ok s -> reaches s p -> 0 < d ->
  exists p' ids, partition p d = (p', Ok ids) /\
    forall c0 a nd c h cfg, nth_error (d_heap p') 0 = Some c0 -> n_left c0 = Some a -> deref p' a = Some nd -> n_conds nd = [c] ->
      cs_get (su_cs s) (hp_name (c_hp c)) = Ok h -> is_numerical h = false -> get_incumbent_region p' cfg = Err AttributeError.
Proof. exact (fun N L => @root_split_raises N L). Qed.
Print Assumptions C15_root.

(** the categorical k of the example of C15 *)
Example C15_root_example : reaches w_cat w_cat_obj /\ exists p' ids, partition w_cat_obj 1 = (p', Ok ids) /\
  (option_map n_left (nth_error (d_heap p') 0), option_map (fun nd => map (fun c => hp_name (c_hp c)) (n_conds nd)) (deref p' 1)) = (Some (Some 1), Some ["k"%string]) .
Proof.
  split; [exists w_cat_obj, []; split; [exact w_cat_ok|reflexivity]|].
  apply (run_check w_cat_obj 1 (fun p' ids => (option_map n_left (nth_error (d_heap p') 0), option_map (fun nd => map (fun c => hp_name (c_hp c)) (n_conds nd)) (deref p' 1)))). vm_compute. reflexivity.
Qed.

(** ** C24: with one selected hyperparameter the grid is the axis; with more, the second varies slowest, then the first, then the
    third and so on, the last one fastest ([from_digits]: the number with these digits, most significant first) *)
Theorem C24_order : forall (N : Num) (a : algorithm N) grid, grid_points a = Ok grid -> let axis := linspace (N:=N) n0 n1 (a_gpa a) in
  (n_selected a = 1 -> forall k, k < a_gpa a -> nth_error grid k = Some [nth k axis n0]) /\
  (forall d, n_selected a = S (S d) -> forall k1 k2 ks, k1 < a_gpa a -> k2 < a_gpa a -> all_digits (a_gpa a) d ks ->
     nth_error grid ((k2 * a_gpa a + k1) * a_gpa a ^ d + from_digits (a_gpa a) ks) = Some (map (fun k => nth k axis n0) (k1 :: k2 :: ks))).
Proof. exact (@grid_order). Qed.
Print Assumptions C24_order.

(** three selected hyperparameters, two points per axis *)
Example C24_order_example : let a := mkalg (N:=QNum) ex_cs ex_cs ex_rows 2 in n_selected a = 3 /\
  grid_points a = Ok [[0; 0; 0]; [0; 0; 1]; [1; 0; 0]; [1; 0; 1]; [0; 1; 0]; [0; 1; 1]; [1; 1; 0]; [1; 1; 1]]%Q.
Proof. split; vm_compute; reflexivity. Qed.
