(** Prop_LeafOrder.v - property theorems C104: the order in which partition hands out its leaves. *)
From Coq Require Import QArith.
From Verif Require Import Base Num NumLaws NumpyModel ConfigSpaceModel UtilsModel IceModel PartitionModel PartitionSpec
  ListLemmas IceProofs PartitionProofs PartitionProofs2 PartitionProofs3 Examples Witness LeafOrderSpec LeafOrderProofs LeafOrderExamples.
Local Open Scope nat_scope.
Local Open Scope list_scope.

(** of two leaves the earlier one is on the side above the split value where their paths part *)
Theorem C104_order : forall (N : Num) (L : order_laws N) (s : setup N) p d, setup_ok s -> reaches s p -> 0 < d ->
  exists p' ids leaves, partition p d = (p', Ok ids) /\
    Forall2 (fun id nd => deref p' id = Some nd) ids leaves /\
    forall i j a b, i < j -> nth_error leaves i = Some a -> nth_error leaves j = Some b -> above_at_fork s a b.
Proof. exact (fun N L => @leaves_order N L). Qed.
Print Assumptions C104_order.

(** the same on the curves: a value of one hyperparameter separates the two leaves *)
Theorem C104_curves : forall (N : Num) (L : order_laws N) (s : setup N) p d, setup_ok s -> reaches s p -> 0 < d ->
  exists p' ids leaves, partition p d = (p', Ok ids) /\
    Forall2 (fun id nd => deref p' id = Some nd) ids leaves /\
    forall i j a b, i < j -> nth_error leaves i = Some a -> nth_error leaves j = Some b -> curves_above s a b.
Proof. exact (fun N L => @leaves_curves N L). Qed.
Print Assumptions C104_curves.

(** with one splittable hyperparameter the leaves are intervals in decreasing order *)
Theorem C104_one_axis : forall (N : Num) (L : order_laws N) (s : setup N) p d (g : hp N), setup_ok s -> reaches s p -> 0 < d ->
  (forall h, splittable s h -> h = g) ->
  exists p' ids leaves, partition p d = (p', Ok ids) /\
    Forall2 (fun id nd => deref p' id = Some nd) ids leaves /\
    forall i j a b, i < j -> nth_error leaves i = Some a -> nth_error leaves j = Some b ->
    forall ca cb x y, In ca (r_x (n_region a)) -> In cb (r_x (n_region b)) ->
      value_at (su_cs s) g ca x -> value_at (su_cs s) g cb y -> nlt y x = true.
Proof. exact (fun N L => @one_axis N L). Qed.
Print Assumptions C104_one_axis.

(** two leaves of depth 1: the upper side first, the lower side second *)
Theorem C104_two : forall (N : Num) (L : order_laws N) (s : setup N) p, setup_ok s -> reaches s p ->
  forall p' a b, partition p 1 = (p', Ok [a; b]) ->
  exists h v hi lo, splittable s h /\ In v (possible_split_vals (N:=N) (su_splits s)) /\
    deref p' a = Some hi /\ deref p' b = Some lo /\
    n_conds hi = [mkcond h v false] /\ n_conds lo = [mkcond h v true].
Proof. exact (fun N L => @two_leaves N L). Qed.
Print Assumptions C104_two.

(** [left_region, right_region = partitioner.leaves] of figure_4 (main_paper.py:151-157) takes the first
    leaf for the left one; that leaf is never the left one, whatever the partitioner was built from *)
Theorem C104_left_first_refuted : forall (N : Num) (L : order_laws N) (s : setup N) p, setup_ok s -> reaches s p ->
  forall p' a b, partition p 1 = (p', Ok [a; b]) ->
  ~ (exists h v nd, deref p' a = Some nd /\ n_conds nd = [mkcond h v true]).
Proof.
  exact (fun N L s p SO RE p' a b E W =>
    match two_leaves L s p SO RE p' a b E with
    | ex_intro _ h (ex_intro _ v (ex_intro _ hi (ex_intro _ lo (conj _ (conj _ (conj Da (conj _ (conj Ca _)))))))) =>
      match W with
      | ex_intro _ h' (ex_intro _ v' (ex_intro _ nd (conj Da' Ca'))) => first_not_left p' a hi nd h v h' v' Da Da' Ca Ca'
      end
    end).
Qed.
Print Assumptions C104_left_first_refuted.

(** ** Concrete cases *)
Example C104_two_example : exists p' ids, partition exq 1 = (p', Ok ids) /\
  leaf_summary p' ids = [Some (3, [("b"%string, 1#5, false)]); Some (3, [("b"%string, 1#5, true)])].
Proof. apply (run_check exq 1 leaf_summary). vm_compute. reflexivity. Qed.
Example C104_one_axis_example :
  setup_ok lo_setup /\ reaches lo_setup lo_obj /\
  (forall h, splittable lo_setup h -> h = mkhp (N:=QNum) "b" (KFloat n0 (nofZ 10) false)) /\
  exists p' ids, partition lo_obj 2 = (p', Ok ids) /\ leaf_summary p' ids =
    [Some (1, [("b"%string, 1#5, false); ("b"%string, 4#5, false)]); Some (2, [("b"%string, 1#5, false); ("b"%string, 4#5, true)]);
     Some (3, [("b"%string, 1#5, true)])].
Proof.
  refine (conj lo_setup_ok (conj lo_reaches (conj lo_one _))).
  apply (run_check lo_obj 2 leaf_summary). vm_compute. reflexivity.
Qed.
