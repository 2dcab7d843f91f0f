(** ColumnsSpec.v - vocabulary for C109: one space with its hyperparameters in another order. *)
From Verif Require Import Base Num ConfigSpaceModel UtilsModel IceModel PartitionModel PartitionSpec.
From Coq Require Import Permutation.

Section Spec.
Context {N : Num}.

(** entry number k of the result is entry number [ord k] of the row *)
Definition pick (ord : list nat) (row : list N) : list N := map (fun i => nth i row n0) ord.
(** [cs'] has the hyperparameters of [cs], in the order [ord] *)
Definition reorders (cs cs' : cspace N) (ord : list nat) : Prop :=
  NoDup (map hp_name cs) /\ Permutation ord (seq 0 (length cs)) /\ Forall2 (fun i h => nth_error cs i = Some h) ord cs'.
(** the same surrogate for rows in the other order *)
Definition same_model (cs : cspace N) (ord : list nat) (p p' : predictor N) : Prop :=
  forall rows, Forall (fun r => length r = length cs) rows -> p' (map (pick ord) rows) = p rows.
(** the same points with their coordinates in the other order *)
Definition same_points (ord : list nat) (x x' : list (list (list N))) : Prop := x' = map (map (pick ord)) x.
(** the same node: depth, splits on the way to it and curves *)
Definition same_node (ord : list nat) (nd nd' : dnode N) : Prop :=
  n_depth nd' = n_depth nd /\ n_conds nd' = n_conds nd /\ same_points ord (r_x (n_region nd)) (r_x (n_region nd')) /\
  r_y (n_region nd') = r_y (n_region nd) /\ r_v (n_region nd') = r_v (n_region nd).
(** the same partitioner for the other order *)
Definition same_setup (ord : list nat) (s s' : setup N) : Prop :=
  reorders (su_cs s) (su_cs s') ord /\ same_model (su_cs s) ord (su_predict s) (su_predict s') /\
  su_samples s' = map (pick ord) (su_samples s) /\ su_sel s' = su_sel s /\ su_gpa s' = su_gpa s /\
  su_splits s' = su_splits s /\ su_minpts s' = su_minpts s /\ su_nots s' = su_nots s.

(** a split of region [nd] by [h] at [v] that the settings of [s] allow *)
Definition offered_by (s : setup N) (nd : dnode N) (h : hp N) (v : N) (l r : dnode N) : Prop :=
  splittable s h /\ In v (possible_split_vals (N:=N) (su_splits s)) /\
  side (su_cs s) nd (mkcond h v true) l /\ side (su_cs s) nd (mkcond h v false) r /\
  su_minpts s <= region_len (n_region l) /\ su_minpts s <= region_len (n_region r).
(** the split into [l] and [r] beats every split by another hyperparameter; splits by the same hyperparameter may tie *)
Definition decisive (s : setup N) (nd l r : dnode N) : Prop :=
  forall h v h' v' l' r', offered_by s nd h v l r -> offered_by s nd h' v' l' r' -> h' <> h ->
    nlt (split_total (l, r)) (split_total (l', r')) = true.
(** every split in the tree is decisive *)
Definition no_ties (s : setup N) (p : dtp N) : Prop :=
  forall id c a b l r, nth_error (d_heap p) id = Some c -> n_left c = Some a -> n_right c = Some b ->
    deref p a = Some l -> deref p b = Some r -> decisive s (n_node c) l r.
End Spec.
