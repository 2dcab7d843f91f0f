(** LeafOrderSpec.v - the order of the leaves handed out by partition, stated on their conditions and curves. *)
From Verif Require Import Base Num NumpyModel ConfigSpaceModel UtilsModel IceModel PartitionModel PartitionSpec.
Local Open Scope list_scope.

Section S.
Context {N : Num}.

(** the value, in normalized units, of hyperparameter [h] on a curve *)
Definition value_at (cs : cspace N) (h : hp N) (curve : list (list N)) (x : N) : Prop :=
  exists j row, nth_error cs j = Some h /\ nth_error curve 0 = Some row /\ nth_error row j = Some x.

(** at the split where the paths of [a] and [b] part, [a] is on the side above the split value *)
Definition above_at_fork (s : setup N) (a b : dnode N) : Prop :=
  exists pre h v sa sb, splittable s h /\ In v (possible_split_vals (N:=N) (su_splits s)) /\
    n_conds a = pre ++ mkcond h v false :: sa /\ n_conds b = pre ++ mkcond h v true :: sb.

(** some value of one hyperparameter separates the curves of [a], above it, from those of [b] *)
Definition curves_above (s : setup N) (a b : dnode N) : Prop :=
  exists h v, splittable s h /\
    (forall c, In c (r_x (n_region a)) -> exists x, value_at (su_cs s) h c x /\ nlt v x = true) /\
    (forall c, In c (r_x (n_region b)) -> exists x, value_at (su_cs s) h c x /\ nle x v = true).
End S.
