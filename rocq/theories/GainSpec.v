(** GainSpec.v - vocabulary for C105: the candidates of a region by their place in the two loops, and
    surrogates whose deviation is a step in one hyperparameter. *)
From Coq Require Import Reals.
From Verif Require Import Base Num NumpyModel ConfigSpaceModel UtilsModel IceModel PartitionModel PartitionSpec IceShapeSpec.

Section S.
Context {N : Num}.
(** the split of [nd] on number [j] of the space at split value number [b] is allowed by [s] and gives [l] and [r] *)
Definition offered_at (s : setup N) (nd : dnode N) (j b : nat) (l r : dnode N) : Prop :=
  exists h v, nth_error (su_cs s) j = Some h /\ splittable s h /\
    nth_error (possible_split_vals (N:=N) (su_splits s)) b = Some v /\
    side (su_cs s) nd (mkcond h v true) l /\ side (su_cs s) nd (mkcond h v false) r /\
    su_minpts s <= region_len (n_region l) /\ su_minpts s <= region_len (n_region r).
(** tried before: an earlier hyperparameter of the space, or the same one at a smaller split value *)
Definition tried_before (j b j' b' : nat) : Prop := j < j' \/ j = j' /\ b < b'.
End S.

(** [f] looks at the coordinates in [P] and at the side of [v] on which coordinate [j] lies *)
Definition step_at (P : nat -> Prop) (j : nat) (v : R) (f : list R -> R) : Prop :=
  forall r r', length r = length r' -> (forall i, P i -> nth_error r i = nth_error r' i) ->
    (forall x x', nth_error r j = Some x -> nth_error r' j = Some x' -> (x <= v <-> x' <= v)%R) -> f r = f r'.
