(** IceShapeSpec.v - vocabulary for C98 and C99: surrogates that predict row by row. *)
From Coq Require Import Reals.
From Verif Require Import Base Num ConfigSpaceModel IceModel.

Section Spec.
Context {N : Num}.
(** a surrogate that predicts every row on its own: mean [f], standard deviation [s] *)
Definition rowwise (f s : list N -> N) : predictor N := fun rows => Ok (map f rows, map s rows).
(** number [j] of the space is among the selected hyperparameters *)
Definition is_selected (cs : cspace N) (sel : list (hp N)) (j : nat) : Prop :=
  exists h, nth_error cs j = Some h /\ In (hp_name h) (map hp_name sel).
(** [f] looks at the coordinates in [P] only *)
Definition only_uses (P : nat -> Prop) (f : list N -> N) : Prop :=
  forall r r', length r = length r' -> (forall j, P j -> nth_error r j = nth_error r' j) -> f r = f r'.
(** the same algorithm on other samples *)
Definition on_samples (a : algorithm N) (rows : list (list N)) : algorithm N := mkalg (a_cs a) (a_sel a) rows (a_gpa a).
End Spec.

(** [f] does not fall when coordinates in [P] grow and the others stay *)
Definition grows_with (P : nat -> Prop) (f : list R -> R) : Prop :=
  forall r r', length r = length r' ->
    (forall j x x', nth_error r j = Some x -> nth_error r' j = Some x' -> (P j -> (x <= x')%R) /\ (~ P j -> x = x')) -> (f r <= f r')%R.
(** [l] is pointwise at most [l'] *)
Definition pointwise_le (l l' : list R) : Prop := Forall2 Rle l l'.
