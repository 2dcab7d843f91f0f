(** SelOrderSpec.v - vocabulary for C100: the selected hyperparameters in another order. *)
From Coq Require Import Reals.
From Verif Require Import Base Num ConfigSpaceModel UtilsModel IceModel PartitionModel PartitionSpec.

Section Spec.
Context {N : Num}.
(** the same algorithm with another selection *)
Definition with_selected (a : algorithm N) (sel : list (hp N)) : algorithm N := mkalg (a_cs a) sel (a_samples a) (a_gpa a).
(** the same arguments of the partitioner with another selection *)
Definition with_sel (s : setup N) (q : selection N) : setup N :=
  mksetup (su_cs s) (su_predict s) q (su_samples s) (su_gpa s) (su_splits s) (su_minpts s) (su_nots s).
End Spec.

(** [sigma] maps the numbers below [G] one to one onto the numbers below [G] *)
Definition shuffles (G : nat) (sigma : nat -> nat) : Prop :=
  (forall g, g < G -> sigma g < G) /\ (forall g g', g < G -> g' < G -> sigma g = sigma g' -> g = g').
(** entry [g] of [l'] is entry [sigma g] of [l] *)
Definition reordered {A} (G : nat) (sigma : nat -> nat) (l l' : list A) : Prop :=
  length l = G /\ length l' = G /\ forall g, g < G -> nth_error l' g = nth_error l (sigma g).
