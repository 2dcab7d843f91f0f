(** GridSpec.v - vocabulary for C107: the same curves on a finer grid. *)
From Verif Require Import Base Num NumpyModel ConfigSpaceModel UtilsModel IceModel.

Section Spec.
Context {N : Num}.
(** the same algorithm with another number of grid points per axis *)
Definition with_gpa (a : algorithm N) (g : nat) : algorithm N := mkalg (a_cs a) (a_sel a) (a_samples a) g.
End Spec.

(** [sigma] maps the numbers below [G] one to one into the numbers below [G'] *)
Definition embeds (G G' : nat) (sigma : nat -> nat) : Prop :=
  (forall g, g < G -> sigma g < G') /\ (forall g g', g < G -> g' < G -> sigma g = sigma g' -> g = g').
(** entry [g] of [l] is entry [sigma g] of [l'] *)
Definition found_in {A} (G : nat) (sigma : nat -> nat) (l l' : list A) : Prop :=
  length l = G /\ forall g, g < G -> nth_error l g = nth_error l' (sigma g).
(** [k] times as many steps between the end points of an axis *)
Definition refined (k g : nat) : nat := k * (g - 1) + 1.
(** the points of an axis with [m] points are among those of the axis with [k] times the steps *)
Definition axis_refines {N : Num} (k m : nat) : Prop :=
  forall i, i < m -> nth (k * i) (linspace (N:=N) n0 n1 (refined k m)) n0 = nth i (linspace (N:=N) n0 n1 m) n0.
