(** ColorSpec.v - the words used in the properties of adjust_lightness. *)
From Coq Require Import Reals.
From Verif Require Import Base Num ColorModel.
Local Open Scope R_scope.

Definition unit_interval (x : R) : Prop := 0 <= x <= 1.
(** a colour with all components in 0..1 *)
Definition color_ok (c : rgb) : Prop := let '(r, g, b) := c in unit_interval r /\ unit_interval g /\ unit_interval b.
Definition black : rgb := (0, 0, 0).
Definition white : rgb := (1, 1, 1).
Definition red_of (c : rgb) : R := fst (fst c).
Definition green_of (c : rgb) : R := snd (fst c).
Definition blue_of (c : rgb) : R := snd c.
(** no component of a is greater than that of b *)
Definition not_lighter (a b : rgb) : Prop := red_of a <= red_of b /\ green_of a <= green_of b /\ blue_of a <= blue_of b.
(** half the sum of the largest and the smallest component *)
Definition lightness (c : rgb) : R :=
  let '(r, g, b) := c in (Rmax r (Rmax g b) + Rmin r (Rmin g b)) / 2.
(** the value in 0..1 that is nearest to x *)
Definition clamp01 (x : R) : R := Rmax 0 (Rmin 1 x).
(** the difference of the largest and the smallest component *)
Definition spread (c : rgb) : R := let '(r, g, b) := c in Rmax r (Rmax g b) - Rmin r (Rmin g b).
