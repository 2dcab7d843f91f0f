(** Prop_Color.v - adjust_lightness (C65, C66). *)
From Coq Require Import Reals Lra.
From Verif Require Import Base Num ColorModel ColorSpec ColorProofs.
Local Open Scope R_scope.

(** ** C65 *)
Theorem C65_identity : forall c, color_ok c -> adjust_lightness c 1 = c.
Proof. exact adjust_identity. Qed.
Print Assumptions C65_identity.

Theorem C65_valid_color : forall c a, color_ok c -> color_ok (adjust_lightness c a).
Proof. exact adjust_ok. Qed.
Print Assumptions C65_valid_color.

Theorem C65_lightness : forall c a, color_ok c -> lightness (adjust_lightness c a) = clamp01 (a * lightness c).
Proof. exact adjust_lightness_of. Qed.
Print Assumptions C65_lightness.

Theorem C65_monotone : forall c a a', color_ok c -> a <= a' -> not_lighter (adjust_lightness c a) (adjust_lightness c a').
Proof. exact adjust_mono. Qed.
Print Assumptions C65_monotone.

Theorem C65_ends : forall c a, color_ok c -> (a <= 0 -> adjust_lightness c a = black) /\ (1 <= a * lightness c -> adjust_lightness c a = white).
Proof. exact (fun c a H => conj (adjust_black c a H) (adjust_white c a H)). Qed.
Print Assumptions C65_ends.

Theorem C65_grey : forall x a, 0 <= x <= 1 -> adjust_lightness (x, x, x) a = (clamp01 (a * x), clamp01 (a * x), clamp01 (a * x)).
Proof. exact adjust_grey. Qed.
Print Assumptions C65_grey.

(** a colour of the library's own examples *)
Example C65_example : color_ok (3/10, 55/100, 1/10) /\ lightness (3/10, 55/100, 1/10) = 13/40 /\
  lightness (adjust_lightness (3/10, 55/100, 1/10) (3/2)) = 39/80 /\ adjust_lightness (3/10, 55/100, 1/10) 4 = white.
Proof.
  assert (K : color_ok (3/10, 55/100, 1/10)) by (repeat split; lra).
  assert (L : lightness (3/10, 55/100, 1/10) = 13/40) by (unfold lightness, Rmax, Rmin; repeat destruct (Rle_dec _ _); lra).
  refine (conj K (conj L (conj _ _))).
  - rewrite C65_lightness, L by exact K. unfold clamp01, Rmax, Rmin; repeat destruct (Rle_dec _ _); lra.
  - apply C65_ends; [exact K|]. rewrite L. lra.
Qed.

(** ** C66: the docstring says an amount below 1 gives a lighter colour and one above 1 a darker colour *)
Theorem C66_docstring_refuted : ~ (forall c a, color_ok c -> a < 1 -> not_lighter c (adjust_lightness c a)) /\
  ~ (forall c a, color_ok c -> 1 < a -> not_lighter (adjust_lightness c a) c).
Proof. exact docstring_refuted. Qed.
Print Assumptions C66_docstring_refuted.

(** it is the other way round *)
Theorem C66_below_one_darker : forall c a, color_ok c -> c <> black -> a < 1 -> not_lighter (adjust_lightness c a) c /\ adjust_lightness c a <> c.
Proof. exact adjust_darkens. Qed.
Print Assumptions C66_below_one_darker.

Theorem C66_above_one_lighter : forall c a, color_ok c -> c <> black -> lightness c < 1 -> 1 < a ->
  not_lighter c (adjust_lightness c a) /\ adjust_lightness c a <> c.
Proof. exact adjust_lightens. Qed.
Print Assumptions C66_above_one_lighter.

Example C66_example : color_ok (0, 1/2, 0) /\ (0, 1/2, 0) <> black /\ lightness (0, 1/2, 0) < 1.
Proof.
  refine (conj _ (conj _ _)); [repeat split; lra| |unfold lightness, Rmax, Rmin; repeat destruct (Rle_dec _ _); lra].
  unfold black. intro E. injection E as E. lra.
Qed.
