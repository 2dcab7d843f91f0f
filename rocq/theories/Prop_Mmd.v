(** Prop_Mmd.v - maximum mean discrepancy (C54). *)
From Coq Require Import Reals Lra Lia Permutation.
From Verif Require Import Base Num MmdModel MmdSpec MmdProofs MmdProofs2.
Local Open Scope R_scope.
Local Open Scope list_scope.

(** ** C54 *)
Theorem C54_range : forall d X U, Forall (fun x => length x = d) (X ++ U) -> (2 <= length X)%nat -> (2 <= length U)%nat ->
  (exists x y, In x (X ++ U) /\ In y (X ++ U) /\ x <> y) -> exists v, mmd X U = Ok (Some v) /\ 0 <= v < sqrt 2.
Proof. exact mmd_range'. Qed.
Print Assumptions C54_range.

(** what it is: an unbiased estimate with a Gaussian kernel, the median distance as bandwidth *)
Theorem C54_formula : forall d X U, Forall (fun x => length x = d) (X ++ U) -> (2 <= length X)%nat -> (2 <= length U)%nat ->
  (exists x y, In x (X ++ U) /\ In y (X ++ U) /\ x <> y) ->
  exists l, 0 < l /\ is_median l (pair_distances (X ++ U)) /\
    mmd X U = Ok (Some (sqrt (Rmax 0 (pair_mean (kern l) X + pair_mean (kern l) U - 2 * cross_mean (kern l) X U)))).
Proof. exact mmd_formula. Qed.
Print Assumptions C54_formula.

Theorem C54_order : forall X X' U U', Permutation X X' -> Permutation U U' -> mmd X U = mmd X' U'.
Proof. exact mmd_order. Qed.
Print Assumptions C54_order.

Theorem C54_symmetric : forall X U, (2 <= length X)%nat -> (2 <= length U)%nat -> mmd X U = mmd U X.
Proof. exact mmd_swap. Qed.
Print Assumptions C54_symmetric.

Theorem C54_same : forall X, (2 <= length X)%nat -> (exists x y, In x X /\ In y X /\ sqdist x y <> 0) -> mmd X X = Ok (Some 0).
Proof. exact mmd_same. Qed.
Print Assumptions C54_same.

(** moving and scaling all points alike *)
Theorem C54_scale_free : forall a b X U, 0 < a -> Forall (fun x => length x = length b) (X ++ U) -> mmd (map (affine a b) X) (map (affine a b) U) = mmd X U.
Proof. exact mmd_affine. Qed.
Print Assumptions C54_scale_free.

(** outside of these conditions: nan, or an exception *)
Theorem C54_nan : forall X U, (1 <= length X)%nat -> (2 <= length U)%nat ->
  (length X = 1%nat \/ (forall x y, In x (X ++ U) -> In y (X ++ U) -> x = y)) -> mmd X U = Ok None.
Proof. exact mmd_nan'. Qed.
Print Assumptions C54_nan.

Theorem C54_error : forall X U, (length X = 0)%nat \/ (length U < 2)%nat -> mmd X U = Err ValueError.
Proof. exact mmd_error. Qed.
Print Assumptions C54_error.

Example C54_example : exists v, mmd [[0; 0]; [1; 0]] [[0; 1]; [1; 1]; [1 / 2; 1 / 2]] = Ok (Some v) /\ 0 <= v < sqrt 2.
Proof.
  apply (C54_range 2); [repeat constructor|cbn; lia|cbn; lia|]. exists [0; 0], [1; 0]. cbn. repeat split; auto. intro E. injection E as E. lra.
Qed.
