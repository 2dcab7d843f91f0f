(** MmdSpec.v - vocabulary for the maximum mean discrepancy (C54). *)
From Coq Require Import Reals Permutation Sorted.
From Verif Require Import Base Num MmdModel.
Local Open Scope R_scope.
Local Open Scope list_scope.

Notation point := (list R).
Definition point_eq_dec (x y : point) : {x = y} + {x <> y} := list_eq_dec Req_EM_T x y.
(** sum over the indices below n that satisfy f *)
Definition sum_if (n : nat) (c : nat -> bool) (f : nat -> R) : R := rtotal (map f (filter c (seq 0 n))).
Definition euclid (x y : point) : R := sqrt (sum_if (length x) (fun _ => true) (fun k => (nth k x 0 - nth k y 0) ^ 2)).
(** a Gaussian kernel of bandwidth l *)
Definition kern (l : R) (x y : point) : R := exp (- (euclid x y) ^ 2 / (2 * l ^ 2)).
(** mean of k over the pairs of different positions of a list, and over the pairs of two lists *)
Definition pair_mean (k : point -> point -> R) (X : list point) : R :=
  let n := length X in
  sum_if n (fun _ => true) (fun i => sum_if n (fun j => negb (Nat.eqb i j)) (fun j => k (nth i X []) (nth j X []))) / (INR n * (INR n - 1)).
Definition cross_mean (k : point -> point -> R) (X U : list point) : R :=
  sum_if (length X) (fun _ => true) (fun i => sum_if (length U) (fun _ => true) (fun j => k (nth i X []) (nth j U []))) / (INR (length X) * INR (length U)).
(** l is the median of the distances of different points of Z *)
Definition pair_distances (Z : list point) : list R :=
  map (fun p => euclid (fst p) (snd p)) (filter (fun p => if point_eq_dec (fst p) (snd p) then false else true) (list_prod Z Z)).
Definition is_median (l : R) (ds : list R) : Prop :=
  exists s, Permutation ds s /\ StronglySorted Rle s /\ (0 < length s)%nat /\
    l = (nth (Nat.div2 (length s - 1)) s 0 + nth (Nat.div2 (length s)) s 0) / 2.

