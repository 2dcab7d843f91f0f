(** RoundSpec.v - sums in any order, for the statements about rounding (C111, C112). *)
From Coq Require Import Reals.
From Flocq Require Import Core.Core IEEE754.BinarySingleNaN.
From Verif Require Import Base Num PartitionModel PartitionSpec PartitionReal2 B64Proofs.

(** [added d l a]: [a] is a sum of the numbers in [l], taken in some order and with some brackets, where no
    number goes through more than [d] additions.  The loop from left to right, numpy's blocks of eight and
    pairwise sums are all of this form *)
Inductive added {N : Num} : nat -> list N -> N -> Prop :=
| added_none : added 0 [] n0
| added_one x : added 0 [x] x
| added_both d d' l l' a b : added d l a -> added d' l' b -> added (S (max d d')) (l ++ l') (nadd a b)
| added_order d l l' a : Permutation l l' -> added d l a -> added d l' a.

(** [some_loss d1 d2 v a]: [a] is the loss of a region with the variances [v] (one row per curve) as numpy may
    compute it: means of the columns with sums as above, squared deviations, and their sum *)
Definition some_loss {N : Num} (d1 d2 : nat) (v : list (list N)) (a : N) : Prop :=
  exists means, List.length means = match v with [] => 0 | row :: _ => List.length row end /\
    (forall k m, nth_error means k = Some m -> exists s, added d1 (map (fun row => nth k row n0) v) s /\ m = ndiv s (nofZ (Z.of_nat (List.length v)))) /\
    added d2 (List.concat (map (fun row => map (fun xm => nmul (nsub (fst xm) (snd xm)) (nsub (fst xm) (snd xm))) (combine row means)) v)) a.
(** the same with at most [d1] and [d2] additions per number *)
Definition loss_within {N : Num} (d1 d2 : nat) (v : list (list N)) (a : N) : Prop :=
  exists e1 e2, e1 <= d1 /\ e2 <= d2 /\ some_loss e1 e2 v a.

Local Open Scope R_scope.
(** finite and at most [M] in size *)
Definition fits fe fl fr (M : R) (x : B64 fe fl fr) : Prop := fin fe fl fr x /\ Rabs (val fe fl fr x) <= M.
(** the real numbers that the floats of a table stand for *)
Definition real_rows fe fl fr (v : list (list (B64 fe fl fr))) : list (list R) := map (map (val fe fl fr)) v.
(** the loss of a region without rounding: the sum over grid points and curves of the squared deviation of the
    variance from its mean at that grid point, in real numbers ([G] grid points) *)
Definition true_loss {fe fl fr} (G : nat) (nd : dnode (B64 fe fl fr)) : R := within_variance G (real_rows fe fl fr (r_v (n_region nd))).
(** what rounding may do to the loss of a split of [n] curves with [G] grid points and variances up to [M] *)
Definition slack (n G : nat) (M : R) : R := INR (n * G) * INR (n + n * G + 5) * bpow radix2 (-50) * (M * M).
(** the same when no number goes through more than [d1] additions for a mean and [d2] for the loss *)
Definition slack_within (d1 d2 n G : nat) (M : R) : R := INR (n * G) * INR (d1 + d2 + 5) * bpow radix2 (-50) * (M * M).
(** every deviation that the surrogate predicts is finite and at most [S] *)
Definition deviations_fit {fe fl fr} (S : R) (s : setup (B64 fe fl fr)) : Prop :=
  forall rows means stds, su_predict s rows = Ok (means, stds) -> Forall (fits fe fl fr S) stds.
