(** RoundLeavesSpec.v - a word for the statements about leaves and root in binary64 (C121). *)
From Coq Require Import Reals.
From Verif Require Import Base Num PartitionModel PartitionSpec RoundSpec.

(** every mean that the surrogate predicts is finite and at most [M] in size *)
Definition means_fit {fe fl fr} (M : R) (s : setup (B64 fe fl fr)) : Prop :=
  forall rows means stds, su_predict s rows = Ok (means, stds) -> Forall (fits fe fl fr M) means.
