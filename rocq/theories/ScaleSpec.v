(** ScaleSpec.v - linear axes in real numbers, for the statements about scaling in binary64 (C114). *)
From Coq Require Import Reals.
From Flocq Require Import Core.Core IEEE754.BinarySingleNaN.
From Verif Require Import Base Num NumLaws ConfigSpaceModel UtilsModel PartitionModel PartitionSpec B64Proofs.
Local Open Scope R_scope.

(** the larger of the two bounds in size *)
Definition bound_size (lo up : R) : R := Rmax (Rabs lo) (Rabs up).
(** what rounding may do to a value of the axis from [lo] to [up] *)
Definition value_slack (lo up : R) : R := bpow radix2 (-53) * (bound_size lo up + 3 * (up - lo)) + bpow radix2 (-1074).
(** two coordinates of that axis that are this far apart have different values *)
Definition coord_gap (lo up : R) : R := bpow radix2 (-52) * (bound_size lo up / (up - lo) + 4).

(** a hyperparameter with linear scale, finite bounds up to 2^900 and a range of at least 2^-1000 *)
Definition linear_axis fe fl fr (h : hp (B64 fe fl fr)) (lo up : B64 fe fl fr) : Prop :=
  hp_kind h = KFloat lo up false /\ bounded fe fl fr lo /\ bounded fe fl fr up /\
  bpow radix2 (-1000) <= val fe fl fr up - val fe fl fr lo.
Definition linear_space fe fl fr (cs : cspace (B64 fe fl fr)) : Prop := Forall (fun h => exists lo up, linear_axis fe fl fr h lo up) cs.
(** a coordinate of the unit interval *)
Definition unit_coord fe fl fr (x : B64 fe fl fr) : Prop := fin fe fl fr x /\ 0 <= val fe fl fr x <= 1.
(** the coordinates of [row] are at most a split value or larger by the gap of their axis *)
Definition clear_of_splits {fe fl fr} (s : setup (B64 fe fl fr)) (row : list (B64 fe fl fr)) : Prop :=
  forall j h lo up x v, nth_error (su_cs s) j = Some h -> hp_kind h = KFloat lo up false -> nth_error row j = Some x ->
    In v (possible_split_vals (N:=B64 fe fl fr) (su_splits s)) ->
    val fe fl fr x <= val fe fl fr v \/ val fe fl fr v + coord_gap (val fe fl fr lo) (val fe fl fr up) <= val fe fl fr x.
