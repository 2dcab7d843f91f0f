(** BoxSpec.v - the box of a region and averages over it (C116). *)
From Coq Require Import Reals.
From Coquelicot Require Import Coquelicot.
From Verif Require Import Base Num NumLaws ConfigSpaceModel UtilsModel IceModel IceProofs2 IceShapeSpec PartitionModel SpreadSpec.
Local Open Scope R_scope.

(** coordinate [j] of [row] is in cell [i] of [k] equal cells of the unit interval; a value on the border of two cells is in the lower one *)
Definition in_cell_of (j k i : nat) (row : list R) : Prop :=
  exists x, nth_error row j = Some x /\ 0 <= x /\ (i = 0%nat \/ INR i / INR k < x) /\ x <= INR (i + 1) / INR k.
(** [rows] are spread evenly over these cells (as [spread], every row in one cell) *)
Fixpoint spread_cells (Jk : list (nat * nat)) (rows : list (list R)) : Prop :=
  match Jk with
  | [] => rows <> []
  | (j, k) :: rest => exists parts n, (0 < k)%nat /\ (0 < n)%nat /\ length parts = k /\ Permutation rows (concat parts) /\
      forall i p, nth_error parts i = Some p -> length p = n /\ spread_cells rest p /\ Forall (in_cell_of j k i) p
  end.

(** the condition is about hyperparameter number [j] *)
Definition about (cs : cspace RNum) (j : nat) (c : cond RNum) : bool :=
  match nth_error cs j with Some h => String.eqb (hp_name h) (hp_name (c_hp c)) | None => false end.
(** the box the conditions describe, in normalized coordinates: from the largest bound below to the smallest bound above *)
Definition box_lo (cs : cspace RNum) (conds : list (cond RNum)) (j : nat) : R :=
  fold_right Rmax 0 (map (fun c : cond RNum => (c_val c : R)) (filter (fun c => about cs j c && negb (c_le c)) conds)).
Definition box_up (cs : cspace RNum) (conds : list (cond RNum)) (j : nat) : R :=
  fold_right Rmin 1 (map (fun c : cond RNum => (c_val c : R)) (filter (fun c => about cs j c && c_le c) conds)).
(** the part of the unit cube of the coordinates [J] that is in the box *)
Definition volume (lo up : nat -> R) (J : list nat) : R := fold_right Rmult 1 (map (fun j => Rmax 0 (up j - lo j)) J).
(** the average of [F] over the coordinates [J] in the box (iterated Riemann integrals), the others fixed as in [row] *)
Fixpoint box_average (lo up : nat -> R) (J : list nat) (F : list R -> R) (row : list R) : R :=
  match J with
  | [] => F row
  | j :: rest => RInt (fun t => box_average lo up rest F (set_nth j t row)) (lo j) (up j) / (up j - lo j)
  end.
(** a row of the unit cube that has, in the selected places, the coordinates of the region's curves at grid point [g] *)
Definition region_at (cs : cspace RNum) (sel : list (hp RNum)) (r : region RNum) (g : nat) (base : list R) : Prop :=
  length base = length cs /\ in_cube base /\
  forall i row j, at3 (r_x r) i g = Some row -> is_selected cs sel j -> nth_error base j = nth_error row j.
(** value [i] of an axis is in cell [i] *)
Definition lower_cell_axis (axis : list R) : Prop :=
  forall i x, nth_error axis i = Some x -> 0 <= x /\ (i = 0%nat \/ INR i / INR (length axis) < x) /\ x <= INR (i + 1) / INR (length axis).
