(** SpreadSynSpec.v - vocabulary for the PDP of the Styblinski-Tang function (C115).
    [at3 x i g] is row [g] of curve [i] (IceProofs2.v); [not_selected] and [is_selected] are by name. *)
From Coq Require Import Reals.
From Verif Require Import Base Num ConfigSpaceModel UtilsModel IceModel IceProofs2 IceShapeSpec SyntheticModel SpreadSpec.
Local Open Scope R_scope.

(** a float hyperparameter without log scale *)
Definition linear_float (h : hp RNum) : Prop := exists lo up : R, hp_kind h = KFloat (lo : RNum) (up : RNum) false /\ lo < up.
(** the width of its range *)
Definition hp_width (h : hp RNum) : R := match hp_kind h with KFloat lo up _ => up - lo | _ => 0 end.
(** on the range the derivative of (t^4 - 16 t^2 + 5 t) / 2 is between -C and C *)
Definition slope_at_most (h : hp RNum) (C : R) : Prop :=
  match hp_kind h with KFloat lo up _ => forall t : R, lo <= t <= up -> Rabs (2 * t ^ 3 - 16 * t + 5 / 2) <= C | _ => True end.
(** the function itself in place of a surrogate: the value of the configuration made from a row *)
Definition exact_model (cs : cspace RNum) (row : list R) : R :=
  match config_of_vector (N:=RNum) cs row with
  | Ok c => match stybtang_value cs c with Ok v => v | Err _ => 0 end
  | Err _ => 0
  end.

(** [J] are the numbers of the coordinates that are not selected *)
Definition rest_of (a : algorithm RNum) (J : list nat) : Prop := forall j, In j J <-> (j < num_features a)%nat /\ not_selected (a_cs a) (a_sel a) j.
(** a row of the unit cube that has, in the selected places, the coordinates of the curves at grid point [g] *)
Definition at_grid (a : algorithm RNum) (d : icedata RNum) (g : nat) (base : list R) : Prop := length base = num_features a /\ in_cube base /\
  forall i r j, at3 (i_x d) i g = Some r -> is_selected (a_cs a) (a_sel a) j -> nth_error base j = nth_error r j.
