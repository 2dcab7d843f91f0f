(** SpreadSpec.v - averages over the unit cube and evenly spread samples (C115). *)
From Coq Require Import Reals.
From Coquelicot Require Import Coquelicot.
From Verif Require Import Base Num RealSums.
Local Open Scope R_scope.

(** all coordinates between 0 and 1 *)
Definition in_cube (row : list R) : Prop := Forall (fun x => 0 <= x <= 1) row.
(** the average of [F] over the coordinates with numbers [J] (iterated Riemann integrals over the unit interval), the others fixed as in [row] *)
Fixpoint cube_average (J : list nat) (F : list R -> R) (row : list R) : R :=
  match J with
  | [] => F row
  | j :: rest => RInt (fun t => cube_average rest F (set_nth j t row)) 0 1
  end.
(** [F] changes by at most [L] times the change of coordinate [j], on the unit cube with [d] coordinates *)
Definition lipschitz_in (d j : nat) (L : R) (F : list R -> R) : Prop :=
  forall row t t', length row = d -> in_cube row -> 0 <= t <= 1 -> 0 <= t' <= 1 -> Rabs (F (set_nth j t row) - F (set_nth j t' row)) <= L * Rabs (t - t').

(** coordinate [j] of [row] is in cell [i] of [k] equal cells of the unit interval *)
Definition in_cell (j k i : nat) (row : list R) : Prop := exists x, nth_error row j = Some x /\ INR i / INR k <= x <= INR (i + 1) / INR k.
(** [rows] are spread evenly: the unit cube of the coordinates listed is cut into cells, [k] for coordinate [j], and
    every cell has the same number of rows *)
Fixpoint spread (Jk : list (nat * nat)) (rows : list (list R)) : Prop :=
  match Jk with
  | [] => rows <> []
  | (j, k) :: rest => exists parts n, (0 < k)%nat /\ (0 < n)%nat /\ length parts = k /\ Permutation rows (concat parts) /\
      forall i p, nth_error parts i = Some p -> length p = n /\ spread rest p /\ Forall (in_cell j k i) p
  end.
(** the bound on the error: the sum of L_j / k_j *)
Definition spread_error (L : nat -> R) (Jk : list (nat * nat)) : R := Rsum (map (fun jk => L (fst jk) / INR (snd jk)) Jk).

(** all rows with one value of each axis, the last coordinate changing fastest *)
Fixpoint grid_rows (axes : list (list R)) : list (list R) :=
  match axes with
  | [] => [[]]
  | axis :: rest => flat_map (fun x => map (cons x) (grid_rows rest)) axis
  end.
(** value [i] of an axis is in cell [i] *)
Definition cell_axis (axis : list R) : Prop := forall i x, nth_error axis i = Some x -> INR i / INR (length axis) <= x <= INR (i + 1) / INR (length axis).
