(** NumpyModel.v - the numpy operations used by the modelled code, on nested lists.

    numpy itself is not part of /repo; these definitions are the contract that
    the model assumes of it (see DESIGN.md, trusted base). *)
From Verif Require Import Base Num.

Section Numpy.
Context {N : Num}.

(** np.linspace(start, stop, num) with endpoint
    (numpy: [arange(num) * step + start], last element set to [stop]; for
    num = 1 the result is [start]).  Used at pyPDP/algorithms/ice.py:236,
    pyPDP/utils/utils.py:175,180 and
    pyPDP/algorithms/partitioner/decision_tree_partitioner.py:284. *)
Definition linspace (start stop : N) (num : nat) : list N :=
  match num with
  | 0 => []
  | 1 => [start]
  | S (S m) =>
    let step := ndiv (nsub stop start) (nofZ (Z.of_nat (S m))) in
    map (fun i => nadd (nmul (nofZ (Z.of_nat i)) step) start) (seq 0 (S m)) ++ [stop]
  end.

(** a.repeat(g) without axis: works on the flattened array.
    pyPDP/algorithms/ice.py:211, 224 *)
Definition np_repeat {A} (g : nat) (flat : list A) : list A :=
  flat_map (fun x => repeat x g) flat.

(** a.reshape((n, m)), C order. pyPDP/algorithms/ice.py:218, 219, 224 *)
Definition reshape2 {A} (d : A) (flat : list A) (n m : nat) : res (list (list A)) :=
  if Nat.eqb (List.length flat) (n * m) then
    Ok (map (fun i => map (fun j => nth (i * m + j) flat d) (seq 0 m)) (seq 0 n))
  else Err ValueError.

(** a.reshape((n, f, g)), C order. pyPDP/algorithms/ice.py:212 *)
Definition reshape3 {A} (d : A) (flat : list A) (n f g : nat) : res (list (list (list A))) :=
  if Nat.eqb (List.length flat) (n * f * g) then
    Ok (map (fun i => map (fun j => map (fun k => nth ((i * f + j) * g + k) flat d)
                                        (seq 0 g)) (seq 0 f)) (seq 0 n))
  else Err ValueError.

(** a.transpose((0, 2, 1)) of an array of shape (n, f, g). pyPDP/algorithms/ice.py:213 *)
Definition transpose021 {A} (d : A) (f g : nat) (a : list (list (list A))) : list (list (list A)) :=
  map (fun m => map (fun k => map (fun j => nth k (nth j m []) d) (seq 0 f)) (seq 0 g)) a.

(** a[:, :, idx] = b for a of shape (n, g, f), b of shape (g, d), idx of length d
    (later assignments win when idx has repetitions). pyPDP/algorithms/ice.py:214 *)
Definition assign_row {A} (idx : list nat) (vals row : list A) : list A :=
  fold_left (fun r iv => set_nth (fst iv) (snd iv) r) (combine idx vals) row.
(** x_ice[:, :, idx] = x_s: pyPDP/algorithms/ice.py:214 *)
Definition assign_cols {A} (a : list (list (list A))) (idx : list nat) (b : list (list A)) :=
  map (fun m => map (fun rb => assign_row idx (snd rb) (fst rb)) (combine m b)) a.

(** np.meshgrid( *[axis] * d ) followed by
    np.stack(..).reshape((d, -1)).T - pyPDP/algorithms/ice.py:236-238.
    The default indexing is 'xy': the result arrays have shape
    (n_2, n_1, n_3, ..., n_d) and array k holds axis k along its own dimension.
    With all axes of length m the flat index q has C-order digits
    (D_0, ..., D_{d-1}) in base m; axis 1 varies along dimension 1, axis 2 along
    dimension 0, axis k >= 3 along dimension k-1 (for d = 1: dimension 0). *)
Definition digit (m d j q : nat) : nat := (q / m ^ (d - 1 - j)) mod m.
(** the dimension along which axis k of np.meshgrid varies: pyPDP/algorithms/ice.py:237 *)
Definition mesh_dim (d k : nat) : nat :=
  if Nat.leb d 1 then k else match k with 0 => 1 | 1 => 0 | _ => k end.
(** np.stack([]) raises ValueError when there is no axis: pyPDP/algorithms/ice.py:237-238 *)
Definition mesh_points (axis : list N) (d : nat) : res (list (list N)) :=
  match d with
  | 0 => Err ValueError
  | _ => let m := List.length axis in
         Ok (map (fun q => map (fun k => nth (digit m d (mesh_dim d k) q) axis n0) (seq 0 d))
                 (seq 0 (m ^ d)))
  end.

(** column [g] of a 2-d array, for np.mean(a, axis=0): pyPDP/algorithms/pdp.py:59-67 *)
Definition column {A} (d : A) (g : nat) (a : list (list A)) : list A := map (fun row => nth g row d) a.
(** np.mean(a, axis=0): pyPDP/algorithms/pdp.py:59-67, pyPDP/algorithms/partitioner/__init__.py:57, 84, 90, 104-105 *)
Definition mean_axis0 (g : nat) (a : list (list N)) : list N :=
  map (fun k => nmean (column n0 k a)) (seq 0 g).

(** number of columns of a 2-d array given as a list of rows (a.shape[1]);
    the number is not visible when there is no row.  pyPDP/algorithms/partitioner/__init__.py:45, 63 *)
Definition shape1 {A} (a : list (list A)) : option nat :=
  match a with [] => None | r :: _ => Some (List.length r) end.
(** a.shape[1], 0 when there is no row: pyPDP/algorithms/partitioner/__init__.py:45, 63 *)
Definition width {A} (a : list (list A)) : nat :=
  match a with [] => 0 | r :: _ => List.length r end.

End Numpy.
