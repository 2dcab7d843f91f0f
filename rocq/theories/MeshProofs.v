(** MeshProofs.v - the order of the grid points for any number of selected hyperparameters (C24). *)
From Verif Require Import Base Num NumpyModel ConfigSpaceModel UtilsModel IceModel ListLemmas IceProofs IceProofs2.

Section P.
Context {N : Num}.
Theorem mesh_order (axis : list N) d grid k1 k2 ks : mesh_points axis (S (S d)) = Ok grid ->
  k1 < length axis -> k2 < length axis -> all_digits (length axis) d ks ->
  nth_error grid ((k2 * length axis + k1) * length axis ^ d + from_digits (length axis) ks) = Some (map (fun k => nth k axis n0) (k1 :: k2 :: ks)).
Proof.
  intros H H1 H2 [Hl Hf]. destruct (mesh_rows axis _ grid H) as [_ K].
  destruct (K (k2 :: k1 :: ks)) as (q & _ & Hq & E & _).
  { split; [cbn; lia|]. repeat (apply Forall_cons; [assumption|]). exact Hf. }
  cbn [map swap2] in Hq. cbn [map]. rewrite <- Hq. f_equal. rewrite E. cbn [from_digits length]. rewrite Hl. cbn [Nat.pow]. ring.
Qed.
Theorem grid_order (a : algorithm N) grid : grid_points a = Ok grid -> let axis := linspace (N:=N) n0 n1 (a_gpa a) in
  (n_selected a = 1 -> forall k, k < a_gpa a -> nth_error grid k = Some [nth k axis n0]) /\
  (forall d, n_selected a = S (S d) -> forall k1 k2 ks, k1 < a_gpa a -> k2 < a_gpa a -> all_digits (a_gpa a) d ks ->
     nth_error grid ((k2 * a_gpa a + k1) * a_gpa a ^ d + from_digits (a_gpa a) ks) = Some (map (fun k => nth k axis n0) (k1 :: k2 :: ks))).
Proof.
  intros H axis. unfold grid_points in H. fold axis in H. assert (Ll : length axis = a_gpa a) by apply linspace_length. split.
  - intros E k Hk. rewrite E in H. destruct (mesh_rows axis 1 grid H) as [_ K]. destruct (K [k]) as (q & _ & Hq & Eq & _).
    { split; [reflexivity|]. apply Forall_cons; [rewrite Ll; exact Hk|constructor]. }
    cbn in Eq, Hq. rewrite <- Hq. f_equal. lia.
  - intros d E k1 k2 ks H1 H2 H3. rewrite E in H. pose proof (mesh_order axis d grid k1 k2 ks H) as M. rewrite Ll in M. exact (M H1 H2 H3).
Qed.
End P.
