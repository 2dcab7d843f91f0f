(** Prop_SelOrder.v - the order of the selected hyperparameters (C100).

    [rowwise f s]: the surrogate whose mean and standard deviation at a row are [f] and [s].
    [shuffles G sigma]: [sigma] is one to one on the numbers below [G].
    [reordered G sigma l l']: both have [G] entries, and entry [g] of [l'] is entry [sigma g] of [l]. *)
From Coq Require Import Reals QArith Permutation.
From Verif Require Import Base Num NumLaws NumpyModel ConfigSpaceModel UtilsModel IceModel PartitionModel PartitionSpec ListLemmas IceProofs IceProofs2
  PartitionProofs2 PartitionProofs6 RealSums IceShapeSpec SelOrderSpec SelOrderProofs SelOrderReal Examples.
Local Open Scope nat_scope.
Local Open Scope list_scope.

(** ** C100 *)
(** one reordering of the grid points for all samples and all three arrays, centered or not *)
Theorem C100_curves : forall (N : Num) (a : algorithm N) sel' f s d, NoDup (map hp_name (a_cs a)) -> NoDup (map hp_name (a_sel a)) -> Permutation (a_sel a) sel' ->
  rect (num_features a) (a_samples a) -> 1 <= a_gpa a -> ice_calculate a false (rowwise f s) = Ok d ->
  exists sigma, shuffles (num_grid_points a) sigma /\ forall centered, exists d d',
    ice_calculate a centered (rowwise f s) = Ok d /\ ice_calculate (with_selected a sel') centered (rowwise f s) = Ok d' /\
    forall i g, i < num_samples a -> g < num_grid_points a ->
      at3 (i_x d') i g = at3 (i_x d) i (sigma g) /\ at2 (i_y d') i g = at2 (i_y d) i (sigma g) /\ at2 (i_v d') i g = at2 (i_v d) i (sigma g).
Proof. exact @selection_order_curves. Qed.
Print Assumptions C100_curves.

(** and of the PDP *)
Theorem C100_pdp : forall (N : Num) (a : algorithm N) sel' f s d, NoDup (map hp_name (a_cs a)) -> NoDup (map hp_name (a_sel a)) -> Permutation (a_sel a) sel' ->
  rect (num_features a) (a_samples a) -> ice_calculate a false (rowwise f s) = Ok d ->
  exists d' sigma, ice_calculate (with_selected a sel') false (rowwise f s) = Ok d' /\ shuffles (num_grid_points a) sigma /\
    reordered (num_grid_points a) sigma (x_pdp a d) (x_pdp (with_selected a sel') d') /\
    reordered (num_grid_points a) sigma (y_pdp a d) (y_pdp (with_selected a sel') d') /\
    reordered (num_grid_points a) sigma (v_pdp a d) (v_pdp (with_selected a sel') d').
Proof. exact @selection_order_pdp. Qed.
Print Assumptions C100_pdp.

(** two hyperparameters: the point with the first at position [k1] and the second at [k2] of the axis is number
    k2 * G + k1 in one order and k1 * G + k2 in the other *)
Theorem C100_two : forall (N : Num) (a : algorithm N) h1 h2 f s d d', a_sel a = [h1; h2] -> hp_name h1 <> hp_name h2 -> NoDup (map hp_name (a_cs a)) ->
  rect (num_features a) (a_samples a) -> ice_calculate a false (rowwise f s) = Ok d -> ice_calculate (with_selected a [h2; h1]) false (rowwise f s) = Ok d' ->
  forall i k1 k2, k1 < a_gpa a -> k2 < a_gpa a ->
    at3 (i_x d') i (k1 * a_gpa a + k2) = at3 (i_x d) i (k2 * a_gpa a + k1) /\
    at2 (i_y d') i (k1 * a_gpa a + k2) = at2 (i_y d) i (k2 * a_gpa a + k1) /\
    at2 (i_v d') i (k1 * a_gpa a + k2) = at2 (i_v d) i (k2 * a_gpa a + k1).
Proof. exact @two_orders. Qed.
Print Assumptions C100_two.

(** the tree: the same conditions, losses and curves, the grid points of the curves reordered *)
Theorem C100_tree : forall (s : setup RNum) (mu sd : list R -> R) l l' p p' d,
  (forall rows : list (list RNum), su_predict s rows = Ok (map mu rows, map sd rows)) -> su_sel s = SelList l -> Permutation l l' ->
  (forall sel, convert_hyperparameters (su_sel s) (su_cs s) = Ok sel -> NoDup (map hp_name sel)) ->
  setup_ok s -> reaches s p -> reaches (with_sel s (SelList l')) p' -> 0 < d ->
  exists G sigma q q' ids ids' leaves leaves', shuffles G sigma /\ partition p d = (q, Ok ids) /\ partition p' d = (q', Ok ids') /\
    Forall2 (fun id nd => deref q id = Some nd) ids leaves /\ Forall2 (fun id nd => deref q' id = Some nd) ids' leaves' /\
    Forall2 (fun nd nd' : dnode RNum => n_depth nd = n_depth nd' /\ n_conds nd = n_conds nd' /\
      Forall2 (reordered G sigma) (r_x (n_region nd)) (r_x (n_region nd')) /\ Forall2 (reordered G sigma) (r_y (n_region nd)) (r_y (n_region nd')) /\
      Forall2 (reordered G sigma) (r_v (n_region nd)) (r_v (n_region nd')) /\ region_loss (n_region nd) = region_loss (n_region nd')) leaves leaves'.
Proof. exact selection_order_tree. Qed.
Print Assumptions C100_tree.

(** the three hyperparameters of the example, a and b selected in both orders: the means of the first curve at the nine
    points, for the mean a + 2b *)
Definition so_alg (sel : list (hp QNum)) : algorithm QNum := mkalg ex_cs sel ex_rows 3.
Definition so_mean (r : list QNum) : QNum := nadd (nth 0 r n0) (nmul (nofZ 2) (nth 1 r n0)).
Definition so_first (sel : list (hp QNum)) : list Q := match ice_calculate (so_alg sel) false (rowwise so_mean so_mean) with Ok d => map Qred (nth 0 (i_y d) []) | Err _ => [] end.
Definition so_ha : hp QNum := nth 0 ex_cs (mkhp ""%string (KFloat n0 n1 false)).
Definition so_hb : hp QNum := nth 1 ex_cs (mkhp ""%string (KFloat n0 n1 false)).
Example C100_curves_example : NoDup (map hp_name (a_cs (so_alg [so_ha; so_hb]))) /\ NoDup (map hp_name (a_sel (so_alg [so_ha; so_hb]))) /\
  Permutation [so_ha; so_hb] [so_hb; so_ha] /\ rect (num_features (so_alg [so_ha; so_hb])) (a_samples (so_alg [so_ha; so_hb])) /\
  so_first [so_ha; so_hb] = [0; 1 # 2; 1; 1; 3 # 2; 2; 2; 5 # 2; 3]%Q /\ so_first [so_hb; so_ha] = [0; 1; 2; 1 # 2; 3 # 2; 5 # 2; 1; 2; 3]%Q.
Proof.
  split; [cbn; repeat constructor; cbn; intuition discriminate|]. split; [cbn; repeat constructor; cbn; intuition discriminate|].
  split; [constructor|]. split; [repeat constructor|]. split; vm_compute; reflexivity.
Qed.
Definition so_setup : setup RNum := with_sel (ex_setup (N:=RNum)) (SelList [SName "a"%string; SName "b"%string]).
Lemma so_reaches l sel : convert_hyperparameters (SelList l) (ex_cs (N:=RNum)) = Ok sel -> sel <> [] -> sel_known (ex_cs (N:=RNum)) sel ->
  exists p, reaches (with_sel (ex_setup (N:=RNum)) (SelList l)) p.
Proof.
  intros E Ne Hin. destruct (construct_total (with_sel (ex_setup (N:=RNum)) (SelList l)) sel (ex_setup_ok (N:=RNum)) E Ne Hin) as (p & Ep).
  - discriminate. - apply ex_batch.
  - exists p, p, []. split; [exact Ep|reflexivity].
Qed.
(** both objects exist, and over the rationals the tree of depth 2 has four leaves, split on c *)
Definition so_tree (l : list (selitem QNum)) : list (option (nat * list (string * Q * bool))) :=
  match construct (with_sel (ex_setup (N:=QNum)) (SelList l)) with Ok p => match partition p 2 with (q, Ok ids) => leaf_summary q ids | _ => [] end | Err _ => [] end.
Example C100_tree_example : setup_ok so_setup /\ (exists p, reaches so_setup p) /\ (exists p', reaches (with_sel so_setup (SelList [SName "b"%string; SName "a"%string])) p') /\
  (exists mu sd : list R -> R, forall rows : list (list RNum), su_predict so_setup rows = Ok (map mu rows, map sd rows)) /\
  (forall sel, convert_hyperparameters (su_sel so_setup) (su_cs so_setup) = Ok sel -> NoDup (map hp_name sel)) /\
  so_tree [SName "a"%string; SName "b"%string] = so_tree [SName "b"%string; SName "a"%string] /\ length (so_tree [SName "a"%string; SName "b"%string]) = 4.
Proof.
  split; [exact (ex_setup_ok (N:=RNum))|]. split; [apply (so_reaches _ [nth 0 ex_cs (mkhp ""%string (KFloat n0 n1 false)); nth 1 ex_cs (mkhp ""%string (KFloat n0 n1 false))]); [reflexivity|discriminate|apply Forall_forall; intros h [<-|[<-|[]]]; cbn; auto]|].
  split; [apply (so_reaches _ [nth 1 ex_cs (mkhp ""%string (KFloat n0 n1 false)); nth 0 ex_cs (mkhp ""%string (KFloat n0 n1 false))]); [reflexivity|discriminate|apply Forall_forall; intros h [<-|[<-|[]]]; cbn; auto]|].
  split; [do 2 eexists; intro rows; reflexivity|].
  split; [intros sel E; injection E as <-; cbn; repeat constructor; cbn; intuition discriminate|].
  split; vm_compute; reflexivity.
Qed.
