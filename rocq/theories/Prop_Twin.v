(** Prop_Twin.v - names, kinds, ranges and scales of the hyperparameters do not enter curves and trees (C101).

    [same_size cs cs']: two spaces with as many hyperparameters; they correspond by position ([twin]).
    [both rel r r']: both calls succeed with related results, or raise the same exception. *)
From Coq Require Import Reals QArith Lra.
From Verif Require Import Base Num NumLaws NumpyModel ConfigSpaceModel UtilsModel IceModel PartitionModel PartitionSpec ForestModel IceProofs RealProofs PartitionReal
  Witness Examples TwinSpec TwinProofs TwinReal.
Local Open Scope nat_scope.
Local Open Scope list_scope.

(** ** C101 *)
(** the same arrays, or the same exception: any number type, any surrogate *)
Theorem C101_curves : forall (N : Num) (cs cs' : cspace N), same_size cs cs' -> forall sel sel' samples gpa centered predict,
  Forall2 (twin cs cs') sel sel' ->
  ice_calculate (mkalg cs sel samples gpa) centered predict = ice_calculate (mkalg cs' sel' samples gpa) centered predict.
Proof. exact @twin_curves. Qed.
Print Assumptions C101_curves.

(** the same tree after any calls of partition: nodes, links, leaves, curves, positions and normalized values of the splits *)
Theorem C101_trees : forall (N : Num) (cs cs' : cspace N), same_size cs cs' -> forall predict sel sel' samples gpa ns mp nots nots',
  twin_selection cs cs' sel sel' -> twin_nots cs cs' nots nots' ->
  both (fun p p' => forall ds d, twin_tree cs cs' (fst (partition (run_history p ds) d)) (fst (partition (run_history p' ds) d)) /\
                                 snd (partition (run_history p ds) d) = snd (partition (run_history p' ds) d))
    (dt_new cs predict sel samples gpa ns mp nots) (dt_new cs' predict sel' samples gpa ns mp nots').
Proof. exact @twin_trees. Qed.
Print Assumptions C101_trees.

(** the same trees of forests with the same random numbers *)
Theorem C101_forests : forall (N : Num) (cs cs' : cspace N), same_size cs cs' -> forall predict sel sel' samples gpa ns mp rng,
  twin_selection cs cs' sel sel' ->
  both (fun f f' => forall calls n d k, let run f := fold_left (fun f c => fst (forest_partition f (fst (fst c)) (snd (fst c)) (snd c))) calls f in
          snd (forest_partition (run f) n d k) = snd (forest_partition (run f') n d k) /\
          opt_rel (Forall2 (twin_tree cs cs')) (f_trees (fst (forest_partition (run f) n d k))) (f_trees (fst (forest_partition (run f') n d k))))
    (forest_new cs predict sel samples gpa ns mp rng) (forest_new cs' predict sel' samples gpa ns mp rng).
Proof. exact @twin_forests. Qed.
Print Assumptions C101_forests.

(** float hyperparameters, exact arithmetic: the configurations of one vector lie in the same leaf *)
Theorem C101_incumbents : forall cs cs' : cspace RNum, same_size cs cs' -> float_space cs -> float_space cs' ->
  forall predict sel sel' samples gpa ns mp nots nots' p p' ds row,
  twin_selection cs cs' sel sel' -> twin_nots cs cs' nots nots' -> Forall (fun r => length r = length cs) samples -> 1 <= gpa ->
  dt_new cs predict sel samples gpa ns mp nots = Ok p -> dt_new cs' predict sel' samples gpa ns mp nots' = Ok p' -> length row = length cs ->
  exists c c', config_of_vector cs row = Ok c /\ config_of_vector cs' row = Ok c' /\
    get_incumbent_region (run_history p ds) c = get_incumbent_region (run_history p' ds) c'.
Proof. exact twin_incumbents. Qed.
Print Assumptions C101_incumbents.

(** not so for an integer hyperparameter and a float one with the same range (twins of C03_integer_refuted) *)
Theorem C101_integer_refuted : same_size w_int_cs t_float_cs /\ construct w_int = Ok w_int_obj /\ construct t_float = Ok t_float_obj /\
  t_leaf w_int_cs w_int_obj = Ok (Some 1) /\ t_leaf t_float_cs t_float_obj = Ok (Some 2).
Proof. exact integer_twin. Qed.
Print Assumptions C101_integer_refuted.

(** the space of the other examples and one with other names, a log scale, an integer and a categorical hyperparameter *)
Definition tx_cs {N : Num} : cspace N := [mkhp "z" (KFloat (nofZ 3) (nofZ 4) true); mkhp "a" (KInt 0 3 false); mkhp "b" (KCat [VStr "u"; VStr "v"])]%string.
Definition tx : dtp QNum := match dt_new (tx_cs (N:=QNum)) ex_predict (SelOne (SName "z"%string)) ex_rows 3 4 1 None with Ok p => p | Err _ => mkdtp [] [] [] 0 0 [] [] end.
Example C101_example :
  (forall N : Num, same_size (ex_cs (N:=N)) tx_cs /\ twin_selection (ex_cs (N:=N)) tx_cs (SelOne (SName "a"%string)) (SelOne (SName "z"%string))) /\
  leaf_summary (fst (partition exq 1)) (d_leaves (fst (partition exq 1))) =
    [Some (3, [("b"%string, (1#5)%Q, false)]); Some (3, [("b"%string, (1#5)%Q, true)])] /\
  leaf_summary (fst (partition tx 1)) (d_leaves (fst (partition tx 1))) =
    [Some (3, [("a"%string, (1#5)%Q, false)]); Some (3, [("a"%string, (1#5)%Q, true)])].
Proof.
  refine (conj _ (conj _ _)).
  - intro N. split; [refine (conj eq_refl (conj _ _)); repeat constructor; cbn; intuition discriminate|].
    constructor. apply (twin_name ex_cs tx_cs (mkhp "a"%string (KFloat n0 n1 false)) (mkhp "z"%string (KFloat (nofZ 3) (nofZ 4) true))). exists 0. split; reflexivity.
  - vm_compute. reflexivity.
  - vm_compute. reflexivity.
Qed.
