(** MetaExamples.v - witnesses for C120. *)
From Coq Require Import Reals Lra Lia ZArith Permutation Sorted.
From Flocq Require Import IEEE754.BinarySingleNaN.
From Verif Require Import Base Num NumLaws NumpyModel ConfigSpaceModel UtilsModel IceModel PartitionModel PartitionSpec RealSums Witness ConfidenceExamples
  PartitionReal2 DrawProofs7 ExperimentProofs Examples ExperimentExamples ForestSpec MetaModel MetaSpec MetaProofs.
Local Open Scope nat_scope.
Local Open Scope list_scope.
Local Open Scope string_scope.

Section W.
Variables fe fln fr : b64 -> b64.
Notation BN := (B64 fe fln fr).
(** standard deviation 9 where b <= 1/2 and 11 elsewhere: the root has 10 and the region of the incumbent 9 *)
Definition mt_predict : predictor BN := fun rows => Ok (map (fun _ => n0) rows, map (fun r => if nle (n:=BN) (nth 1 r n0) (fl 1 (-1)) then nofZ 9 else nofZ 11) rows).
Definition mt_cfg : config BN := [("a", VNum (fl 1 (-1) : BN)); ("b", VNum (fl 1 (-2) : BN))].
Definition mt_value (reps : nat) : res (option BN) :=
  meta_objective (N:=BN) (w_nan_cs fe fln fr) mt_predict (SelOne (SName "a")) [[fl 1 (-1); fl 1 (-2)]; [fl 1 (-1); fl 3 (-2)]] 2 1 1 mt_cfg 1 reps.
Definition num_of (r : res (option BN)) : BN := match r with Ok (Some v) => v | _ => n0 end.
Definition is_num (r : res (option BN)) : bool := match r with Ok (Some _) => true | _ => false end.
(** once: -0.1, rounded.  Three times: one unit in the last place less *)
Lemma mt_differs : is_num (mt_value 1) = true /\ is_num (mt_value 3) = true /\ neqb (n:=BN) (num_of (mt_value 1)) (nsub n0 (ndiv n1 (nofZ 10))) = true /\
  nlt (n:=BN) (num_of (mt_value 3)) (num_of (mt_value 1)) = true.
Proof. repeat split; vm_compute; reflexivity. Qed.
End W.

Local Open Scope R_scope.
(** a file with one decision tree, one forest of 2 trees, two of 10 trees and one of 20 whose region is empty *)
Definition mt_file : list record :=
  [(Some 10%Z, Some 10, Some 5); (None, Some 10, Some 9); (Some 20%Z, Some 10, None); (Some 2%Z, Some 10, Some 8); (Some 10%Z, Some 10, Some 7)].
Lemma point_usable (g : list record) : g <> [] -> Forall usable g -> point (N:=RNum) g = (Some (Rmean (map reduction g)), Some (deviation (map reduction g))).
Proof.
  intros NE F. destruct (point_of_group g NE) as [[_ E]|[X _]]; [exact E|]. apply Exists_exists in X. destruct X as (r & Hr & U). destruct (U (proj1 (Forall_forall _ _) F r Hr)).
Qed.
Lemma mt_usable k m : usable (k, Some 10, Some m).
Proof. exists 10, m. repeat split; lra. Qed.
Lemma mt_reduction k m : reduction (k, Some 10, Some m) = 10 * (10 - m).
Proof. unfold reduction. rewrite Rabs_pos_eq by lra. field. Qed.
Lemma mt_points : tree_data (N:=RNum) mt_file =
  Ok ((Some 10, Some 0), [(2%Z, (Some 20, Some 0)); (10%Z, (Some 40, Some 10)); (20%Z, (None, None))]).
Proof.
  change (Ok (point (N:=RNum) [(None, Some 10, Some 9)],
    [(2%Z, point (N:=RNum) [(Some 2%Z, Some 10, Some 8)]); (10%Z, point (N:=RNum) [(Some 10%Z, Some 10, Some 5); (Some 10%Z, Some 10, Some 7)]);
     (20%Z, point (N:=RNum) [(Some 20%Z, Some 10, None)])])
    = Ok ((Some 10, Some 0), [(2%Z, (Some 20, Some 0)); (10%Z, (Some 40, Some 10)); (20%Z, (None, None))])).
  assert (P1 : forall k m, point (N:=RNum) [(k, Some 10, Some m)] = (Some (10 * (10 - m)), Some 0)).
  { intros k m. refine (eq_trans (point_usable [(k, Some 10, Some m)] ltac:(discriminate) _) _); [repeat constructor; apply mt_usable|].
    cbn [map]. rewrite mt_reduction. unfold deviation, Rmean. cbn [map Rsum length INR]. f_equal; f_equal; [field|]. refine (eq_trans (f_equal sqrt _) sqrt_0). field. }
  assert (P2 : point (N:=RNum) [(Some 10%Z, Some 10, Some 5); (Some 10%Z, Some 10, Some 7)] = (Some 40, Some 10)).
  { refine (eq_trans (point_usable [(Some 10%Z, Some 10, Some 5); (Some 10%Z, Some 10, Some 7)] ltac:(discriminate) _) _); [repeat (constructor; [apply mt_usable|]); constructor|].
    cbn [map]. rewrite !mt_reduction. unfold deviation, Rmean. cbn [map Rsum length INR]. f_equal; f_equal; [field|]. refine (eq_trans (f_equal sqrt _) (sqrt_square 10 ltac:(lra))). field. }
  assert (P3 : point (N:=RNum) [(Some 20%Z, Some 10, None)] = (None, None)) by reflexivity.
  refine (f_equal Ok _). refine (f_equal2 pair _ _).
  - refine (eq_trans (P1 None 9) _). do 2 f_equal. lra.
  - repeat (refine (f_equal2 cons _ _)); try reflexivity; (refine (f_equal2 pair eq_refl _)); [|exact P2]. refine (eq_trans (P1 (Some 2%Z) 8) _). do 2 f_equal. lra.
Qed.
(** the setup of C103 has a root that is not certain *)
Lemma mt_setup : setup_ok xp_setup /\ (1 <= su_minpts xp_setup)%nat /\ su_samples xp_setup <> [] /\ all_numerical (su_cs xp_setup) /\
  total_config (su_cs xp_setup) xp_cfg /\ su_nots xp_setup = None /\ exists p0, construct xp_setup = Ok p0.
Proof.
  refine (conj xp_ok (conj _ (conj _ (conj _ (conj _ (conj eq_refl xp_construct)))))); [cbn; lia|discriminate| |].
  - apply numeric_space_numerical, float_numeric, xp_float.
  - apply legal_total; [apply float_numeric, xp_float|exact xp_legal].
Qed.
