(** PartitionBefore.v - the object before the first partition call that splits (C02), and implied spaces of
    spaces that are not numerical (C11). *)
From Verif Require Import Base Num NumLaws NumpyModel ConfigSpaceModel UtilsModel IceModel PartitionModel PartitionSpec PartitionProofs2.
Local Open Scope nat_scope.
Local Open Scope list_scope.

Section Before.
Context {N : Num}.
(** calls with depth 0 raise and leave the object as it was *)
Lemma before_partition (s : setup N) p0 depths : setup_ok s -> construct s = Ok p0 -> Forall (eq 0) depths ->
  run_history p0 depths = p0 /\ snd (partition p0 0) = Err AssertionError /\ forall cfg, get_incumbent_region p0 cfg = Err AssertionError.
Proof.
  intros SO C Z. refine (conj _ (conj eq_refl _)).
  - clear C. revert p0. unfold run_history. induction Z as [|d t <- _ IH]; intro p0; [reflexivity|]. exact (IH p0).
  - intro cfg. destruct (construct_spec s p0 SO C) as (sel & ns & d & root & _ & _ & _ & _ & E & _). subst p0. reflexivity.
Qed.
(** a hyperparameter that is not numerical has no box *)
Lemma implied_not_numerical (cs : cspace N) conds h : In h cs -> is_numerical h = false -> implied_config_space cs conds = Err NotImplementedError.
Proof.
  intros I NH. unfold implied_config_space. assert (E : mapM box_init cs = Err NotImplementedError); [|rewrite E; reflexivity].
  induction cs as [|g t IH]; [contradiction|]. cbn [mapM]. destruct I as [->|I].
  - unfold box_init at 1. rewrite NH. reflexivity.
  - unfold box_init at 1. destruct (is_numerical g) eqn:G; [|reflexivity]. rewrite (IH I).
    destruct g as [n k]; destruct k; try discriminate; reflexivity.
Qed.
End Before.
