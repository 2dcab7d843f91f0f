(** PipelineSpec.v - vocabulary for C108: the points of a sampler in the leaves of a tree. *)
From Verif Require Import Base Num ConfigSpaceModel UtilsModel IceModel PartitionModel PartitionSpec SamplerModel.

Section Spec.
Context {N : Num}.
(** the configurations drawn and proposed have a number for every hyperparameter *)
Definition world_total (w : world N) (cs : cspace N) : Prop :=
  (forall d n i, total_config cs (c_vals (w_batch w d n i))) /\ (forall i f eta c, w_acq w i f eta = Ok c -> total_config cs (c_vals c)).
(** the points whose values satisfy the conditions of a leaf *)
Definition points_in (cs : cspace N) (nd : dnode N) (l : list (conf N)) : list (conf N) :=
  filter (fun c => match contains cs (n_conds nd) (c_vals c) with Ok b => b | Err _ => false end) l.
End Spec.
