(** Prop_FromIce.v - trees built by from_ICE (C16): the settings given to it are those of the tree. *)
From Coq Require Import QArith.
From Verif Require Import Base Num NumLaws NumpyModel ConfigSpaceModel UtilsModel IceModel PartitionModel PartitionSpec
  IceProofs IceProofs2 PartitionProofs PartitionProofs2 PartitionProofs3 FromIceProofs Witness.
Local Open Scope nat_scope.
Local Open Scope list_scope.

(** from_ICE is the constructor on the space, surrogate, selection, samples and resolution of the ICE object, so C01-C15 and C86-C89 speak of its trees *)
Theorem C16_constructor : forall (N : Num) (o : ice N) ns mp nots p depths, dt_from_ice o ns mp nots = Ok p ->
  reaches (mksetup (a_cs (ic_alg o)) (ic_predict o) (SelList (map SHp (a_sel (ic_alg o)))) (a_samples (ic_alg o)) (a_gpa (ic_alg o)) ns mp nots) (run_history p depths).
Proof. exact @from_ice_reaches. Qed.
Print Assumptions C16_constructor.

(** after any partition calls: no region mentions a selected hyperparameter of the ICE object or an excluded one, the split
    values come from the given number of splits, and the given minimum size is respected *)
Theorem C16_settings : forall (N : Num) (L : order_laws N) (o : ice N) ns mp nots p depths,
  NoDup (map hp_name (a_cs (ic_alg o))) -> rect (num_features (ic_alg o)) (a_samples (ic_alg o)) -> 1 <= a_gpa (ic_alg o) ->
  dt_from_ice o ns mp nots = Ok p ->
  exists excluded, (match nots with None => excluded = [] | Some q => get_hyperparameters q (a_cs (ic_alg o)) = Ok excluded end) /\
    forall id nd, deref (run_history p depths) id = Some nd ->
      (n_depth nd = 0 \/ mp <= region_len (n_region nd)) /\
      Forall (fun c => In (c_hp c) (a_cs (ic_alg o)) /\ ~ In (hp_name (c_hp c)) (map hp_name (a_sel (ic_alg o))) /\
                       ~ In (hp_name (c_hp c)) (map hp_name excluded) /\ In (c_val c) (possible_split_vals (N:=N) ns)) (n_conds nd).
Proof. exact (fun N L => @from_ice_conditions N L). Qed.
Print Assumptions C16_settings.

(** the two curves of the centered ICE object of C16 are split on k, and not split at all if k is excluded *)
Definition n_leaves (r : res (dtp QNum)) : option nat :=
  match r with Ok p => match partition p 1 with (_, Ok ids) => Some (length ids) | _ => None end | Err _ => None end.
Example C16_settings_example : NoDup (map hp_name (a_cs (ic_alg w_cen_ice))) /\ rect (num_features (ic_alg w_cen_ice)) (a_samples (ic_alg w_cen_ice)) /\ 1 <= a_gpa (ic_alg w_cen_ice) /\
  n_leaves (dt_from_ice w_cen_ice 3 1 None) = Some 2 /\ n_leaves (dt_from_ice w_cen_ice 3 1 (Some (SelOne (SName "k"%string)))) = Some 1 /\ n_leaves (dt_from_ice w_cen_ice 3 2 None) = Some 1.
Proof. split; [cbn; repeat constructor; cbn; intuition discriminate|]. split; [repeat constructor|]. split; [cbn; lia|]. vm_compute. auto. Qed.
