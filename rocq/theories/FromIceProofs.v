(** FromIceProofs.v - trees built by from_ICE are trees of the constructor (C08, C09, C16). *)
From Verif Require Import Base Num NumLaws NumpyModel ConfigSpaceModel UtilsModel IceModel PartitionModel PartitionSpec
  ListLemmas IceProofs IceProofs2 PartitionProofs PartitionProofs2 PartitionProofs3 PartitionProofs4 PartitionProofs5.
Local Open Scope nat_scope.

Section F.
Context {N : Num}.
(** the constructor call with the parts of the ICE object and the given settings *)
Definition ice_setup (o : ice N) (ns mp : nat) (nots : option (selection N)) : setup N :=
  mksetup (a_cs (ic_alg o)) (ic_predict o) (SelList (map SHp (a_sel (ic_alg o)))) (a_samples (ic_alg o)) (a_gpa (ic_alg o)) ns mp nots.
Lemma ice_setup_ok o ns mp nots : NoDup (map hp_name (a_cs (ic_alg o))) -> rect (num_features (ic_alg o)) (a_samples (ic_alg o)) -> 1 <= a_gpa (ic_alg o) -> setup_ok (ice_setup o ns mp nots).
Proof. intros A B C. exact (conj A (conj B C)). Qed.
Theorem from_ice_reaches (o : ice N) ns mp nots p depths : dt_from_ice o ns mp nots = Ok p -> reaches (ice_setup o ns mp nots) (run_history p depths).
Proof. intro H. exists p, depths. split; [exact H|reflexivity]. Qed.
Theorem from_ice_conditions (L : order_laws N) (o : ice N) ns mp nots p depths :
  NoDup (map hp_name (a_cs (ic_alg o))) -> rect (num_features (ic_alg o)) (a_samples (ic_alg o)) -> 1 <= a_gpa (ic_alg o) ->
  dt_from_ice o ns mp nots = Ok p ->
  exists excluded, (match nots with None => excluded = [] | Some q => get_hyperparameters q (a_cs (ic_alg o)) = Ok excluded end) /\
    forall id nd, deref (run_history p depths) id = Some nd ->
      (n_depth nd = 0 \/ mp <= region_len (n_region nd)) /\
      Forall (fun c => In (c_hp c) (a_cs (ic_alg o)) /\ ~ In (hp_name (c_hp c)) (map hp_name (a_sel (ic_alg o))) /\
                       ~ In (hp_name (c_hp c)) (map hp_name excluded) /\ In (c_val c) (possible_split_vals (N:=N) ns)) (n_conds nd).
Proof.
  intros A B C H. pose proof (ice_setup_ok o ns mp nots A B C) as SO. pose proof (from_ice_reaches o ns mp nots p depths H) as RE.
  destruct (never_split_selected L _ _ SO RE) as (sel & excluded & Hs & Hn & K). cbn [su_sel su_cs ice_setup] in Hs. rewrite convert_hps in Hs. injection Hs as <-.
  exists excluded. split; [exact Hn|]. intros id nd Hd. split; [exact (min_points_respected L _ _ SO RE id nd Hd)|exact (K id nd Hd)].
Qed.
End F.
