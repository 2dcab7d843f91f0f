(** ForestExamples.v - a concrete forest for the properties C17-C20. *)
From Coq Require Import QArith Sorted.
From Verif Require Import Base Num NumLaws NumpyModel ConfigSpaceModel UtilsModel IceModel PartitionModel PartitionSpec
  ListLemmas IceProofs IceProofs2 PartitionProofs PartitionProofs2 PartitionProofs3 PartitionProofs4 Examples ForestModel ForestSpec ForestProofs ForestProofs2.
Local Open Scope nat_scope.
Local Open Scope list_scope.

(** the example: the six samples of Examples.v, "a" selected, min_points_per_node 10, 1 split per axis *)
Definition ex_forest : forest QNum :=
  match forest_new (ex_cs (N:=QNum)) ex_predict (SelOne (SName "a"%string)) ex_rows 3 1 10 (fun i => (i * i + i / 3)%nat) with
  | Ok f => f | Err _ => mkforest (ice_new (mkalg [] [] [] 0) ex_predict) [] 0 0 (fun _ => 0) 0 None end.
Lemma ex_forest_new : forest_new (ex_cs (N:=QNum)) ex_predict (SelOne (SName "a"%string)) ex_rows 3 1 10 (fun i => (i * i + i / 3)%nat) = Ok ex_forest.
Proof. reflexivity. Qed.
Lemma ex_forest_reaches ops : forest_reaches (fst (forest_run ex_forest ops)).
Proof. exists ex_forest, ops. split; [|reflexivity]. exact (start_new _ _ _ _ _ _ _ _ _ ex_forest_new). Qed.
Lemma ex_forest_ok : forest_ok ex_forest /\ a_samples (f_alg ex_forest) <> [] /\
  (exists h, may_split ex_forest h) /\ sel_known (a_cs (f_alg ex_forest)) (a_sel (f_alg ex_forest)) /\ a_sel (f_alg ex_forest) <> [] /\
  batch_predictor (ic_predict (f_ice ex_forest)).
Proof.
  refine (conj (conj _ (conj _ _)) (conj _ (conj _ (conj _ (conj _ ex_batch))))).
  - cbn. repeat constructor; cbn; intuition discriminate.
  - cbn. repeat constructor.
  - cbn. lia.
  - discriminate.
  - exists (mkhp "b"%string (KFloat (0#1 : QNum) (10#1 : QNum) false)). split; [right; left; reflexivity|cbn; intuition discriminate].
  - repeat constructor.
  - discriminate.
Qed.
Definition ex_forest1 : forest QNum := fst (forest_run ex_forest [FPartition 3 1 (Some 4%Z)]).

Definition tree_summary (f : forest QNum) := option_map (map (fun t => leaf_summary t (d_leaves t))) (f_trees f).

Lemma min_points_ignored : exists f, forest_new (ex_cs (N:=QNum)) ex_predict (SelOne (SName "a"%string)) ex_rows 3 1 10
    (fun i => (i * i + i / 3)%nat) = Ok f /\
  exists t ts nd, f_trees (fst (forest_partition f 3 1 (Some 4%Z))) = Some (t :: ts) /\ In (nth 0 (d_leaves t) 0) (d_leaves t) /\
    deref t (nth 0 (d_leaves t) 0) = Some nd /\ region_len (n_region nd) = 1 /\
    map (fun c => (hp_name (c_hp c), c_val c)) (n_conds nd) = [("b"%string, (11#101)%Q : QNum)].
Proof.
  exists ex_forest. split; [reflexivity|].
  assert (H : tree_summary (fst (forest_partition ex_forest 3 1 (Some 4%Z))) = Some
    [[Some (1, [("b"%string, (11#101)%Q, false)]); Some (3, [("b"%string, (11#101)%Q, true)])];
     [Some (1, [("b"%string, (21#101)%Q, false)]); Some (3, [("b"%string, (21#101)%Q, true)])];
     [Some (1, [("b"%string, (21#101)%Q, false)]); Some (3, [("b"%string, (21#101)%Q, true)])]]) by (vm_compute; reflexivity).
  unfold tree_summary in H. destruct (f_trees _) as [[|t ts]|]; try discriminate H. exists t, ts.
  cbn [option_map map] in H. injection H as H _. unfold leaf_summary in H. destruct (d_leaves t) as [|l ls]; [discriminate H|]. cbn [map nth] in *.
  injection H as H _. destruct (deref t l) as [nd|]; [|discriminate H]. exists nd. cbn [option_map] in H.
  injection H as H1 H2. refine (conj eq_refl (conj (or_introl eq_refl) (conj eq_refl (conj H1 _)))).
  apply (f_equal (map fst)) in H2. rewrite map_map in H2. exact H2.
Qed.
