(** ForestExperimentSpec.v - the words of C118. *)
From Coq Require Import Sorted.
From Verif Require Import Base Num NumLaws NumpyModel ConfigSpaceModel UtilsModel IceModel PartitionModel PartitionSpec IceProofs2 PartitionProofs4 ForestModel ForestSpec ForestProofs ForestExperimentModel.
Local Open Scope nat_scope.
Local Open Scope list_scope.

Section Spec.
Context {N : Num}.
Implicit Types (f : forest N).

(** sample [i] of the forest has the configuration [c] *)
Definition sample_is f (i : nat) (c : config N) : Prop :=
  exists row, nth_error (a_samples (f_alg f)) i = Some row /\ config_of_vector (a_cs (f_alg f)) row = Ok c.
(** [idxs] are the samples of the forest that lie in the region *)
Definition samples_of f (nd : dnode N) (idxs : list nat) : Prop :=
  NoDup idxs /\ forall i, In i idxs <-> exists c, sample_is f i c /\ lies_in (a_cs (f_alg f)) c nd.

(** the row written for [n] trees: the forest [g], the same one in a later state, was partitioned into [n] trees; [nds] are
    their incumbent regions; the region consists of the curves [idxs] shown by the ICE object, which are those in at
    least half of the incumbent regions *)
Definition forest_row f (inc : config N) (depth size : Z) x y v (n : Z) (row : Z * option N * option N) : Prop :=
  exists g g' nds idxs r, forest_reaches g /\ f_alg g = f_alg f /\ forest_partition g n depth (Some size) = (g', Ok tt) /\
    incumbent_regions g' inc nds /\ length nds = Z.to_nat n /\ NoDup idxs /\ is_rows (mkregion x y v) idxs r /\
    (forall i, In i idxs <-> exists c k, sample_is f i c /\ overlaps (a_cs (f_alg f)) c nds k /\ (n <= 2 * k)%Z) /\
    row = (n, mean_std v, mean_std (r_v r)) /\
    (mean_std (r_v r) = None <-> idxs = []).

End Spec.

Section Spec2.
Context {N : Num}.

(** the decision tree partitioner made from the ICE object with the defaults *)
Definition tree_setup (a : algorithm N) (pr : predictor N) : setup N :=
  mksetup (a_cs a) pr (SelList (map SHp (a_sel a))) (a_samples a) (a_gpa a) 100 10 None.
(** the row of the decision tree: the confidence of all curves shown, and that of the tree's leaf which the incumbent satisfies;
    it is a number *)
Definition tree_row_is (a : algorithm N) (pr : predictor N) (inc : config N) (depth : nat) (v : list (list N)) (row : option N * option N) : Prop :=
  exists p0 p' ids id nd m, construct (tree_setup a pr) = Ok p0 /\ partition p0 depth = (p', Ok ids) /\ In id ids /\ deref p' id = Some nd /\
    lies_in (a_cs a) inc nd /\ row = (mean_std v, mean_std (r_v (n_region nd))) /\ mean_std (r_v (n_region nd)) = Some m.

(** what the calls need: a numerical space, at least one sample, something to split on, samples that are configurations,
    a surrogate with one prediction per row *)
Record experiment_ok (f : forest N) (inc : config N) : Prop := {
  xo_ok : forest_ok f;
  xo_num : all_numerical (a_cs (f_alg f));
  xo_vals : forall h v u, In h (a_cs (f_alg f)) -> In v (possible_split_vals (N:=N) 100) -> unscale_float v (a_cs (f_alg f)) h = Ok u -> ordinary u;
  xo_samples : a_samples (f_alg f) <> [];
  xo_rows : Forall (fun row => exists c, config_of_vector (a_cs (f_alg f)) row = Ok c /\ total_config (a_cs (f_alg f)) c) (a_samples (f_alg f));
  xo_split : exists h, may_split f h;
  xo_sel : a_sel (f_alg f) <> [];
  xo_known : sel_known (a_cs (f_alg f)) (a_sel (f_alg f));
  xo_predict : batch_predictor (ic_predict (f_ice f));
  xo_inc : total_config (a_cs (f_alg f)) inc
}.
End Spec2.
