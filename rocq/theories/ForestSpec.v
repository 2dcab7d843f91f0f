(** ForestSpec.v - vocabulary for the random forest properties. *)
From Verif Require Import Base Num ConfigSpaceModel UtilsModel IceModel PartitionModel PartitionSpec ForestModel.
From Coq Require Import Sorted.

Section Spec.
Context {N : Num}.

(** a forest made by the constructor, or by from_ICE from an ICE object with any history *)
Inductive forest_start : forest N -> Prop :=
| start_new cs predict sel samples gpa ns mp rng f :
    forest_new cs predict sel samples gpa ns mp rng = Ok f -> forest_start f
| start_ice a p ops rng f :
    forest_from_ice (fst (ice_run_ops (ice_new a p) ops)) rng = Ok f -> forest_start f.
(** the state after any list of operations *)
Definition forest_reaches (f : forest N) : Prop :=
  exists f0 ops, forest_start f0 /\ f = fst (forest_run f0 ops).

(** distinct names, rectangular samples, at least one grid point per axis *)
Definition forest_ok (f : forest N) : Prop :=
  NoDup (map hp_name (a_cs (f_alg f))) /\
  Forall (fun row => length row = length (a_cs (f_alg f))) (a_samples (f_alg f)) /\
  1 <= a_gpa (f_alg f).

(** a hyperparameter the forest may split on: in the space and not selected *)
Definition may_split (f : forest N) (h : hp N) : Prop :=
  In h (a_cs (f_alg f)) /\ ~ In (hp_name h) (map hp_name (a_sel (f_alg f))).

(** [rows] are [k] of the forest's samples, with repetition *)
Definition bootstrap (f : forest N) (k : nat) (rows : list (list N)) : Prop :=
  length rows = k /\ Forall (fun r => In r (a_samples (f_alg f))) rows.

(** [t] is a decision tree partitioner over the bootstrapped rows, with 100 splits per axis and
    at least 1 curve per node, after partition(depth); it only splits on [hps] *)
Definition tree_of (f : forest N) (depth : nat) (rows : list (list N)) (hps : list (hp N)) (t : dtp N) : Prop :=
  exists nots p0 ids,
    (forall h, may_split f h -> (In h hps <-> ~ In (hp_name h) (map hp_name nots))) /\
    construct (mksetup (a_cs (f_alg f)) (ic_predict (f_ice f)) (SelList (map SHp (a_sel (f_alg f)))) rows
                       (a_gpa (f_alg f)) 100 1 (Some (SelList (map SHp nots)))) = Ok p0 /\
    partition p0 depth = (t, Ok ids) /\
    forall id nd, deref t id = Some nd -> Forall (fun c => In (c_hp c) hps) (n_conds nd).

(** a configuration lies in a region: it satisfies all split conditions *)
Definition lies_in (cs : cspace N) (c : config N) (nd : dnode N) : Prop :=
  Forall (fun q => config_satisfies cs q c) (n_conds nd).
(** it lies in at least [k] of the regions *)
Definition overlaps (cs : cspace N) (c : config N) (nds : list (dnode N)) (k : Z) : Prop :=
  exists ts, NoDup ts /\ (k <= Z.of_nat (length ts))%Z /\
    Forall (fun t => exists nd, nth_error nds t = Some nd /\ lies_in cs c nd) ts.

End Spec.
