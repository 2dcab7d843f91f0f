(** PartitionSpec.v - vocabulary for stating the partitioner properties,
    independent of how the model computes. *)
From Verif Require Import Base Num ConfigSpaceModel UtilsModel IceModel PartitionModel.
From Coq Require Import Sorted.

Section Spec.
Context {N : Num}.

(** The arguments of the constructor. *)
Record setup := mksetup {
  su_cs : cspace N; su_predict : predictor N; su_sel : selection N;
  su_samples : list (list N); su_gpa : nat; su_splits : nat; su_minpts : nat;
  su_nots : option (selection N)
}.
Definition construct (s : setup) : res (dtp N) :=
  dt_new (su_cs s) (su_predict s) (su_sel s) (su_samples s) (su_gpa s) (su_splits s) (su_minpts s) (su_nots s).

(** What ConfigSpace and numpy guarantee about the arguments: distinct names, a
    rectangular sample array with one column per hyperparameter; and at least
    one grid point per axis. *)
Definition setup_ok (s : setup) : Prop :=
  NoDup (map hp_name (su_cs s)) /\
  Forall (fun row => length row = length (su_cs s)) (su_samples s) /\
  1 <= su_gpa s.

(** [p] is the state of the object after any list of partition calls. *)
Definition reaches (s : setup) (p : dtp N) : Prop :=
  exists p0 depths, construct s = Ok p0 /\ p = run_history p0 depths.

(** no NaN in the samples *)
Definition no_nan (s : setup) : Prop := Forall (Forall ordinary) (su_samples s).
(** the split values of the grid are numbers (true of reals, rationals and
    binary64, see the instance lemmas) *)
Definition splits_ordinary (s : setup) : Prop := Forall ordinary (possible_split_vals (N:=N) (su_splits s)).

(** the rows [idxs] of a region *)
Definition is_rows (whole : region N) (idxs : list nat) (part : region N) : Prop :=
  Forall2 (fun i m => nth_error (r_x whole) i = Some m) idxs (r_x part) /\
  Forall2 (fun i m => nth_error (r_y whole) i = Some m) idxs (r_y part) /\
  Forall2 (fun i m => nth_error (r_v whole) i = Some m) idxs (r_v part).

(** A curve satisfies a condition: the value of the hyperparameter at the first
    grid point, in normalized units, is on the right side. *)
Definition curve_satisfies (cs : cspace N) (c : cond N) (curve : list (list N)) : Prop :=
  exists j h row x, nth_error cs j = Some h /\ hp_name h = hp_name (c_hp c) /\
    nth_error curve 0 = Some row /\ nth_error row j = Some x /\
    if c_le c then nle x (c_val c) = true else nlt (c_val c) x = true.

(** A configuration satisfies a condition: its value is on the right side of the unscaled split value. *)
Definition config_satisfies (cs : cspace N) (c : cond N) (cfg : config N) : Prop :=
  exists x u, config_get cfg (hp_name (c_hp c)) = Some (VNum x) /\ unscale_float (c_val c) cs (c_hp c) = Ok u /\
    if c_le c then nle x u = true else nlt u x = true.

(** a configuration giving every hyperparameter an ordinary number *)
Definition total_config (cs : cspace N) (cfg : config N) : Prop :=
  forall h, In h cs -> exists x, config_get cfg (hp_name h) = Some (VNum x) /\ ordinary x.

Definition all_numerical (cs : cspace N) : Prop := Forall (fun h => is_numerical h = true) cs.

(** the unscaled split values are numbers *)
Definition unscaled_ordinary (s : setup) : Prop :=
  forall h v u, In h (su_cs s) -> In v (possible_split_vals (N:=N) (su_splits s)) ->
    unscale_float v (su_cs s) h = Ok u -> ordinary u.

(** the arrays of a region are rectangular: one row of x, y and variances per
    curve, all with the same positive number of grid points, one x entry per
    hyperparameter *)
Record wf_region (nf : nat) (r : region N) : Prop := {
  wf_y : length (r_y r) = length (r_x r);
  wf_v : length (r_v r) = length (r_x r);
  wf_G : exists G, 0 < G /\ Forall (fun m => length m = G) (r_x r) /\
         Forall (fun m => length m = G) (r_y r) /\ Forall (fun m => length m = G) (r_v r);
  wf_f : Forall (Forall (fun row => length row = nf)) (r_x r)
}.

(** the loss that calc_best_split compares *)
Definition split_total (lr : dnode N * dnode N) : N :=
  nadd (region_loss (n_region (fst lr))) (region_loss (n_region (snd lr))).

(** an admissible candidate: hyperparameter number a, split value number b, and its two sides *)
Definition admissible (cs : cspace N) (hps : list (hp N)) (ns mp : nat) (nd : dnode N) (a b : nat) (l r : dnode N) : Prop :=
  exists h v, nth_error hps a = Some h /\ nth_error (possible_split_vals (N:=N) ns) b = Some v /\
    split_at_value cs nd h v = Ok (l, r) /\ mp <= region_len (n_region l) /\ mp <= region_len (n_region r).

(** One side of a split: a region one level deeper, with the condition added,
    that consists of exactly the curves satisfying it, in the parent's order. *)
Definition side (cs : cspace N) (nd : dnode N) (c : cond N) (ch : dnode N) : Prop :=
  n_depth ch = S (n_depth nd) /\ n_conds ch = n_conds nd ++ [c] /\
  exists idxs, StronglySorted lt idxs /\ is_rows (n_region nd) idxs (n_region ch) /\
    forall i, In i idxs <-> exists curve, nth_error (r_x (n_region nd)) i = Some curve /\ curve_satisfies cs c curve.

(** a hyperparameter that may be split: in the space, neither selected nor excluded *)
Definition splittable (s : setup) (h : hp N) : Prop :=
  In h (su_cs s) /\
  (forall sel, convert_hyperparameters (su_sel s) (su_cs s) = Ok sel -> ~ In (hp_name h) (map hp_name sel)) /\
  (forall q nots, su_nots s = Some q -> get_hyperparameters q (su_cs s) = Ok nots -> ~ In (hp_name h) (map hp_name nots)).

(** a split of region [nd] into [l] and [r] that the settings of [s] allow *)
Definition offered (s : setup) (nd l r : dnode N) : Prop :=
  exists h v, splittable s h /\ In v (possible_split_vals (N:=N) (su_splits s)) /\
    side (su_cs s) nd (mkcond h v true) l /\ side (su_cs s) nd (mkcond h v false) r /\
    su_minpts s <= region_len (n_region l) /\ su_minpts s <= region_len (n_region r).

End Spec.
Arguments setup : clear implicits.
