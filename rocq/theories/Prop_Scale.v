(** Prop_Scale.v - C114: scaling and the leaf of a sample in binary64. *)
From Coq Require Import Reals Sorted.
From Flocq Require Import Core.Core IEEE754.BinarySingleNaN.
From Verif Require Import Base Num NumLaws NumpyModel ConfigSpaceModel UtilsModel IceModel PartitionModel PartitionSpec B64Proofs
  ScaleSpec ScaleProofs Witness ScaleExamples.
Local Open Scope R_scope.
Local Open Scope list_scope.

(** ** C114: unscale_float of a linear hyperparameter (float or integer) stays within the bounds, is close to
    lower + x * (upper - lower), starts at the lower bound, never decreases and tells coordinates apart that are far enough *)
Theorem C114_unscale : forall (fe fln fr : b64 -> b64) cs h h' lo up, cs_get cs (hp_name h) = Ok h' -> linear_hp fe fln fr h' lo up ->
  val fe fln fr lo < val fe fln fr up ->
  (forall x, unit_coord fe fln fr x -> exists u, unscale_float x cs h = Ok u /\ fin fe fln fr u /\ val fe fln fr lo <= val fe fln fr u <= val fe fln fr up /\
     Rabs (val fe fln fr u - (val fe fln fr lo + val fe fln fr x * (val fe fln fr up - val fe fln fr lo))) <= value_slack (val fe fln fr lo) (val fe fln fr up)) /\
  (exists u, unscale_float n0 cs h = Ok u /\ val fe fln fr u = val fe fln fr lo) /\
  (forall x y u w, unit_coord fe fln fr x -> unit_coord fe fln fr y -> unscale_float x cs h = Ok u -> unscale_float y cs h = Ok w ->
     (val fe fln fr x <= val fe fln fr y -> val fe fln fr u <= val fe fln fr w) /\
     (2 * value_slack (val fe fln fr lo) (val fe fln fr up) < (val fe fln fr y - val fe fln fr x) * (val fe fln fr up - val fe fln fr lo) ->
      val fe fln fr u < val fe fln fr w)).
Proof. exact unscale_accuracy. Qed.
Print Assumptions C114_unscale.

(** the value of a configuration is the same number *)
Theorem C114_configuration : forall (fe fln fr : b64 -> b64) cs h h' lo up, cs_get cs (hp_name h) = Ok h' -> linear_hp fe fln fr h' lo up ->
  val fe fln fr lo < val fe fln fr up -> forall x u, unit_coord fe fln fr x -> unscale_float x cs h = Ok u ->
  val fe fln fr (float_transform lo up false x) = val fe fln fr u.
Proof. exact same_value. Qed.
Print Assumptions C114_configuration.

(** the array version has the same accuracy and stays above the lower bound ... *)
Theorem C114_array : forall (fe fln fr : b64 -> b64) h' lo up, linear_hp fe fln fr h' lo up ->
  val fe fln fr lo < val fe fln fr up -> forall x, unit_coord fe fln fr x ->
  fin fe fln fr (unscaler lo up false x) /\ val fe fln fr lo <= val fe fln fr (unscaler lo up false x) /\
  Rabs (val fe fln fr (unscaler lo up false x) - (val fe fln fr lo + val fe fln fr x * (val fe fln fr up - val fe fln fr lo))) <=
    value_slack (val fe fln fr lo) (val fe fln fr up).
Proof. exact array_value. Qed.
Print Assumptions C114_array.

(** ... but not below the upper bound: with bounds -3 and 0.1 the coordinate 1 becomes a number above 0.1 in an array, and 0.1
    by unscale_float *)
Theorem C114_array_refuted : forall fe fln fr : b64 -> b64, exists row : list (B64 fe fln fr),
  unscale (A1 [n1]) (sc_cs fe fln fr) = Ok (A1 row) /\ nlt (sc_up fe fln fr) (nth 0 row n0) = true /\
  exists u, unscale_float n1 (sc_cs fe fln fr) (sc_hp fe fln fr) = Ok u /\ neqb (n:=B64 fe fln fr) u (sc_up fe fln fr) = true.
Proof. exact sc_beyond. Qed.
Print Assumptions C114_array_refuted.

(** scale_float of values within the bounds: a coordinate of the unit interval within 2^-51 of the exact one, 0 and 1 for the
    bounds, never decreasing *)
Theorem C114_scale : forall (fe fln fr : b64 -> b64) cs h h' lo up, cs_get cs (hp_name h) = Ok h' -> linear_hp fe fln fr h' lo up ->
  val fe fln fr lo < val fe fln fr up -> bpow radix2 (-1000) <= val fe fln fr up - val fe fln fr lo ->
  (forall v, fin fe fln fr v -> val fe fln fr lo <= val fe fln fr v <= val fe fln fr up -> exists x, scale_float v cs h = Ok x /\ unit_coord fe fln fr x /\
     Rabs (val fe fln fr x - (val fe fln fr v - val fe fln fr lo) / (val fe fln fr up - val fe fln fr lo)) <= 4 * bpow radix2 (-53)) /\
  (exists x, scale_float lo cs h = Ok x /\ val fe fln fr x = 0) /\ (exists x, scale_float up cs h = Ok x /\ val fe fln fr x = 1) /\
  (forall v w x y, fin fe fln fr v -> fin fe fln fr w -> val fe fln fr lo <= val fe fln fr v -> val fe fln fr v <= val fe fln fr w ->
     val fe fln fr w <= val fe fln fr up -> scale_float v cs h = Ok x -> scale_float w cs h = Ok y -> val fe fln fr x <= val fe fln fr y).
Proof. exact scale_accuracy. Qed.
Print Assumptions C114_scale.

(** there and back; the error of a coordinate grows with the size of the bounds compared to the range *)
Theorem C114_round_trip : forall (fe fln fr : b64 -> b64) cs h h' lo up, cs_get cs (hp_name h) = Ok h' -> linear_hp fe fln fr h' lo up ->
  val fe fln fr lo < val fe fln fr up -> bpow radix2 (-1000) <= val fe fln fr up - val fe fln fr lo ->
  (forall x, unit_coord fe fln fr x -> exists u y, unscale_float x cs h = Ok u /\ scale_float u cs h = Ok y /\
     Rabs (val fe fln fr y - val fe fln fr x) <=
       bpow radix2 (-53) * (bound_size (val fe fln fr lo) (val fe fln fr up) / (val fe fln fr up - val fe fln fr lo) + 8)) /\
  (forall v, fin fe fln fr v -> val fe fln fr lo <= val fe fln fr v <= val fe fln fr up -> exists x w, scale_float v cs h = Ok x /\ unscale_float x cs h = Ok w /\
     Rabs (val fe fln fr w - val fe fln fr v) <=
       bpow radix2 (-53) * (bound_size (val fe fln fr lo) (val fe fln fr up) + 8 * (val fe fln fr up - val fe fln fr lo))).
Proof. exact there_and_back. Qed.
Print Assumptions C114_round_trip.

(** C03 in binary64 (false in general, C03_binary64_refuted): true for samples whose coordinates are at most a split value or
    clearly larger; and of any sample, a region given by "<=" alone contains the configurations of its curves, and one given by
    ">" alone has the curves of the samples whose configurations it contains *)
Theorem C114_sample_in_its_leaf : forall (fe fln fr : b64 -> b64) (s : setup (B64 fe fln fr)) p,
  setup_ok s -> linear_space fe fln fr (su_cs s) -> (Z.of_nat (su_splits s) + 2 <= 2 ^ 50)%Z ->
  Forall (Forall (unit_coord fe fln fr)) (su_samples s) -> reaches s p ->
  exists root, deref p 0 = Some root /\
  forall id nd, deref p id = Some nd ->
  exists idxs, StronglySorted lt idxs /\ is_rows (n_region root) idxs (n_region nd) /\
  forall i row, nth_error (su_samples s) i = Some row ->
  exists cfg b, config_of_vector (su_cs s) row = Ok cfg /\ contains (su_cs s) (n_conds nd) cfg = Ok b /\
    (clear_of_splits s row -> (b = true <-> In i idxs)) /\
    (Forall (fun c => c_le c = true) (n_conds nd) -> In i idxs -> b = true) /\
    (Forall (fun c => c_le c = false) (n_conds nd) -> b = true -> In i idxs).
Proof. exact sample_and_leaf. Qed.
Print Assumptions C114_sample_in_its_leaf.

(** the axis from -3 to 0.1, and the space of C03_binary64_refuted with samples away from the split value *)
Example C114_axis_example : forall fe fln fr : b64 -> b64,
  cs_get (sc_cs fe fln fr) (hp_name (sc_hp fe fln fr)) = Ok (sc_hp fe fln fr) /\ linear_axis fe fln fr (sc_hp fe fln fr) (sc_lo fe fln fr) (sc_up fe fln fr) /\
  linear_hp fe fln fr (sc_hp fe fln fr) (sc_lo fe fln fr) (sc_up fe fln fr) /\ val fe fln fr (sc_lo fe fln fr) < val fe fln fr (sc_up fe fln fr) /\
  unit_coord fe fln fr (fl 3 (-2)).
Proof.
  exact (fun fe fln fr => conj eq_refl (conj (sc_axis fe fln fr) (conj (proj1 (linear_axis_hp _ _ _ _ _ _ (sc_axis fe fln fr)))
    (conj (proj2 (linear_axis_hp _ _ _ _ _ _ (sc_axis fe fln fr))) (fl_unit fe fln fr 3 (-2) ltac:(lia) ltac:(lia) ltac:(lia) ltac:(lia)))))).
Qed.
Example C114_example : forall fe fln fr : b64 -> b64,
  setup_ok (sc_setup fe fln fr) /\ linear_space fe fln fr (su_cs (sc_setup fe fln fr)) /\
  Forall (Forall (unit_coord fe fln fr)) (su_samples (sc_setup fe fln fr)) /\ Forall (clear_of_splits (sc_setup fe fln fr)) (su_samples (sc_setup fe fln fr)) /\
  length (su_samples (sc_setup fe fln fr)) = 3%nat /\
  (** the leaves have one curve and two, with the configurations of the samples of their curves *)
  exists p' ids, partition (sc_obj fe fln fr) 1 = (p', Ok ids) /\ reaches (sc_setup fe fln fr) p' /\
  map (fun id => option_map (fun nd => (region_len (n_region nd), map c_le (n_conds nd),
     map (fun row => match config_of_vector (su_cs (sc_setup fe fln fr)) row with Ok c => contains (su_cs (sc_setup fe fln fr)) (n_conds nd) c | Err e => Err e end)
       (su_samples (sc_setup fe fln fr)))) (deref p' id)) ids
  = [Some (1, [false], [Ok false; Ok true; Ok false]); Some (2, [true], [Ok true; Ok false; Ok true])]%nat.
Proof.
  exact (fun fe fln fr => conj (sc_setup_ok fe fln fr) (conj (sc_space fe fln fr) (conj (sc_units fe fln fr)
    (conj (sc_clear fe fln fr) (conj eq_refl (sc_leaves fe fln fr)))))).
Qed.
