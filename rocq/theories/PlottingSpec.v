(** PlottingSpec.v - vocabulary for the properties of plotting.py (C56, C57). *)
From Verif Require Import Base Num ConfigSpaceModel PlottingModel.

(** (w, h) is the most quadratic grid for n figures *)
Definition best_shape (n w h : Z) : Prop :=
  (0 < h <= w /\ n <= w * h /\ (forall w', 0 <= w' -> n <= w' * w' -> w <= w') /\ (forall h', 0 <= h' -> n <= w * h' -> h <= h'))%Z.

Section Axis.
Context {N : Num}.
Implicit Types ax : axis N.
(** a call raises exactly on conflicting labels, and then the axis is unchanged *)
Definition conflict ax (hps : list (hp N)) (ylabel : string) : Prop :=
  match hps with
  | [h] => (ax_xlabel ax <> ""%string /\ ax_xlabel ax <> hp_name h) \/ (ax_ylabel ax <> ""%string /\ ax_ylabel ax <> ylabel)
  | [h1; h2] => (ax_xlabel ax, ax_ylabel ax) <> (""%string, ""%string) /\ (ax_xlabel ax, ax_ylabel ax) <> (hp_name h1, hp_name h2)
  | _ => False
  end.
(** what a call that does not raise does; [None] where nothing is set *)
Definition bounds_of (b : bool) (h : hp N) : option (N * N * bool) :=
  if b then match hp_kind h with KFloat lo up lg => Some (lo, up, lg) | KInt lo up lg => Some (nofZ lo, nofZ up, lg) | _ => None end else None.
Definition dim_after (old_log : bool) (old_lim : option N * option N) (s : option (N * N * bool)) (new_log : bool) (new_lim : option N * option N) : Prop :=
  match s with
  | None => new_log = old_log /\ new_lim = old_lim
  | Some (lo, up, lg) => new_log = (lg || old_log) /\
      ((new_log = true -> nle lo n0 = false /\ nle up n0 = false) -> new_lim = (Some lo, Some up))
  end.
(** an axis shows one hyperparameter per direction: scale and limits are those of the label, when every
    call uses the hyperparameters of one space and names are not empty *)
Definition from_space (K : string -> option (hpkind N)) (c : axcall N) : Prop :=
  Forall (fun h => hp_name h <> ""%string /\ K (hp_name h) = Some (hp_kind h)) (ac_hps c).
Definition kind_bounds (k : hpkind N) : option (N * N * bool) :=
  match k with KFloat lo up lg => Some (lo, up, lg) | KInt lo up lg => Some (nofZ lo, nofZ up, lg) | _ => None end.
Definition dim_fits (K : string -> option (hpkind N)) (label : string) (lg : bool) (lim : option N * option N) : Prop :=
  (lg = false /\ lim = (None, None)) \/
  exists lo up b, (match K label with Some k => kind_bounds k | None => None end) = Some (lo, up, b) /\ lg = b /\
    (lim = (Some lo, Some up)).
Definition positive_logs (K : string -> option (hpkind N)) : Prop :=
  forall n k lo up, K n = Some k -> kind_bounds k = Some (lo, up, true) -> nle lo n0 = false /\ nle up n0 = false.
End Axis.
