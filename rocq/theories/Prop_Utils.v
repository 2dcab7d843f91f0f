(** Prop_Utils.v - property theorems C28-C31 and C58: scaling, unscaling, selections, ranges. *)
From Coq Require Import Reals QArith Lra.
From Flocq Require Import Core.Core IEEE754.BinarySingleNaN.
From Verif Require Import Base Num NumLaws NumpyModel ConfigSpaceModel UtilsModel IceModel PartitionModel PartitionSpec
  ListLemmas IceProofs IceProofs2 RealProofs RealSums B64Proofs PartitionReal UtilsProofs UtilsProofs2 Selection Examples Witness.
Local Open Scope nat_scope.
Local Open Scope list_scope.

(** ** C28 *)
(** [hp_is h lo up lg]: float or integer hyperparameter with these bounds and scale;
    [good_bounds]: lo < up, and 0 < lo on a log scale *)
Theorem C28_scaling : forall (cs : cspace RNum) h h' lo up lg,
  cs_get cs (hp_name h) = Ok h' -> hp_is h' lo up lg -> good_bounds lo up lg ->
  exists scale unscale : R -> R,
    (forall v, scale_float (N:=RNum) v cs h = Ok (scale v)) /\
    (forall x, unscale_float (N:=RNum) x cs h = Ok (unscale x)) /\
    (forall v, 0 <= scale v <= 1)%R /\ (forall x, lo <= unscale x <= up)%R /\
    (forall x, (0 <= x <= 1)%R -> scale (unscale x) = x) /\
    (forall v, (lo <= v <= up)%R -> unscale (scale v) = v) /\
    (forall x y, (x <= y)%R -> (unscale x <= unscale y)%R) /\
    (forall x y, (0 <= x)%R -> (x < y)%R -> (y <= 1)%R -> (unscale x < unscale y)%R) /\
    (forall v w, (lo <= v)%R -> (v < w)%R -> (w <= up)%R -> (scale v < scale w)%R) /\
    (forall v w, (lg = true -> (0 < v)%R) -> (v <= w)%R -> (scale v <= scale w)%R) /\
    (forall x, (x <= 0)%R -> unscale x = lo) /\ (forall x, (1 <= x)%R -> unscale x = up) /\
    (forall v, (lg = true -> (0 < v)%R) -> (v <= lo)%R -> scale v = 0%R) /\ (forall v, (up <= v)%R -> scale v = 1%R).
Proof. exact scaling_roundtrip. Qed.
Print Assumptions C28_scaling.

(** which values: the weighted arithmetic mean of the bounds, on a log scale the geometric one *)
Theorem C28_values : forall (cs : cspace RNum) h h' (lo up : R) lg (x : R),
  cs_get cs (hp_name h) = Ok h' -> hp_is h' lo up lg -> good_bounds lo up lg -> (0 <= x <= 1)%R ->
  unscale_float (N:=RNum) x cs h = Ok (if lg then Rpower lo (1 - x) * Rpower up x else (1 - x) * lo + x * up)%R.
Proof. exact unscale_interpolates. Qed.
Print Assumptions C28_values.

(** a log-scaled float hyperparameter with bounds 1/100 and 100 *)
Example C28_example : let h := mkhp "x"%string (KFloat (N:=RNum) (1/100)%R 100%R true) in
  cs_get [h] (hp_name h) = Ok h /\ hp_is h (1/100) 100 true /\ good_bounds (1/100) 100 true.
Proof. cbv zeta. refine (conj eq_refl (conj (or_introl eq_refl) _)). split; [lra|intros _; lra]. Qed.

(** ** C29 *)
(** binary64: finite bounds of magnitude up to 2^900, inputs up to 2^60 *)
Theorem C29_bounds_and_monotone : forall (fe fln fr : b64 -> b64) (cs : cspace (B64 fe fln fr)) h h' lo up,
  cs_get cs (hp_name h) = Ok h' -> linear_hp fe fln fr h' lo up -> nle lo up = true ->
  forall x y, fin fe fln fr x -> fin fe fln fr y ->
    (Rabs (val fe fln fr x) <= bpow radix2 60)%R -> (Rabs (val fe fln fr y) <= bpow radix2 60)%R ->
  exists u v, unscale_float x cs h = Ok u /\ unscale_float y cs h = Ok v /\
    nle lo u = true /\ nle u up = true /\ (nle x y = true -> nle u v = true).
Proof. exact unscale_b64_bounds_monotone. Qed.
Print Assumptions C29_bounds_and_monotone.

(** bounds 1000 and 1001: two different normalized values have the same image, and the round
    trip changes the second one *)
Theorem C29_roundtrip_refuted : forall fe fln fr : b64 -> b64, exists u u' v,
  unscale_float (N:=B64 fe fln fr) (fl 1 (-1)) (w_rnd_cs fe fln fr) (w_b fe fln fr) = Ok u /\
  unscale_float (N:=B64 fe fln fr) w_rnd_x (w_rnd_cs fe fln fr) (w_b fe fln fr) = Ok u' /\
  scale_float (N:=B64 fe fln fr) u' (w_rnd_cs fe fln fr) (w_b fe fln fr) = Ok v /\
  nlt (n:=B64 fe fln fr) (fl 1 (-1)) w_rnd_x = true /\ neqb (n:=B64 fe fln fr) u u' = true /\ neqb (n:=B64 fe fln fr) v w_rnd_x = false.
Proof. exact w_not_injective. Qed.
Print Assumptions C29_roundtrip_refuted.

Example C29_example : forall fe fln fr : b64 -> b64,
  cs_get (w_rnd_cs fe fln fr) (hp_name (w_b fe fln fr)) = Ok (w_b fe fln fr) /\
  linear_hp fe fln fr (w_b fe fln fr) (nofZ (n:=B64 fe fln fr) 1000) (nofZ (n:=B64 fe fln fr) 1001) /\
  nle (n:=B64 fe fln fr) (nofZ (n:=B64 fe fln fr) 1000) (nofZ (n:=B64 fe fln fr) 1001) = true /\
  fin fe fln fr (nofZ (n:=B64 fe fln fr) 3) /\ (Rabs (val fe fln fr (nofZ (n:=B64 fe fln fr) 3)) <= bpow radix2 60)%R.
Proof.
  intros fe fln fr. pose proof (fun z H => bounded_Z fe fln fr z H) as B.
  refine (conj eq_refl (conj (conj eq_refl (conj eq_refl (conj eq_refl (conj (proj1 (B 1000%Z _)) (proj1 (B 1001%Z _)))))) (conj _ (conj (proj1 (proj1 (B 3%Z _))) _)))); try lia.
  - vm_compute. reflexivity.
  - eapply Rle_trans; [apply (proj2 (B 3%Z ltac:(lia)))|]. apply bpow_le. lia.
Qed.

(** ** C30 *)
Theorem C30_arrays : forall cs : cspace RNum, NoDup (map hp_name cs) -> all_numerical cs -> bounds_good cs ->
  (forall row, length row = length cs -> unit_row row ->
     exists row', unscale (A1 row) cs = Ok (A1 row') /\ row_of_unscale_float cs row row') /\
  (forall a, Forall (fun row => length row = length cs /\ unit_row row) a ->
     exists a', unscale (A2 a) cs = Ok (A2 a') /\ Forall2 (row_of_unscale_float cs) a a') /\
  (forall a, Forall (Forall (fun row => length row = length cs /\ unit_row row)) a ->
     exists a', unscale (A3 a) cs = Ok (A3 a') /\ Forall2 (Forall2 (row_of_unscale_float cs)) a a').
Proof. exact unscale_arrays. Qed.
Print Assumptions C30_arrays.

Theorem C30_linear_not_clamped : forall (cs : cspace RNum) row, NoDup (map hp_name cs) -> all_numerical cs -> length row = length cs ->
  exists row', unscale (A1 row) cs = Ok (A1 row') /\
    forall j h lo up x, nth_error cs j = Some h -> nth_error row j = Some x -> hp_is h lo up false -> good_bounds lo up false ->
      nth_error row' j = Some (lo + x * (up - lo))%R /\
      ((x < 0)%R -> unscale_float (N:=RNum) x cs h = Ok lo) /\ ((1 < x)%R -> unscale_float (N:=RNum) x cs h = Ok up).
Proof. exact unscale_linear_everywhere. Qed.
Print Assumptions C30_linear_not_clamped.

(** a categorical or constant hyperparameter, after any number of numerical ones *)
Theorem C30_categorical_raises : forall (N : Num) (cs : cspace N) pre h post, cs = pre ++ h :: post ->
  all_numerical pre -> is_numerical h = false ->
  (forall row, length row = length cs -> unscale (A1 row) cs = Err TypeError) /\
  (forall a, a <> [] -> Forall (fun row => length row = length cs) a -> unscale (A2 a) cs = Err TypeError) /\
  (forall a, a <> [] -> Forall (Forall (fun row => length row = length cs)) a -> unscale (A3 a) cs = Err TypeError).
Proof. exact (@unscale_categorical_raises). Qed.
Print Assumptions C30_categorical_raises.

Example C30_example : NoDup (map hp_name (ex_cs (N:=RNum))) /\ all_numerical (ex_cs (N:=RNum)) /\ bounds_good (ex_cs (N:=RNum)) /\
  Forall (fun row => length row = length (ex_cs (N:=RNum)) /\ unit_row row) [[(1/2)%R; 0%R; 1%R]; [1%R; (1/3)%R; 0%R]] /\
  (match unscale (N:=QNum) (A1 (N:=QNum) [1#2; 2#1; 1#4]%Q) (ex_cs (N:=QNum)) with Ok (A1 r) => Some r | _ => None end) = Some [1#2; 20#1; 2#1]%Q /\
  w_cat_cs = [mkhp "a"%string (KFloat (0#1 : QNum) (1#1 : QNum) false)] ++ mkhp "k"%string (KCat [VStr "x"%string; VStr "y"%string]) :: [].
Proof.
  refine (conj _ (conj ex_all_numerical (conj _ (conj _ (conj _ eq_refl))))).
  - cbn. repeat constructor; cbn; intuition discriminate.
  - intros h lo up lg [<- | [<- | [<- | []]]]; cbn; intros E1 E2 E3; inversion E1; inversion E2; inversion E3; split; try discriminate; cbn; lra.
  - repeat constructor; lra.
  - vm_compute. reflexivity.
Qed.

(** ** C31 *)
Theorem C31_selection : forall (N : Num) (cs : cspace N),
  (forall l hs, convert_hyperparameters (SelList l) cs = Ok hs <-> Forall2 (resolves cs) l hs) /\
  (forall l e, convert_hyperparameters (SelList l) cs = Err e <->
     exists pre i post, l = pre ++ i :: post /\ (exists hs, Forall2 (resolves cs) pre hs) /\
       match i with SName s => ~ In s (map hp_name cs) /\ e = KeyError | SHp _ => False | SOther => e = TypeError end) /\
  (forall l, get_hyperparameters (SelList l) cs = convert_hyperparameters (SelList l) cs) /\
  (forall i, convert_hyperparameters (SelOne i) cs = convert_hyperparameters (SelList [i]) cs /\
             get_hyperparameters (SelOne i) cs = convert_hyperparameters (SelList [i]) cs) /\
  get_hyperparameters SelNone cs = Ok cs /\ convert_hyperparameters SelNone cs = Err TypeError.
Proof. exact (@selection_resolution). Qed.
Print Assumptions C31_selection.

Theorem C31_name_resolves : forall (N : Num) (cs : cspace N) s h, NoDup (map hp_name cs) ->
  (resolves cs (SName s) h <-> In h cs /\ hp_name h = s).
Proof. exact (@name_resolves). Qed.
Print Assumptions C31_name_resolves.

(** get_selected_idx: the first position with that name, for every selected hyperparameter *)
Theorem C31_positions : forall (N : Num) (cs : cspace N) hps idx,
  get_selected_idx hps cs = Ok idx <->
  Forall2 (fun (h : hp N) i => exists h', nth_error cs i = Some h' /\ hp_name h' = hp_name h /\
                      forall j h'', j < i -> nth_error cs j = Some h'' -> hp_name h'' <> hp_name h) hps idx.
Proof. exact (@selected_idx_points_back). Qed.
Print Assumptions C31_positions.

Example C31_example : forall (N : Num), NoDup (map hp_name (ex_cs (N:=N))) /\
  (exists hs, convert_hyperparameters (SelList [SName "c"%string; SHp (mkhp "a"%string (KFloat n0 n1 false))]) (ex_cs (N:=N)) = Ok hs /\
     get_selected_idx hs (ex_cs (N:=N)) = Ok [2; 0]) /\
  convert_hyperparameters (SelList [SName "c"%string; SName "d"%string; SOther]) (ex_cs (N:=N)) = Err KeyError.
Proof.
  intro N. refine (conj _ (conj _ eq_refl)).
  - cbn. repeat constructor; cbn; intuition discriminate.
  - eexists. split; reflexivity.
Qed.

(** ** C58 *)
(** [evenly lo up l n]: [l] has [n] points, point [i] is [lo + i * (up - lo) / (n - 1)] *)
Theorem C58_ranges : forall (hps : list (hp RNum)) n scaled r,
  get_ranges hps n scaled = Ok r ->
  Forall2 (fun h l => is_numerical h = true /\ length l = n /\
    if scaled then evenly 0 1 l n
    else forall lo up lg, hp_is h lo up lg -> good_bounds lo up lg ->
         (if lg then evenly (ln lo) (ln up) (on_log_axis l) n else evenly lo up l n) /\
         (forall i j x y, i < j -> nth_error l i = Some x -> nth_error l j = Some y -> (x < y)%R) /\
         (2 <= n -> nth_error l 0 = Some lo /\ nth_error l (n - 1) = Some up)) hps r.
Proof. exact ranges_spec. Qed.
Print Assumptions C58_ranges.

Example C58_example : (exists r, get_ranges (ex_cs (N:=RNum)) 3 false = Ok r) /\
  (match get_ranges (ex_cs (N:=QNum)) 3 false with Ok r => r | Err _ => [] end) = [[0#1; 1#2; 1#1]; [0#1; 5#1; 10#1]; [1#1; 3#1; 5#1]]%Q.
Proof. split; [eexists; reflexivity|vm_compute; reflexivity]. Qed.
