(** UtilsProofs2.v - unscale stated through unscale_float and through plain formulas (C30). *)
From Coq Require Import Reals Lra.
From Verif Require Import Base Num NumLaws NumpyModel ConfigSpaceModel UtilsModel PartitionModel PartitionSpec ListLemmas IceProofs RealProofs RealSums UtilsProofs.
Local Open Scope R_scope.

Definition unit_row (row : list RNum) : Prop := Forall (fun x : R => 0 <= x <= 1) row.
(** every coordinate of [row'] is [unscale_float] of the coordinate of [row] *)
Definition row_of_unscale_float (cs : cspace RNum) (row row' : list RNum) : Prop :=
  length row' = length row /\
  forall j h x, nth_error cs j = Some h -> nth_error row j = Some x ->
    exists u, nth_error row' j = Some u /\ unscale_float (N:=RNum) x cs h = Ok u.

Lemma unscaled_row_float (cs : cspace RNum) row row' : NoDup (map hp_name cs) -> bounds_good cs -> unit_row row ->
  unscaled_row cs row row' -> row_of_unscale_float cs row row'.
Proof.
  intros ND BG HU UR. split; [exact (proj1 UR)|]. intros j h x Hh Hx.
  destruct (proj2 UR j h x Hh Hx) as (lo & up & lg & _ & _ & _ & E). eexists. split; [exact E|].
  exact (unscale_is_unscale_float cs row row' ND BG UR j h x _ Hh Hx E (proj1 (Forall_forall _ _) HU x (nth_error_In _ _ Hx))).
Qed.

Lemma Forall2_impl_l {A B} (P : A -> Prop) (Q Q' : A -> B -> Prop) l l' : Forall P l -> (forall a b, P a -> Q a b -> Q' a b) ->
  Forall2 Q l l' -> Forall2 Q' l l'.
Proof. intros F H F2. induction F2; [constructor|]. inversion F; subst. constructor; auto. Qed.

Theorem unscale_arrays (cs : cspace RNum) : NoDup (map hp_name cs) -> all_numerical cs -> bounds_good cs ->
  (forall row, length row = length cs -> unit_row row ->
     exists row', unscale (A1 row) cs = Ok (A1 row') /\ row_of_unscale_float cs row row') /\
  (forall a, Forall (fun row => length row = length cs /\ unit_row row) a ->
     exists a', unscale (A2 a) cs = Ok (A2 a') /\ Forall2 (row_of_unscale_float cs) a a') /\
  (forall a, Forall (Forall (fun row => length row = length cs /\ unit_row row)) a ->
     exists a', unscale (A3 a) cs = Ok (A3 a') /\ Forall2 (Forall2 (row_of_unscale_float cs)) a a').
Proof.
  intros ND AN BG. destruct (unscale_coordinatewise cs AN) as (H1 & H2 & H3).
  pose proof (fun row row' => unscaled_row_float cs row row' ND BG) as K.
  assert (K2 : forall row row', length row = length cs /\ unit_row row -> unscaled_row cs row row' -> row_of_unscale_float cs row row')
    by (intros row row' [_ U] X; auto).
  refine (conj _ (conj _ _)).
  - intros row L U. destruct (H1 row L) as (row' & E & X). eauto.
  - intros a F. destruct (H2 a) as (a' & E & X); [eapply Forall_impl; [|exact F]; cbv beta; tauto|].
    exists a'. split; [exact E|]. exact (Forall2_impl_l _ _ _ _ _ F K2 X).
  - intros a F. destruct (H3 a) as (a' & E & X).
    { eapply Forall_impl; [|exact F]. intros m Fm. eapply Forall_impl; [|exact Fm]. cbv beta; tauto. }
    exists a'. split; [exact E|]. refine (Forall2_impl_l _ _ _ _ _ F _ X).
    intros m m' Fm X'. exact (Forall2_impl_l _ _ _ _ _ Fm K2 X').
Qed.

(** on a linear axis [unscale] is the affine map, for every coordinate, also outside of [0,1],
    where [unscale_float] returns the nearest bound instead *)
Theorem unscale_linear_everywhere (cs : cspace RNum) row : NoDup (map hp_name cs) -> all_numerical cs -> length row = length cs ->
  exists row', unscale (A1 row) cs = Ok (A1 row') /\
    forall j h lo up x, nth_error cs j = Some h -> nth_error row j = Some x -> hp_is h lo up false -> good_bounds lo up false ->
      nth_error row' j = Some (lo + x * (up - lo)) /\
      (x < 0 -> unscale_float (N:=RNum) x cs h = Ok lo) /\ (1 < x -> unscale_float (N:=RNum) x cs h = Ok up).
Proof.
  intros ND AN L. destruct (proj1 (unscale_coordinatewise cs AN) row L) as (row' & E & UR).
  exists row'. split; [exact E|]. intros j h lo up x Hh Hx Hi G.
  destruct (proj2 UR j h x Hh Hx) as (lo' & up' & lg' & E1 & E2 & E3 & E4).
  destruct (hp_is_fields _ _ _ _ Hi) as (F1 & F2 & F3). rewrite F1 in E1. rewrite F2 in E2. rewrite F3 in E3.
  inversion E1; inversion E2; inversion E3; subst lo' up' lg'. rewrite E4.
  pose proof (unscale_float_R cs h h lo up false x (cs_get_nodup _ _ ND (nth_error_In _ _ Hh)) Hi) as U. destruct G as [G _].
  refine (conj _ (conj _ _)).
  - apply (f_equal (@Some R)). rewrite unscaler_R. unfold raw_unscale. apply Rplus_comm.
  - intro X. etransitivity; [exact U|]. apply (f_equal (@Ok R)). unfold clamp, raw_unscale.
    rewrite Rmax_left by nra. apply Rmin_right. lra.
  - intro X. etransitivity; [exact U|]. apply (f_equal (@Ok R)). unfold clamp, raw_unscale.
    rewrite Rmax_right by nra. apply Rmin_left. nra.
Qed.

(** ** C28: between 0 and 1 the weighted arithmetic mean of the bounds, on a log scale the geometric one *)
Theorem unscale_interpolates (cs : cspace RNum) h h' (lo up : R) lg (x : R) : cs_get cs (hp_name h) = Ok h' -> hp_is h' lo up lg -> good_bounds lo up lg ->
  (0 <= x <= 1)%R -> unscale_float (N:=RNum) x cs h = Ok (if lg then Rpower lo (1 - x) * Rpower up x else (1 - x) * lo + x * up)%R.
Proof.
  intros Hg Hi G Hx. rewrite (unscale_float_R cs h h' lo up lg x Hg Hi), clamp_id by (apply raw_unscale_range; assumption).
  unfold raw_unscale, Rpower. destruct lg; [rewrite <- exp_plus|]; apply f_equal; [apply f_equal|]; ring.
Qed.
