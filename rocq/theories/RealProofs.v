(** RealProofs.v - facts about the real-number instance: comparisons, split
    values, scaling (C28) and means. *)
From Coq Require Import Reals Lra Rpower.
From Verif Require Import Base Num NumLaws NumpyModel ConfigSpaceModel UtilsModel PartitionModel ListLemmas IceProofs.
Local Open Scope R_scope.

Lemma R_le_true (x y : RNum) : nle x y = true <-> (x <= y)%R.
Proof. cbn. destruct (Rleb_spec x y); split; intro; try reflexivity; try discriminate; try assumption; contradiction. Qed.
Lemma R_lt_true (x y : RNum) : nlt x y = true <-> (x < y)%R.
Proof. cbn. destruct (Rltb_spec x y); split; intro; try reflexivity; try discriminate; try assumption; contradiction. Qed.
Lemma R_le_false (x y : RNum) : nle x y = false <-> (y < x)%R.
Proof. cbn. destruct (Rleb_spec x y); split; intro; try reflexivity; try discriminate; try assumption; lra. Qed.
Lemma R_lt_false (x y : RNum) : nlt x y = false <-> (y <= x)%R.
Proof. cbn. destruct (Rltb_spec x y); split; intro; try reflexivity; try discriminate; try assumption; lra. Qed.

Lemma np_minimum_R (a b : RNum) : np_minimum a b = Rmin a b.
Proof.
  unfold np_minimum. rewrite (R_ordinary a), (R_ordinary b). cbn -[Rmin]. unfold Rmin, Rleb.
  destruct (Rle_dec a b); reflexivity.
Qed.
Lemma np_maximum_R (a b : RNum) : np_maximum a b = Rmax a b.
Proof.
  unfold np_maximum. rewrite (R_ordinary a), (R_ordinary b). cbn -[Rmax]. unfold Rmax, Rleb.
  destruct (Rle_dec a b); reflexivity.
Qed.

(** ** split values: linspace(0, 1, n+2)[1:-1] *)
Lemma removelast_snoc {A} (l : list A) x : removelast (l ++ [x]) = l.
Proof. apply removelast_last. Qed.

Lemma split_vals_R n : possible_split_vals (N:=RNum) n = map (fun i => INR i / INR (n + 1)) (seq 1 n).
Proof.
  unfold possible_split_vals. replace (n + 2)%nat with (S (S n)) by lia. cbn [linspace].
  rewrite <- cons_seq. cbn [map app tl]. rewrite removelast_last. apply map_ext. intro i.
  unfold n0, n1. cbn [nadd nmul ndiv nsub nofZ RNum]. rewrite <- !INR_IZR_INZ. replace (S n) with (n + 1)%nat by lia.
  assert (INR (n + 1) <> 0) by (apply not_0_INR; lia). field. assumption.
Qed.

Lemma split_vals_open n v : In v (possible_split_vals (N:=RNum) n) -> (0 < v < 1)%R.
Proof.
  rewrite split_vals_R. intro H. apply in_map_iff in H. destruct H as (i & <- & Hi). apply in_seq in Hi.
  assert (0 < INR i) by (apply lt_0_INR; lia). assert (INR i < INR (n + 1)) by (apply lt_INR; lia).
  split; [apply Rdiv_lt_0_compat; lra|]. apply (Rmult_lt_reg_r (INR (n + 1))); [lra|].
  unfold Rdiv. rewrite Rmult_assoc, Rinv_l; lra.
Qed.

(** ** scaling *)
Definition good_bounds (lo up : R) (lg : bool) : Prop := lo < up /\ (lg = true -> 0 < lo).

(** the raw affine / exponential map *)
Definition raw_unscale (lo up : R) (lg : bool) (x : R) : R :=
  if lg then exp (x * (ln up - ln lo) + ln lo) else x * (up - lo) + lo.
Definition raw_scale (lo up : R) (lg : bool) (v : R) : R :=
  if lg then (ln v - ln lo) / (ln up - ln lo) else (v - lo) / (up - lo).
Definition clamp (lo up x : R) : R := Rmin up (Rmax lo x).
Definition clampmm (lo up x : R) : R := Rmax lo (Rmin up x).

Lemma clampmm_clamp lo up x : lo <= up -> clampmm lo up x = clamp lo up x.
Proof. intro. unfold clampmm, clamp, Rmin, Rmax. repeat destruct (Rle_dec _ _); lra. Qed.
Lemma clamp_id lo up x : lo <= x <= up -> clamp lo up x = x.
Proof. intro. unfold clamp, Rmin, Rmax. repeat destruct (Rle_dec _ _); lra. Qed.
Lemma clamp_bounds lo up x : lo <= up -> lo <= clamp lo up x <= up.
Proof. intro. unfold clamp, Rmin, Rmax. repeat destruct (Rle_dec _ _); lra. Qed.
Lemma clamp_mono lo up x y : x <= y -> clamp lo up x <= clamp lo up y.
Proof. intro. unfold clamp, Rmin, Rmax. repeat destruct (Rle_dec _ _); lra. Qed.
Lemma clamp_below lo up x : lo <= up -> x <= lo -> clamp lo up x = lo.
Proof. intros. unfold clamp, Rmin, Rmax. repeat destruct (Rle_dec _ _); lra. Qed.
Lemma clamp_above lo up x : lo <= up -> up <= x -> clamp lo up x = up.
Proof. intros. unfold clamp, Rmin, Rmax. repeat destruct (Rle_dec _ _); lra. Qed.

Lemma ln_pos_diff lo up : 0 < lo -> lo < up -> 0 < ln up - ln lo.
Proof. intros. pose proof (ln_increasing lo up). lra. Qed.

Lemma raw_unscale_strict lo up lg x y : good_bounds lo up lg -> x < y -> raw_unscale lo up lg x < raw_unscale lo up lg y.
Proof.
  intros [H H0] Hxy. unfold raw_unscale. destruct lg.
  - apply exp_increasing. pose proof (ln_pos_diff lo up (H0 eq_refl) H). nra.
  - nra.
Qed.
Lemma raw_unscale_mono lo up lg x y : good_bounds lo up lg -> x <= y -> raw_unscale lo up lg x <= raw_unscale lo up lg y.
Proof. intros G [H| ->]; [left; apply raw_unscale_strict; assumption|right; reflexivity]. Qed.
Lemma raw_unscale_0 lo up lg : good_bounds lo up lg -> raw_unscale lo up lg 0 = lo.
Proof.
  intros [H H0]. unfold raw_unscale. destruct lg; [|ring].
  rewrite Rmult_0_l, Rplus_0_l. apply exp_ln. auto.
Qed.
Lemma raw_unscale_1 lo up lg : good_bounds lo up lg -> raw_unscale lo up lg 1 = up.
Proof.
  intros [H H0]. unfold raw_unscale. destruct lg; [|ring].
  replace (1 * (ln up - ln lo) + ln lo) with (ln up) by ring. apply exp_ln. specialize (H0 eq_refl). lra.
Qed.
Lemma raw_unscale_range lo up lg x : good_bounds lo up lg -> 0 <= x <= 1 -> lo <= raw_unscale lo up lg x <= up.
Proof.
  intros G [H0 H1]. pose proof (raw_unscale_mono lo up lg 0 x G H0). pose proof (raw_unscale_mono lo up lg x 1 G H1).
  rewrite raw_unscale_0 in * by exact G. rewrite raw_unscale_1 in * by exact G. lra.
Qed.
Lemma raw_scale_unscale lo up lg x : good_bounds lo up lg -> raw_scale lo up lg (raw_unscale lo up lg x) = x.
Proof.
  intros [H H0]. unfold raw_scale, raw_unscale. destruct lg.
  - pose proof (ln_pos_diff lo up (H0 eq_refl) H). rewrite ln_exp. field. lra.
  - field. lra.
Qed.
Lemma raw_unscale_scale lo up lg v : good_bounds lo up lg -> (lg = true -> 0 < v) -> raw_unscale lo up lg (raw_scale lo up lg v) = v.
Proof.
  intros [H H0] Hv. unfold raw_scale, raw_unscale. destruct lg.
  - pose proof (ln_pos_diff lo up (H0 eq_refl) H).
    replace ((ln v - ln lo) / (ln up - ln lo) * (ln up - ln lo) + ln lo) with (ln v) by (field; lra).
    apply exp_ln; auto.
  - field. lra.
Qed.
Lemma raw_scale_strict lo up lg v w : good_bounds lo up lg -> (lg = true -> 0 < v) -> v < w -> raw_scale lo up lg v < raw_scale lo up lg w.
Proof.
  intros G Hv Hvw. destruct (Rlt_le_dec (raw_scale lo up lg v) (raw_scale lo up lg w)) as [|C]; [assumption|].
  apply (raw_unscale_mono lo up lg) in C; [|assumption]. rewrite !raw_unscale_scale in C; auto; [lra|].
  intro E. specialize (Hv E). lra.
Qed.
Lemma raw_scale_lower lo up lg : good_bounds lo up lg -> raw_scale lo up lg lo = 0.
Proof. intro G. rewrite <- (raw_unscale_0 lo up lg G) at 2. apply raw_scale_unscale; exact G. Qed.
Lemma raw_scale_upper lo up lg : good_bounds lo up lg -> raw_scale lo up lg up = 1.
Proof. intro G. rewrite <- (raw_unscale_1 lo up lg G) at 2. apply raw_scale_unscale; exact G. Qed.

(** bounds and scale of a numerical hyperparameter *)
Definition hp_is (h : hp RNum) (lo up : R) (lg : bool) : Prop :=
  hp_kind h = KFloat (N:=RNum) lo up lg \/ exists l u, hp_kind h = KInt l u lg /\ lo = IZR l /\ up = IZR u.

Lemma hp_is_fields h lo up lg : hp_is h lo up lg -> hp_lower h = Ok lo /\ hp_upper h = Ok up /\ hp_log h = Ok lg.
Proof. unfold hp_lower, hp_upper, hp_log. intros [E|(l & u & E & -> & ->)]; rewrite E; auto. Qed.

Lemma unscale_float_R cs h h' lo up lg (x : RNum) : cs_get cs (hp_name h) = Ok h' -> hp_is h' lo up lg ->
  unscale_float x cs h = Ok (clamp lo up (raw_unscale lo up lg x)).
Proof.
  intros Hg Hi. unfold unscale_float. rewrite Hg. cbn [bind]. destruct (hp_is_fields _ _ _ _ Hi) as (-> & -> & ->).
  cbn [bind]. rewrite np_maximum_R, np_minimum_R. unfold clamp, raw_unscale. destruct lg; reflexivity.
Qed.
Lemma scale_float_R cs h h' lo up lg (v : RNum) : cs_get cs (hp_name h) = Ok h' -> hp_is h' lo up lg ->
  scale_float v cs h = Ok (clampmm 0 1 (raw_scale lo up lg v)).
Proof.
  intros Hg Hi. unfold scale_float. rewrite Hg. cbn [bind]. destruct (hp_is_fields _ _ _ _ Hi) as (-> & -> & ->).
  cbn [bind]. rewrite np_minimum_R, np_maximum_R. unfold clampmm, raw_scale, n0, n1. destruct lg; reflexivity.
Qed.
Lemma float_transform_R lo up lg (x : RNum) : float_transform (N:=RNum) lo up lg x = clampmm lo up (raw_unscale lo up lg x).
Proof. unfold float_transform. rewrite np_minimum_R, np_maximum_R. destruct lg; reflexivity. Qed.
Lemma unscaler_R lo up lg (x : RNum) : unscaler (N:=RNum) lo up lg x = if lg then clamp lo up (raw_unscale lo up lg x) else raw_unscale lo up lg x.
Proof. unfold unscaler. destruct lg; [rewrite np_maximum_R, np_minimum_R|]; reflexivity. Qed.

(** ** C28 *)
Theorem scaling_roundtrip cs h h' lo up lg :
  cs_get cs (hp_name h) = Ok h' -> hp_is h' lo up lg -> good_bounds lo up lg ->
  exists scale unscale : R -> R,
    (forall v, scale_float (N:=RNum) v cs h = Ok (scale v)) /\
    (forall x, unscale_float (N:=RNum) x cs h = Ok (unscale x)) /\
    (forall v, 0 <= scale v <= 1) /\ (forall x, lo <= unscale x <= up) /\
    (forall x, 0 <= x <= 1 -> scale (unscale x) = x) /\
    (forall v, lo <= v <= up -> unscale (scale v) = v) /\
    (forall x y, x <= y -> unscale x <= unscale y) /\
    (forall x y, 0 <= x -> x < y -> y <= 1 -> unscale x < unscale y) /\
    (forall v w, lo <= v -> v < w -> w <= up -> scale v < scale w) /\
    (forall v w, (lg = true -> 0 < v) -> v <= w -> scale v <= scale w) /\
    (forall x, x <= 0 -> unscale x = lo) /\ (forall x, 1 <= x -> unscale x = up) /\
    (forall v, (lg = true -> 0 < v) -> v <= lo -> scale v = 0) /\ (forall v, up <= v -> scale v = 1).
Proof.
  intros Hg Hi G. destruct (G) as [Hlt Hpos].
  exists (fun v => clampmm 0 1 (raw_scale lo up lg v)), (fun x => clamp lo up (raw_unscale lo up lg x)).
  assert (E01 : forall x, clampmm 0 1 x = clamp 0 1 x) by (intro; apply clampmm_clamp; lra).
  assert (Hv : forall v, lo <= v -> lg = true -> 0 < v) by (intros v H E; specialize (Hpos E); lra).
  assert (SM : forall v w, (lg = true -> 0 < v) -> v <= w -> raw_scale lo up lg v <= raw_scale lo up lg w).
  { intros v w H [H1| ->]; [left; apply raw_scale_strict; assumption|right; reflexivity]. }
  pose proof (raw_scale_lower lo up lg G) as S0. pose proof (raw_scale_upper lo up lg G) as S1.
  pose proof (raw_unscale_0 lo up lg G) as U0. pose proof (raw_unscale_1 lo up lg G) as U1.
  assert (RS : forall v, lo <= v <= up -> 0 <= raw_scale lo up lg v <= 1).
  { intros v [H1 H2]. pose proof (SM lo v (Hv lo (Rle_refl _)) H1). pose proof (SM v up (Hv v H1) H2). lra. }
  refine (conj _ (conj _ (conj _ (conj _ (conj _ (conj _ (conj _ (conj _ (conj _ (conj _ (conj _ (conj _ (conj _ _))))))))))))).
  - intro v. apply (scale_float_R cs h h'); assumption.
  - intro x. apply (unscale_float_R cs h h'); assumption.
  - intro v. rewrite E01. apply clamp_bounds. lra.
  - intro x. apply clamp_bounds. lra.
  - intros x Hx. rewrite E01, (clamp_id lo up) by (apply raw_unscale_range; assumption).
    rewrite raw_scale_unscale by exact G. apply clamp_id; exact Hx.
  - intros v Hv'. rewrite E01, (clamp_id 0 1) by (apply RS; exact Hv').
    rewrite raw_unscale_scale; [apply clamp_id; exact Hv'|exact G|apply Hv; apply Hv'].
  - intros x y H. apply clamp_mono, raw_unscale_mono; assumption.
  - intros x y H0 H H1. rewrite !clamp_id by (apply raw_unscale_range; [exact G|lra]).
    apply raw_unscale_strict; assumption.
  - intros v w H0 H H1. rewrite !E01, !clamp_id by (apply RS; lra). apply raw_scale_strict; auto.
  - intros v w H0 H. rewrite !E01. apply clamp_mono, SM; assumption.
  - intros x H. apply clamp_below; [lra|]. pose proof (raw_unscale_mono lo up lg x 0 G H). lra.
  - intros x H. apply clamp_above; [lra|]. pose proof (raw_unscale_mono lo up lg 1 x G H). lra.
  - intros v Hp H. rewrite E01. apply clamp_below; [lra|]. pose proof (SM v lo Hp H). lra.
  - intros v H. rewrite E01. apply clamp_above; [lra|]. assert (lo <= up) as X by lra. pose proof (SM up v (Hv up X) H). lra.
Qed.
