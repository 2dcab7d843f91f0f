(** ScaleProofs.v - scaling and membership in binary64 (C114). *)
From Coq Require Import Reals Lra Sorted.
From Flocq Require Import Core.Core IEEE754.BinarySingleNaN.
From Verif Require Import Base Num NumLaws NumpyModel ConfigSpaceModel UtilsModel IceModel PartitionModel PartitionSpec
  ListLemmas IceProofs PartitionProofs PartitionProofs2 PartitionProofs3 PartitionProofs4 PartitionProofs5 RealSums B64Proofs RoundProofs AxisProofs ScaleSpec.
Local Open Scope R_scope.

(** ** in real numbers *)
Section Line.
Variables lo up : R.
Hypothesis Flo : fmt lo.
Hypothesis Fup : fmt up.
Hypothesis Hlt : lo < up.
Let D := up - lo.
Let D' := RN (up - lo).
Definition line (x : R) : R := RN (RN (x * RN (up - lo)) + lo).

Lemma range_near : Rabs (D' - D) <= uu * D.
Proof.
  unfold D', D. pose proof (RN_plus up (- lo) Fup (generic_format_opp _ _ _ Flo)) as H.
  change (up + - lo) with (up - lo) in H. rewrite (Rabs_pos_eq (up - lo)) in H by lra. exact H.
Qed.
Lemma range_pos : (1 - uu) * D <= D' <= (1 + uu) * D /\ 0 < D'.
Proof.
  pose proof range_near as H. apply Rabs_le_inv in H. pose proof uu_pos. pose proof uu_small.
  assert (0 < D) by (unfold D; lra). split; [split; lra|]. nra.
Qed.
Lemma size_pos : 0 <= bound_size lo up.
Proof. unfold bound_size. eapply Rle_trans; [apply (Rabs_pos lo)|apply Rmax_l]. Qed.
Lemma size_between t : lo <= t <= up -> Rabs t <= bound_size lo up.
Proof.
  intros [A B]. unfold bound_size. apply Rabs_le. pose proof (Rmax_l (Rabs lo) (Rabs up)). pose proof (Rmax_r (Rabs lo) (Rabs up)).
  pose proof (Rle_abs up). pose proof (Rle_abs (- lo)). rewrite Rabs_Ropp in *. lra.
Qed.
Lemma tiny_two : bpow radix2 (-1074) = 2 * tiny.
Proof. unfold tiny. change (-1074)%Z with (1 + -1075)%Z. rewrite bpow_plus. reflexivity. Qed.

Lemma line_near x : 0 <= x <= 1 -> Rabs (line x - (lo + x * D)) <= value_slack lo up.
Proof.
  intro Hx. unfold value_slack, line. fold D'. fold D. rewrite tiny_two. fold uu.
  pose proof range_near as HD. pose proof range_pos as [[_ HD'] HDp]. pose proof uu_pos as U. pose proof uu_small as U'. pose proof tiny_pos as T.
  assert (PD : 0 < D) by (unfold D; lra).
  pose proof (RN_any (x * D')) as HP. rewrite (Rabs_pos_eq (x * D')) in HP by nra.
  set (P := RN (x * D')) in *.
  assert (E1 : Rabs (P - x * D) <= uu * D * (2 + uu) + tiny).
  { replace (P - x * D) with ((P - x * D') + x * (D' - D)) by ring. eapply Rle_trans; [apply Rabs_triang|].
    rewrite Rabs_mult, (Rabs_pos_eq x) by lra.
    assert (x * Rabs (D' - D) <= 1 * (uu * D)) by (apply Rmult_le_compat; [lra|apply Rabs_pos|lra|exact HD]).
    assert (x * D' <= 1 * ((1 + uu) * D)) by (apply Rmult_le_compat; lra).
    assert (uu * (x * D') <= uu * (1 * ((1 + uu) * D))) by (apply Rmult_le_compat_l; lra). nra. }
  assert (FP : fmt P) by (apply generic_format_round; [apply FLT_exp_valid; exact prec53|apply valid_rnd_N]).
  pose proof (RN_plus P lo FP Flo) as HL.
  assert (HM : Rabs (P + lo) <= bound_size lo up + (uu * D * (2 + uu) + tiny)).
  { replace (P + lo) with ((lo + x * D) + (P - x * D)) by ring. eapply Rle_trans; [apply Rabs_triang|]. apply Rplus_le_compat; [|exact E1].
    apply size_between. unfold D. unfold D in PD. split; nra. }
  replace (RN (P + lo) - (lo + x * D)) with ((RN (P + lo) - (P + lo)) + (P - x * D)) by ring.
  eapply Rle_trans; [apply Rabs_triang|].
  assert (uu * Rabs (P + lo) <= uu * (bound_size lo up + (uu * D * (2 + uu) + tiny))) by (apply Rmult_le_compat_l; lra).
  assert (A : (1 + uu) * (uu * D * (2 + uu) + tiny) <= 3 * (uu * D) + 2 * tiny).
  { assert (Hz : 0 < uu * D) by (apply Rmult_lt_0_compat; lra).
    assert (C : (1 + uu) * (2 + uu) <= 3) by nra.
    assert (C1 : (uu * D) * ((1 + uu) * (2 + uu)) <= (uu * D) * 3) by (apply Rmult_le_compat_l; lra).
    assert (C2 : (1 + uu) * tiny <= 2 * tiny) by (apply Rmult_le_compat_r; lra).
    replace ((1 + uu) * (uu * D * (2 + uu) + tiny)) with ((uu * D) * ((1 + uu) * (2 + uu)) + (1 + uu) * tiny) by ring. lra. }
  lra.
Qed.

Lemma line_mono x y : x <= y -> line x <= line y.
Proof.
  intro H. unfold line. pose proof range_pos as [_ P]. unfold D' in P. apply RN_mono. apply Rplus_le_compat_r. apply RN_mono. apply Rmult_le_compat_r; lra.
Qed.
Lemma line_zero : line 0 = lo.
Proof. unfold line. rewrite Rmult_0_l. rewrite (RN_generic 0) by apply generic_format_0. rewrite Rplus_0_l. apply RN_generic, Flo. Qed.

(** clamping does not take a value away from the line *)
Lemma clamped_near t a : lo <= t <= up -> Rabs (Rmin up (Rmax lo a) - t) <= Rabs (a - t).
Proof.
  intro H. unfold Rmin, Rmax. repeat destruct (Rle_dec _ _); unfold Rabs; repeat destruct (Rcase_abs _); lra.
Qed.
Lemma clamp_both a : Rmax lo (Rmin up a) = Rmin up (Rmax lo a).
Proof. unfold Rmin, Rmax. repeat destruct (Rle_dec _ _); lra. Qed.

Lemma line_apart x y : 0 <= x <= 1 -> 0 <= y <= 1 -> 2 * value_slack lo up < (y - x) * D ->
  Rmin up (Rmax lo (line x)) < Rmin up (Rmax lo (line y)).
Proof.
  intros Hx Hy H. assert (PD : 0 < D) by (unfold D; lra).
  assert (B : forall z, 0 <= z <= 1 -> lo <= lo + z * D <= up) by (intros z Hz; unfold D in *; split; nra).
  pose proof (clamped_near _ (line x) (B x Hx)) as A1. pose proof (clamped_near _ (line y) (B y Hy)) as A2.
  pose proof (line_near x Hx) as N1. pose proof (line_near y Hy) as N2.
  apply (Rle_trans _ _ _ A1) in N1. apply (Rle_trans _ _ _ A2) in N2.
  apply Rabs_le_inv in N1. apply Rabs_le_inv in N2. lra.
Qed.

Hypothesis Hwide : bpow radix2 (-1000) <= up - lo.
Lemma tiny_wide : 4 * tiny <= uu * D /\ tiny <= uu / 4.
Proof.
  unfold tiny, uu, D. split.
  - replace (4 * bpow radix2 (-1075)) with (bpow radix2 (-1073)) by (change (-1073)%Z with (2 + -1075)%Z; rewrite bpow_plus; reflexivity).
    eapply Rle_trans; [|apply Rmult_le_compat_l; [apply bpow_ge_0|exact Hwide]]. rewrite <- bpow_plus. apply bpow_le. lia.
  - replace (bpow radix2 (-53) / 4) with (bpow radix2 (-55)) by (change (-55)%Z with (-53 + -2)%Z; rewrite bpow_plus; cbn; lra). apply bpow_le. lia.
Qed.
Lemma gap_enough d : coord_gap lo up <= d -> 2 * value_slack lo up < d * D.
Proof.
  intro H. unfold coord_gap in H. unfold value_slack. rewrite tiny_two. fold uu. fold D in H |- *. destruct tiny_wide as [T _].
  assert (PD : 0 < D) by (unfold D; lra). pose proof uu_pos.
  replace (bpow radix2 (-52)) with (2 * uu) in H by (unfold uu; change (-52)%Z with (1 + -53)%Z; rewrite bpow_plus; reflexivity).
  assert (H2 : (2 * uu * (bound_size lo up / D + 4)) * D <= d * D) by (apply Rmult_le_compat_r; lra).
  replace ((2 * uu * (bound_size lo up / D + 4)) * D) with (2 * uu * bound_size lo up + 8 * (uu * D)) in H2 by (field; lra).
  assert (0 < uu * D) by (apply Rmult_lt_0_compat; lra). lra.
Qed.

(** ** scaling back *)
Definition back (v : R) : R := RN (RN (v - lo) / RN (up - lo)).
Lemma back_up : back up = 1.
Proof. unfold back. pose proof range_pos as [_ P]. unfold D' in P. unfold Rdiv. rewrite Rinv_r by lra. apply RN_generic. apply (fmt_IZR 1). lia. Qed.
Lemma back_lo : back lo = 0.
Proof. unfold back. rewrite Rminus_diag_eq by reflexivity. rewrite (RN_generic 0) by apply generic_format_0. unfold Rdiv. rewrite Rmult_0_l. apply RN_generic, generic_format_0. Qed.
Lemma back_mono v w : v <= w -> back v <= back w.
Proof.
  intro H. unfold back. pose proof range_pos as [_ P]. unfold D' in P. apply RN_mono. unfold Rdiv. apply Rmult_le_compat_r; [left; apply Rinv_0_lt_compat; exact P|].
  apply RN_mono. lra.
Qed.
Lemma back_range v : lo <= v <= up -> 0 <= back v <= 1.
Proof. intros [A B]. rewrite <- back_lo at 1. rewrite <- back_up. split; apply back_mono; assumption. Qed.
Lemma quotient_range v : lo <= v <= up -> 0 <= RN (v - lo) / RN (up - lo) <= 1.
Proof.
  intros [A B]. pose proof range_pos as [_ P]. unfold D' in P. unfold Rdiv.
  assert (0 <= RN (v - lo)) by (rewrite <- (RN_generic 0) by apply generic_format_0; apply RN_mono; lra).
  assert (RN (v - lo) <= RN (up - lo)) by (apply RN_mono; lra). pose proof (Rinv_0_lt_compat _ P). split; [nra|].
  apply (Rmult_le_reg_r (RN (up - lo))); [lra|]. rewrite Rmult_assoc, Rinv_l; lra.
Qed.
Lemma back_near v : fmt v -> lo <= v <= up -> Rabs (back v - (v - lo) / D) <= 4 * uu.
Proof.
  intros Fv Hv. pose proof range_near as HD. pose proof range_pos as [[L1 L2] P]. pose proof uu_pos as U. pose proof uu_small as U'. destruct tiny_wide as [_ T].
  assert (PD : 0 < D) by (unfold D; lra).
  pose proof (RN_plus v (- lo) Fv (generic_format_opp _ _ _ Flo)) as HV. change (v + - lo) with (v - lo) in HV. rewrite (Rabs_pos_eq (v - lo)) in HV by lra.
  pose proof (quotient_range v Hv) as HQ. unfold back. fold D'. fold D' in HQ. set (q := RN (v - lo) / D') in *.
  pose proof (RN_any q) as HR. rewrite (Rabs_pos_eq q) in HR by lra.
  assert (Q : Rabs (q - (v - lo) / D) <= uu * (5/2)).
  { (* q D' = V with V near v - lo *)
    assert (EQ : q * D' = RN (v - lo)) by (unfold q; field; lra).
    assert (ET : (v - lo) / D * D = v - lo) by (field; lra).
    set (t := (v - lo) / D) in *.
    assert (Ht : 0 <= t <= 1).
    { split; [apply Rmult_le_pos; [lra|left; apply Rinv_0_lt_compat; exact PD]|]. apply (Rmult_le_reg_r D); [exact PD|]. rewrite ET. unfold D. lra. }
    assert (M : Rabs ((q - t) * D') <= uu * (2 * D)).
    { replace ((q - t) * D') with ((RN (v - lo) - (v - lo)) + t * (D - D')).
      2:{ rewrite Rmult_minus_distr_r, EQ. replace (t * (D - D')) with (t * D - t * D') by ring. rewrite ET. ring. }
      eapply Rle_trans; [apply Rabs_triang|]. rewrite Rabs_mult, (Rabs_pos_eq t) by lra. rewrite (Rabs_minus_sym D D').
      assert (t * Rabs (D' - D) <= 1 * (uu * D)) by (apply Rmult_le_compat; [lra|apply Rabs_pos|lra|exact HD]).
      assert (uu * (v - lo) <= uu * D) by (apply Rmult_le_compat_l; [lra|unfold D; lra]). lra. }
    rewrite Rabs_mult, (Rabs_pos_eq D') in M by lra.
    apply (Rmult_le_reg_r D'); [exact P|]. eapply Rle_trans; [exact M|].
    assert (2 * D <= 5/2 * D') by nra. rewrite Rmult_assoc. apply Rmult_le_compat_l; lra. }
  replace (RN q - (v - lo) / D) with ((RN q - q) + (q - (v - lo) / D)) by ring. eapply Rle_trans; [apply Rabs_triang|].
  assert (uu * q <= uu * 1) by (apply Rmult_le_compat_l; lra). lra.
Qed.

(** there and back *)
Lemma line_back x : 0 <= x <= 1 -> fmt (Rmin up (Rmax lo (line x))) ->
  Rabs (back (Rmin up (Rmax lo (line x))) - x) <= uu * (bound_size lo up / D + 8).
Proof.
  intros Hx Fv. assert (PD : 0 < D) by (unfold D; lra). pose proof uu_pos as U. destruct tiny_wide as [T _].
  assert (B : lo <= lo + x * D <= up) by (unfold D in *; split; nra).
  pose proof (clamped_near _ (line x) B) as A1. pose proof (line_near x Hx) as N1. apply (Rle_trans _ _ _ A1) in N1. clear A1.
  set (v := Rmin up (Rmax lo (line x))) in *.
  assert (Hv : lo <= v <= up) by (unfold v; split; [apply Rmin_glb; [lra|apply Rmax_l]|apply Rmin_l]).
  pose proof (back_near v Fv Hv) as N2.
  assert (E : Rabs ((v - lo) / D - x) <= uu * (bound_size lo up / D + 3) + uu / 2).
  { replace ((v - lo) / D - x) with ((v - (lo + x * D)) / D) by (field; lra). unfold Rdiv at 1. rewrite Rabs_mult, (Rabs_pos_eq (/ D)) by (left; apply Rinv_0_lt_compat; exact PD).
    apply (Rmult_le_reg_r D); [exact PD|]. rewrite Rmult_assoc, Rinv_l, Rmult_1_r by lra. eapply Rle_trans; [exact N1|].
    unfold value_slack. fold D. rewrite tiny_two. fold uu. replace ((uu * (bound_size lo up / D + 3) + uu / 2) * D) with (uu * (bound_size lo up + 3 * D) + uu * D / 2) by (field; lra). lra. }
  replace (back v - x) with ((back v - (v - lo) / D) + ((v - lo) / D - x)) by ring. eapply Rle_trans; [apply Rabs_triang|]. lra.
Qed.
Lemma back_line v : fmt v -> lo <= v <= up ->
  Rabs (Rmin up (Rmax lo (line (back v))) - v) <= uu * (bound_size lo up + 8 * D).
Proof.
  intros Fv Hv. assert (PD : 0 < D) by (unfold D; lra). pose proof uu_pos as U. destruct tiny_wide as [T _].
  pose proof (back_range v Hv) as Hx. pose proof (back_near v Fv Hv) as N2. set (x := back v) in *.
  assert (B : lo <= lo + x * D <= up) by (unfold D in *; split; nra).
  pose proof (clamped_near _ (line x) B) as A1. pose proof (line_near x Hx) as N1. apply (Rle_trans _ _ _ A1) in N1. clear A1.
  set (w := Rmin up (Rmax lo (line x))) in *.
  assert (E : Rabs (lo + x * D - v) <= 4 * uu * D).
  { replace (lo + x * D - v) with ((x - (v - lo) / D) * D) by (field; lra). rewrite Rabs_mult, (Rabs_pos_eq D) by lra. apply Rmult_le_compat_r; lra. }
  replace (w - v) with ((w - (lo + x * D)) + (lo + x * D - v)) by ring. eapply Rle_trans; [apply Rabs_triang|].
  unfold value_slack in N1. fold D in N1. rewrite tiny_two in N1. fold uu in N1. assert (0 < uu * D) by (apply Rmult_lt_0_compat; lra). lra.
Qed.
End Line.

(** ** the functions *)
Section Float.
Variables fe fl fr : b64 -> b64.
Notation BN := (B64 fe fl fr).
Notation val := (val fe fl fr).
Notation fin := (fin fe fl fr).
Notation bounded := (bounded fe fl fr).
Notation linear_hp := (linear_hp fe fl fr).
Notation unit_coord := (unit_coord fe fl fr).

Lemma unit_small (x : BN) : unit_coord x -> Rabs (val x) <= bpow radix2 60.
Proof. intros [_ H]. rewrite Rabs_pos_eq by lra. apply (Rle_trans _ (bpow radix2 0)); [cbn; lra|]. apply bpow_le. lia. Qed.

Section Axis.
Variables (cs : cspace BN) (h h' : hp BN) (lo up : BN).
Hypothesis Hg : cs_get cs (hp_name h) = Ok h'.
Hypothesis Hh : linear_hp h' lo up.
Hypothesis Hlt : val lo < val up.

Lemma unscale_line x : unit_coord x -> exists u, unscale_float x cs h = Ok u /\ fin u /\
  val u = Rmin (val up) (Rmax (val lo) (line (val lo) (val up) (val x))).
Proof. intros Hx. apply (unscale_b64 fe fl fr cs h h' lo up x Hg Hh); [apply Hx|apply unit_small; exact Hx]. Qed.

Theorem unscale_accuracy : 
  (forall x, unit_coord x -> exists u, unscale_float x cs h = Ok u /\ fin u /\ val lo <= val u <= val up /\
     Rabs (val u - (val lo + val x * (val up - val lo))) <= value_slack (val lo) (val up)) /\
  (exists u, unscale_float n0 cs h = Ok u /\ val u = val lo) /\
  (forall x y u w, unit_coord x -> unit_coord y -> unscale_float x cs h = Ok u -> unscale_float y cs h = Ok w ->
     (val x <= val y -> val u <= val w) /\
     (2 * value_slack (val lo) (val up) < (val y - val x) * (val up - val lo) -> val u < val w)).
Proof.
  split; [|split].
  - intros x Hx. destruct (unscale_line x Hx) as (u & E & Fu & V). exists u. split; [exact E|]. split; [exact Fu|]. rewrite V. split.
    + split; [apply Rmin_glb; [lra|apply Rmax_l]|apply Rmin_l].
    + eapply Rle_trans; [apply clamped_near|apply line_near; [apply fmt_val|apply fmt_val|exact Hlt|apply Hx]].
      all: pose proof (proj2 Hx) as Hx2; cbv beta in Hx2; try exact Hlt; split; nra.
  - destruct (ofZ_exact fe fl fr 0 ltac:(lia)) as [F0 V0]. destruct (unscale_line n0) as (u & E & Fu & V).
    + split; [exact F0|]. change (val n0) with (val (nofZ 0)). rewrite V0. lra.
    + exists u. split; [exact E|]. rewrite V. change (val n0) with (val (nofZ 0)). rewrite V0, line_zero by apply fmt_val.
      rewrite Rmax_left by lra. rewrite Rmin_right by lra. reflexivity.
  - intros x y u w Hx Hy Eu Ew. destruct (unscale_line x Hx) as (u' & E & _ & V). destruct (unscale_line y Hy) as (w' & E' & _ & V').
    rewrite E in Eu. rewrite E' in Ew. inversion Eu; inversion Ew; subst. rewrite V, V'. split.
    + intro Hxy. apply Rle_min_compat_l. apply Rle_max_compat_l. apply line_mono; [apply fmt_val|apply fmt_val|exact Hlt|exact Hxy].
    + intro Hd. apply line_apart; [apply fmt_val|apply fmt_val|exact Hlt|apply Hx|apply Hy|exact Hd].
Qed.

(** the value of a configuration and the array version *)
Lemma transform_line x : unit_coord x -> fin (float_transform lo up false x) /\
  val (float_transform lo up false x) = Rmin (val up) (Rmax (val lo) (line (val lo) (val up) (val x))).
Proof.
  intro Hx. destruct Hh as (_ & _ & _ & Bl & Bu). destruct (bounded_raw fe fl fr lo up x Bl Bu (proj1 Hx) (unit_small x Hx)) as [Fr Vr].
  unfold float_transform. destruct (b64_min fe fl fr up _ (proj1 Bu) Fr) as [Fm Vm]. destruct (b64_max fe fl fr lo _ (proj1 Bl) Fm) as [Fi Vi].
  split; [exact Fi|]. rewrite Vi, Vm, Vr. apply clamp_both. exact Hlt.
Qed.
Theorem same_value x u : unit_coord x -> unscale_float x cs h = Ok u -> val (float_transform lo up false x) = val u.
Proof. intros Hx Eu. destruct (unscale_line x Hx) as (u' & E & _ & V). rewrite E in Eu. inversion Eu; subst. rewrite V. apply transform_line, Hx. Qed.
Theorem array_value x : unit_coord x -> fin (unscaler lo up false x) /\ val lo <= val (unscaler lo up false x) /\
  Rabs (val (unscaler lo up false x) - (val lo + val x * (val up - val lo))) <= value_slack (val lo) (val up).
Proof.
  intro Hx. destruct Hh as (_ & _ & _ & Bl & Bu). destruct (bounded_raw fe fl fr lo up x Bl Bu (proj1 Hx) (unit_small x Hx)) as [Fr Vr].
  unfold unscaler. split; [exact Fr|]. rewrite Vr. change (RN (RN (val x * RN (val up - val lo)) + val lo)) with (line (val lo) (val up) (val x)). split.
  - apply (Rle_trans _ (line (val lo) (val up) 0)).
    + rewrite line_zero by apply fmt_val. lra.
    + apply line_mono; [apply fmt_val|apply fmt_val|exact Hlt|apply Hx].
  - apply line_near; [apply fmt_val|apply fmt_val|exact Hlt|apply Hx].
Qed.

(** ** scaling *)
Lemma scale_line v : fin v -> val lo <= val v <= val up -> exists x, scale_float v cs h = Ok x /\ fin x /\ val x = back (val lo) (val up) (val v).
Proof.
  intros Fv Hv. destruct (Hh) as (E1 & E2 & E3 & [Fl Bl] & [Fu Bu]).
  assert (Bv : Rabs (val v) <= bpow radix2 900).
  { eapply Rle_trans; [apply (size_between (val lo) (val up)); exact Hv|]. unfold bound_size. apply Rmax_lub; assumption. }
  assert (D : forall a b, Rabs a <= bpow radix2 900 -> Rabs b <= bpow radix2 900 -> Rabs (a - b) <= bpow radix2 901).
  { intros a b Ha Hb. change 901%Z with (900 + 1)%Z. rewrite <- bpow_add_half. unfold Rminus. eapply Rle_trans; [apply Rabs_triang|]. rewrite Rabs_Ropp. lra. }
  destruct (sub_ok fe fl fr v lo 901) as [Fn Vn]; auto; [lia|].
  destruct (sub_ok fe fl fr up lo 901) as [Fd Vd]; auto; [lia|].
  pose proof (range_pos (val lo) (val up) (fmt_val fe fl fr lo) (fmt_val fe fl fr up) Hlt) as [_ P].
  pose proof (quotient_range (val lo) (val up) (fmt_val fe fl fr lo) (fmt_val fe fl fr up) Hlt (val v) Hv) as Q.
  destruct (div_ok fe fl fr (nsub v lo) (nsub up lo) 0) as [Fq Vq]; auto; [lia|rewrite Vd; lra|rewrite Vn, Vd, Rabs_pos_eq; [change (bpow radix2 0) with 1|]; lra|].
  rewrite Vn, Vd in Vq. change (RN (RN (val v - val lo) / RN (val up - val lo))) with (back (val lo) (val up) (val v)) in Vq.
  destruct (ofZ_exact fe fl fr 0 ltac:(lia)) as [F0 V0]. destruct (ofZ_exact fe fl fr 1 ltac:(lia)) as [F1 V1].
  destruct (b64_min fe fl fr n1 _ F1 Fq) as [Fm Vm]. destruct (b64_max fe fl fr n0 _ F0 Fm) as [Fx Vx].
  unfold scale_float. rewrite Hg. cbn [bind]. rewrite E1, E2, E3. cbn [bind]. eexists. split; [reflexivity|]. split; [exact Fx|].
  rewrite Vx, Vm, Vq. change (val n0) with (val (nofZ 0)). change (val n1) with (val (nofZ 1)). rewrite V0, V1.
  pose proof (back_range (val lo) (val up) (fmt_val fe fl fr lo) (fmt_val fe fl fr up) Hlt (val v) Hv).
  rewrite (Rmin_right 1) by lra. rewrite Rmax_right by lra. reflexivity.
Qed.

Hypothesis Hwide : bpow radix2 (-1000) <= val up - val lo.

Theorem scale_accuracy :
  (forall v, fin v -> val lo <= val v <= val up -> exists x, scale_float v cs h = Ok x /\ unit_coord x /\
     Rabs (val x - (val v - val lo) / (val up - val lo)) <= 4 * bpow radix2 (-53)) /\
  (exists x, scale_float lo cs h = Ok x /\ val x = 0) /\ (exists x, scale_float up cs h = Ok x /\ val x = 1) /\
  (forall v w x y, fin v -> fin w -> val lo <= val v -> val v <= val w -> val w <= val up ->
     scale_float v cs h = Ok x -> scale_float w cs h = Ok y -> val x <= val y).
Proof.
  destruct (Hh) as (_ & _ & _ & [Fl _] & [Fu _]). refine (conj _ (conj _ (conj _ _))).
  - intros v Fv Hv. destruct (scale_line v Fv Hv) as (x & E & Fx & V). exists x. split; [exact E|]. split.
    + split; [exact Fx|]. rewrite V. apply back_range; [apply fmt_val|apply fmt_val|exact Hlt|exact Hv].
    + rewrite V. apply back_near; [apply fmt_val|apply fmt_val|exact Hlt|exact Hwide|apply fmt_val|exact Hv].
  - destruct (scale_line lo Fl ltac:(lra)) as (x & E & _ & V). exists x. split; [exact E|]. rewrite V. apply back_lo.
  - destruct (scale_line up Fu ltac:(lra)) as (x & E & _ & V). exists x. split; [exact E|]. rewrite V. apply back_up; [apply fmt_val|apply fmt_val|exact Hlt].
  - intros v w x y Fv Fw H1 H2 H3 Ex Ey. destruct (scale_line v Fv ltac:(lra)) as (x' & E & _ & V). destruct (scale_line w Fw ltac:(lra)) as (y' & E' & _ & V').
    rewrite E in Ex. rewrite E' in Ey. inversion Ex; inversion Ey; subst. rewrite V, V'. apply back_mono; [apply fmt_val|apply fmt_val|exact Hlt|exact H2].
Qed.

Theorem there_and_back :
  (forall x, unit_coord x -> exists u y, unscale_float x cs h = Ok u /\ scale_float u cs h = Ok y /\
     Rabs (val y - val x) <= bpow radix2 (-53) * (bound_size (val lo) (val up) / (val up - val lo) + 8)) /\
  (forall v, fin v -> val lo <= val v <= val up -> exists x w, scale_float v cs h = Ok x /\ unscale_float x cs h = Ok w /\
     Rabs (val w - val v) <= bpow radix2 (-53) * (bound_size (val lo) (val up) + 8 * (val up - val lo))).
Proof.
  split.
  - intros x Hx. destruct (unscale_line x Hx) as (u & E & Fu & V).
    destruct (proj1 unscale_accuracy x Hx) as (u' & E' & _ & Hu & _). rewrite E in E'. inversion E'; subst u'.
    destruct (scale_line u Fu Hu) as (y & Ey & _ & Vy). exists u, y. split; [exact E|]. split; [exact Ey|].
    rewrite Vy, V. apply line_back; [apply fmt_val|apply fmt_val|exact Hlt|exact Hwide|apply Hx|rewrite <- V; apply fmt_val].
  - intros v Fv Hv. destruct (proj1 scale_accuracy v Fv Hv) as (x & E & Hx & _).
    destruct (scale_line v Fv Hv) as (x' & E' & _ & V). rewrite E in E'. inversion E'; subst x'.
    destruct (unscale_line x Hx) as (w & Ew & _ & Vw). exists x, w. split; [exact E|]. split; [exact Ew|].
    rewrite Vw, V. apply back_line; [apply fmt_val|apply fmt_val|exact Hlt|exact Hwide|apply fmt_val|exact Hv].
Qed.
End Axis.

(** ** the leaf of a sample *)
Lemma linear_axis_hp h lo up : linear_axis fe fl fr h lo up -> linear_hp h lo up /\ val lo < val up.
Proof.
  intros (K & Bl & Bu & W). split.
  - unfold linear_hp, hp_lower, hp_upper, hp_log. rewrite K. auto.
  - pose proof (bpow_gt_0 radix2 (-1000)). lra.
Qed.
Lemma config_get_float (cs : cspace BN) (row : list BN) : linear_space fe fl fr cs -> NoDup (map hp_name cs) -> length row = length cs -> Forall unit_coord row ->
  exists cfg, config_of_vector cs row = Ok cfg /\
  (forall j h lo up, nth_error cs j = Some h -> hp_kind h = KFloat (N:=BN) lo up false ->
     config_get cfg (hp_name h) = Some (VNum (float_transform (N:=BN) lo up false (nth j row n0)))).
Proof.
  intros F ND. revert row. induction cs as [|h0 cs IH]; intros row Hl HU.
  - destruct row; [|discriminate]. exists []. split; [reflexivity|]. intros [|?]; discriminate.
  - destruct row as [|x row]; [discriminate|]. inversion F as [|? ? (lo0 & up0 & K0 & G0) F']; subst.
    inversion ND as [|? ? Hnin ND']; subst. inversion HU as [|? ? Ux HU']; subst. apply eq_add_S in Hl.
    destruct (IH F' ND' row Hl HU') as (cfg & E & Hget).
    exists ((hp_name h0, VNum (float_transform (N:=BN) lo0 up0 false x)) :: cfg). cbn [config_of_vector].
    unfold hp_transform. rewrite (fin_ordinary fe fl fr x (proj1 Ux)). cbn [negb]. rewrite K0. cbn [bind]. rewrite E. cbn [bind]. split; [reflexivity|].
    intros j' h' lo up Hn K. destruct j' as [|j'].
    + cbn in Hn. inversion Hn; subst h'. rewrite K0 in K. inversion K; subst. cbn [config_get]. rewrite String.eqb_refl. reflexivity.
    + cbn in Hn. cbn [config_get]. destruct (String.eqb_spec (hp_name h0) (hp_name h')) as [E'|E'].
      * exfalso. apply Hnin. rewrite E'. apply in_map. eapply nth_error_In; exact Hn.
      * rewrite (Hget j' h' lo up Hn K). reflexivity.
Qed.
Lemma linear_numerical cs : linear_space fe fl fr cs -> all_numerical cs.
Proof. intro F. eapply Forall_impl; [|exact F]. intros h (lo & up & K & _). unfold is_numerical. rewrite K. reflexivity. Qed.
Lemma split_unit n v : (Z.of_nat n + 2 <= 2 ^ 50)%Z -> In v (possible_split_vals (N:=BN) n) -> unit_coord v.
Proof.
  intros Hn Hin. destruct (In_nth_error _ _ Hin) as (k & Hk). destruct (split_vals_float fe fl fr n Hn) as (_ & H & _).
  destruct (H k v Hk) as (F & B & _). split; [exact F|lra].
Qed.

(** all of the ways in which the configuration of a sample meets the conditions of a node *)
Theorem sample_and_leaf (s : setup BN) p : setup_ok s -> linear_space fe fl fr (su_cs s) -> (Z.of_nat (su_splits s) + 2 <= 2 ^ 50)%Z ->
  Forall (Forall unit_coord) (su_samples s) -> reaches s p ->
  exists root, deref p 0 = Some root /\
  forall id nd, deref p id = Some nd ->
  exists idxs, StronglySorted lt idxs /\ is_rows (n_region root) idxs (n_region nd) /\
  forall i row, nth_error (su_samples s) i = Some row ->
  exists cfg b, config_of_vector (su_cs s) row = Ok cfg /\ contains (su_cs s) (n_conds nd) cfg = Ok b /\
    (clear_of_splits s row -> (b = true <-> In i idxs)) /\
    (Forall (fun c => c_le c = true) (n_conds nd) -> In i idxs -> b = true) /\
    (Forall (fun c => c_le c = false) (n_conds nd) -> b = true -> In i idxs).
Proof.
  intros SO F Hn HU R. destruct (reaches_facts (B64_order_laws fe fl fr) s p SO R) as (root & dd & sel & ns & RF).
  exists root. split; [apply RF|]. intros id nd Hd.
  pose proof (deref_derived s p root dd sel ns id nd RF Hd) as D.
  destruct (derived_is_leaf_of_conditions s p root dd sel ns nd SO RF D) as (_ & idxs & S1 & S2 & S3).
  exists idxs. split; [exact S1|]. split; [exact S2|]. intros i row Hrow.
  destruct SO as (ND & Hrect & _).
  assert (Hlen : length row = length (su_cs s)).
  { rewrite Forall_forall in Hrect. apply Hrect. eapply nth_error_In; exact Hrow. }
  assert (Ur : Forall unit_coord row) by (rewrite Forall_forall in HU; apply HU; eapply nth_error_In; exact Hrow).
  destruct (config_get_float (su_cs s) row F ND Hlen Ur) as (cfg & Ec & Hget).
  assert (Unth : forall j h, nth_error (su_cs s) j = Some h -> nth_error row j = Some (nth j row n0) /\ unit_coord (nth j row n0)).
  { intros j h Hj. assert (Hjl : (j < length row)%nat) by (rewrite Hlen; eapply nth_error_Some_lt; exact Hj).
    split; [apply nth_error_nth'; exact Hjl|]. rewrite Forall_forall in Ur. apply Ur. apply nth_In. exact Hjl. }
  assert (TC : total_config (su_cs s) cfg).
  { intros h Hin. pose proof (proj1 (Forall_forall _ _) F h Hin) as (lo & up & A). destruct (linear_axis_hp h lo up A) as [LH LT]. destruct A as (K & _).
    destruct (In_nth_error _ _ Hin) as (j & Hj). rewrite (Hget j h lo up Hj K). eexists. split; [reflexivity|].
    apply (fin_ordinary fe fl fr). apply (transform_line h lo up LH LT). apply (Unth j h Hj). }
  pose proof (leaf_conds_in_cs s p root dd sel ns nd RF D) as HC.
  destruct (contains_total (su_cs s) cfg (n_conds nd) (linear_numerical _ F) TC) as (E & Iff).
  { eapply Forall_impl; [|exact HC]. cbn. tauto. }
  exists cfg, (forallb (sat_b (su_cs s) cfg) (n_conds nd)). split; [exact Ec|]. split; [exact E|].
  rewrite Iff, S3. rewrite (rf_cs _ _ _ _ _ _ RF).
  assert (Hi : (i < length (i_x dd))%nat) by (rewrite (rf_len _ _ _ _ _ _ RF); eapply nth_error_Some_lt; exact Hrow).
  destruct (nth_error (i_x dd) i) as [curve|] eqn:Hcur; [|apply nth_error_None in Hcur; lia].
  assert (Hrx : r_x (n_region root) = i_x dd) by (rewrite (rf_root _ _ _ _ _ _ RF); reflexivity).
  rewrite Hrx.
  (* one condition *)
  assert (Each : forall c, In c (n_conds nd) ->
     (clear_of_splits s row -> (config_satisfies (su_cs s) c cfg <-> curve_satisfies (su_cs s) c curve)) /\
     (c_le c = true -> curve_satisfies (su_cs s) c curve -> config_satisfies (su_cs s) c cfg) /\
     (c_le c = false -> config_satisfies (su_cs s) c cfg -> curve_satisfies (su_cs s) c curve)).
  { intros c Hc. rewrite Forall_forall in HC. destruct (HC c Hc) as (Hin & Hns & Hnn & Hval).
    pose proof (split_unit _ _ Hn Hval) as Uv.
    pose proof (proj1 (Forall_forall _ _) F _ Hin) as (lo & up & A). destruct (linear_axis_hp (c_hp c) lo up A) as [LH LT]. destruct A as (K & _ & _ & W).
    destruct (In_nth_error _ _ Hin) as (j & Hj).
    assert (Hposs : In (c_hp c) (d_possible p)).
    { rewrite (rf_poss _ _ _ _ _ _ RF). apply split_parameters_spec. auto. }
    pose proof (cs_idx_nodup (su_cs s) j (c_hp c) ND Hj) as Hidx.
    assert (Wr : wf_region (length (d_cs p)) (n_region root)) by (apply (inv_wf _ _ (rf_inv _ _ _ _ _ _ RF))).
    assert (Hin_cur : In curve (r_x (n_region root))) by (rewrite Hrx; eapply nth_error_In; exact Hcur).
    destruct (wf_curve _ _ _ Wr Hin_cur) as (grow & Hg0 & Hgl).
    pose proof (rf_coord _ _ _ _ _ _ RF (c_hp c) j curve row Hposs Hidx i Hcur Hrow 0%nat grow Hg0) as Hco.
    assert (Hjlt : (j < length grow)%nat).
    { rewrite Hgl, (rf_cs _ _ _ _ _ _ RF). eapply nth_error_Some_lt; exact Hj. }
    assert (Hgj : nth_error grow j = Some (nth j row n0)) by (rewrite <- Hco; apply nth_error_nth'; exact Hjlt).
    destruct (Unth j _ Hj) as [Hxj Ux]. set (x := nth j row n0 : BN) in *.
    assert (Hg : cs_get (su_cs s) (hp_name (c_hp c)) = Ok (c_hp c)) by (apply cs_get_nodup; assumption).
    destruct (unscale_line (su_cs s) (c_hp c) (c_hp c) lo up Hg LH (c_val c) Uv) as (u & Eu & Fu & Vu).
    destruct (transform_line (c_hp c) lo up LH LT x Ux) as [Fw Vw]. set (w := float_transform lo up false x : BN) in *.
    pose proof (Hget j (c_hp c) lo up Hj K) as Hcg. fold x in Hcg. fold w in Hcg.
    assert (Up : val x <= val (c_val c) -> val w <= val u).
    { intro H. rewrite Vw, Vu. apply Rle_min_compat_l. apply Rle_max_compat_l. apply line_mono; [apply fmt_val|apply fmt_val|exact LT|exact H]. }
    assert (Apart : val (c_val c) + coord_gap (val lo) (val up) <= val x -> val u < val w).
    { intro H. rewrite Vw, Vu. apply line_apart; [apply fmt_val|apply fmt_val|exact LT|apply Uv|apply Ux|].
      apply gap_enough; [exact LT|exact W|]. lra. }
    assert (CF : config_satisfies (su_cs s) c cfg <-> (if c_le c then val w <= val u else val u < val w)).
    { split.
      - intros (x' & u' & Hx & Hu & Hcmp). rewrite Hcg in Hx. rewrite Eu in Hu. inversion Hx; subst x'. inversion Hu; subst u'.
        destruct (c_le c); [apply (b64_le fe fl fr) in Hcmp|apply (b64_lt fe fl fr) in Hcmp]; assumption.
      - intro H. eexists _, _. split; [exact Hcg|]. split; [exact Eu|]. destruct (c_le c); [apply (b64_le fe fl fr)|apply (b64_lt fe fl fr)]; assumption. }
    assert (CV : curve_satisfies (su_cs s) c curve <-> (if c_le c then val x <= val (c_val c) else val (c_val c) < val x)).
    { split.
      - intros (j' & h' & row' & x' & Hj' & Hn' & Hr' & Hx & Hcmp).
        assert (j' = j).
        { pose proof (cs_idx_nodup (su_cs s) j' h' ND Hj') as A. rewrite Hn' in A. congruence. }
        subst j'. rewrite Hg0 in Hr'. inversion Hr'; subst row'. rewrite Hgj in Hx. inversion Hx; subst x'.
        destruct (c_le c); [apply (b64_le fe fl fr) in Hcmp|apply (b64_lt fe fl fr) in Hcmp]; try assumption; try (apply Ux); apply Uv.
      - intro H. exists j, (c_hp c), grow, x. repeat split; auto.
        destruct (c_le c); [apply (b64_le fe fl fr)|apply (b64_lt fe fl fr)]; try assumption; try (apply Ux); apply Uv. }
    rewrite CF, CV. refine (conj _ (conj _ _)).
    - intro CL. destruct (CL j (c_hp c) lo up x (c_val c) Hj K Hxj Hval) as [H|H].
      + destruct (c_le c); [tauto|]. specialize (Up H). lra.
      + specialize (Apart H). assert (0 < coord_gap (val lo) (val up)).
        { unfold coord_gap. apply Rmult_lt_0_compat; [apply bpow_gt_0|]. assert (0 <= bound_size (val lo) (val up) / (val up - val lo)); [|lra].
          apply Rmult_le_pos; [apply size_pos|left; apply Rinv_0_lt_compat; lra]. }
        destruct (c_le c); lra.
    - intros -> H. auto.
    - intros -> H. destruct (Rlt_le_dec (val (c_val c)) (val x)) as [|X]; [assumption|]. specialize (Up X). lra. }
  assert (Cur : (exists curve0, Some curve = Some curve0 /\ Forall (fun c => curve_satisfies (su_cs s) c curve0) (n_conds nd)) <->
                Forall (fun c => curve_satisfies (su_cs s) c curve) (n_conds nd)).
  { split; [intros (c0 & Ecc & H); inversion Ecc; subst; exact H|eauto]. }
  rewrite Hcur, Cur. rewrite !Forall_forall. refine (conj _ (conj _ _)).
  - intro CL. split; intros H c Hc; apply (proj1 (Each c Hc) CL); auto.
  - intros HL H c Hc. apply (proj1 (proj2 (Each c Hc)) (HL c Hc)); auto.
  - intros HL H c Hc. apply (proj2 (proj2 (Each c Hc)) (HL c Hc)); auto.
Qed.
End Float.
