(** B64Proofs.v - binary64: split values, unscaling (C29), and the hypotheses of the
    structural theorems. *)
From Coq Require Import Reals Lra.
From Flocq Require Import Core.Core IEEE754.BinarySingleNaN.
From Verif Require Import Base Num NumLaws NumpyModel ConfigSpaceModel UtilsModel IceModel PartitionModel PartitionSpec
  ListLemmas IceProofs.
Local Open Scope R_scope.

Notation fmt := (generic_format radix2 (SpecFloat.fexp 53 1024)).
Definition RN (x : R) : R := round radix2 (SpecFloat.fexp 53 1024) (round_mode mode_NE) x.
#[local] Instance prec53' : Prec_gt_0 53 := prec53.
#[local] Instance emax1024' : Prec_lt_emax 53 1024 := emax1024.
#[local] Instance vexp : Valid_exp (SpecFloat.fexp 53 1024) := fexp_correct 53 1024 prec53.

Lemma RN_mono x y : x <= y -> RN x <= RN y.
Proof. apply round_le; exact _. Qed.
Lemma RN_generic x : fmt x -> RN x = x.
Proof. apply round_generic; exact _. Qed.
Lemma fmt_bpow e : (-1074 <= e)%Z -> fmt (bpow radix2 e).
Proof. intro H. apply generic_format_bpow. unfold SpecFloat.fexp, SpecFloat.emin. lia. Qed.
Lemma RN_abs_le x e : (-1074 <= e)%Z -> Rabs x <= bpow radix2 e -> Rabs (RN x) <= bpow radix2 e.
Proof. intros He H. apply abs_round_le_generic; [exact _|exact _|apply fmt_bpow; exact He|exact H]. Qed.

Lemma small_lt e x : (-1074 <= e < 1024)%Z -> Rabs x <= bpow radix2 e -> Rlt_bool (Rabs (RN x)) (bpow radix2 1024) = true.
Proof.
  intros He H. apply Rlt_bool_true. eapply Rle_lt_trans; [apply (RN_abs_le x e); [lia|exact H]|]. apply bpow_lt. lia.
Qed.

Section Ops.
Variables (fe fl fr : b64 -> b64).
Notation BN := (B64 fe fl fr).

Definition fin (x : BN) : Prop := is_finite (x : b64) = true.
Definition val (x : BN) : R := B2R (x : b64).

Lemma add_ok (x y : BN) e : (-1074 <= e < 1024)%Z -> fin x -> fin y -> Rabs (val x + val y) <= bpow radix2 e ->
  fin (nadd x y) /\ val (nadd x y) = RN (val x + val y).
Proof.
  intros He Hx Hy H. pose proof (Bplus_correct 53 1024 prec53 emax1024 mode_NE x y Hx Hy) as K.
  change (round _ _ _ (B2R x + B2R y)) with (RN (val x + val y)) in K. rewrite (small_lt e _ He H) in K. split; apply K.
Qed.
Lemma sub_ok (x y : BN) e : (-1074 <= e < 1024)%Z -> fin x -> fin y -> Rabs (val x - val y) <= bpow radix2 e ->
  fin (nsub x y) /\ val (nsub x y) = RN (val x - val y).
Proof.
  intros He Hx Hy H. pose proof (Bminus_correct 53 1024 prec53 emax1024 mode_NE x y Hx Hy) as K.
  change (round _ _ _ (B2R x - B2R y)) with (RN (val x - val y)) in K. rewrite (small_lt e _ He H) in K. split; apply K.
Qed.
Lemma mul_ok (x y : BN) e : (-1074 <= e < 1024)%Z -> fin x -> fin y -> Rabs (val x * val y) <= bpow radix2 e ->
  fin (nmul x y) /\ val (nmul x y) = RN (val x * val y).
Proof.
  intros He Hx Hy H. pose proof (Bmult_correct 53 1024 prec53 emax1024 mode_NE x y) as K.
  change (round _ _ _ (B2R x * B2R y)) with (RN (val x * val y)) in K. rewrite (small_lt e _ He H) in K.
  destruct K as (K1 & K2 & _). split; [|exact K1]. unfold fin in *. cbn. rewrite K2, Hx, Hy. reflexivity.
Qed.
Lemma div_ok (x y : BN) e : (-1074 <= e < 1024)%Z -> fin x -> val y <> 0 -> Rabs (val x / val y) <= bpow radix2 e ->
  fin (ndiv x y) /\ val (ndiv x y) = RN (val x / val y).
Proof.
  intros He Hx Hy H. pose proof (Bdiv_correct 53 1024 prec53 emax1024 mode_NE x y Hy) as K.
  change (round _ _ _ (B2R x / B2R y)) with (RN (val x / val y)) in K. rewrite (small_lt e _ He H) in K.
  destruct K as (K1 & K2 & _). split; [|exact K1]. unfold fin in *. cbn. rewrite K2. exact Hx.
Qed.
Lemma ofZ_ok z e : (-1074 <= e < 1024)%Z -> Rabs (IZR z) <= bpow radix2 e ->
  fin (nofZ z : BN) /\ val (nofZ z : BN) = RN (IZR z).
Proof.
  intros He H. pose proof (binary_normalize_correct 53 1024 prec53 emax1024 mode_NE z 0 false) as K. cbv zeta in K.
  assert (E : F2R (Float radix2 z 0) = IZR z) by (unfold F2R; cbn; ring).
  rewrite E in K. change (round _ _ _ (IZR z)) with (RN (IZR z)) in K. rewrite (small_lt e _ He H) in K. split; apply K.
Qed.
Lemma fmt_IZR z : (Z.abs z <= 2 ^ 53)%Z -> fmt (IZR z).
Proof.
  intro H. replace (IZR z) with (F2R (Float radix2 z 0)) by (unfold F2R; cbn; ring).
  destruct (Z.eq_dec z 0) as [->|Hz].
  { unfold F2R. cbn. rewrite Rmult_0_l. apply generic_format_0. }
  destruct (Z.eq_dec (Z.abs z) (2 ^ 53)) as [He|He].
  - assert (Hb : fmt (bpow radix2 53)) by (apply fmt_bpow; lia).
    assert (E : bpow radix2 53 = IZR (2 ^ 53)) by reflexivity.
    destruct (Z.abs_spec z) as [[_ A]|[_ A]].
    + replace (F2R (Float radix2 z 0)) with (bpow radix2 53); [exact Hb|].
      rewrite E. rewrite A in He. rewrite <- He. unfold F2R. cbn [Fnum Fexp bpow]. ring.
    + replace (F2R (Float radix2 z 0)) with (- bpow radix2 53); [apply generic_format_opp; exact Hb|].
      rewrite E, <- opp_IZR. rewrite A in He. replace (- 2 ^ 53)%Z with z by lia. unfold F2R. cbn [Fnum Fexp bpow]. ring.
  - apply generic_format_F2R. intros _. unfold cexp, SpecFloat.fexp, SpecFloat.emin.
    replace (F2R (Float radix2 z 0)) with (IZR z) by (unfold F2R; cbn; ring).
    assert (mag radix2 (IZR z) <= 53)%Z.
    { apply mag_le_bpow; [apply IZR_neq; exact Hz|]. rewrite <- abs_IZR. change (bpow radix2 53) with (IZR (2 ^ 53)). apply IZR_lt. lia. }
    lia.
Qed.
Lemma IZR_small z k : (Z.abs z <= 2 ^ k)%Z -> (0 <= k)%Z -> Rabs (IZR z) <= bpow radix2 k.
Proof.
  intros H Hk. rewrite <- abs_IZR. replace (bpow radix2 k) with (IZR (2 ^ k)); [apply IZR_le; exact H|].
  rewrite <- (IZR_Zpower radix2 k Hk). reflexivity.
Qed.
Lemma ofZ_exact z : (Z.abs z <= 2 ^ 53)%Z -> fin (nofZ z : BN) /\ val (nofZ z : BN) = IZR z.
Proof.
  intro H. destruct (ofZ_ok z 53 ltac:(lia) (IZR_small z 53 H ltac:(lia))) as [F E].
  split; [exact F|]. rewrite E. apply RN_generic, fmt_IZR, H.
Qed.

Lemma fin_ordinary (x : BN) : fin x -> ordinary x.
Proof. unfold fin, ordinary. intro H. cbn. rewrite Beqb_refl. destruct (x : b64); try discriminate; reflexivity. Qed.

(** ** the split values of the grid are finite numbers *)
Lemma split_vals_b64 n : (Z.of_nat n < 2 ^ 52)%Z ->
  Forall (fun v : BN => fin v /\ 0 <= val v /\ Rabs (val v) <= bpow radix2 54) (possible_split_vals (N:=BN) n).
Proof.
  intro Hn. unfold possible_split_vals. replace (n + 2)%nat with (S (S n)) by lia. cbn [linspace].
  rewrite <- cons_seq. cbn [map app tl]. rewrite removelast_last. apply Forall_map, Forall_forall. intros i Hi. apply in_seq in Hi.
  destruct (ofZ_exact 0) as [F0 V0]; [lia|]. destruct (ofZ_exact 1) as [F1 V1]; [lia|].
  destruct (ofZ_exact (Z.of_nat (S n))) as [Fd Vd]; [lia|]. destruct (ofZ_exact (Z.of_nat i)) as [Fi Vi]; [lia|].
  fold (n0 : BN) in *. fold (n1 : BN) in *.
  assert (Hd1 : 1 <= IZR (Z.of_nat (S n))) by (apply IZR_le; lia).
  assert (Hi1 : 0 <= IZR (Z.of_nat i)) by (apply IZR_le; lia).
  destruct (sub_ok n1 n0 0) as [Fs Vs]; auto; [lia|rewrite V0, V1; cbn; rewrite Rabs_pos_eq; lra|].
  rewrite V0, V1, Rminus_0_r in Vs. rewrite (RN_generic 1) in Vs by (apply (fmt_IZR 1); lia).
  assert (Hq : 0 <= 1 / IZR (Z.of_nat (S n)) <= 1).
  { split; [apply Rlt_le, Rdiv_lt_0_compat; lra|]. apply (Rmult_le_reg_r (IZR (Z.of_nat (S n)))); [lra|].
    unfold Rdiv. rewrite Rmult_assoc, Rinv_l; lra. }
  destruct (div_ok (nsub n1 n0) (nofZ (Z.of_nat (S n))) 0) as [Fq Vq]; auto; [lia|rewrite Vd; lra|rewrite Vs, Vd, Rabs_pos_eq; [change (bpow radix2 0) with 1|]; lra|].
  rewrite Vs, Vd in Vq.
  set (step := ndiv (nsub n1 n0) (nofZ (Z.of_nat (S n))) : BN) in *.
  assert (Hs : 0 <= val step <= 1).
  { rewrite Vq. split.
    - replace 0 with (RN 0); [apply RN_mono; lra|]. apply RN_generic. apply generic_format_0.
    - replace 1 with (RN 1) at 2; [apply RN_mono; lra|]. apply RN_generic. apply (fmt_IZR 1). lia. }
  assert (Hi53 : Rabs (IZR (Z.of_nat i)) <= bpow radix2 53) by (apply IZR_small; lia).
  rewrite Rabs_pos_eq in Hi53 by exact Hi1.
  assert (Hp : 0 <= val (nofZ (Z.of_nat i) : BN) * val step <= bpow radix2 53).
  { rewrite Vi. split; [nra|]. pose proof (bpow_gt_0 radix2 53). nra. }
  destruct (mul_ok (nofZ (Z.of_nat i)) step 53) as [Fm Vm]; auto; [lia|rewrite Rabs_pos_eq; lra|].
  assert (Hm : 0 <= val (nmul (nofZ (Z.of_nat i)) step : BN) <= bpow radix2 53).
  { rewrite Vm. split.
    - replace 0 with (RN 0); [apply RN_mono; lra|]. apply RN_generic. apply generic_format_0.
    - replace (bpow radix2 53) with (RN (bpow radix2 53)); [apply RN_mono; lra|]. apply RN_generic. apply fmt_bpow. lia. }
  assert (H54 : bpow radix2 53 <= bpow radix2 54) by (apply bpow_le; lia).
  destruct (add_ok (nmul (nofZ (Z.of_nat i)) step) n0 54) as [Fa Va]; auto; [lia|rewrite V0, Rplus_0_r, Rabs_pos_eq; lra|].
  split; [exact Fa|]. rewrite Va, V0, Rplus_0_r.
  split.
  - replace 0 with (RN 0); [apply RN_mono; lra|]. apply RN_generic. apply generic_format_0.
  - apply RN_abs_le; [lia|]. rewrite Rabs_pos_eq; lra.
Qed.

Lemma splits_ordinary_b64 (s : setup BN) : (Z.of_nat (su_splits s) < 2 ^ 52)%Z -> splits_ordinary s.
Proof.
  intro H. unfold splits_ordinary. eapply Forall_impl; [|apply (split_vals_b64 _ H)]. intros v (F & _). apply fin_ordinary, F.
Qed.

(** ** linear unscaling *)
Definition bounded (x : BN) : Prop := fin x /\ Rabs (val x) <= bpow radix2 900.

Lemma bounded_Z z : (Z.abs z <= 2 ^ 53)%Z -> bounded (nofZ z : BN) /\ Rabs (val (nofZ z : BN)) <= bpow radix2 53.
Proof.
  intro H. destruct (ofZ_exact z H) as [F V]. unfold bounded. rewrite V. pose proof (IZR_small z 53 H ltac:(lia)) as B.
  refine (conj (conj F _) B). eapply Rle_trans; [exact B|]. apply bpow_le. lia.
Qed.

Lemma bpow_add_half e : bpow radix2 e + bpow radix2 e = bpow radix2 (e + 1).
Proof. rewrite bpow_plus. cbn. ring. Qed.

Lemma bounded_raw (lo up x : BN) : bounded lo -> bounded up -> fin x -> Rabs (val x) <= bpow radix2 60 ->
  fin (nadd (nmul x (nsub up lo)) lo) /\
  val (nadd (nmul x (nsub up lo)) lo) = RN (RN (val x * RN (val up - val lo)) + val lo).
Proof.
  intros [Fl Bl] [Fu Bu] Fx Bx.
  assert (Bd : Rabs (val up - val lo) <= bpow radix2 901).
  { change 901%Z with (900 + 1)%Z. rewrite <- bpow_add_half. unfold Rminus. eapply Rle_trans; [apply Rabs_triang|]. rewrite Rabs_Ropp. lra. }
  destruct (sub_ok up lo 901) as [Fd Vd]; auto; [lia|].
  assert (Bd' : Rabs (val (nsub up lo)) <= bpow radix2 901) by (rewrite Vd; apply RN_abs_le; [lia|exact Bd]).
  assert (Bm : Rabs (val x * val (nsub up lo)) <= bpow radix2 961).
  { rewrite Rabs_mult. change 961%Z with (60 + 901)%Z. rewrite bpow_plus. apply Rmult_le_compat; auto using Rabs_pos. }
  destruct (mul_ok x (nsub up lo) 961) as [Fm Vm]; auto; [lia|].
  assert (Bm' : Rabs (val (nmul x (nsub up lo))) <= bpow radix2 961) by (rewrite Vm; apply RN_abs_le; [lia|exact Bm]).
  assert (Ba : Rabs (val (nmul x (nsub up lo)) + val lo) <= bpow radix2 962).
  { change 962%Z with (961 + 1)%Z. rewrite <- bpow_add_half. eapply Rle_trans; [apply Rabs_triang|].
    assert (bpow radix2 900 <= bpow radix2 961) by (apply bpow_le; lia). lra. }
  destruct (add_ok (nmul x (nsub up lo)) lo 962) as [Fa Va]; auto; [lia|].
  split; [exact Fa|]. rewrite Va, Vm, Vd. reflexivity.
Qed.

Lemma b64_le (x y : BN) : fin x -> fin y -> (nle x y = true <-> val x <= val y).
Proof.
  intros Hx Hy. cbn. rewrite (Bleb_correct 53 1024 x y Hx Hy). unfold val. destruct (Rle_bool_spec (B2R x) (B2R y)); split; intro; try lra; try reflexivity; discriminate.
Qed.
Lemma b64_lt (x y : BN) : fin x -> fin y -> (nlt x y = true <-> val x < val y).
Proof.
  intros Hx Hy. cbn. rewrite (Bltb_correct 53 1024 x y Hx Hy). unfold val. destruct (Rlt_bool_spec (B2R x) (B2R y)); split; intro; try lra; try reflexivity; discriminate.
Qed.

Lemma b64_max (x y : BN) : fin x -> fin y -> fin (np_maximum x y) /\ val (np_maximum x y) = Rmax (val x) (val y).
Proof.
  intros Hx Hy. unfold np_maximum. rewrite (fin_ordinary x Hx), (fin_ordinary y Hy). cbn [negb].
  destruct (nle x y) eqn:E.
  - apply b64_le in E; auto. split; [exact Hy|]. rewrite Rmax_right; auto.
  - split; [exact Hx|]. rewrite Rmax_left; [reflexivity|]. destruct (Rle_lt_dec (val y) (val x)) as [|C]; [assumption|].
    assert (nle x y = true) by (apply b64_le; auto; lra). congruence.
Qed.
Lemma b64_min (x y : BN) : fin x -> fin y -> fin (np_minimum x y) /\ val (np_minimum x y) = Rmin (val x) (val y).
Proof.
  intros Hx Hy. unfold np_minimum. rewrite (fin_ordinary x Hx), (fin_ordinary y Hy). cbn [negb].
  destruct (nle x y) eqn:E.
  - apply b64_le in E; auto. split; [exact Hx|]. rewrite Rmin_left; auto.
  - split; [exact Hy|]. rewrite Rmin_right; [reflexivity|]. destruct (Rle_lt_dec (val y) (val x)) as [|C]; [assumption|].
    assert (nle x y = true) by (apply b64_le; auto; lra). congruence.
Qed.

(** a hyperparameter with linear scale and moderate finite bounds *)
Definition linear_hp (h : hp BN) (lo up : BN) : Prop :=
  hp_lower h = Ok lo /\ hp_upper h = Ok up /\ hp_log h = Ok false /\ bounded lo /\ bounded up.

Lemma unscale_b64 cs h h' lo up x : cs_get cs (hp_name h) = Ok h' -> linear_hp h' lo up ->
  fin x -> Rabs (val x) <= bpow radix2 60 ->
  exists r, unscale_float x cs h = Ok r /\ fin r /\
    val r = Rmin (val up) (Rmax (val lo) (RN (RN (val x * RN (val up - val lo)) + val lo))).
Proof.
  intros Hg (E1 & E2 & E3 & Bl & Bu) Fx Bx. unfold unscale_float. rewrite Hg. cbn [bind]. rewrite E1, E2, E3. cbn [bind].
  eexists. split; [reflexivity|]. destruct (bounded_raw lo up x Bl Bu Fx Bx) as [Fr Vr].
  destruct (b64_max lo _ (proj1 Bl) Fr) as [Fm Vm]. destruct (b64_min up _ (proj1 Bu) Fm) as [Fi Vi].
  split; [exact Fi|]. rewrite Vi, Vm, Vr. reflexivity.
Qed.

Theorem unscale_b64_bounds_monotone cs h h' lo up :
  cs_get cs (hp_name h) = Ok h' -> linear_hp h' lo up -> nle lo up = true ->
  forall x y, fin x -> fin y -> Rabs (val x) <= bpow radix2 60 -> Rabs (val y) <= bpow radix2 60 ->
  exists u v, unscale_float x cs h = Ok u /\ unscale_float y cs h = Ok v /\
    nle lo u = true /\ nle u up = true /\ (nle x y = true -> nle u v = true).
Proof.
  intros Hg Hl Hle x y Fx Fy Bx By.
  destruct (unscale_b64 cs h h' lo up x Hg Hl Fx Bx) as (u & Eu & Fu & Vu).
  destruct (unscale_b64 cs h h' lo up y Hg Hl Fy By) as (v & Ev & Fv & Vv).
  destruct Hl as (_ & _ & _ & [Fl _] & [Fup _]). apply b64_le in Hle; auto.
  exists u, v. split; [exact Eu|]. split; [exact Ev|]. refine (conj _ (conj _ _)).
  - apply b64_le; auto. rewrite Vu. apply Rmin_glb; [exact Hle|apply Rmax_l].
  - apply b64_le; auto. rewrite Vu. apply Rmin_l.
  - intro Hxy. apply b64_le in Hxy; auto. apply b64_le; auto. rewrite Vu, Vv.
    assert (0 <= RN (val up - val lo)).
    { replace 0 with (RN 0); [apply RN_mono; lra|]. apply RN_generic. apply generic_format_0. }
    assert (M : RN (RN (val x * RN (val up - val lo)) + val lo) <= RN (RN (val y * RN (val up - val lo)) + val lo)).
    { apply RN_mono. apply Rplus_le_compat_r. apply RN_mono. nra. }
    apply Rle_min_compat_l. apply Rle_max_compat_l. exact M.
Qed.

Lemma unscaled_ordinary_b64 (s : setup BN) : (Z.of_nat (su_splits s) < 2 ^ 52)%Z ->
  NoDup (map hp_name (su_cs s)) ->
  (forall h, In h (su_cs s) -> exists lo up, linear_hp h lo up) -> unscaled_ordinary s.
Proof.
  intros Hn ND HL h v u Hin Hv Hu. destruct (HL h Hin) as (lo & up & Hh).
  pose proof (proj1 (Forall_forall _ _) (split_vals_b64 _ Hn) v Hv) as (Fv & _ & Bv).
  destruct (unscale_b64 (su_cs s) h h lo up v) as (r & Er & Fr & _); auto.
  - apply cs_get_nodup; assumption.
  - eapply Rle_trans; [exact Bv|]. apply bpow_le. lia.
  - rewrite Er in Hu. inversion Hu; subst u. apply fin_ordinary, Fr.
Qed.

End Ops.
