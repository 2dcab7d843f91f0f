(** PlottingShape.v - the shape of a grid of figures, exactly and in binary64 (C56). *)
From Coq Require Import Reals Lra Psatz.
From Flocq Require Import Core.Core IEEE754.BinarySingleNaN.
From Verif Require Import Base Num PlottingModel PlottingSpec B64Proofs.
Local Open Scope Z_scope.

Lemma loop_some w n : forall k h p, shape_loop k h w n = Some p -> fst p = w /\ h <= snd p < h + Z.of_nat k /\ n <= snd p * w /\ forall h', h <= h' < snd p -> h' * w < n.
Proof.
  induction k as [|k IH]; intros h p H; [discriminate|]. cbn [shape_loop] in H. destruct (Z.leb_spec n (h * w)).
  - injection H as <-. cbn. refine (conj eq_refl (conj _ (conj H0 _))); lia.
  - apply IH in H as (E & B & L & M). refine (conj E (conj _ (conj L _))); [lia|]. intros h' Hh. destruct (Z.eq_dec h' h) as [->|]; [lia|apply M; lia].
Qed.
Lemma loop_none w n : forall k h, shape_loop k h w n = None -> forall h', h <= h' < h + Z.of_nat k -> h' * w < n.
Proof.
  induction k as [|k IH]; intros h H h' Hh; [lia|]. cbn [shape_loop] in H. destruct (Z.leb_spec n (h * w)); [discriminate|].
  destruct (Z.eq_dec h' h) as [->|]; [lia|]. apply (IH (h + 1)); [exact H|lia].
Qed.
Lemma shape_of_ceil cs n w : cs n = Ok w -> 1 <= n -> 1 <= w -> (w - 1) * (w - 1) < n <= w * w -> exists h, quadratic_shape cs n = Ok (w, h) /\ best_shape n w h.
Proof.
  intros E Hn Hw [H1 H2]. unfold quadratic_shape. rewrite E. cbn [bind]. destruct (shape_loop (Z.to_nat w) 1 w n) as [p|] eqn:EL.
  - destruct (loop_some _ _ _ _ _ EL) as (E1 & B & L & M). destruct p as [w' h]. cbn [fst snd] in *. subst w'. exists h. split; [reflexivity|]. unfold best_shape. refine (conj _ (conj _ (conj _ _))); try lia.
    + intros w' Hw' Hle. destruct (Z_lt_le_dec w' w); [|assumption]. nia.
    + intros h' Hh' Hle. destruct (Z_lt_le_dec h' h); [|assumption]. assert (h' <> 0) by lia. specialize (M h'). lia.
  - exfalso. pose proof (loop_none _ _ _ _ EL w). lia.
Qed.
Lemma shape_of_small cs n w : cs n = Ok w -> w * w < n -> 0 <= w -> quadratic_shape cs n = Err ValueError.
Proof.
  intros E H Hw. unfold quadratic_shape. rewrite E. cbn [bind]. destruct (shape_loop (Z.to_nat w) 1 w n) as [p|] eqn:EL; [|reflexivity].
  destruct (loop_some _ _ _ _ _ EL) as (E1 & B & L & M). nia.
Qed.

(** ** exact arithmetic *)
Lemma real_ceil n : 1 <= n -> exists w, real_ceil_sqrt n = Ok w /\ 1 <= w /\ (w - 1) * (w - 1) < n <= w * w.
Proof.
  intro Hn. unfold real_ceil_sqrt. destruct (Z.ltb_spec n 0); [lia|]. set (w := Zceil (sqrt (IZR n))). exists w.
  assert (Hn' : (1 <= IZR n)%R) by (apply IZR_le; exact Hn). pose proof (Zceil_ub (sqrt (IZR n))) as U. pose proof (Zceil_lb (sqrt (IZR n))) as L. fold w in U, L.
  pose proof (sqrt_sqrt (IZR n) ltac:(lra)) as SS. assert (S1 : (1 <= sqrt (IZR n))%R) by (rewrite <- sqrt_1; apply sqrt_le_1; lra).
  assert (W1 : 1 <= w) by (apply le_IZR; lra). refine (conj eq_refl (conj W1 _)). split.
  - apply lt_IZR. rewrite mult_IZR, minus_IZR. nra.
  - apply le_IZR. rewrite mult_IZR. nra.
Qed.
Theorem shape_exact n : 1 <= n -> exists w h, quadratic_shape real_ceil_sqrt n = Ok (w, h) /\ best_shape n w h.
Proof. intro H. destruct (real_ceil n H) as (w & E & W & B). destruct (shape_of_ceil _ n w E H W B) as (h & Eh & Bh). exists w, h. auto. Qed.
Theorem shape_exact_none n : n <= 0 -> quadratic_shape real_ceil_sqrt n = Err ValueError.
Proof.
  intro H. unfold quadratic_shape, real_ceil_sqrt. destruct (Z.ltb_spec n 0); [reflexivity|]. replace n with 0 by lia. rewrite sqrt_0. change 0%R with (IZR 0). rewrite Zceil_IZR. reflexivity.
Qed.

(** ** binary64 *)
Lemma of_Z_exact z : 0 <= z <= 2 ^ 53 -> is_finite (b64_of_Z z) = true /\ B2R (b64_of_Z z) = IZR z.
Proof.
  intro H. destruct (ofZ_ok (fun x => x) (fun x => x) (fun x => x) z 60) as [F V]; [lia| |].
  - rewrite Rabs_right by (apply Rle_ge, IZR_le; lia). change (bpow radix2 60) with (IZR (2 ^ 60)). apply IZR_le. lia.
  - split; [exact F|]. change (B2R (b64_of_Z z)) with (val (fun x => x) (fun x => x) (fun x => x) (nofZ z : B64 (fun x => x) (fun x => x) (fun x => x))). rewrite V. apply RN_generic. apply fmt_IZR. lia.
Qed.
Lemma b64_ceil_exact (x : b64) w : is_finite x = true -> 1 <= w <= 2 ^ 53 -> (IZR (w - 1) < B2R x <= IZR w)%R -> b64_ceil x = w.
Proof.
  intros F Hw [L U]. unfold b64_ceil. cbv zeta. assert (T : Btrunc x = Zfloor (B2R x)).
  { apply eq_IZR. rewrite Btrunc_correct by exact emax1024. rewrite round_FIX_IZR. f_equal. apply Ztrunc_floor. apply Rle_trans with (IZR (w - 1)); [apply IZR_le; lia|lra]. }
  rewrite T. destruct (Req_dec (B2R x) (IZR w)) as [E|E].
  - rewrite E, Zfloor_IZR. destruct (of_Z_exact w ltac:(lia)) as [F1 V1]. rewrite Bltb_correct by assumption. rewrite V1, E, Rlt_bool_false by lra. reflexivity.
  - assert (Z : Zfloor (B2R x) = w - 1) by (apply Zfloor_imp; replace (w - 1 + 1) with w by ring; lra). rewrite Z. destruct (of_Z_exact (w - 1) ltac:(lia)) as [F1 V1]. rewrite Bltb_correct by assumption. rewrite V1, Rlt_bool_true by lra. ring.
Qed.
Lemma fmt_half z : 0 <= z <= 2 ^ 53 -> generic_format radix2 (SpecFloat.fexp 53 1024) (IZR z * bpow radix2 (-27)).
Proof.
  intro H. destruct (Z.eq_dec z (2 ^ 53)) as [->|]; [change (IZR (2 ^ 53)) with (bpow radix2 53); rewrite <- bpow_plus; apply fmt_bpow; lia|].
  apply generic_format_FLT. exists (Float radix2 z (-27)); [reflexivity|cbn; lia|cbn; unfold SpecFloat.emin; lia].
Qed.
Lemma b64_sqrt n : 1 <= n <= 2 ^ 53 -> let s := @Bsqrt 53 1024 prec53 emax1024 mode_NE (b64_of_Z n) in is_finite s = true /\ B2R s = RN (sqrt (IZR n)).
Proof.
  intro H. cbv zeta. destruct (of_Z_exact n ltac:(lia)) as [F V]. pose proof (Bsqrt_correct 53 1024 prec53 emax1024 mode_NE (b64_of_Z n)) as (A & B & _). rewrite V in A. split; [|exact A].
  rewrite B. destruct (b64_of_Z n) as [s| | |s m e] eqn:E; try reflexivity; try discriminate. destruct s; [|reflexivity]. exfalso. cbn in V. assert (0 < IZR n)%R by (apply IZR_lt; lia). rewrite <- V in H0. unfold F2R in H0. cbn in H0.
  pose proof (bpow_gt_0 radix2 e). assert (IZR (Z.neg m) < 0)%R by (apply IZR_lt; lia). nra.
Qed.
Lemma b64_ceil_ok n w : 1 <= n <= 2 ^ 52 -> 1 <= w -> (w - 1) * (w - 1) < n <= w * w -> b64_ceil_sqrt n = Ok w.
Proof.
  intros Hn Hw [H1 H2]. assert (W : w <= 2 ^ 26) by nia. destruct (b64_sqrt n ltac:(lia)) as [F V]. cbv zeta in F, V. unfold b64_ceil_sqrt. cbv zeta. set (s := Bsqrt mode_NE (b64_of_Z n)) in *.
  assert (NN : is_nan s = false) by (destruct s; try reflexivity; discriminate). rewrite NN. f_equal. apply b64_ceil_exact; [exact F|lia|]. rewrite V.
  assert (Hn' : (1 <= IZR n)%R) by (apply IZR_le; lia). pose proof (sqrt_sqrt (IZR n) ltac:(lra)) as SS. assert (S0 := sqrt_pos (IZR n)).
    assert (LO : (IZR (w - 1) + bpow radix2 (-27) <= RN (sqrt (IZR n)))%R).
    { replace (IZR (w - 1) + bpow radix2 (-27))%R with (IZR ((w - 1) * 2 ^ 27 + 1) * bpow radix2 (-27))%R.
      2:{ rewrite plus_IZR, mult_IZR, Rmult_plus_distr_r, Rmult_assoc. change (IZR (2 ^ 27)) with (bpow radix2 27). rewrite <- bpow_plus. change (bpow radix2 (27 + -27)) with 1%R. ring. }
      rewrite <- (RN_generic (IZR ((w - 1) * 2 ^ 27 + 1) * bpow radix2 (-27))) by (apply fmt_half; lia). apply RN_mono.
      apply Rsqr_incr_0_var; [|apply sqrt_pos]. unfold Rsqr. rewrite SS. set (q := bpow radix2 (-27)). assert (Hq : (IZR (2 ^ 27) * q = 1)%R) by (change (IZR (2 ^ 27)) with (bpow radix2 27); unfold q; rewrite <- bpow_plus; reflexivity). assert (Hq0 : (0 < q)%R) by apply bpow_gt_0.
      assert (K : ((w - 1) * 2 ^ 27 + 1) * ((w - 1) * 2 ^ 27 + 1) <= n * 2 ^ 54) by nia. apply IZR_le in K. rewrite !mult_IZR in K. 
      replace (IZR (2 ^ 54)) with (IZR (2 ^ 27) * IZR (2 ^ 27))%R in K by (rewrite <- mult_IZR; reflexivity). set (a := IZR ((w - 1) * 2 ^ 27 + 1)) in *. set (p := IZR (2 ^ 27)) in *.
      replace (a * q * (a * q))%R with (a * a * (q * q))%R by ring. apply Rle_trans with (IZR n * (p * p) * (q * q))%R; [apply Rmult_le_compat_r; [nra|exact K]|]. replace (IZR n * (p * p) * (q * q))%R with (IZR n * (p * q) * (p * q))%R by ring. rewrite Hq. lra. }
    pose proof (bpow_gt_0 radix2 (-27)). split; [lra|]. rewrite <- (RN_generic (IZR w)) by (apply fmt_IZR; lia). apply RN_mono. apply Rsqr_incr_0_var; [|apply IZR_le; lia]. unfold Rsqr. rewrite SS, <- mult_IZR. apply IZR_le. lia.
Qed.

Theorem shape_b64 n : 1 <= n <= 2 ^ 52 -> exists w h, quadratic_shape b64_ceil_sqrt n = Ok (w, h) /\ best_shape n w h.
Proof.
  intro H. destruct (real_ceil n ltac:(lia)) as (w & _ & W & B). destruct (shape_of_ceil b64_ceil_sqrt n w (b64_ceil_ok n w H W B) ltac:(lia) W B) as (h & Eh & Bh). exists w, h. auto.
Qed.
Theorem shape_b64_zero : quadratic_shape b64_ceil_sqrt 0 = Err ValueError.
Proof. vm_compute. reflexivity. Qed.
(** one figure more: np.sqrt rounds down *)
Theorem shape_b64_large : quadratic_shape b64_ceil_sqrt (2 ^ 52 + 1) = Err ValueError.
Proof. apply (shape_of_small _ _ (2 ^ 26)); [vm_compute; reflexivity|reflexivity|lia]. Qed.
