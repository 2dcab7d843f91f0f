(** AxisProofs.v - the points of an axis and the split values in binary64 (C113). *)
From Coq Require Import Reals Lra Psatz Sorted.
From Flocq Require Import Core.Core IEEE754.BinarySingleNaN.
From Verif Require Import Base Num NumLaws NumpyModel ConfigSpaceModel UtilsModel IceModel PartitionModel PartitionSpec
  ListLemmas IceProofs IceProofs2 B64Proofs RoundSpec RoundProofs GridSpec GridProofs IceShapeSpec.
Local Open Scope R_scope.

Section Axis.
Variables (fe fl fr : b64 -> b64).
Notation BN := (B64 fe fl fr).
Notation val := (val fe fl fr).
Notation fin := (fin fe fl fr).
Notation axis g := (linspace (N:=BN) n0 n1 g).

Lemma strict (x : BN) : fin x -> val x <> 0 -> is_finite_strict (x : b64) = true.
Proof.
  unfold B64Proofs.fin, B64Proofs.val. destruct (x : b64) as [s| | |s m e Hb]; intros Hf Hv; try discriminate Hf; [|reflexivity].
  exfalso. apply Hv. reflexivity.
Qed.
Lemma same_float (x y : BN) : fin x -> fin y -> val x <> 0 -> val x = val y -> x = y.
Proof. intros Fx Fy H E. apply (B2R_inj 53 1024); [apply strict; auto|apply strict; congruence|exact E]. Qed.

(** the step of an axis with [m] steps *)
Definition rstep (m : nat) : R := RN (1 / INR m).
Lemma step_b64 m : (1 <= m)%nat -> (Z.of_nat m <= 2 ^ 50)%Z -> let st := ndiv (nsub n1 n0) (nofZ (Z.of_nat m)) : BN in
  fin st /\ val st = rstep m.
Proof.
  intros H1 H2 st. destruct (ofZ_exact fe fl fr 0) as [F0 V0]; [lia|]. destruct (ofZ_exact fe fl fr 1) as [F1 V1]; [lia|].
  destruct (ofZ_exact fe fl fr (Z.of_nat m)) as [Fd Vd]; [lia|]. fold (n0 : BN) in *. fold (n1 : BN) in *. rewrite <- INR_IZR_INZ in Vd.
  assert (M1 : 1 <= INR m) by (change 1 with (INR 1); apply le_INR; exact H1).
  destruct (sub_ok fe fl fr n1 n0 0) as [Fs Vs]; auto; [lia|rewrite V0, V1; cbn; rewrite Rabs_pos_eq; lra|].
  rewrite V0, V1, Rminus_0_r in Vs. rewrite (RN_generic 1) in Vs by (apply (fmt_IZR 1); lia).
  assert (Hq : 0 <= 1 / INR m <= 1).
  { split; [apply Rlt_le, Rdiv_lt_0_compat; lra|]. apply (Rmult_le_reg_r (INR m)); [lra|]. unfold Rdiv. rewrite Rmult_assoc, Rinv_l; lra. }
  destruct (div_ok fe fl fr (nsub n1 n0) (nofZ (Z.of_nat m)) 0) as [Fq Vq]; auto; [lia|rewrite Vd; lra|rewrite Vs, Vd, Rabs_pos_eq; [change (bpow radix2 0) with 1|]; lra|].
  rewrite Vs, Vd in Vq. split; [exact Fq|exact Vq].
Qed.

Lemma u_val : bpow radix2 50 * uu = / 8.
Proof. unfold uu. rewrite <- bpow_plus. reflexivity. Qed.
Lemma tiny_small m : (1 <= m)%nat -> (Z.of_nat m <= 2 ^ 50)%Z -> tiny <= uu * (1 / INR m) / 64.
Proof.
  intros H1 H2. pose proof (INR_pow m 50 H2 ltac:(lia)) as B. assert (M1 : 1 <= INR m) by (change 1 with (INR 1); apply le_INR; exact H1).
  apply Rle_trans with (bpow radix2 (-109)).
  - apply bpow_le. lia.
  - assert (E : bpow radix2 (-109) = uu * bpow radix2 (-50) / 64).
    { unfold uu, Rdiv. change (/ 64) with (bpow radix2 (-6)). rewrite <- !bpow_plus. reflexivity. }
    rewrite E. pose proof uu_pos. unfold Rdiv. apply Rmult_le_compat_r; [lra|]. apply Rmult_le_compat_l; [lra|].
    rewrite Rmult_1_l. replace (bpow radix2 (-50)) with (/ bpow radix2 50) by (symmetry; exact (bpow_opp radix2 50)).
    apply Rinv_le_contravar; [lra|exact B].
Qed.
Lemma rstep_near m : (1 <= m)%nat -> (Z.of_nat m <= 2 ^ 50)%Z -> Rabs (rstep m - 1 / INR m) <= 65/64 * uu * (1 / INR m).
Proof.
  intros H1 H2. assert (M1 : 1 <= INR m) by (change 1 with (INR 1); apply le_INR; exact H1).
  eapply Rle_trans; [apply RN_any|]. rewrite Rabs_pos_eq by (apply Rlt_le, Rdiv_lt_0_compat; lra).
  pose proof (tiny_small m H1 H2). lra.
Qed.

(** a point that is not the last one *)
Lemma inner_b64 g i : (2 <= g)%nat -> (Z.of_nat g <= 2 ^ 50)%Z -> (i < g - 1)%nat ->
  fin (nth i (axis g) n0) /\ val (nth i (axis g) n0) = RN (INR i * rstep (g - 1)).
Proof.
  intros Hg Hz Hi. destruct g as [|[|m]]; try lia. cbn [linspace]. rewrite app_nth1 by (rewrite map_length, seq_length; lia).
  replace (S (S m) - 1)%nat with (S m) in * by lia.
  set (st := ndiv (nsub n1 n0) (nofZ (Z.of_nat (S m))) : BN).
  destruct (step_b64 (S m) ltac:(lia) ltac:(lia)) as [Fs Vs]. fold st in Fs, Vs.
  set (F := fun i : nat => nadd (nmul (nofZ (Z.of_nat i)) st) n0 : BN).
  assert (En : nth i (map F (seq 0 (S m))) n0 = F i).
  { rewrite (nth_indep _ n0 (F 0%nat)) by (rewrite map_length, seq_length; lia). rewrite map_nth, seq_nth by lia. reflexivity. }
  rewrite En. unfold F. destruct (ofZ_exact fe fl fr 0) as [F0 V0]; [lia|]. fold (n0 : BN) in *.
  destruct (ofZ_exact fe fl fr (Z.of_nat i)) as [Fi Vi]; [lia|]. rewrite <- INR_IZR_INZ in Vi.
  assert (M1 : 1 <= INR (S m)) by (change 1 with (INR 1); apply le_INR; lia).
  assert (Hq : 0 <= 1 / INR (S m) <= 1).
  { split; [apply Rlt_le, Rdiv_lt_0_compat; lra|]. apply (Rmult_le_reg_r (INR (S m))); [lra|]. unfold Rdiv. rewrite Rmult_assoc, Rinv_l; lra. }
  assert (Sb : 0 <= rstep (S m) <= 1).
  { unfold rstep. split.
    - replace 0 with (RN 0) by (apply RN_generic, generic_format_0). apply RN_mono. lra.
    - replace 1 with (RN 1) at 2 by (apply RN_generic, (fmt_IZR 1); lia). apply RN_mono. lra. }
  assert (I0 : 0 <= INR i) by apply pos_INR. assert (I1 : INR i <= bpow radix2 50) by (apply INR_pow; lia).
  assert (P : 0 <= INR i * rstep (S m) <= bpow radix2 50). { split; [nra|]. pose proof (bpow_gt_0 radix2 50). nra. }
  destruct (mul_ok fe fl fr (nofZ (Z.of_nat i)) st 50) as [Fm Vm]; auto; [lia|rewrite Vi, Vs, Rabs_pos_eq; lra|]. rewrite Vi, Vs in Vm.
  assert (Bm : Rabs (RN (INR i * rstep (S m))) <= bpow radix2 50) by (apply RN_abs_le; [lia|rewrite Rabs_pos_eq; lra]).
  destruct (add_ok fe fl fr (nmul (nofZ (Z.of_nat i)) st) n0 50) as [Fa Va]; auto; [lia|rewrite Vm, V0, Rplus_0_r; exact Bm|].
  split; [exact Fa|]. rewrite Va, Vm, V0, Rplus_0_r. apply RN_generic. apply generic_format_round; [exact (fexp_correct 53 1024 prec53)|exact _].
Qed.
Lemma last_b64 g : (2 <= g)%nat -> nth (g - 1) (axis g) n0 = n1.
Proof.
  intro Hg. destruct g as [|[|m]]; try lia. cbn [linspace]. rewrite app_nth2 by (rewrite map_length, seq_length; lia).
  rewrite map_length, seq_length. replace (S (S m) - 1 - S m)%nat with 0%nat by lia. reflexivity.
Qed.
Lemma rstep_pos m : (1 <= m)%nat -> (Z.of_nat m <= 2 ^ 50)%Z -> 0 < rstep m.
Proof.
  intros H1 H2. pose proof (rstep_near m H1 H2) as A. apply Rabs_le_inv in A. assert (M1 : 1 <= INR m) by (change 1 with (INR 1); apply le_INR; exact H1).
  assert (Q : 0 < 1 / INR m) by (apply Rdiv_lt_0_compat; lra). pose proof uu_small. pose proof uu_pos. nra.
Qed.
Lemma first_b64 g : (2 <= g)%nat -> (Z.of_nat g <= 2 ^ 50)%Z -> nth 0 (axis g) n0 = (n0 : BN).
Proof.
  intros Hg Hz. destruct g as [|[|m]]; try lia. cbn [linspace]. cbn [seq map app nth].
  set (st := ndiv (nsub n1 n0) (nofZ (Z.of_nat (S m))) : BN).
  destruct (step_b64 (S m) ltac:(lia) ltac:(lia)) as [Fs Vs]. fold st in Fs, Vs.
  pose proof (rstep_pos (S m) ltac:(lia) ltac:(lia)) as P. rewrite <- Vs in P. clearbody st. clear Vs.
  unfold B64Proofs.fin, B64Proofs.val in *. destruct (st : b64) as [s| | |s mm e H]; try discriminate Fs.
  - cbn in P. lra.
  - destruct s; [|reflexivity]. exfalso. cbn in P. unfold F2R in P. cbn in P. assert (IZR (Z.neg mm) < 0) by (apply (IZR_lt _ 0); lia). pose proof (bpow_gt_0 radix2 e). nra.
Qed.

(** ** how near the points are, and that they increase *)
Lemma inner_near g i : (2 <= g)%nat -> (Z.of_nat g <= 2 ^ 50)%Z -> (i < g - 1)%nat ->
  Rabs (val (nth i (axis g) n0) - INR i / INR (g - 1)) <= 3 * uu * (INR i / INR (g - 1)).
Proof.
  intros Hg Hz Hi. destruct (inner_b64 g i Hg Hz Hi) as [_ ->]. set (m := (g - 1)%nat) in *.
  assert (H1 : (1 <= m)%nat) by lia. assert (H2 : (Z.of_nat m <= 2 ^ 50)%Z) by lia.
  destruct i as [|i'].
  { cbn [INR]. rewrite Rmult_0_l. rewrite (RN_generic 0) by apply generic_format_0. unfold Rdiv. rewrite Rmult_0_l, Rminus_0_r, Rabs_R0, Rmult_0_r. apply Rle_refl. }
  set (i := S i') in *. assert (I1 : 1 <= INR i) by (change 1 with (INR 1); apply le_INR; lia).
  assert (M1 : 1 <= INR m) by (change 1 with (INR 1); apply le_INR; exact H1).
  pose proof (rstep_near m H1 H2) as A. pose proof (RN_any (INR i * rstep m)) as B. pose proof (rstep_pos m H1 H2) as P.
  rewrite (Rabs_pos_eq (INR i * rstep m)) in B by nra.
  pose proof (tiny_small m H1 H2) as T. pose proof uu_small as U1. pose proof uu_pos as U0.
  assert (Q : 0 < 1 / INR m) by (apply Rdiv_lt_0_compat; lra). replace (INR i / INR m) with (INR i * (1 / INR m)) by (unfold Rdiv; ring).
  set (q := 1 / INR m) in *. set (s := rstep m) in *. set (x := RN (INR i * s)) in *. clearbody q s x.
  replace (x - INR i * q) with ((x - INR i * s) + INR i * (s - q)) by ring. eapply Rle_trans; [apply Rabs_triang|].
  rewrite (Rabs_mult (INR i)), (Rabs_pos_eq (INR i)) by lra.
  assert (C : INR i * Rabs (s - q) <= INR i * (65 / 64 * uu * q)) by (apply Rmult_le_compat_l; lra).
  assert (S2 : s <= 9/8 * q). { apply Rabs_le_inv in A. assert (uu * q <= / 1024 * q) by (apply Rmult_le_compat_r; lra). lra. }
  assert (D : uu * (INR i * s) <= uu * (INR i * (9/8 * q))) by (apply Rmult_le_compat_l; [lra|]; apply Rmult_le_compat_l; lra).
  assert (E : uu * q <= uu * q * INR i) by (assert (0 < uu * q) by nra; nra).
  replace (uu * (INR i * (9 / 8 * q))) with (9/8 * (uu * q * INR i)) in D by ring. replace (INR i * (65 / 64 * uu * q)) with (65/64 * (uu * q * INR i)) in C by ring.
  replace (3 * uu * (INR i * q)) with (3 * (uu * q * INR i)) by ring.
  assert (Z0 : 0 <= uu * q * INR i) by (assert (0 < uu * q) by nra; nra).
  revert B C D E T Z0. generalize (uu * q * INR i), (uu * (INR i * s)), (INR i * Rabs (s - q)), (Rabs (x - INR i * s)), tiny, (uu * q).
  intros; lra.
Qed.

Lemma one_b64 : fin n1 /\ val n1 = 1.
Proof. destruct (ofZ_exact fe fl fr 1) as [F1 V1]; [lia|]. fold (n1 : BN) in *. split; assumption. Qed.
Theorem axis_near g i : (2 <= g)%nat -> (Z.of_nat g <= 2 ^ 50)%Z -> (i < g)%nat ->
  fin (nth i (axis g) n0) /\ Rabs (val (nth i (axis g) n0) - INR i / INR (g - 1)) <= 3 * uu * (INR i / INR (g - 1)).
Proof.
  intros Hg Hz Hi. destruct (Nat.eq_dec i (g - 1)) as [->|Hn].
  - rewrite last_b64 by exact Hg. destruct one_b64 as [F V]. split; [exact F|]. rewrite V.
    assert (M1 : 1 <= INR (g - 1)) by (change 1 with (INR 1); apply le_INR; lia).
    unfold Rdiv. rewrite Rinv_r by lra. rewrite Rminus_diag_eq, Rabs_R0 by reflexivity. pose proof uu_pos. lra.
  - split; [apply inner_b64|apply inner_near]; auto; lia.
Qed.
Theorem axis_increases g i j : (2 <= g)%nat -> (Z.of_nat g <= 2 ^ 50)%Z -> (i < j < g)%nat -> val (nth i (axis g) n0) < val (nth j (axis g) n0).
Proof.
  intros Hg Hz Hij. destruct (axis_near g i Hg Hz ltac:(lia)) as [_ A]. destruct (axis_near g j Hg Hz ltac:(lia)) as [_ B].
  assert (M1 : 1 <= INR (g - 1)) by (change 1 with (INR 1); apply le_INR; lia).
  assert (M2 : INR (g - 1) <= bpow radix2 50) by (apply INR_pow; lia).
  assert (Q : 0 < / INR (g - 1)) by (apply Rinv_0_lt_compat; lra). assert (Qm : INR (g - 1) * / INR (g - 1) = 1) by (apply Rinv_r; lra).
  assert (IJ : INR i + 1 <= INR j) by (rewrite <- S_INR; apply le_INR; lia). assert (Jm : INR j <= INR (g - 1)) by (apply le_INR; lia).
  pose proof (pos_INR i) as I0. pose proof uu_pos as U0. apply Rabs_le_inv in A, B. unfold Rdiv in *.
  assert (U8 : INR (g - 1) * uu <= / 8) by (rewrite <- u_val; apply Rmult_le_compat_r; lra).
  set (q := / INR (g - 1)) in *. set (x := val (nth i (axis g) n0)) in *. set (y := val (nth j (axis g) n0)) in *. clearbody x y.
  assert (K : 3 * uu * (INR i * q) + 3 * uu * (INR j * q) < (INR j - INR i) * q).
  { replace (3 * uu * (INR i * q) + 3 * uu * (INR j * q)) with ((3 * (INR i * uu) + 3 * (INR j * uu)) * q) by ring.
    apply Rmult_lt_compat_r; [exact Q|]. assert (INR j * uu <= INR (g - 1) * uu) by (apply Rmult_le_compat_r; lra).
    assert (INR i * uu <= INR (g - 1) * uu) by (apply Rmult_le_compat_r; lra). lra. }
  replace ((INR j - INR i) * q) with (INR j * q - INR i * q) in K by ring. lra.
Qed.
Theorem axis_between g i : (2 <= g)%nat -> (Z.of_nat g <= 2 ^ 50)%Z -> (0 < i < g - 1)%nat -> 0 < val (nth i (axis g) n0) < 1.
Proof.
  intros Hg Hz Hi. pose proof (axis_increases g 0 i Hg Hz ltac:(lia)) as A. pose proof (axis_increases g i (g - 1) Hg Hz ltac:(lia)) as B.
  rewrite first_b64 in A by assumption. rewrite last_b64 in B by assumption. destruct one_b64 as [_ V]. rewrite V in B. split; [exact A|exact B].
Qed.

(** ** exact when the number of steps is a power of two *)
Lemma fmt_scaled z e : (Z.abs z < 2 ^ 53)%Z -> (-1074 <= e)%Z -> fmt (IZR z * bpow radix2 e).
Proof.
  intros Hz He. apply (generic_format_FLT radix2 (-1074) 53). exists (Float radix2 z e); [reflexivity|exact Hz|exact He].
Qed.
Lemma pow2_INR j : INR (2 ^ j) = bpow radix2 (Z.of_nat j).
Proof. rewrite INR_IZR_INZ, Nat2Z.inj_pow. change (Z.of_nat 2) with (radix_val radix2). apply IZR_Zpower. lia. Qed.
Lemma pow2_bound j : (Z.of_nat (2 ^ j + 1) <= 2 ^ 50)%Z -> (j < 50)%nat.
Proof.
  intro H. rewrite Nat2Z.inj_add, Nat2Z.inj_pow in H. change (Z.of_nat 2) with 2%Z in H. destruct (le_lt_dec 50 j) as [K|K]; [|exact K].
  assert (2 ^ 50 <= 2 ^ Z.of_nat j)%Z by (apply Z.pow_le_mono_r; lia). lia.
Qed.
Theorem axis_exact j i : (Z.of_nat (2 ^ j + 1) <= 2 ^ 50)%Z -> (i <= 2 ^ j)%nat ->
  fin (nth i (axis (2 ^ j + 1)) n0) /\ val (nth i (axis (2 ^ j + 1)) n0) = INR i / INR (2 ^ j).
Proof.
  intros Hz Hi. pose proof (pow2_bound j Hz) as Hj. assert (P : (1 <= 2 ^ j)%nat) by (pose proof (Nat.pow_nonzero 2 j); lia).
  assert (Ei : / INR (2 ^ j) = bpow radix2 (- Z.of_nat j)) by (rewrite pow2_INR, bpow_opp; reflexivity).
  destruct (Nat.eq_dec i (2 ^ j)) as [->|Hn].
  - pose proof (last_b64 (2 ^ j + 1) ltac:(lia)) as L. replace (2 ^ j + 1 - 1)%nat with (2 ^ j)%nat in L by lia. rewrite L.
    destruct one_b64 as [F V]. split; [exact F|]. rewrite V. unfold Rdiv. rewrite Rinv_r; [reflexivity|]. apply not_0_INR. lia.
  - destruct (inner_b64 (2 ^ j + 1) i ltac:(lia) Hz ltac:(lia)) as [F V]. split; [exact F|]. rewrite V.
    replace (2 ^ j + 1 - 1)%nat with (2 ^ j)%nat by lia. unfold rstep, Rdiv. rewrite Ei.
    rewrite (RN_generic (1 * bpow radix2 (- Z.of_nat j))) by (rewrite Rmult_1_l; apply fmt_bpow; lia). rewrite Rmult_1_l.
    apply RN_generic. rewrite INR_IZR_INZ. apply fmt_scaled; lia.
Qed.
Theorem axis_refined_b64 i j : (Z.of_nat (2 ^ (i + j) + 1) <= 2 ^ 50)%Z -> axis_refines (N:=BN) (2 ^ i) (2 ^ j + 1).
Proof.
  intros Hz k Hk. pose proof (pow2_bound _ Hz) as B. unfold refined. replace (2 ^ j + 1 - 1)%nat with (2 ^ j)%nat by lia.
  rewrite <- Nat.pow_add_r. assert (P : (1 <= 2 ^ j)%nat) by (pose proof (Nat.pow_nonzero 2 j); lia). assert (P' : (1 <= 2 ^ i)%nat) by (pose proof (Nat.pow_nonzero 2 i); lia).
  assert (Hz' : (Z.of_nat (2 ^ j + 1) <= 2 ^ 50)%Z). { assert (2 ^ j <= 2 ^ (i + j))%nat by (apply Nat.pow_le_mono_r; lia). lia. }
  assert (Pij : (2 ^ (i + j) = 2 ^ i * 2 ^ j)%nat) by apply Nat.pow_add_r.
  destruct (Nat.eq_dec k 0) as [->|K0].
  - rewrite Nat.mul_0_r, !first_b64; auto; lia.
  - assert (Hb : (2 ^ i * k <= 2 ^ (i + j))%nat) by (rewrite Pij; apply Nat.mul_le_mono_l; lia).
    destruct (axis_exact (i + j) (2 ^ i * k) Hz Hb) as [F V]. destruct (axis_exact j k Hz' ltac:(lia)) as [F' V'].
    assert (E : INR (2 ^ i * k) / INR (2 ^ (i + j)) = INR k / INR (2 ^ j)).
    { rewrite Pij, !mult_INR. field. split; apply not_0_INR; lia. }
    apply same_float; auto; [|congruence]. rewrite V, E. apply Rgt_not_eq, Rdiv_lt_0_compat; apply lt_0_INR; lia.
Qed.

(** ** split values *)
Lemma split_vals_nth n k : (k < n)%nat -> nth_error (possible_split_vals (N:=BN) n) k = Some (nth (S k) (axis (n + 2)) n0).
Proof.
  intro Hk. unfold possible_split_vals. replace (n + 2)%nat with (S (S n)) by lia. cbn [linspace]. rewrite <- cons_seq. cbn [map app tl nth].
  rewrite removelast_last. rewrite app_nth1 by (rewrite map_length, seq_length; exact Hk).
  apply nth_error_nth'. rewrite map_length, seq_length. exact Hk.
Qed.
Lemma split_vals_length n : length (possible_split_vals (N:=BN) n) = n.
Proof.
  unfold possible_split_vals. replace (n + 2)%nat with (S (S n)) by lia. cbn [linspace]. rewrite <- cons_seq. cbn [map app tl].
  rewrite removelast_last, map_length, seq_length. reflexivity.
Qed.
Theorem split_vals_float n : (Z.of_nat n + 2 <= 2 ^ 50)%Z -> length (possible_split_vals (N:=BN) n) = n /\
  (forall k v, nth_error (possible_split_vals (N:=BN) n) k = Some v ->
     fin v /\ 0 < val v < 1 /\ Rabs (val v - INR (k + 1) / INR (n + 1)) <= 3 * uu * (INR (k + 1) / INR (n + 1))) /\
  (forall k k' v v', (k < k')%nat -> nth_error (possible_split_vals (N:=BN) n) k = Some v -> nth_error (possible_split_vals (N:=BN) n) k' = Some v' -> val v < val v').
Proof.
  intro Hn. split; [apply split_vals_length|]. split.
  - intros k v Hv. assert (Hk : (k < n)%nat). { rewrite <- (split_vals_length n). apply nth_error_Some. congruence. }
    rewrite split_vals_nth in Hv by exact Hk. inversion Hv as [Ev]. destruct (axis_near (n + 2) (S k) ltac:(lia) ltac:(lia) ltac:(lia)) as [F A].
    split; [exact F|]. split; [apply axis_between; lia|]. replace (n + 2 - 1)%nat with (n + 1)%nat in A by lia. replace (k + 1)%nat with (S k) by lia. exact A.
  - intros k k' v v' Hkk Hv Hv'. assert (Hk : (k' < n)%nat). { rewrite <- (split_vals_length n). apply nth_error_Some. congruence. }
    rewrite split_vals_nth in Hv, Hv' by lia. inversion Hv. inversion Hv'. apply axis_increases; lia.
Qed.

(** ** centered curves start at zero *)
Lemma self_minus (x : BN) : fin x -> nsub x x = n0.
Proof.
  intro F. unfold B64Proofs.fin in F. pose proof (Bminus_correct 53 1024 prec53 emax1024 mode_NE x x F F) as K.
  rewrite Rminus_diag_eq in K by reflexivity. rewrite round_0 in K by exact _. rewrite Rabs_R0, Rlt_bool_true in K by apply bpow_gt_0.
  rewrite Rcompare_Eq in K by reflexivity. destruct K as (K1 & K2 & K3).
  apply (B2R_Bsign_inj 53 1024); [exact K2|reflexivity|etransitivity; [exact K1|reflexivity]|].
  etransitivity; [exact K3|]. destruct (Bsign (x : b64)); reflexivity.
Qed.
Theorem centered_starts (a : algorithm BN) p d : rect (num_features a) (a_samples a) -> (1 <= a_gpa a)%nat -> ice_calculate a false p = Ok d ->
  exists d', ice_calculate a true p = Ok d' /\ forall i v, at2 (i_y d) i 0 = Some v -> fin v -> at2 (i_y d') i 0 = Some n0.
Proof.
  intros RC G H. destruct (centered_curves a p d RC G H) as (d' & H' & _ & _ & K). exists d'. split; [exact H'|].
  intros i v Hv F. rewrite (K i 0%nat v v Hv Hv), (self_minus v F). reflexivity.
Qed.
End Axis.

(** ** the same curves on a finer grid, bit for bit *)
Lemma gpa_refines fe fl fr i j m : m = (2 ^ j + 1)%nat -> (Z.of_nat (2 ^ (i + j) + 1) <= 2 ^ 50)%Z -> axis_refines (N:=B64 fe fl fr) (2 ^ i) m.
Proof. intros -> H. apply axis_refined_b64, H. Qed.
Lemma pow2_pos i : (1 <= 2 ^ i)%nat.
Proof. pose proof (Nat.pow_nonzero 2 i). lia. Qed.

Section Refined.
Variables (fe fl fr : b64 -> b64).
Notation BN := (B64 fe fl fr).
Variables (a : algorithm BN) (i j : nat).
Hypothesis G : a_gpa a = (2 ^ j + 1)%nat.
Hypothesis Hz : (Z.of_nat (2 ^ (i + j) + 1) <= 2 ^ 50)%Z.
Lemma gpa_pos : (1 <= a_gpa a)%nat. Proof. rewrite G. lia. Qed.
Definition float_curves f s d := any_grid_refined_curves a (2 ^ i) f s d (gpa_refines fe fl fr i j _ G Hz) (pow2_pos i) gpa_pos.
Definition float_pdp f s d := any_grid_refined_pdp a (2 ^ i) f s d (gpa_refines fe fl fr i j _ G Hz) (pow2_pos i) gpa_pos.
Definition float_one h f s d d' := any_grid_refined_one a (2 ^ i) h f s d d' (gpa_refines fe fl fr i j _ G Hz) (pow2_pos i) gpa_pos.
Definition float_two h1 h2 f s d d' := any_grid_refined_two a (2 ^ i) h1 h2 f s d d' (gpa_refines fe fl fr i j _ G Hz) (pow2_pos i) gpa_pos.
End Refined.

Theorem axis_float fe fl fr g : (2 <= g)%nat -> (Z.of_nat g <= 2 ^ 50)%Z -> let l := linspace (N:=B64 fe fl fr) n0 n1 g in
  length l = g /\ nth_error l 0 = Some n0 /\ nth_error l (g - 1) = Some n1 /\
  (forall i v, nth_error l i = Some v -> fin fe fl fr v /\
     Rabs (val fe fl fr v - INR i / INR (g - 1)) <= 3 * bpow radix2 (-53) * (INR i / INR (g - 1))) /\
  (forall i j v w, (i < j)%nat -> nth_error l i = Some v -> nth_error l j = Some w -> val fe fl fr v < val fe fl fr w).
Proof.
  intros Hg Hz l. assert (L : length l = g) by (unfold l; apply linspace_length).
  assert (E : forall i v, nth_error l i = Some v -> (i < g)%nat /\ v = nth i l n0).
  { intros i v H. split; [rewrite <- L; apply nth_error_Some; congruence|]. symmetry. apply nth_error_nth, H. }
  assert (E' : forall i, (i < g)%nat -> nth_error l i = Some (nth i l n0)) by (intros; apply nth_error_nth'; lia).
  split; [exact L|]. split; [rewrite E' by lia; f_equal; apply first_b64; assumption|]. split; [rewrite E' by lia; f_equal; apply last_b64; assumption|]. split.
  - intros i v H. destruct (E i v H) as [Hi ->]. exact (axis_near fe fl fr g i Hg Hz Hi).
  - intros i j v w Hij H H'. destruct (E i v H) as [Hi ->]. destruct (E j w H') as [Hj ->]. apply axis_increases; auto.
Qed.
Theorem axis_power fe fl fr j : (Z.of_nat (2 ^ j + 1) <= 2 ^ 50)%Z ->
  forall i v, nth_error (linspace (N:=B64 fe fl fr) n0 n1 (2 ^ j + 1)) i = Some v -> val fe fl fr v = INR i / INR (2 ^ j).
Proof.
  intros Hz i v H. assert (Hi : (i < 2 ^ j + 1)%nat) by (rewrite <- (linspace_length (N:=B64 fe fl fr) n0 n1 (2 ^ j + 1)); apply nth_error_Some; congruence).
  rewrite <- (nth_error_nth _ _ n0 H). apply axis_exact; [exact Hz|lia].
Qed.
