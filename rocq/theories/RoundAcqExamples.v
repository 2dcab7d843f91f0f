(** RoundAcqExamples.v - accurate functions and computed cases for C122. *)
From Coq Require Import Reals Lra.
From Coquelicot Require Import Coquelicot.
From Flocq Require Import Core.Core IEEE754.BinarySingleNaN.
From Verif Require Import Base Num NumLaws NumpyModel ConfigSpaceModel SamplerModel SamplerSpec AcquisitionModel AcquisitionProofs Gauss AcquisitionReal
  B64Proofs RoundProofs RoundAcqSpec RoundAcq.
Local Open Scope R_scope.

Section E.
Variables fe fl fr : b64 -> b64.
Notation BN := (B64 fe fl fr).
Notation val := (val fe fl fr).
Notation fin := (fin fe fl fr).

(** the multiple of 2^-52 nearest to a number from 0 to 1 *)
Definition nearest (x : R) : BN := ndiv (nofZ (ZnearestE (x * bpow radix2 52)) : BN) (nofZ (2 ^ 52)).
Lemma nearest_ok x : 0 <= x <= 1 -> fin (nearest x) /\ Rabs (val (nearest x) - x) <= bpow radix2 (-51).
Proof.
  intro Hx. set (y := x * bpow radix2 52). set (n := ZnearestE y). pose proof (Znearest_half (fun z => negb (Z.even z)) y) as H. fold n in H.
  assert (B52 : bpow radix2 52 = IZR (2 ^ 52)) by reflexivity.
  assert (Hy : 0 <= y <= IZR (2 ^ 52)) by (unfold y; rewrite B52; nra).
  assert (Hn : (0 <= n <= 2 ^ 52)%Z).
  { apply Rabs_le_inv in H. assert (-1 < n)%Z by (apply lt_IZR; lra). assert (n < 2 ^ 52 + 1)%Z by (apply lt_IZR; rewrite plus_IZR; lra). lia. }
  destruct (ofZ_exact fe fl fr n ltac:(lia)) as [Fn Vn]. destruct (ofZ_exact fe fl fr (2 ^ 52) ltac:(lia)) as [F2 V2].
  assert (Q0 : 0 <= IZR n / IZR (2 ^ 52) <= 1).
  { destruct Hn as [N0 N1]. apply IZR_le in N0, N1. assert (0 < IZR (2 ^ 52)) by (apply IZR_lt; lia). split; [apply Rdiv_le_0_compat; lra|apply Rdiv_le_1; lra]. }
  destruct (div_ok fe fl fr (nofZ n) (nofZ (2 ^ 52)) 0 ltac:(lia) Fn) as [F V].
  { rewrite V2. apply not_0_IZR. lia. }
  { rewrite Vn, V2, Rabs_pos_eq by lra. change (bpow radix2 0) with 1. lra. }
  split; [exact F|]. change (Rabs (val (ndiv (nofZ n) (nofZ (2 ^ 52))) - x) <= bpow radix2 (-51)). rewrite V, Vn, V2.
  pose proof (RN_any (IZR n / IZR (2 ^ 52))) as E. set (q := IZR n / IZR (2 ^ 52)) in *. rewrite (Rabs_pos_eq q) in E by lra.
  assert (Eq : Rabs (q - x) <= / 2 * bpow radix2 (-52)).
  { assert (q - x = (IZR n - y) * bpow radix2 (-52)) as ->.
    { unfold q, y. replace (bpow radix2 (-52)) with (/ IZR (2 ^ 52)) by reflexivity. rewrite B52. field. apply not_0_IZR. lia. }
    rewrite Rabs_mult, (Rabs_pos_eq (bpow radix2 (-52))) by apply bpow_ge_0. apply Rmult_le_compat_r; [apply bpow_ge_0|]. rewrite <- Rabs_Ropp. replace (- (IZR n - y)) with (y - IZR n) by ring. exact H. }
  replace (RN q - x) with ((RN q - q) + (q - x)) by ring. eapply Rle_trans; [apply abs_add; [exact E|exact Eq]|].
  pose proof uu_pos as U. assert (uu * q <= uu) by nra. assert (T : tiny <= uu) by (apply bpow_le; lia).
  assert (B1 : bpow radix2 (-52) = 2 * uu) by (unfold uu; change (-52)%Z with (1 + -53)%Z; rewrite bpow_plus; reflexivity).
  assert (B2 : bpow radix2 (-51) = 4 * uu) by (unfold uu; change (-51)%Z with (2 + -53)%Z; rewrite bpow_plus; reflexivity).
  rewrite B1, B2. lra.
Qed.
Definition near_cdf : BN -> BN := fun z => nearest (norm_cdf (val z)).
Definition near_pdf : BN -> BN := fun z => nearest (norm_pdf (val z)).
Lemma near_accurate : accurate fe fl fr (bpow radix2 (-51)) near_cdf norm_cdf /\ accurate fe fl fr (bpow radix2 (-51)) near_pdf norm_pdf /\ bpow radix2 (-51) <= / 8.
Proof.
  refine (conj _ (conj _ _)).
  - intros z _. apply nearest_ok. pose proof (cdf_bounds (val z)). lra.
  - intros z _. apply nearest_ok. pose proof (pdf_pos (val z)). pose proof (pdf_half (val z)). lra.
  - replace (/ 8) with (bpow radix2 (-3)) by reflexivity. apply bpow_le. lia.
Qed.

(** two candidates: mean 1, deviations 0 and 2^-53 *)
Definition half_ulp : BN := ndiv n1 (nofZ (2 ^ 53)).
Definition tie_conf (x : BN) : conf BN := mkconf [x] [("x"%string, VNum x)].
Definition tie_list : list (conf BN) := [tie_conf n0; tie_conf n1].
Definition tie_predict (X : list (list BN)) : res (list BN * list BN) := Ok (map (fun _ => n1) X, map (fun r => if neqb (nth 0 r n0) (n0 : BN) then n0 else half_ulp) X).
Lemma tie_rows : tie_predict (map (@c_vec BN) tie_list) = Ok ([n1; n1], [n0; half_ulp]).
Proof. reflexivity. Qed.
Lemma tie_chosen cdf pdf : get_optimum tie_predict cdf pdf (ALCB n1) false (DList tie_list) = Ok (EConf (tie_conf n0)).
Proof. reflexivity. Qed.
Lemma half_ulp_val : fin half_ulp /\ val half_ulp = bpow radix2 (-53).
Proof.
  destruct (ofZ_exact fe fl fr 1 ltac:(lia)) as [F1 V1]. destruct (ofZ_exact fe fl fr (2 ^ 53) ltac:(lia)) as [F2 V2].
  assert (Q : val (nofZ 1) / val (nofZ (2 ^ 53)) = bpow radix2 (-53)) by (rewrite V1, V2; unfold Rdiv; rewrite Rmult_1_l; reflexivity).
  destruct (div_ok fe fl fr (nofZ 1) (nofZ (2 ^ 53)) 0 ltac:(lia) F1) as [F V].
  { rewrite V2. apply not_0_IZR. lia. }
  { rewrite Q, Rabs_pos_eq by apply bpow_ge_0. apply bpow_le. lia. }
  split; [exact F|]. unfold half_ulp, n1. rewrite V, Q. apply RN_generic, fmt_bpow. lia.
Qed.
Lemma one_val : fin (n1 : BN) /\ val n1 = 1. Proof. exact (ofZ_exact fe fl fr 1 ltac:(lia)). Qed.
Lemma zero_val : fin (n0 : BN) /\ val n0 = 0. Proof. exact (ofZ_exact fe fl fr 0 ltac:(lia)). Qed.
(** the other candidate is better *)
Lemma tie_lower : lcb_value (N:=RNum) false 1 (val n1) (val n0) < lcb_value (N:=RNum) false 1 (val n1) (val half_ulp).
Proof.
  destruct one_val as [_ V1]. destruct zero_val as [_ V0]. destruct half_ulp_val as [_ Vh]. rewrite V0, V1, Vh. change (1 + 1 * 0 < 1 + 1 * bpow radix2 (-53)). pose proof (bpow_gt_0 radix2 (-53)). lra.
Qed.
(** the error allowed is small *)
Lemma tie_small d s : In s [n0; half_ulp] -> acq_error fe fl fr d (ALCB n1) n1 s <= bpow radix2 (-52).
Proof.
  destruct one_val as [_ V1]. destruct zero_val as [_ V0]. destruct half_ulp_val as [_ Vh].
  assert (L0 : 0 < bpow radix2 (-53)) by apply bpow_gt_0. assert (L1 : bpow radix2 (-53) <= / 16) by (replace (/ 16) with (bpow radix2 (-4)) by reflexivity; apply bpow_le; lia).
  assert (T : bpow radix2 (-1075) <= bpow radix2 (-57)) by (apply bpow_le; lia). assert (T2 : bpow radix2 (-57) = / 16 * bpow radix2 (-53)) by (change (-57)%Z with (-4 + -53)%Z; rewrite bpow_plus; reflexivity).
  assert (B1 : bpow radix2 (-52) = 2 * bpow radix2 (-53)) by (change (-52)%Z with (1 + -53)%Z; rewrite bpow_plus; reflexivity).
  intro Hs. assert (0 <= val s <= / 16) as Bs by (destruct Hs as [<-|[<-|[]]]; [rewrite V0|rewrite Vh]; lra).
  unfold acq_error. rewrite V1, Rabs_R1, Rmult_1_l, Rabs_pos_eq by lra. rewrite B1. nra.
Qed.

(** the hypotheses hold for the three functions on these candidates *)
Lemma tie_ok (a : acq BN) : In a [ALCB n1; API n1 n0; AEI n1 n0] ->
  forall i m s, nth_error [n1; n1] i = Some m -> nth_error [n0; half_ulp] i = Some s -> in_range fe fl fr a m s.
Proof.
  destruct one_val as [F1 V1]. destruct zero_val as [F0 V0]. destruct half_ulp_val as [Fh Vh].
  assert (L0 : 0 <= bpow radix2 (-53)) by apply bpow_ge_0. assert (L1 : bpow radix2 (-53) <= 1) by (change 1 with (bpow radix2 0); apply bpow_le; lia).
  pose proof (big 400 ltac:(lia)) as B4. pose proof (big 900 ltac:(lia)) as B9.
  assert (Sp : spread3 fe fl fr n1 n1 n0 = 2) by (unfold spread3; rewrite V0, V1, Rabs_R0, Rabs_R1; ring).
  assert (G : forall s, In s [n0; half_ulp] -> in_range fe fl fr (ALCB n1) n1 s /\ in_range fe fl fr (API n1 n0) n1 s /\ in_range fe fl fr (AEI n1 n0) n1 s).
  { intros s Hs. assert (fin s /\ 0 <= val s <= 1 /\ (val s = 0 \/ 2 <= val s * bpow radix2 400)) as (Fs & Bs & Ds).
    { destruct Hs as [<-|[<-|[]]].
      - rewrite V0. split; [exact F0|]. split; [lra|left; reflexivity].
      - rewrite Vh. split; [exact Fh|]. split; [lra|right]. rewrite <- bpow_plus. change 2 with (bpow radix2 1). apply bpow_le. lia. }
    split; [|split].
    - refine (conj F1 (conj Fs (conj F1 _))). rewrite V1, Rabs_R1, Rmult_1_l, Rabs_pos_eq by lra. lra.
    - refine (conj F1 (conj Fs (conj F1 (conj F0 _)))). rewrite Sp. split; [lra|exact Ds].
    - refine (conj F1 (conj Fs (conj F1 (conj F0 _)))). rewrite Sp. split; [lra|exact Ds]. }
  intros Ha i m s Hm Hs. assert (m = n1) as ->.
  { pose proof (nth_error_In _ _ Hm) as [E|[E|[]]]; exact (eq_sym E). }
  destruct (G s (nth_error_In _ _ Hs)) as (G1 & G2 & G3). destruct Ha as [<-|[<-|[<-|[]]]]; assumption.
Qed.
End E.
