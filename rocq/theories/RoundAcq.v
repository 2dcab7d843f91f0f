(** RoundAcq.v - acquisition functions in binary64 (C122). *)
From Coq Require Import Reals Lra.
From Coquelicot Require Import Coquelicot.
From Flocq Require Import Core.Core IEEE754.BinarySingleNaN.
From Verif Require Import Base Num NumLaws NumpyModel ConfigSpaceModel SamplerModel SamplerSpec AcquisitionModel AcquisitionProofs Gauss AcquisitionReal
  B64Proofs RoundProofs RoundAcqSpec.
Local Open Scope R_scope.

(** ** how much the distribution function and the gain move *)
Lemma gnorm_2 : 2 <= gnorm.
Proof. unfold gnorm. apply Rle_trans with (sqrt (2 * 2)); [rewrite sqrt_square; lra|]. apply sqrt_le_1_alt. pose proof PI2_1. lra. Qed.
Lemma abs_add a b x y : Rabs a <= x -> Rabs b <= y -> Rabs (a + b) <= x + y.
Proof. intros A B. eapply Rle_trans; [apply Rabs_triang|]. lra. Qed.
Lemma pdf_half t : norm_pdf t <= / 2.
Proof.
  unfold norm_pdf, gexp. pose proof gnorm_2. assert (E : exp (- (t * t) / 2) <= 1).
  { rewrite <- exp_0. assert (0 <= t * t) by nra. destruct (Req_dec (t * t) 0) as [->|]; [right; f_equal; lra|]. left. apply exp_increasing. lra. }
  assert (0 < / gnorm <= / 2). { split; [apply Rinv_0_lt_compat; lra|apply Rinv_le; lra]. }
  unfold Rdiv at 1. pose proof (exp_pos (- (t * t) / 2)). nra.
Qed.
Lemma lip_up (f f' : R -> R) k a b : (forall x, is_derive f x (f' x)) -> (forall x, 0 <= f' x <= k) -> a <= b -> 0 <= f b - f a <= k * (b - a).
Proof.
  intros D B H. split.
  - pose proof (nondecreasing_of_derive f f' a b D (fun x => proj1 (B x)) H). lra.
  - assert (D' : forall x, is_derive (fun x => k * x - f x) x (k - f' x)).
    { intro x. apply (is_derive_minus (K := R_AbsRing) (V := R_NormedModule) (fun x => k * x) f x k (f' x)); [|apply D]. auto_derive; [exact I|ring]. }
    pose proof (nondecreasing_of_derive _ _ a b D' (fun x => ltac:(specialize (B x); lra)) H) as K. cbv beta in K. lra.
Qed.
Lemma lip (f f' : R -> R) k a b : (forall x, is_derive f x (f' x)) -> (forall x, 0 <= f' x <= k) -> Rabs (f a - f b) <= k * Rabs (a - b).
Proof.
  intros D B. destruct (Rle_or_lt a b) as [H|H].
  - pose proof (lip_up f f' k a b D B H). rewrite (Rabs_left1 (a - b)), (Rabs_left1 (f a - f b)) by lra. lra.
  - pose proof (lip_up f f' k b a D B (Rlt_le _ _ H)). rewrite (Rabs_pos_eq (a - b)), (Rabs_pos_eq (f a - f b)) by lra. lra.
Qed.
Lemma cdf_lip a b : Rabs (norm_cdf a - norm_cdf b) <= / 2 * Rabs (a - b).
Proof. apply (lip norm_cdf norm_pdf); [exact cdf_derive|]. intro x. pose proof (pdf_pos x). pose proof (pdf_half x). lra. Qed.
Lemma gain_lip a b : Rabs (gain a - gain b) <= Rabs (a - b).
Proof. rewrite <- (Rmult_1_l (Rabs (a - b))). apply (lip gain norm_cdf); [exact gain_derive|]. intro x. pose proof (cdf_bounds x). lra. Qed.

Section A.
Variables fe fl fr : b64 -> b64.
Notation BN := (B64 fe fl fr).
Notation val := (val fe fl fr).
Notation fin := (fin fe fl fr).
Notation fmt_val := (fmt_val fe fl fr).

Lemma tiny_le : tiny <= / 1024.
Proof. unfold tiny. change (/ 1024) with (/ IZR (2 ^ 10)). replace (/ IZR (2^10)) with (bpow radix2 (-10)) by reflexivity. apply bpow_le. lia. Qed.
Lemma big e : (0 <= e)%Z -> 1 <= bpow radix2 e.
Proof. intro H. change 1 with (bpow radix2 0). apply bpow_le. exact H. Qed.
Lemma grow k e e' : k <= bpow radix2 10 -> 0 <= k -> (e + 10 <= e')%Z -> k * bpow radix2 e <= bpow radix2 e'.
Proof.
  intros Hk K0 H. eapply Rle_trans; [|apply bpow_le; exact H]. rewrite Z.add_comm, bpow_plus. apply Rmult_le_compat_r; [apply bpow_ge_0|exact Hk].
Qed.
Lemma ten : bpow radix2 10 = 1024. Proof. reflexivity. Qed.
Lemma RN_minus (x y : BN) : Rabs (RN (val x - val y) - (val x - val y)) <= uu * Rabs (val x - val y).
Proof. unfold Rminus at 1 3 4. apply (RN_plus (val x) (- val y)); [apply fmt_val|apply generic_format_opp, fmt_val]. Qed.

(** a - b - c in two steps, then divided by s *)
Definition zval (a b c s : BN) : BN := ndiv (nsub (nsub a b) c) s.
Lemma z_rounded (a b c s : BN) : fin a -> fin b -> fin c -> fin s -> 0 < val s -> val s <= bpow radix2 400 ->
  spread3 fe fl fr a b c <= val s * bpow radix2 400 ->
  let K := spread3 fe fl fr a b c / val s in
  fin (zval a b c s) /\ Rabs (val (zval a b c s) - (val a - val b - val c) / val s) <= 4 * uu * K + tiny /\ Rabs (val (zval a b c s)) <= 101/100 * K + tiny /\ 0 <= K <= bpow radix2 400.
Proof.
  intros Fa Fb Fc Fs S0 S1 HD K. unfold spread3 in *. pose proof (Rabs_pos (val a)) as A0. pose proof (Rabs_pos (val b)) as B0. pose proof (Rabs_pos (val c)) as C0.
  set (D := Rabs (val a) + Rabs (val b) + Rabs (val c)) in *.
  assert (Dab : Rabs (val a) + Rabs (val b) <= D /\ 0 <= D) by (unfold D; lra).
  pose proof uu_pos as U0. pose proof uu_small as U1. pose proof tiny_pos as T0. pose proof tiny_le as T1.
  pose proof (big 400 ltac:(lia)) as B4.
  assert (HD2 : D <= bpow radix2 800).
  { eapply Rle_trans; [exact HD|]. change 800%Z with (400 + 400)%Z. rewrite bpow_plus. apply Rmult_le_compat_r; lra. }
  assert (Bab : Rabs (val a - val b) <= Rabs (val a) + Rabs (val b)).
  { unfold Rminus. eapply Rle_trans; [apply Rabs_triang|]. rewrite Rabs_Ropp. lra. }
  assert (L8 : bpow radix2 800 <= bpow radix2 1000) by (apply bpow_le; lia).
  pose proof (grow 2 800 1000 ltac:(rewrite ten; lra) ltac:(lra) ltac:(lia)) as L9.
  destruct (sub_ok fe fl fr a b 1000 ltac:(lia) Fa Fb) as [F1 V1]; [lra|].
  pose proof (RN_minus a b) as E1. rewrite <- V1 in E1. set (d1 := nsub a b) in *.
  assert (B1 : Rabs (val d1 - val c) <= D + uu * D).
  { assert (X : uu * Rabs (val a - val b) <= uu * D) by (apply Rmult_le_compat_l; lra). 
    assert (Y : Rabs (val d1 - val c) <= Rabs (val d1 - (val a - val b)) + (Rabs (val a - val b) + Rabs (val c))).
    { replace (val d1 - val c) with ((val d1 - (val a - val b)) + ((val a - val b) + - val c)) by ring. eapply Rle_trans; [apply Rabs_triang|]. apply Rplus_le_compat_l.
      eapply Rle_trans; [apply Rabs_triang|]. rewrite Rabs_Ropp. lra. }
    unfold D in *. lra. }
  assert (UD : 0 <= uu * D <= / 1024 * D) by (split; [apply Rmult_le_pos; lra|apply Rmult_le_compat_r; lra]).
  destruct (sub_ok fe fl fr d1 c 1000 ltac:(lia) F1 Fc) as [F2 V2]; [lra|].
  pose proof (RN_minus d1 c) as E2. rewrite <- V2 in E2. set (d2 := nsub d1 c) in *.
  assert (UUD : uu * (uu * D) <= / 1024 * (uu * D)) by (apply Rmult_le_compat_r; lra).
  assert (E2' : Rabs (val d2 - (val d1 - val c)) <= uu * D + uu * (uu * D)).
  { eapply Rle_trans; [exact E2|]. rewrite <- Rmult_plus_distr_l. apply Rmult_le_compat_l; lra. }
  assert (E3 : Rabs (val d2 - (val a - val b - val c)) <= 201/100 * (uu * D)).
  { replace (val d2 - (val a - val b - val c)) with ((val d2 - (val d1 - val c)) + (val d1 - (val a - val b))) by ring.
    eapply Rle_trans; [apply Rabs_triang|]. assert (uu * Rabs (val a - val b) <= uu * D) by (apply Rmult_le_compat_l; unfold D; lra). lra. }
  assert (Babc : Rabs (val a - val b - val c) <= D).
  { unfold Rminus at 1. eapply Rle_trans; [apply Rabs_triang|]. rewrite Rabs_Ropp. unfold D. lra. }
  assert (B2 : Rabs (val d2) <= 101/100 * D).
  { replace (val d2) with ((val d2 - (val a - val b - val c)) + (val a - val b - val c)) by ring. eapply Rle_trans; [apply Rabs_triang|]. lra. }
  assert (I0 : 0 < / val s) by (apply Rinv_0_lt_compat; exact S0).
  assert (KD : K = D * / val s) by reflexivity.
  assert (K0 : 0 <= K <= bpow radix2 400).
  { rewrite KD. split; [apply Rmult_le_pos; unfold D; lra|]. apply (Rmult_le_reg_r (val s)); [exact S0|]. rewrite Rmult_assoc, Rinv_l by lra. lra. }
  assert (Q : Rabs (val d2 / val s) <= 101/100 * K).
  { unfold Rdiv at 1. rewrite Rabs_mult, (Rabs_pos_eq (/ val s)) by lra. rewrite KD, <- Rmult_assoc. apply Rmult_le_compat_r; lra. }
  pose proof (grow 2 400 1000 ltac:(rewrite ten; lra) ltac:(lra) ltac:(lia)) as L5.
  destruct (div_ok fe fl fr d2 s 1000 ltac:(lia) F2) as [F3 V3]; [lra|lra|].
  pose proof (RN_any (val d2 / val s)) as E4. rewrite <- V3 in E4.
  change (ndiv d2 s) with (zval a b c s) in *. set (z := zval a b c s) in *.
  assert (E5 : Rabs (val d2 / val s - (val a - val b - val c) / val s) <= 201/100 * (uu * K)).
  { replace (val d2 / val s - (val a - val b - val c) / val s) with ((val d2 - (val a - val b - val c)) * / val s) by (unfold Rdiv; ring).
    rewrite Rabs_mult, (Rabs_pos_eq (/ val s)) by lra. rewrite KD. replace (201/100 * (uu * (D * / val s))) with (201/100 * (uu * D) * / val s) by ring. apply Rmult_le_compat_r; lra. }
  assert (UK : uu * Rabs (val d2 / val s) <= 101/100 * (uu * K)).
  { replace (101/100 * (uu * K)) with (uu * (101/100 * K)) by ring. apply Rmult_le_compat_l; lra. }
  assert (UK0 : 0 <= uu * K <= / 1024 * K) by (split; [apply Rmult_le_pos; lra|apply Rmult_le_compat_r; lra]).
  split; [exact F3|]. split; [|split; [|exact K0]].
  - replace (val z - (val a - val b - val c) / val s) with ((val z - val d2 / val s) + (val d2 / val s - (val a - val b - val c) / val s)) by ring.
    eapply Rle_trans; [apply Rabs_triang|]. lra.
  - assert (B3 : Rabs ((val a - val b - val c) / val s) <= K).
    { unfold Rdiv. rewrite Rabs_mult, (Rabs_pos_eq (/ val s)) by lra. rewrite KD. apply Rmult_le_compat_r; lra. }
    replace (val z) with ((val z - val d2 / val s) + (val d2 / val s - (val a - val b - val c) / val s) + (val a - val b - val c) / val s) by ring.
    eapply Rle_trans; [apply Rabs_triang|]. eapply Rle_trans; [apply Rplus_le_compat_r, Rabs_triang|]. lra.
Qed.

(** ** LCB *)
Lemma lcb_rounded mn (tau m s : BN) : in_range fe fl fr (ALCB tau) m s ->
  fin (lcb_value mn tau m s) /\ Rabs (val (lcb_value mn tau m s) - lcb mn (val tau) (val m) (val s)) <= uu * (Rabs (val m) + 3 * Rabs (val tau * val s)) + 2 * tiny.
Proof.
  intros (Fm & Fs & Ft & Bm & Bt). pose proof uu_pos as U0. pose proof uu_small as U1. pose proof tiny_pos as T0. pose proof tiny_le as T1.
  assert (L9 : bpow radix2 900 <= bpow radix2 1000) by (apply bpow_le; lia).
  pose proof (grow 4 900 1000 ltac:(rewrite ten; lra) ltac:(lra) ltac:(lia)) as L5. pose proof (big 900 ltac:(lia)) as B9.
  destruct (mul_ok fe fl fr tau s 1000 ltac:(lia) Ft Fs) as [Fp Vp]; [lra|]. set (p := nmul tau s) in *.
  pose proof (RN_any (val tau * val s)) as Ep. rewrite <- Vp in Ep. set (x := val tau * val s) in *. pose proof (Rabs_pos x) as X0. pose proof (Rabs_pos (val m)) as M0.
  assert (UX : 0 <= uu * Rabs x <= / 1024 * Rabs x) by (split; [apply Rmult_le_pos; lra|apply Rmult_le_compat_r; lra]).
  assert (UM : 0 <= uu * Rabs (val m)) by (apply Rmult_le_pos; lra).
  assert (UUX : uu * (uu * Rabs x) <= / 1024 * (uu * Rabs x)) by (apply Rmult_le_compat_r; lra).
  assert (UT : uu * tiny <= / 1024 * tiny) by (apply Rmult_le_compat_r; lra).
  assert (Bp : Rabs (val p) <= Rabs x + (uu * Rabs x + tiny)).
  { replace (val p) with (x + (val p - x)) by ring. eapply Rle_trans; [apply Rabs_triang|]. lra. }
  assert (Fin : forall y : BN, fin y -> Rabs (val y) = Rabs (val m) ->
    fin (nadd y p) /\ Rabs (val (nadd y p) - (val y + x)) <= uu * (Rabs (val m) + 3 * Rabs x) + 2 * tiny).
  { intros y Fy Ey. assert (By : Rabs (val y + val p) <= Rabs (val m) + (Rabs x + (uu * Rabs x + tiny))).
    { eapply Rle_trans; [apply Rabs_triang|]. rewrite Ey. lra. }
    destruct (add_ok fe fl fr y p 1000 ltac:(lia) Fy Fp) as [Fv Vv]; [lra|]. split; [exact Fv|].
    pose proof (RN_plus _ _ (fmt_val y) (fmt_val p)) as E. rewrite <- Vv in E.
    assert (E' : Rabs (val (nadd y p) - (val y + val p)) <= uu * (Rabs (val m) + (Rabs x + (uu * Rabs x + tiny)))).
    { eapply Rle_trans; [exact E|]. apply Rmult_le_compat_l; lra. }
    replace (val (nadd y p) - (val y + x)) with ((val (nadd y p) - (val y + val p)) + (val p - x)) by ring.
    eapply Rle_trans; [apply Rabs_triang|]. lra. }
  unfold lcb, lcb_value. destruct mn.
  - destruct (ofZ_exact fe fl fr (-1) ltac:(lia)) as [F1 V1]. destruct (mul_ok fe fl fr (nofZ (-1)) m 1000 ltac:(lia) F1 Fm) as [Fn Vn].
    { rewrite V1, Rabs_mult. change (IZR (-1)) with (- (1)). rewrite Rabs_Ropp, Rabs_R1. lra. }
    assert (Vn' : val (nmul (nofZ (-1)) m) = - val m).
    { rewrite Vn, V1. replace (IZR (-1) * val m) with (- val m) by (change (IZR (-1)) with (- (1)); ring). apply RN_generic, generic_format_opp, fmt_val. }
    destruct (Fin (nmul (nofZ (-1)) m) Fn) as [A B]; [rewrite Vn', Rabs_Ropp; reflexivity|]. split; [exact A|]. rewrite Vn' in B.
    change (Rabs (val (nadd (nmul (nofZ (-1)) m) p) - (-1 * val m + x)) <= uu * (Rabs (val m) + 3 * Rabs x) + 2 * tiny).
    replace (-1 * val m) with (- val m) by ring. exact B.
  - exact (Fin m Fm eq_refl).
Qed.

Lemma sigma_zero (s : BN) : fin s -> neqb s n0 = Reqb (val s) 0.
Proof.
  intro F. destruct (ofZ_exact fe fl fr 0 ltac:(lia)) as [F0 V0]. change (Beqb (s : b64) (nofZ 0 : BN) = Reqb (val s) 0).
  rewrite (Beqb_correct 53 1024 _ _ F F0). unfold RoundAcqSpec.exact_acq, Reqb. change (B2R (nofZ 0 : BN)) with (val (nofZ 0)). rewrite V0.
  change (B2R (s : b64)) with (val s). destruct (Req_EM_T (val s) 0) as [e|n]; [rewrite e; apply Req_bool_true; reflexivity|apply Req_bool_false; exact n].
Qed.

Variables (cdf pdf : BN -> BN) (d : R).
Hypothesis Hcdf : accurate fe fl fr d cdf norm_cdf.

(** ** PI *)
Lemma pi_rounded mn (eta eps m s : BN) : in_range fe fl fr (API eta eps) m s ->
  fin (pi_value cdf mn eta eps m s) /\ Rabs (val (pi_value cdf mn eta eps m s) - pi mn (val eta) (val eps) (val m) (val s)) <= acq_error fe fl fr d (API eta eps) m s.
Proof.
  intros (Fm & Fs & Fe & Fp & [S0 S1] & HD). unfold acq_error. fold uu. fold tiny. pose proof tiny_pos as T0.
  assert (D0 : 0 <= d). { destruct (ofZ_exact fe fl fr 0 ltac:(lia)) as [F0 _]. pose proof (proj2 (Hcdf _ F0)) as X. pose proof (Rabs_pos (val (cdf (nofZ 0)) - norm_cdf (val (nofZ 0)))). lra. }
  unfold pi_value. rewrite (sigma_zero s Fs). destruct (Req_dec (val s) 0) as [Z|NZ].
  { rewrite Z, Reqb_0, pi_zero. destruct (ofZ_exact fe fl fr 0 ltac:(lia)) as [F0 V0]. split; [exact F0|]. unfold n0. rewrite V0, Rminus_0_r, Rabs_R0. unfold Rdiv. rewrite Rinv_0, !Rmult_0_r. lra. }
  rewrite Reqb_ne by exact NZ. rewrite pi_cdf by exact NZ. destruct HD as [Z|HD]; [congruence|]. assert (Sp : 0 < val s) by lra.
  assert (G : forall a b : BN, fin a -> fin b -> spread3 fe fl fr a b eps = spread3 fe fl fr eta m eps ->
    fin (cdf (zval a b eps s)) /\ Rabs (val (cdf (zval a b eps s)) - norm_cdf ((val a - val b - val eps) / val s)) <= 2 * uu * (spread3 fe fl fr eta m eps / val s) + d + tiny).
  { intros a b Fa Fb E. destruct (z_rounded a b eps s Fa Fb Fp Fs Sp S1) as (Fz & Ez & _ & _); [rewrite E; exact HD|]. rewrite E in Ez.
    destruct (Hcdf _ Fz) as [Fc Ec]. split; [exact Fc|]. pose proof (cdf_lip (val (zval a b eps s)) ((val a - val b - val eps) / val s)) as Lp.
    set (c := val (cdf (zval a b eps s))) in *. set (z := val (zval a b eps s)) in *. set (Z := (val a - val b - val eps) / val s) in *.
    replace (c - norm_cdf Z) with ((c - norm_cdf z) + (norm_cdf z - norm_cdf Z)) by ring. eapply Rle_trans; [apply Rabs_triang|]. lra. }
  destruct mn.
  - exact (G eta m Fe Fm eq_refl).
  - apply (G m eta Fm Fe). unfold spread3. ring.
Qed.

(** ** EI *)
Hypothesis Hpdf : accurate fe fl fr d pdf norm_pdf.
Hypothesis Hd : d <= / 8.
Lemma ei_rounded (eta eps m s : BN) : in_range fe fl fr (AEI eta eps) m s ->
  fin (ei_value cdf pdf eta eps m s) /\ Rabs (val (ei_value cdf pdf eta eps m s) - ei (val eta) (val eps) (val m) (val s)) <= acq_error fe fl fr d (AEI eta eps) m s.
Proof.
  intros (Fm & Fs & Fe & Fp & [S0 S1] & HD). unfold acq_error. fold uu. fold tiny. pose proof tiny_pos as T0. pose proof tiny_le as T1. pose proof uu_pos as U0. pose proof uu_small as U1.
  assert (D0 : 0 <= d). { destruct (ofZ_exact fe fl fr 0 ltac:(lia)) as [F0 _]. pose proof (proj2 (Hcdf _ F0)) as X. pose proof (Rabs_pos (val (cdf (nofZ 0)) - norm_cdf (val (nofZ 0)))). lra. }
  assert (SP : 0 <= spread3 fe fl fr eta m eps). { unfold spread3. pose proof (Rabs_pos (val eta)). pose proof (Rabs_pos (val m)). pose proof (Rabs_pos (val eps)). lra. }
  unfold ei_value. rewrite (sigma_zero s Fs). destruct (Req_dec (val s) 0) as [Z|NZ].
  { rewrite Z, Reqb_0, ei_zero. destruct (ofZ_exact fe fl fr 0 ltac:(lia)) as [F0 V0]. split; [exact F0|]. unfold n0. rewrite V0, Rminus_0_r, Rabs_R0.
    apply Rplus_le_le_0_compat; [apply Rmult_le_pos; lra|lra]. }
  rewrite Reqb_ne by exact NZ. rewrite ei_gain by exact NZ. destruct HD as [Z|HD]; [congruence|]. assert (Sp : 0 < val s) by lra.
  destruct (z_rounded eta m eps s Fe Fm Fp Fs Sp S1 HD) as (Fz & Ez & Bz & K0 & K1). cbv zeta. change (ndiv (nsub (nsub eta m) eps) s) with (zval eta m eps s).
  set (z := zval eta m eps s) in *. set (K := spread3 fe fl fr eta m eps / val s) in *. set (Z := (val eta - val m - val eps) / val s) in *.
  destruct (Hcdf _ Fz) as [Fc Ec]. destruct (Hpdf _ Fz) as [Fq Eq]. pose proof (cdf_bounds (val z)) as Cb. pose proof (pdf_half (val z)) as Pb. pose proof (pdf_pos (val z)) as Pb0.
  pose proof (gain_lip (val z) Z) as Lp. assert (Gz : gain (val z) = val z * norm_cdf (val z) + norm_pdf (val z)) by reflexivity.
  set (c := cdf z) in *. set (q := pdf z) in *. set (x := val z) in *. set (ph := norm_cdf x) in *. set (f := norm_pdf x) in *.
  pose proof (Rabs_pos x) as X0.
  assert (Bc : Rabs (val c) <= 9/8). { replace (val c) with ((val c - ph) + ph) by ring. eapply Rle_trans; [apply Rabs_triang|]. rewrite (Rabs_pos_eq ph) by lra. lra. }
  assert (Bq : Rabs (val q) <= 5/8). { replace (val q) with ((val q - f) + f) by ring. eapply Rle_trans; [apply Rabs_triang|]. rewrite (Rabs_pos_eq f) by lra. lra. }
  assert (Bxc : Rabs (x * val c) <= 115/100 * K + 2 * tiny).
  { rewrite Rabs_mult. apply Rle_trans with ((101/100 * K + tiny) * (9/8)); [apply Rmult_le_compat; lra || apply Rabs_pos|lra]. }
  pose proof (grow 4 400 900 ltac:(rewrite ten; lra) ltac:(lra) ltac:(lia)) as L4. pose proof (big 400 ltac:(lia)) as B4.
  assert (L9 : bpow radix2 900 <= bpow radix2 1000) by (apply bpow_le; lia).
  destruct (mul_ok fe fl fr z c 1000 ltac:(lia) Fz Fc) as [Fr Vr]; [unfold x in *; lra|]. set (r := nmul z c) in *.
  pose proof (RN_any (val z * val c)) as Er. rewrite <- Vr in Er. change (val z * val c) with (x * val c) in Er.
  assert (UK : 0 <= uu * K <= / 1024 * K) by (split; [apply Rmult_le_pos; lra|apply Rmult_le_compat_r; lra]).
  assert (UT : 0 <= uu * tiny <= / 1024 * tiny) by (split; [apply Rmult_le_pos; lra|apply Rmult_le_compat_r; lra]).
  assert (Er' : Rabs (val r - x * val c) <= 115/100 * (uu * K) + 2 * (uu * tiny) + tiny).
  { eapply Rle_trans; [exact Er|]. assert (uu * Rabs (x * val c) <= uu * (115/100 * K + 2 * tiny)) by (apply Rmult_le_compat_l; lra). lra. }
  assert (Br : Rabs (val r + val q) <= 116/100 * K + 1).
  { replace (val r + val q) with ((val r - x * val c) + (x * val c + val q)) by ring. eapply Rle_trans; [apply Rabs_triang|].
    eapply Rle_trans; [apply Rplus_le_compat_l, Rabs_triang|]. lra. }
  destruct (add_ok fe fl fr r q 1000 ltac:(lia) Fr Fq) as [Ft Vt]; [lra|]. set (t := nadd r q) in *.
  pose proof (RN_plus _ _ (fmt_val r) (fmt_val q)) as Et. rewrite <- Vt in Et.
  assert (Et' : Rabs (val t - (val r + val q)) <= uu * (116/100 * K + 1)) by (eapply Rle_trans; [exact Et|]; apply Rmult_le_compat_l; lra).
  assert (Bt : Rabs (val t) <= 117/100 * K + 101/100).
  { replace (val t) with ((val t - (val r + val q)) + (val r + val q)) by ring. eapply Rle_trans; [apply Rabs_triang|]. lra. }
  assert (Exc : Rabs (x * val c - x * ph) <= 101/100 * (d * K) + d * tiny).
  { replace (x * val c - x * ph) with (x * (val c - ph)) by ring. rewrite Rabs_mult. apply Rle_trans with ((101/100 * K + tiny) * d); [apply Rmult_le_compat; lra || apply Rabs_pos|lra]. }
  assert (DK : 0 <= d * K) by (apply Rmult_le_pos; lra). assert (DT : 0 <= d * tiny <= / 8 * tiny) by (split; [apply Rmult_le_pos; lra|apply Rmult_le_compat_r; lra]).
  assert (EG : Rabs (val t - gain Z) <= uu * (64/10 * K + 1) + d * (101/100 * K + 1) + 22/10 * tiny).
  { replace (val t - gain Z) with ((val t - (val r + val q)) + (val r - x * val c) + (x * val c - x * ph) + (val q - f) + (gain x - gain Z)) by (rewrite Gz; ring).
    eapply Rle_trans; [exact (abs_add _ _ _ _ (abs_add _ _ _ _ (abs_add _ _ _ _ (abs_add _ _ _ _ Et' Er') Exc) Eq) (Rle_trans _ _ _ Lp Ez))|]. lra. }
  assert (Bst : Rabs (val s * val t) <= bpow radix2 900).
  { rewrite Rabs_mult, (Rabs_pos_eq (val s)) by lra. change 900%Z with (400 + 500)%Z. rewrite bpow_plus. apply Rmult_le_compat; [lra|apply Rabs_pos|exact S1|].
    eapply Rle_trans; [exact Bt|]. pose proof (grow 4 400 500 ltac:(rewrite ten; lra) ltac:(lra) ltac:(lia)). lra. }
  destruct (mul_ok fe fl fr s t 1000 ltac:(lia) Fs Ft) as [Fw Vw]; [lra|]. split; [exact Fw|].
  pose proof (RN_any (val s * val t)) as Ew. rewrite <- Vw in Ew. set (w := nmul s t) in *.
  assert (SK : spread3 fe fl fr eta m eps = val s * K) by (unfold K; field; lra). rewrite SK.
  assert (E1 : uu * Rabs (val s * val t) <= val s * (uu * (117/100 * K + 101/100))).
  { rewrite Rabs_mult, (Rabs_pos_eq (val s)) by lra. replace (uu * (val s * Rabs (val t))) with (val s * (uu * Rabs (val t))) by ring.
    apply Rmult_le_compat_l; [lra|]. apply Rmult_le_compat_l; lra. }
  assert (E2 : Rabs (val s * val t - val s * gain Z) <= val s * (uu * (64/10 * K + 1) + d * (101/100 * K + 1) + 22/10 * tiny)).
  { replace (val s * val t - val s * gain Z) with (val s * (val t - gain Z)) by ring. rewrite Rabs_mult, (Rabs_pos_eq (val s)) by lra. apply Rmult_le_compat_l; lra. }
  replace (val w - val s * gain Z) with ((val w - val s * val t) + (val s * val t - val s * gain Z)) by ring.
  eapply Rle_trans; [apply abs_add; [exact Ew|exact E2]|].
  assert (P1 : 0 <= val s * (uu * K)) by (apply Rmult_le_pos; lra). assert (P2 : 0 <= val s * (d * K)) by (apply Rmult_le_pos; lra).
  assert (P3 : 0 <= val s * uu) by (apply Rmult_le_pos; lra). assert (P4 : 0 <= val s * d) by (apply Rmult_le_pos; lra). assert (P5 : 0 <= val s * tiny) by (apply Rmult_le_pos; lra).
  lra.
Qed.

(** ** all three, and the candidate that is chosen *)
Theorem acq_rounded (a : acq BN) mn m s : in_range fe fl fr a m s ->
  fin (acq_value cdf pdf a mn m s) /\
  Rabs (val (acq_value cdf pdf a mn m s) - acq_value (N:=RNum) norm_cdf norm_pdf (exact_acq fe fl fr a) mn (val m) (val s)) <= acq_error fe fl fr d a m s.
Proof.
  intro H. destruct a as [eta eps|eta eps|tau]; cbn [acq_value exact_acq].
  - exact (ei_rounded eta eps m s H).
  - exact (pi_rounded mn eta eps m s H).
  - exact (lcb_rounded mn tau m s H).
Qed.
End A.

Section Best.
Variables fe fl fr : b64 -> b64.
Notation BN := (B64 fe fl fr).
Notation val := (val fe fl fr).
Notation fin := (fin fe fl fr).

Theorem optimum_near (predict : list (list BN) -> res (list BN * list BN)) cdf pdf d (a : acq BN) mn (l : list (conf BN)) means stds E :
  accurate fe fl fr d cdf norm_cdf -> accurate fe fl fr d pdf norm_pdf -> d <= / 8 ->
  l <> [] -> predict (map (@c_vec BN) l) = Ok (means, stds) -> length means = length l -> length stds = length l ->
  (forall i m s, nth_error means i = Some m -> nth_error stds i = Some s -> in_range fe fl fr a m s /\ acq_error fe fl fr d a m s <= E) ->
  exists i c m s, get_optimum predict cdf pdf a mn (DList l) = Ok (EConf c) /\ nth_error l i = Some c /\ nth_error means i = Some m /\ nth_error stds i = Some s /\
    forall j m' s', nth_error means j = Some m' -> nth_error stds j = Some s' ->
      acq_value (N:=RNum) norm_cdf norm_pdf (exact_acq fe fl fr a) mn (val m') (val s') <= acq_value (N:=RNum) norm_cdf norm_pdf (exact_acq fe fl fr a) mn (val m) (val s) + 2 * E.
Proof.
  intros Hc Hp Hd NE P Lm Ls R.
  assert (C : exists v, acq_call predict cdf pdf a mn (XList (map IConf l)) = Ok v).
  { unfold acq_call. change (convert_configs (XList (map IConf l))) with (convert_configs (as_input (DList l))). rewrite convert_list, P. cbn [bind fst snd]. unfold elementwise.
    rewrite Lm, Ls, Nat.eqb_refl. eauto. }
  destruct C as (v & C). destruct (acq_call_values predict cdf pdf _ _ _ _ C) as (means' & stds' & P' & _ & Lv & V).
  change (convert_configs (XList (map IConf l))) with (convert_configs (as_input (DList l))) in P'. rewrite convert_list in P'. assert (means' = means /\ stds' = stds) as [-> ->] by (rewrite P in P'; split; congruence).
  assert (W : forall i x, nth_error v i = Some x -> exists m s, nth_error means i = Some m /\ nth_error stds i = Some s /\ x = acq_value cdf pdf a mn m s).
  { intros i x Hx. assert (Hi : (i < length v)%nat) by (apply nth_error_Some; congruence).
    destruct (nth_error means i) as [m|] eqn:Em; [|apply nth_error_None in Em; lia]. destruct (nth_error stds i) as [s|] eqn:Es; [|apply nth_error_None in Es; lia].
    exists m, s. refine (conj eq_refl (conj eq_refl _)). pose proof (V i m s Em Es). congruence. }
  assert (K : forall i m s, nth_error means i = Some m -> nth_error stds i = Some s -> fin (acq_value cdf pdf a mn m s) /\
    Rabs (val (acq_value cdf pdf a mn m s) - acq_value (N:=RNum) norm_cdf norm_pdf (exact_acq fe fl fr a) mn (val m) (val s)) <= E).
  { intros i m s Em Es. destruct (R i m s Em Es) as [IR B]. destruct (acq_rounded fe fl fr cdf pdf d Hc Hp Hd a mn m s IR) as [F A]. split; [exact F|lra]. }
  destruct (optimum_best (B64_order_laws fe fl fr) predict cdf pdf a mn l v NE C) as (i & c & x & _ & O & Hl & B1 & B2 & _).
  { lia. }
  { apply Forall_forall. intros x Hx. destruct (In_nth_error _ _ Hx) as (i & Hi). destruct (W i x Hi) as (m & s & Em & Es & ->). apply fin_ordinary. exact (proj1 (K i m s Em Es)). }
  destruct (W i x B1) as (m & s & Em & Es & ->). exists i, c, m, s. refine (conj O (conj Hl (conj Em (conj Es _)))).
  intros j m' s' Em' Es'. destruct (K i m s Em Es) as [F A]. destruct (K j m' s' Em' Es') as [F' A'].
  pose proof (B2 j _ (V j m' s' Em' Es')) as Q. apply (b64_le fe fl fr _ _ F' F) in Q. apply Rabs_le_inv in A, A'.
  eapply Rle_trans; [|apply Rplus_le_compat_r, Rle_refl]. lra.
Qed.
End Best.
