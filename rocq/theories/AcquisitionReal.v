(** AcquisitionReal.v - the acquisition functions over the reals (C48, C49). *)
From Verif Require Import Base Num NumpyModel ConfigSpaceModel SamplerModel AcquisitionModel Gauss.
From Coq Require Import Reals Lra.
From Coquelicot Require Import Coquelicot.
Local Open Scope R_scope.

Lemma cont_of_derive (f : R -> R) (x : R) : ex_derive f x -> continuity_pt f x.
Proof. intro H. apply continuity_pt_filterlim. exact (ex_derive_continuous (V := R_NormedModule) f x H). Qed.
Lemma continuous_of_derive (f : R -> R) (x : R) : ex_derive f x -> continuous f x.
Proof. intro H. exact (ex_derive_continuous (V := R_NormedModule) f x H). Qed.

(** ** the function z Phi(z) + phi(z) *)
Definition gain (z : R) : R := z * norm_cdf z + norm_pdf z.
Lemma gain_derive (z : R) : is_derive gain z (norm_cdf z).
Proof.
  unfold gain. auto_derive.
  - refine (conj _ (conj _ I)); [exists (norm_pdf z); exact (cdf_derive z)|eexists; exact (pdf_derive z)].
  - rewrite (is_derive_unique (fun x : R => norm_cdf x) z _ (cdf_derive z)), (is_derive_unique (fun x : R => norm_pdf x) z _ (pdf_derive z)). ring.
Qed.
Lemma gain_increasing a b : a < b -> gain a < gain b.
Proof. apply (increasing_of_derive gain norm_cdf); [apply gain_derive|]. intro x. apply cdf_bounds. Qed.
Lemma gain_nondecreasing a b : a <= b -> gain a <= gain b.
Proof. intros [H| ->]; [left; apply gain_increasing; exact H|lra]. Qed.
Lemma pdf_lim_m : is_lim norm_pdf m_infty 0.
Proof.
  pose proof gnorm_pos as P. apply (is_lim_ext (fun t => / gnorm * gexp t)); [intro y; unfold norm_pdf; field; lra|].
  replace (Finite 0) with (Rbar_mult (/ gnorm) 0) by (cbn; f_equal; ring). apply is_lim_scal_l. apply gexp_lim_m.
Qed.
Lemma lin_lim_m c : is_lim (fun t => c * norm_cdf t + norm_pdf t) m_infty 0.
Proof.
  replace (Finite 0) with (Rbar_plus 0 0) by (cbn; f_equal; ring). apply is_lim_plus with (lf := 0) (lg := 0); [|apply pdf_lim_m|cbn; reflexivity].
  replace (Finite 0) with (Rbar_mult c 0) by (cbn; f_equal; ring). apply is_lim_scal_l. apply cdf_lim_m.
Qed.
Lemma tail_mono z t : t < z -> z * norm_cdf t + norm_pdf t <= gain z.
Proof.
  intro H. unfold gain. destruct (MVT_gen (fun u => z * norm_cdf u + norm_pdf u) t z (fun u => (z - u) * norm_pdf u)) as (c & Hc & E).
  - intros x _. auto_derive.
    + refine (conj _ (conj _ I)); [exists (norm_pdf x); exact (cdf_derive x)|eexists; exact (pdf_derive x)].
    + rewrite (is_derive_unique (fun x : R => norm_cdf x) x _ (cdf_derive x)), (is_derive_unique (fun x : R => norm_pdf x) x _ (pdf_derive x)). ring.
  - intros x _. apply cont_of_derive. auto_derive.
    refine (conj _ (conj _ I)); [exists (norm_pdf x); exact (cdf_derive x)|eexists; exact (pdf_derive x)].
  - rewrite Rmin_left, Rmax_right in Hc by lra. cbv beta in E. pose proof (pdf_pos c) as P. assert (Hle : 0 <= (z - c) * norm_pdf c * (z - t)) by (apply Rmult_le_pos; [apply Rmult_le_pos|]; lra). lra.
Qed.
Lemma gain_nonneg z : 0 <= gain z.
Proof.
  change (Rbar_le 0 (gain z)). apply (is_lim_le_loc (fun t => z * norm_cdf t + norm_pdf t) (fun _ => gain z) m_infty).
  - exists z. intros t Ht. apply tail_mono. exact Ht.
  - apply lin_lim_m.
  - apply is_lim_const.
Qed.
Lemma gain_pos z : 0 < gain z.
Proof. pose proof (gain_nonneg (z - 1)). pose proof (gain_increasing (z - 1) z). lra. Qed.
Lemma gain_opp z : gain z = z + gain (- z).
Proof. unfold gain. rewrite cdf_opp, pdf_even. ring. Qed.
Lemma gain_above z : z < gain z.
Proof. rewrite gain_opp. pose proof (gain_pos (- z)). lra. Qed.

(** the integral of the positive part *)
Lemma gain_part z a : is_RInt (fun t => (z - t) * norm_pdf t) a z (gain z - (z * norm_cdf a + norm_pdf a)).
Proof.
  replace (gain z - (z * norm_cdf a + norm_pdf a)) with (minus ((fun u => z * norm_cdf u + norm_pdf u) z) ((fun u => z * norm_cdf u + norm_pdf u) a)) by (unfold gain, minus, plus, opp; cbn; ring).
  apply (is_RInt_derive (V := R_CompleteNormedModule) (fun u => z * norm_cdf u + norm_pdf u)); intros x _.
  - auto_derive.
    + refine (conj _ (conj _ I)); [exists (norm_pdf x); exact (cdf_derive x)|eexists; exact (pdf_derive x)].
    + rewrite (is_derive_unique (fun x : R => norm_cdf x) x _ (cdf_derive x)), (is_derive_unique (fun x : R => norm_pdf x) x _ (pdf_derive x)). ring.
  - apply continuous_of_derive. auto_derive. eexists; exact (pdf_derive x).
Qed.
Lemma gain_integral z : is_RInt_gen (fun t => Rmax (z - t) 0 * norm_pdf t) (Rbar_locally m_infty) (Rbar_locally p_infty) (gain z).
Proof.
  intros P [eps HP]. pose proof (lin_lim_m z) as L. unfold is_lim in L.
  assert (L' : Rbar_locally m_infty (fun a => Rabs (z * norm_cdf a + norm_pdf a) < eps)).
  { specialize (L (fun y => Rabs y < eps)). apply L. exists eps. intros y Hy. change (Rabs (y + - 0) < eps) in Hy. rewrite Ropp_0, Rplus_0_r in Hy. exact Hy. }
  apply Filter_prod with (Q := fun a => a < z /\ Rabs (z * norm_cdf a + norm_pdf a) < eps) (R := fun b => z < b).
  - apply filter_and; [exists z; auto|exact L'].
  - exists z; auto.
  - intros a b [Ha Hs] Hb. exists (gain z - (z * norm_cdf a + norm_pdf a)). split.
    + cbn [fst snd]. replace (gain z - (z * norm_cdf a + norm_pdf a)) with (plus (gain z - (z * norm_cdf a + norm_pdf a)) (scal (b - z) 0)) by (unfold plus, scal; cbn; unfold mult; cbn; ring).
      apply (is_RInt_Chasles (V := R_NormedModule)) with z.
      * apply (is_RInt_ext (V := R_NormedModule) (fun t => (z - t) * norm_pdf t)); [|apply gain_part]. intros x. rewrite Rmin_left, Rmax_right by lra. intro Hx. rewrite Rmax_left by lra. reflexivity.
      * apply (is_RInt_ext (V := R_NormedModule) (fun t => 0)); [|apply (is_RInt_const (V := R_NormedModule))]. intros x. rewrite Rmin_left, Rmax_right by lra. intro Hx. rewrite Rmax_right by lra. symmetry. apply Rmult_0_l.
    + apply HP. change (Rabs (gain z - (z * norm_cdf a + norm_pdf a) + - gain z) < eps). replace (gain z - (z * norm_cdf a + norm_pdf a) + - gain z) with (- (z * norm_cdf a + norm_pdf a)) by ring. rewrite Rabs_Ropp. exact Hs.
Qed.
(** norm.cdf is the integral of the density from -inf *)
Lemma cdf_integral z : is_RInt_gen norm_pdf (Rbar_locally m_infty) (at_point z) (norm_cdf z).
Proof.
  intros P [eps HP]. pose proof cdf_lim_m as L. unfold is_lim in L.
  assert (L' : Rbar_locally m_infty (fun a => Rabs (norm_cdf a) < eps)).
  { specialize (L (fun y => Rabs y < eps)). apply L. exists eps. intros y Hy. change (Rabs (y + - 0) < eps) in Hy. rewrite Ropp_0, Rplus_0_r in Hy. exact Hy. }
  apply Filter_prod with (Q := fun a => Rabs (norm_cdf a) < eps) (R := fun b => b = z).
  - exact L'.
  - reflexivity.
  - intros a b Hs ->. exists (minus (norm_cdf z) (norm_cdf a)). split.
    + apply (is_RInt_derive (V := R_CompleteNormedModule) norm_cdf); intros x _; [apply cdf_derive|]. apply continuous_of_derive. eexists; apply pdf_derive.
    + apply HP. change (Rabs (norm_cdf z + - norm_cdf a + - norm_cdf z) < eps). replace (norm_cdf z + - norm_cdf a + - norm_cdf z) with (- norm_cdf a) by ring. rewrite Rabs_Ropp. exact Hs.
Qed.

(** ** C49: expected improvement *)
Definition ei : R -> R -> R -> R -> R := ei_value (N:=RNum) norm_cdf norm_pdf.
Definition pi : bool -> R -> R -> R -> R -> R := pi_value (N:=RNum) norm_cdf.
Definition lcb : bool -> R -> R -> R -> R := lcb_value (N:=RNum).
Lemma Reqb_0 : Reqb 0 0 = true. Proof. unfold Reqb. destruct (Req_EM_T 0 0); congruence. Qed.
Lemma Reqb_ne s : s <> 0 -> Reqb s 0 = false. Proof. unfold Reqb. destruct (Req_EM_T s 0); congruence. Qed.
Lemma ei_zero eta eps mean : ei eta eps mean 0 = 0.
Proof. unfold ei, ei_value. cbn [neqb RNum]. change (@n0 RNum) with 0. change (@neqb RNum) with Reqb. rewrite Reqb_0. reflexivity. Qed.
Lemma ei_gain eta eps mean s : s <> 0 -> ei eta eps mean s = s * gain ((eta - mean - eps) / s).
Proof. intro H. unfold ei, ei_value. change (@n0 RNum) with 0. change (@neqb RNum) with Reqb. rewrite Reqb_ne by exact H. reflexivity. Qed.
Theorem ei_nonneg eta eps mean s : 0 <= s -> 0 <= ei eta eps mean s.
Proof. intros [H| <-]; [|rewrite ei_zero; lra]. rewrite ei_gain by lra. apply Rmult_le_pos; [lra|apply gain_nonneg]. Qed.
Theorem ei_pos eta eps mean s : 0 < s -> 0 < ei eta eps mean s.
Proof. intro H. rewrite ei_gain by lra. apply Rmult_lt_0_compat; [lra|apply gain_pos]. Qed.
Theorem ei_above eta eps mean s : 0 < s -> eta - mean - eps < ei eta eps mean s.
Proof.
  intro H. rewrite ei_gain by lra. pose proof (gain_above ((eta - mean - eps) / s)) as G. apply (Rmult_lt_compat_l s) in G; [|exact H].
  replace (s * ((eta - mean - eps) / s)) with (eta - mean - eps) in G by (field; lra). exact G.
Qed.
Theorem ei_increasing eta eta' eps mean s : 0 < s -> eta < eta' -> ei eta eps mean s < ei eta' eps mean s.
Proof.
  intros H He. rewrite !ei_gain by lra. apply Rmult_lt_compat_l; [exact H|]. apply gain_increasing. unfold Rdiv. apply Rmult_lt_compat_r; [apply Rinv_0_lt_compat; exact H|lra].
Qed.
Theorem ei_mean_decreasing eta eps mean mean' s : 0 < s -> mean < mean' -> ei eta eps mean' s < ei eta eps mean s.
Proof.
  intros H He. rewrite !ei_gain by lra. apply Rmult_lt_compat_l; [exact H|]. apply gain_increasing. unfold Rdiv. apply Rmult_lt_compat_r; [apply Rinv_0_lt_compat; exact H|lra].
Qed.
(** in sigma: s * gain (a / s) has derivative phi(a / s) *)
Theorem ei_sigma_increasing eta eps mean s s' : 0 < s -> s < s' -> ei eta eps mean s < ei eta eps mean s'.
Proof.
  intros H He. rewrite !ei_gain by lra. set (a := eta - mean - eps).
  assert (D : forall x, 0 < x -> is_derive (fun x => x * gain (a / x)) x (norm_pdf (a / x))).
  { intros x Hx. auto_derive.
    - split; [eexists; exact (gain_derive (a * / x))|]. split; [lra|exact I].
    - rewrite (is_derive_unique (fun x : R => gain x) (a * / x) _ (gain_derive (a * / x))). unfold gain, Rdiv. field. lra. }
  destruct (MVT_gen (fun x => x * gain (a / x)) s s' (fun x => norm_pdf (a / x))) as (c & Hc & E).
  - intros x. rewrite Rmin_left, Rmax_right by lra. intro Hx. apply D. lra.
  - intros x. rewrite Rmin_left, Rmax_right by lra. intro Hx. apply cont_of_derive. eexists. apply D. lra.
  - cbv beta in E. pose proof (pdf_pos (a / c)) as P. assert (0 < norm_pdf (a / c) * (s' - s)) by (apply Rmult_lt_0_compat; lra). lra.
Qed.
(** the expectation of the improvement max(eta - eps - Y, 0) for Y = mean + sigma T, T standard normal *)
Theorem ei_expectation eta eps mean s : 0 < s ->
  is_RInt_gen (fun t => Rmax (eta - eps - (mean + s * t)) 0 * norm_pdf t) (Rbar_locally m_infty) (Rbar_locally p_infty) (ei eta eps mean s).
Proof.
  intro H. rewrite ei_gain by lra. set (z := (eta - mean - eps) / s).
  apply (is_RInt_gen_ext (fun t => scal s (Rmax (z - t) 0 * norm_pdf t))).
  - apply filter_forall. intros [a b] t _. unfold scal; cbn; unfold mult; cbn. rewrite <- Rmult_assoc. f_equal. rewrite <- RmaxRmult by lra. f_equal; [|ring]. unfold z. field. lra.
  - apply (is_RInt_gen_scal (V := R_NormedModule) (fun t => Rmax (z - t) 0 * norm_pdf t) s (gain z)). apply gain_integral.
Qed.

(** ** C48: probability of improvement, lower confidence bound *)
Lemma pi_zero mn eta eps mean : pi mn eta eps mean 0 = 0.
Proof. unfold pi, pi_value. change (@n0 RNum) with 0. change (@neqb RNum) with Reqb. rewrite Reqb_0. reflexivity. Qed.
Lemma pi_cdf (mn : bool) eta eps mean s : s <> 0 -> pi mn eta eps mean s = norm_cdf ((if mn then eta - mean - eps else mean - eta - eps) / s).
Proof. intro H. unfold pi, pi_value. change (@n0 RNum) with 0. change (@neqb RNum) with Reqb. rewrite Reqb_ne by exact H. destruct mn; reflexivity. Qed.
Theorem pi_range mn eta eps mean s : 0 <= pi mn eta eps mean s < 1.
Proof. destruct (Req_dec s 0) as [->|H]; [rewrite pi_zero; lra|]. rewrite pi_cdf by exact H. pose proof (cdf_bounds ((if mn then eta - mean - eps else mean - eta - eps) / s)). lra. Qed.
Theorem pi_eta (mn : bool) eta eta' eps mean s : 0 < s -> eta < eta' -> if mn then pi mn eta eps mean s < pi mn eta' eps mean s else pi mn eta' eps mean s < pi mn eta eps mean s.
Proof.
  intros H He. destruct mn; rewrite !pi_cdf by lra; apply cdf_increasing; unfold Rdiv; (apply Rmult_lt_compat_r; [apply Rinv_0_lt_compat; exact H|lra]).
Qed.
Theorem pi_mean (mn : bool) eta eps mean mean' s : 0 < s -> mean < mean' -> if mn then pi mn eta eps mean' s < pi mn eta eps mean s else pi mn eta eps mean s < pi mn eta eps mean' s.
Proof.
  intros H He. destruct mn; rewrite !pi_cdf by lra; apply cdf_increasing; unfold Rdiv; (apply Rmult_lt_compat_r; [apply Rinv_0_lt_compat; exact H|lra]).
Qed.
Theorem pi_eps (mn : bool) eta eps eps' mean s : 0 < s -> eps < eps' -> pi mn eta eps' mean s < pi mn eta eps mean s.
Proof.
  intros H He. destruct mn; rewrite !pi_cdf by lra; apply cdf_increasing; unfold Rdiv; (apply Rmult_lt_compat_r; [apply Rinv_0_lt_compat; exact H|lra]).
Qed.
Theorem pi_half (mn : bool) eta eps mean s : 0 < s -> (/ 2 <= pi mn eta eps mean s <-> if mn then eps <= eta - mean else eps <= mean - eta).
Proof.
  intros H. rewrite pi_cdf by lra. set (d := if mn then eta - mean - eps else mean - eta - eps).
  assert (E : (if mn then eps <= eta - mean else eps <= mean - eta) <-> 0 <= d) by (unfold d; destruct mn; lra). rewrite E. clear E. rewrite <- cdf_0. split; intro Hc.
  - destruct (Rle_dec 0 d) as [|Hn]; [assumption|]. exfalso. assert (d / s < 0). { apply Rlt_div_l; lra. } pose proof (cdf_increasing (d / s) 0). lra.
  - assert (Hd : 0 <= d / s) by (apply Rdiv_le_0_compat; lra). destruct Hd as [Hd| <-]; [left; apply cdf_increasing; exact Hd|lra].
Qed.
(** the probability that Y = mean + sigma T is at most eta - eps (at least eta + eps) *)
Theorem pi_probability eta eps mean s : 0 < s ->
  is_RInt_gen norm_pdf (Rbar_locally m_infty) (at_point ((eta - eps - mean) / s)) (pi true eta eps mean s) /\
  is_RInt_gen norm_pdf (Rbar_locally m_infty) (at_point (- ((eta + eps - mean) / s))) (pi false eta eps mean s).
Proof.
  intro H. rewrite !pi_cdf by lra. split.
  - replace ((eta - eps - mean) / s) with ((eta - mean - eps) / s) by (field; lra). apply cdf_integral.
  - replace (- ((eta + eps - mean) / s)) with ((mean - eta - eps) / s) by (field; lra). apply cdf_integral.
Qed.

Lemma lcb_eq (mn : bool) tau mean s : lcb mn tau mean s = (if mn then - mean else mean) + tau * s.
Proof. unfold lcb, lcb_value. destruct mn; cbn; ring. Qed.
Theorem lcb_mono (mn : bool) tau tau' mean mean' s s' :
  (0 < s -> tau < tau' -> lcb mn tau mean s < lcb mn tau' mean s) /\
  (0 < tau -> s < s' -> lcb mn tau mean s < lcb mn tau mean s') /\
  (mean < mean' -> if mn then lcb mn tau mean' s < lcb mn tau mean s else lcb mn tau mean s < lcb mn tau mean' s).
Proof. rewrite !lcb_eq. refine (conj _ (conj _ _)); intros; [nra|nra|]. destruct mn; lra. Qed.

Theorem ei_below : exists eta eps mean : R, ei eta eps mean 0 < eta - mean - eps.
Proof. exists 1, 0, 0. rewrite ei_zero. lra. Qed.
Theorem acq_samples : pi true 3 1 2 (1/2) = / 2 /\ pi false 3 1 4 (1/2) = / 2 /\ lcb true 5 2 (1/2) = 1/2 /\ lcb false 5 2 (1/2) = 9/2.
Proof.
  rewrite !pi_cdf, !lcb_eq by lra. replace ((3 - 2 - 1) / (1 / 2)) with 0 by field. replace ((4 - 3 - 1) / (1 / 2)) with 0 by field.
  refine (conj cdf_0 (conj cdf_0 (conj _ _))); lra.
Qed.
Theorem ei_samples : ei 3 1 2 2 = 2 * norm_pdf 0 /\ 0 < norm_pdf 0 /\ acq_new (N:=RNum) (CEI (0 : RNum)) true = Ok (AEI (0 : RNum) (0 : RNum), true).
Proof.
  refine (conj _ (conj (pdf_pos 0) eq_refl)). rewrite ei_gain by lra. replace ((3 - 2 - 1) / 2) with 0 by field. unfold gain. rewrite Rmult_0_l, Rplus_0_l. reflexivity.
Qed.
