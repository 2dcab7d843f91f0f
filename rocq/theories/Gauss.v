(** Gauss.v - the normal density and distribution function: the Gaussian integral, limits,
    symmetry, monotonicity, the tail bound. *)
From Coq Require Import Reals Lra Lia.
From Coquelicot Require Import Coquelicot.
Local Open Scope R_scope.

Lemma RInt_scalR (f : R -> R) a b l : ex_RInt f a b -> RInt (fun t => l * f t) a b = l * RInt f a b.
Proof. intro H. exact (RInt_scal (V := R_CompleteNormedModule) f a b l H). Qed.
Lemma RInt_linR (f : R -> R) u v a b : ex_RInt f (u * a + v) (u * b + v) -> RInt (fun y => u * f (u * y + v)) a b = RInt f (u * a + v) (u * b + v).
Proof. intro H. exact (RInt_comp_lin (V := R_CompleteNormedModule) f u v a b H). Qed.
Lemma ex_RInt_linR (f : R -> R) u v a b : ex_RInt f (u * a + v) (u * b + v) -> ex_RInt (fun y => u * f (u * y + v)) a b.
Proof. intro H. exact (ex_RInt_comp_lin (V := R_NormedModule) f u v a b H). Qed.
Lemma RInt_constR (c a b : R) : RInt (fun _ => c) a b = (b - a) * c.
Proof. exact (RInt_const (V := R_CompleteNormedModule) a b c). Qed.

Ltac toR := lazymatch goal with |- @eq _ ?a ?b => change (@eq R a b) end.
Definition gexp (t : R) : R := exp (- (t * t) / 2).
Lemma gexp_pos (t : R) : 0 < gexp t. Proof. apply exp_pos. Qed.
Lemma gexp_derive (t : R) : is_derive gexp t (- t * gexp t).
Proof. unfold gexp. auto_derive; [trivial|]. unfold Rdiv. set (e := exp _). field. Qed.
Lemma gexp_cont (t : R) : continuous gexp t.
Proof. apply (@ex_derive_continuous R_AbsRing R_NormedModule). eexists. apply gexp_derive. Qed.
Lemma gexp_int a b : ex_RInt gexp a b.
Proof. apply (ex_RInt_continuous (V := R_CompleteNormedModule)). intros. apply gexp_cont. Qed.

Definition gint (x : R) : R := RInt gexp 0 x.
Lemma gint_derive (x : R) : is_derive gint x (gexp x).
Proof. apply (is_derive_RInt gexp gint 0 x); [|apply gexp_cont]. exists (mkposreal 1 Rlt_0_1). intros y _. apply (RInt_correct (V := R_CompleteNormedModule)), gexp_int. Qed.
Lemma gint_0 : gint 0 = 0. Proof. apply (RInt_point (V := R_CompleteNormedModule)). Qed.
Lemma gint_opp (x : R) : gint (- x) = - gint x.
Proof.
  unfold gint. pose proof (RInt_linR gexp (-1) 0 0 x (gexp_int _ _)) as H. replace (-1 * 0 + 0) with 0 in H by ring. replace (-1 * x + 0) with (- x) in H by ring.
  rewrite <- H. rewrite (RInt_ext _ (fun y => -1 * gexp y)).
  - rewrite RInt_scalR by apply gexp_int. ring.
  - intros y _. f_equal. unfold gexp. f_equal. field.
Qed.

(** the auxiliary integral *)
Definition gaux (u t : R) : R := 2 * exp (- (u * u) * (1 + t * t) / 2) / (1 + t * t).
Definition gaux' (u t : R) : R := - 2 * u * exp (- (u * u) * (1 + t * t) / 2).
Lemma one_sqr (t : R) : 0 < 1 + t * t. Proof. nra. Qed.
Lemma gaux_derive (t u : R) : is_derive (fun z => gaux z t) u (gaux' u t).
Proof. unfold gaux, gaux'. pose proof (one_sqr t). auto_derive; [trivial|]. unfold Rdiv. set (e := exp _). field. lra. Qed.
Lemma gaux_cont (u t : R) : continuous (gaux u) t.
Proof. apply (@ex_derive_continuous R_AbsRing R_NormedModule). unfold gaux. pose proof (one_sqr t). auto_derive. lra. Qed.
Lemma gaux_int u a b : ex_RInt (gaux u) a b.
Proof. apply (ex_RInt_continuous (V := R_CompleteNormedModule)). intros. apply gaux_cont. Qed.
Lemma gaux'_2d u t : continuity_2d_pt gaux' u t.
Proof.
  unfold gaux'. apply continuity_2d_pt_mult.
  - apply continuity_2d_pt_mult; [apply continuity_2d_pt_const|apply continuity_2d_pt_id1].
  - apply (continuity_1d_2d_pt_comp exp (fun u t => - (u * u) * (1 + t * t) / 2)).
    + apply derivable_continuous_pt, derivable_pt_exp.
    + unfold Rdiv. repeat first [apply continuity_2d_pt_mult | apply continuity_2d_pt_plus | apply continuity_2d_pt_opp | apply continuity_2d_pt_const | apply continuity_2d_pt_id1 | apply continuity_2d_pt_id2].
Qed.
Definition gG (u : R) : R := RInt (gaux u) 0 1.
Lemma gG_derive (u : R) : is_derive gG u (- 2 * gexp u * gint u).
Proof.
  assert (D : forall x t, Derive (fun z => gaux z t) x = gaux' x t) by (intros; apply is_derive_unique, gaux_derive).
  assert (H : is_derive gG u (RInt (fun t => Derive (fun z => gaux z t) u) 0 1)).
  { apply (is_derive_RInt_param (fun x t => gaux x t) 0 1 u).
    - exists (mkposreal 1 Rlt_0_1). intros y _ t _. eexists. apply gaux_derive.
    - intros t _. apply (continuity_2d_pt_ext gaux'); [intros; symmetry; apply D|apply gaux'_2d].
    - exists (mkposreal 1 Rlt_0_1). intros y _. apply gaux_int. }
  replace (-2 * gexp u * gint u) with (RInt (fun t => Derive (fun z => gaux z t) u) 0 1); [exact H|].
  rewrite (RInt_ext _ (fun t => (-2 * gexp u) * (u * gexp (u * t + 0)))).
  - rewrite RInt_scalR.
    + rewrite (RInt_linR gexp u 0 0 1 (gexp_int _ _)). replace (u * 0 + 0) with 0 by ring. replace (u * 1 + 0) with u by ring. reflexivity.
    + apply (ex_RInt_linR gexp u 0 0 1). apply gexp_int.
  - intros t _. rewrite D. unfold gaux', gexp.
    replace (- (u * u) * (1 + t * t) / 2) with (- (u * u) / 2 + - ((u * t + 0) * (u * t + 0)) / 2) by field. rewrite exp_plus. toR. ring.
Qed.
Lemma gG_0 : gG 0 = PI / 2.
Proof.
  unfold gG. rewrite (RInt_ext _ (fun t => 2 * (/ (1 + t²)))).
  - rewrite RInt_scalR.
    + rewrite (is_RInt_unique (fun t => / (1 + t²)) 0 1 (minus (atan 1) (atan 0))).
      * rewrite atan_1, atan_0. unfold minus, plus, opp; cbn. field.
      * apply (is_RInt_derive atan); intros t _; [apply is_derive_atan|]. apply (@ex_derive_continuous R_AbsRing R_NormedModule). unfold Rsqr. pose proof (one_sqr t). auto_derive. lra.
    + apply (ex_RInt_continuous (V := R_CompleteNormedModule)). intros t _. apply (@ex_derive_continuous R_AbsRing R_NormedModule). unfold Rsqr. pose proof (one_sqr t). auto_derive. lra.
  - intros t _. unfold gaux, Rsqr. pose proof (one_sqr t). replace (- (0 * 0) * (1 + t * t) / 2) with 0 by field. rewrite exp_0. toR. field. lra.
Qed.
Lemma gsum (x : R) : gint x * gint x + gG x = PI / 2.
Proof.
  rewrite <- gG_0. replace (gG 0) with (gint 0 * gint 0 + gG 0) by (rewrite gint_0; ring).
  assert (D : forall t, is_derive (fun t => gint t * gint t + gG t) t zero).
  { intro t. change (is_derive (fun t => gint t * gint t + gG t) t 0). auto_derive.
    - refine (conj _ (conj _ (conj _ I))); [exists (gexp t); exact (gint_derive t)|exists (gexp t); exact (gint_derive t)|eexists; exact (gG_derive t)].
    - rewrite (is_derive_unique (fun x : R => gint x) t _ (gint_derive t)), (is_derive_unique (fun x : R => gG x) t _ (gG_derive t)). ring. }
  destruct (Rtotal_order 0 x) as [H|[<-|H]]; [|reflexivity|].
  - symmetry. apply (eq_is_derive (V := R_NormedModule) (fun t => gint t * gint t + gG t) 0 x); auto.
  - apply (eq_is_derive (V := R_NormedModule) (fun t => gint t * gint t + gG t) x 0); auto.
Qed.
Lemma gG_bounds (x : R) : 0 < gG x <= 2 * gexp x.
Proof.
  assert (C : RInt (fun _ => 2 * gexp x) 0 1 = 2 * gexp x) by (rewrite RInt_constR; toR; ring).
  assert (P : forall t, 0 < gaux x t) by (intro t; unfold gaux; apply Rdiv_lt_0_compat; [pose proof (exp_pos (- (x * x) * (1 + t * t) / 2)); lra|apply one_sqr]).
  split.
  - unfold gG. apply (RInt_gt_0 (gaux x) 0 1); [lra|intros; apply P|intros; apply gaux_cont].
  - rewrite <- C. apply RInt_le; [lra|apply gaux_int|apply ex_RInt_const|]. intros t _. unfold gaux, gexp. pose proof (one_sqr t) as O.
    pose proof (exp_pos (- (x * x) / 2)) as E. apply Rle_trans with (2 * exp (- (x * x) * (1 + t * t) / 2)).
    + apply Rle_div_l; [lra|]. pose proof (exp_pos (- (x * x) * (1 + t * t) / 2)). nra.
    + apply Rmult_le_compat_l; [lra|]. assert (L : - (x * x) * (1 + t * t) / 2 <= - (x * x) / 2) by nra. destruct (Rle_lt_or_eq_dec _ _ L) as [L'| ->]; [left; apply exp_increasing; exact L'|lra].
Qed.
Lemma gint_bound (x : R) : gint x * gint x < PI / 2.
Proof. pose proof (gsum x). pose proof (gG_bounds x). lra. Qed.

(** ** density and distribution function *)
Definition gnorm : R := sqrt (2 * PI).
Lemma gnorm_pos : 0 < gnorm. Proof. apply sqrt_lt_R0. pose proof PI_RGT_0. lra. Qed.
Lemma gnorm_sqr : gnorm * gnorm = 2 * PI. Proof. apply sqrt_sqrt. pose proof PI_RGT_0. lra. Qed.
Definition norm_pdf (t : R) : R := gexp t / gnorm.
Definition norm_cdf (x : R) : R := / 2 + gint x / gnorm.

Lemma pdf_pos (t : R) : 0 < norm_pdf t.
Proof. apply Rdiv_lt_0_compat; [apply gexp_pos|apply gnorm_pos]. Qed.
Lemma pdf_even (t : R) : norm_pdf (- t) = norm_pdf t.
Proof. unfold norm_pdf, gexp. replace (- t * - t) with (t * t) by ring. reflexivity. Qed.
Lemma pdf_derive (t : R) : is_derive norm_pdf t (- t * norm_pdf t).
Proof.
  pose proof gnorm_pos. apply (is_derive_ext (fun t => scal (/ gnorm) (gexp t))); [intro u; unfold norm_pdf, scal; cbn; unfold mult; cbn; field; lra|].
  replace (- t * norm_pdf t) with (scal (/ gnorm) (- t * gexp t)) by (unfold norm_pdf, scal; cbn; unfold mult; cbn; field; lra). apply (is_derive_scal gexp t (/ gnorm)). apply gexp_derive.
Qed.
Lemma cdf_derive (x : R) : is_derive norm_cdf x (norm_pdf x).
Proof.
  pose proof gnorm_pos. apply (is_derive_ext (fun t => plus (/ 2) (scal (/ gnorm) (gint t)))); [intro u; unfold norm_cdf, plus, scal; cbn; unfold mult; cbn; field; lra|].
  replace (norm_pdf x) with (plus zero (scal (/ gnorm) (gexp x))) by (unfold norm_pdf, plus, zero, scal; cbn; unfold mult; cbn; field; lra).
  apply (is_derive_plus (V := R_NormedModule)); [apply (is_derive_const (V := R_NormedModule))|]. apply (is_derive_scal gint x (/ gnorm)). apply gint_derive.
Qed.
Lemma cdf_opp (x : R) : norm_cdf (- x) = 1 - norm_cdf x.
Proof. unfold norm_cdf. rewrite gint_opp. pose proof gnorm_pos. field. lra. Qed.
Lemma cdf_0 : norm_cdf 0 = / 2.
Proof. unfold norm_cdf. rewrite gint_0. pose proof gnorm_pos. field. lra. Qed.
Lemma cdf_bounds (x : R) : 0 < norm_cdf x < 1.
Proof.
  pose proof gnorm_pos as P. pose proof gnorm_sqr as S. pose proof (gint_bound x) as B. set (q := gint x / gnorm) in *.
  assert (Q : q * q < / 4). { unfold q. replace (gint x / gnorm * (gint x / gnorm)) with (gint x * gint x / (2 * PI)) by (rewrite <- S; field; lra). pose proof PI_RGT_0. apply Rlt_div_l; nra. }
  unfold norm_cdf. fold q. nra.
Qed.
Lemma increasing_of_derive (f f' : R -> R) a b : (forall x, is_derive f x (f' x)) -> (forall x, 0 < f' x) -> a < b -> f a < f b.
Proof.
  intros D P H. destruct (MVT_gen f a b f') as (c & _ & E).
  - intros; apply D.
  - intros; apply continuity_pt_filterlim. apply (ex_derive_continuous (V := R_NormedModule)). eexists; apply D.
  - pose proof (P c). nra.
Qed.
Lemma nondecreasing_of_derive (f f' : R -> R) a b : (forall x, is_derive f x (f' x)) -> (forall x, 0 <= f' x) -> a <= b -> f a <= f b.
Proof.
  intros D P H. destruct (MVT_gen f a b f') as (c & _ & E).
  - intros; apply D.
  - intros; apply continuity_pt_filterlim. apply (ex_derive_continuous (V := R_NormedModule)). eexists; apply D.
  - pose proof (P c). nra.
Qed.
Lemma cdf_increasing a b : a < b -> norm_cdf a < norm_cdf b.
Proof. apply (increasing_of_derive norm_cdf norm_pdf); [apply cdf_derive|apply pdf_pos]. Qed.

Lemma gexp_lim : is_lim gexp p_infty 0.
Proof.
  unfold gexp. apply (is_lim_comp exp (fun t => - (t * t) / 2) p_infty 0 m_infty); [apply is_lim_exp_m| |exists 0; intros; discriminate].
  apply is_lim_le_m_loc with (fun t => - t).
  - exists 2. intros y Hy. nra.
  - replace m_infty with (Rbar_opp p_infty) by reflexivity. apply is_lim_opp. apply is_lim_id.
Qed.
Lemma gexp_lim_m : is_lim gexp m_infty 0.
Proof.
  apply (is_lim_ext (fun t => gexp (- t))); [intro y; unfold gexp; f_equal; field|].
  apply (is_lim_comp gexp Ropp m_infty 0 p_infty); [apply gexp_lim| |exists 0; intros; discriminate].
  replace p_infty with (Rbar_opp m_infty) by reflexivity. apply is_lim_opp. apply is_lim_id.
Qed.
(** the distribution function tends to 1 *)
Lemma cdf_lim : is_lim norm_cdf p_infty 1.
Proof.
  pose proof gnorm_pos as P. pose proof gnorm_sqr as S. pose proof PI_RGT_0 as HPI.
  apply (is_lim_le_le_loc (fun x => 1 - 4 * gexp x / PI) (fun _ => 1)).
  - exists 0. intros x Hx. split; [|pose proof (cdf_bounds x); lra].
    pose proof (gsum x) as E. pose proof (gG_bounds x) as G.
    assert (Q : 0 <= gint x). { rewrite <- gint_0. apply (nondecreasing_of_derive gint gexp); [apply gint_derive|intro; left; apply gexp_pos|lra]. }
    unfold norm_cdf. set (q := gint x / gnorm). assert (Hq : 0 <= q) by (apply Rdiv_le_0_compat; lra).
    assert (E2 : q * q = / 4 - gG x / (2 * PI)). { unfold q. replace (gint x / gnorm * (gint x / gnorm)) with (gint x * gint x / (2 * PI)) by (rewrite <- S; field; lra). replace (gint x * gint x) with (PI / 2 - gG x) by lra. field. lra. }
    assert (G2 : gG x / (2 * PI) <= gexp x / PI). { apply Rle_div_l; [lra|]. replace (gexp x / PI * (2 * PI)) with (2 * gexp x) by (field; lra). lra. }
    assert (G3 : 4 * gexp x / PI = 4 * (gexp x / PI)) by (field; lra). rewrite G3. pose proof (gexp_pos x). assert (0 < gexp x / PI) by (apply Rdiv_lt_0_compat; lra).
    assert (0 < gG x / (2 * PI)) by (apply Rdiv_lt_0_compat; lra). assert (q <= / 2) by nra. pose proof (Rmult_le_pos q (/ 2 - q) Hq ltac:(lra)). lra.
  - replace (Finite 1) with (Rbar_plus 1 (Rbar_mult (-4 / PI) 0)) by (cbn; f_equal; field; lra).
    apply (is_lim_ext (fun x => 1 + (-4 / PI) * gexp x)); [intro y; field; lra|].
    apply is_lim_plus with (lf := 1) (lg := Rbar_mult (-4 / PI) 0); [apply is_lim_const| |cbn; unfold is_Rbar_plus; cbn; reflexivity].
    apply is_lim_scal_l. apply gexp_lim.
  - apply is_lim_const.
Qed.
Lemma cdf_lim_m : is_lim norm_cdf m_infty 0.
Proof.
  apply (is_lim_ext (fun x => 1 - norm_cdf (- x))); [intro y; rewrite cdf_opp; ring|].
  replace (Finite 0) with (Rbar_minus 1 1) by (cbn; f_equal; ring).
  apply is_lim_minus with (lf := 1) (lg := 1); [apply is_lim_const| |cbn; reflexivity].
  apply (is_lim_comp norm_cdf Ropp m_infty 1 p_infty); [apply cdf_lim| |exists 0; intros; discriminate].
  replace p_infty with (Rbar_opp m_infty) by reflexivity. apply is_lim_opp. apply is_lim_id.
Qed.
