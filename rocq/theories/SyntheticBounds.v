(** SyntheticBounds.v - global bounds of the synthetic functions (C52). *)
From Coq Require Import Reals Lra Lia Psatz.
From Verif Require Import Base Num ConfigSpaceModel UtilsModel SyntheticModel.
Local Open Scope R_scope.
Local Open Scope list_scope.

Lemma rsum_nonneg (l : list R) : (forall x, In x l -> 0 <= x) -> 0 <= rsum l.
Proof.
  unfold rsum. induction l as [|x l IH]; intro H; cbn [fold_right]; [lra|].
  pose proof (H x (or_introl eq_refl)). pose proof (IH (fun y Hy => H y (or_intror Hy))). lra.
Qed.
Lemma rsum_zero (l : list R) : (forall x, In x l -> 0 <= x) -> rsum l = 0 -> forall x, In x l -> x = 0.
Proof.
  induction l as [|y l IH]; intros H E x Hx; [destruct Hx|]. change (rsum (y :: l)) with (y + rsum l) in E.
  pose proof (H y (or_introl eq_refl)). pose proof (rsum_nonneg l (fun z Hz => H z (or_intror Hz))).
  destruct Hx as [<-|Hx]; [lra|]. apply IH; [intros z Hz; apply H; right; exact Hz|lra|exact Hx].
Qed.
Lemma rsum_all_zero (l : list R) : (forall x, In x l -> x = 0) -> rsum l = 0.
Proof.
  induction l as [|y l IH]; intro H; [reflexivity|]. change (y + rsum l = 0).
  rewrite (H y (or_introl eq_refl)), IH by (intros x Hx; apply H; right; exact Hx). lra.
Qed.

(** ** Square and NegativeSquare *)
Lemma squares_nonneg (l : list R) : 0 <= rsum (map (fun x : R => x ^ 2) l).
Proof. apply rsum_nonneg. intros x Hx. apply in_map_iff in Hx as (y & <- & _). apply pow2_ge_0. Qed.
Lemma squares_zero (l : list R) : rsum (map (fun x : R => x ^ 2) l) = 0 <-> forall x, In x l -> x = 0.
Proof.
  split.
  - intros E x Hx. assert (x ^ 2 = 0). { refine (rsum_zero _ _ E _ _); [|apply (in_map (fun y : R => y ^ 2)); exact Hx].
      intros y Hy. apply in_map_iff in Hy as (z & <- & _). apply pow2_ge_0. } nra.
  - intro H. apply rsum_all_zero. intros x Hx. apply in_map_iff in Hx as (y & <- & Hy). rewrite (H y Hy). lra.
Qed.

(** ** Levy *)
Lemma levy2_nonneg w : 0 <= levy_term2 w.
Proof. unfold levy_term2. pose proof (pow2_ge_0 (w - 1)). pose proof (pow2_ge_0 (sin (PI * w + 1))). apply Rmult_le_pos; lra. Qed.
Lemma levy3_nonneg w : 0 <= levy_term3 w.
Proof. unfold levy_term3. pose proof (pow2_ge_0 (w - 1)). pose proof (pow2_ge_0 (sin (2 * PI * w))). apply Rmult_le_pos; lra. Qed.
Lemma levy2_zero w : levy_term2 w = 0 -> w = 1.
Proof. unfold levy_term2. pose proof (pow2_ge_0 (w - 1)). pose proof (pow2_ge_0 (sin (PI * w + 1))). intro E. apply Rmult_integral in E as [E|E]; nra. Qed.
Lemma levy3_zero w : levy_term3 w = 0 -> w = 1.
Proof. unfold levy_term3. pose proof (pow2_ge_0 (w - 1)). pose proof (pow2_ge_0 (sin (2 * PI * w))). intro E. apply Rmult_integral in E as [E|E]; nra. Qed.
Lemma levy_w_one x : levy_w x = 1 <-> x = 1.
Proof. unfold levy_w. split; lra. Qed.
Lemma py_nth_last {A} (w : list A) (d : A) : w <> [] -> py_nth w (length w - 1) = Ok (last w d).
Proof.
  induction w as [|x w IH]; intro H; [congruence|]. destruct w as [|y w]; [reflexivity|].
  replace (length (x :: y :: w) - 1)%nat with (S (length (y :: w) - 1)) by (cbn; lia). change (py_nth (y :: w) (length (y :: w) - 1) = Ok (last (y :: w) d)). apply IH. discriminate.
Qed.
Lemma levy_of_eq x : x <> [] -> levy_of x = Ok (sin (PI * levy_w (hd 0 x)) ^ 2 + rsum (map levy_term2 (removelast (map levy_w x))) + levy_term3 (last (map levy_w x) 0)).
Proof.
  intro H. unfold levy_of. destruct x as [|x0 x]; [congruence|]. rewrite (py_nth_last _ 0) by discriminate. reflexivity.
Qed.
Lemma levy_of_bound x v : levy_of x = Ok v -> 0 <= v /\ (v = 0 <-> forall t, In t x -> t = 1).
Proof.
  destruct x as [|x0 x']; [discriminate|]. set (x := x0 :: x'). assert (Hx : x <> []) by discriminate. rewrite levy_of_eq by exact Hx. intro E. assert (E' := f_equal (fun r => match r with Ok z => z | Err _ => 0 end) E). cbv beta iota in E'. clear E. rewrite <- E'. clear E'.
  set (w := map levy_w x). assert (Hw : w <> []) by discriminate.
  pose proof (pow2_ge_0 (sin (PI * levy_w (hd 0 x)))) as P1. pose proof (levy3_nonneg (last w 0)) as P3.
  assert (N2 : forall y, In y (map levy_term2 (removelast w)) -> 0 <= y) by (intros y Hy; apply in_map_iff in Hy as (z & <- & _); apply levy2_nonneg).
  pose proof (rsum_nonneg _ N2) as P2. split; [lra|]. split.
  - intros E t Ht. apply levy_w_one. assert (E3 : levy_term3 (last w 0) = 0) by lra. assert (E2 : rsum (map levy_term2 (removelast w)) = 0) by lra.
    assert (Hin : In (levy_w t) w) by (apply in_map; exact Ht). rewrite (app_removelast_last 0 Hw) in Hin. apply in_app_or in Hin as [Hin|[Hin|[]]].
    + apply levy2_zero. refine (rsum_zero _ N2 E2 _ _). apply in_map. exact Hin.
    + rewrite <- Hin. apply levy3_zero. exact E3.
  - intro A. assert (W : forall y, In y w -> y = 1) by (intros y Hy; apply in_map_iff in Hy as (z & <- & Hz); apply levy_w_one; apply A; exact Hz).
    assert (L1 : last w 0 = 1). { apply W. rewrite (app_removelast_last 0 Hw) at 2. apply in_or_app. right. left. reflexivity. }
    rewrite rsum_all_zero.
    2:{ intros y Hy. apply in_map_iff in Hy as (z & <- & Hz). rewrite (W z). { unfold levy_term2. ring. } rewrite (app_removelast_last 0 Hw). apply in_or_app. left. exact Hz. }
    rewrite L1. assert (H0 : levy_w (hd 0 x) = 1) by (apply W; left; reflexivity). rewrite H0. rewrite Rmult_1_r, sin_PI. unfold levy_term3. ring.
Qed.

(** ** Ackley *)
Lemma rsum_cos_le d (l : list R) : 0 < d -> rsum (map (fun t => cos (2 * PI * t) / d) l) <= INR (length l) / d.
Proof.
  intro Hd. induction l as [|t l IH]; [cbn; lra|]. change (length (t :: l)) with (S (length l)). rewrite S_INR. change (cos (2 * PI * t) / d + rsum (map (fun t => cos (2 * PI * t) / d) l) <= (INR (length l) + 1) / d).
  assert (cos (2 * PI * t) / d <= 1 / d). { apply Rmult_le_compat_r; [left; apply Rinv_0_lt_compat; exact Hd|apply COS_bound]. } unfold Rdiv in *. lra.
Qed.
Lemma ackley_of_bound x : x <> [] -> 0 <= ackley_of x /\ (ackley_of x = 0 <-> forall t, In t x -> t = 0).
Proof.
  intro Hx. assert (Hd : 0 < INR (length x)). { destruct x; [congruence|]. apply lt_0_INR. cbn. lia. }
  unfold ackley_of. set (d := INR (length x)) in *. set (q := rsum (map (fun t => t ^ 2) x)).
  assert (Hq : 0 <= q / d). { apply Rmult_le_pos; [apply squares_nonneg|left; apply Rinv_0_lt_compat; exact Hd]. }
  set (r := sqrt (q / d)). assert (Hr : 0 <= r) by apply sqrt_pos.
  pose proof (rsum_cos_le d x Hd) as HC. fold d in HC. replace (d / d) with 1 in HC by (field; lra). set (s := rsum (map (fun t => cos (2 * PI * t) / d) x)) in *.
  assert (T2 : exp s <= exp 1) by (destruct HC as [HC| ->]; [left; apply exp_increasing; exact HC|right; reflexivity]).
  assert (T1 : exp (- (2 / 10) * r) <= 1). { rewrite <- exp_0. destruct Hr as [Hr|Hr]; [left; apply exp_increasing; lra|right; f_equal; rewrite <- Hr; lra]. }
  split; [lra|]. split.
  - intro E. assert (E1 : exp (- (2 / 10) * r) = 1) by lra. rewrite <- exp_0 in E1. apply exp_inv in E1. assert (R0 : r = 0) by lra.
    apply sqrt_eq_0 in R0; [|exact Hq]. assert (Q0 : q = 0). { apply Rmult_integral in R0 as [R0|R0]; [exact R0|]. exfalso. pose proof (Rinv_0_lt_compat d Hd). lra. }
    apply squares_zero. exact Q0.
  - intro A. assert (Q0 : q = 0) by (apply squares_zero; exact A). assert (R0 : r = 0) by (unfold r; rewrite Q0; unfold Rdiv; rewrite Rmult_0_l; apply sqrt_0).
    assert (S1 : s = 1). { unfold s. assert (M : forall l, (forall t, In t l -> t = 0) -> rsum (map (fun t => cos (2 * PI * t) / d) l) = INR (length l) / d).
      { induction l as [|t l IH]; intro H; [cbn; lra|]. change (length (t :: l)) with (S (length l)). rewrite S_INR. change (cos (2 * PI * t) / d + rsum (map (fun t => cos (2 * PI * t) / d) l) = (INR (length l) + 1) / d).
        rewrite IH by (intros u Hu; apply H; right; exact Hu). rewrite (H t) by (left; reflexivity). rewrite Rmult_0_r, cos_0. unfold Rdiv. ring. }
      rewrite M by exact A. fold d. field. lra. }
    rewrite R0, S1. rewrite Rmult_0_r, exp_0. ring.
Qed.

(** ** StyblinskiTang *)
Lemma stybtang_point (t : R) : - (391662 / 10000) <= (t ^ 4 - 16 * t ^ 2 + 5 * t) / 2.
Proof.
  pose proof (pow2_ge_0 (t ^ 2 - 843051 / 100000)). pose proof (pow2_ge_0 (t + 5 / (2 * (16 - 2 * (843051 / 100000))))). 
  assert (0 <= (t ^ 2 - 843051 / 100000) ^ 2 + (2 * (843051 / 100000) - 16) * (t + 5 / (2 * (2 * (843051 / 100000) - 16))) ^ 2). { pose proof (pow2_ge_0 (t + 5 / (2 * (2 * (843051 / 100000) - 16)))). lra. }
  replace ((t ^ 2 - 843051 / 100000) ^ 2 + (2 * (843051 / 100000) - 16) * (t + 5 / (2 * (2 * (843051 / 100000) - 16))) ^ 2)
    with (t ^ 4 - 16 * t ^ 2 + 5 * t + (843051 / 100000) ^ 2 + 25 / (4 * (2 * (843051 / 100000) - 16))) in H1 by field.
  lra.
Qed.
Lemma stybtang_of_bound x : - (391662 / 10000) * INR (length x) <= stybtang_of x.
Proof.
  unfold stybtang_of. induction x as [|t x IH]; [cbn; lra|]. change (length (t :: x)) with (S (length x)). rewrite S_INR.
  change (- (391662 / 10000) * (INR (length x) + 1) <= ((t ^ 4 - 16 * t ^ 2 + 5 * t) + rsum (map (fun t => t ^ 4 - 16 * t ^ 2 + 5 * t) x)) / 2).
  pose proof (stybtang_point t). lra.
Qed.
(** the point (-2.9035, ..., -2.9035) is below the minimum of the docstring *)
Lemma stybtang_witness d : (0 < d)%nat -> stybtang_of (repeat (- (29035 / 10000)) d) < - (3916599 / 100000) * INR d.
Proof.
  intro Hd. assert (E : forall n, stybtang_of (repeat (- (29035 / 10000)) n) = INR n * ((- (29035 / 10000)) ^ 4 - 16 * (- (29035 / 10000)) ^ 2 + 5 * - (29035 / 10000)) / 2).
  { unfold stybtang_of. induction n as [|n IH]; [cbn; lra|]. rewrite S_INR.
    change (repeat (- (29035 / 10000)) (S n)) with ((- (29035 / 10000)) :: repeat (- (29035 / 10000)) n).
    change (((- (29035 / 10000)) ^ 4 - 16 * (- (29035 / 10000)) ^ 2 + 5 * - (29035 / 10000) + rsum (map (fun t => t ^ 4 - 16 * t ^ 2 + 5 * t) (repeat (- (29035 / 10000)) n))) / 2 = (INR n + 1) * ((- (29035 / 10000)) ^ 4 - 16 * (- (29035 / 10000)) ^ 2 + 5 * - (29035 / 10000)) / 2). lra. }
  rewrite E. apply lt_0_INR in Hd. nra.
Qed.

(** ** CrossInTray *)
Lemma crossintray_sym x y : crossintray_of x y = crossintray_of y x.
Proof.
  unfold crossintray_of. rewrite (Rmult_comm (sin x) (sin y)), (Rplus_comm (x ^ 2) (y ^ 2)). reflexivity.
Qed.
Lemma crossintray_neg x y : crossintray_of x y < 0.
Proof. unfold crossintray_of. unfold Rpower. match goal with |- context [exp (1 / 10 * ?z)] => pose proof (exp_pos (1 / 10 * z)) end. lra. Qed.
Lemma crossintray_flip x y : crossintray_of (- x) y = crossintray_of x y.
Proof.
  unfold crossintray_of. rewrite sin_neg. replace ((- x) ^ 2) with (x ^ 2) by ring.
  replace (- sin x * sin y * exp (Rabs (100 - sqrt (x ^ 2 + y ^ 2) / PI))) with (- (sin x * sin y * exp (Rabs (100 - sqrt (x ^ 2 + y ^ 2) / PI)))) by ring.
  rewrite Rabs_Ropp. reflexivity.
Qed.
(** away from the axes it is below its value on them *)
Lemma crossintray_axis y : crossintray_of 0 y = - (1 / 10000).
Proof.
  unfold crossintray_of. rewrite sin_0, !Rmult_0_l, Rabs_R0, Rplus_0_l. unfold Rpower. rewrite ln_1, Rmult_0_r, exp_0. ring.
Qed.

Definition cc : R := PI * sqrt 2.
(** where the minimum is: tan t0 = pi sqrt 2 *)
Definition t0 : R := atan (PI * sqrt 2).

Lemma PI_ge_2 : 2 < PI.
Proof. pose proof PI2_1. lra. Qed.
Lemma sqrt2_gt1 : 1 < sqrt 2.
Proof. rewrite <- sqrt_1 at 1. apply sqrt_lt_1; lra. Qed.
Lemma cc_gt : 2 < cc.
Proof. unfold cc. pose proof PI_ge_2. pose proof sqrt2_gt1. nra. Qed.
Lemma t0_pos : 0 < t0 < PI / 2.
Proof.
  unfold t0. fold cc. pose proof cc_gt. split; [|apply atan_bound]. rewrite <- atan_0. apply atan_increasing. lra.
Qed.
Lemma cos_t0 : 0 < cos t0.
Proof. pose proof t0_pos. apply cos_gt_0; lra. Qed.
Lemma sin_t0 : sin t0 = cc * cos t0.
Proof.
  pose proof cos_t0. assert (T : tan t0 = cc) by (apply tan_atan || (unfold t0; apply atan_right_inv)). unfold tan in T. rewrite <- T. field. lra.
Qed.
Lemma abs_sin_le u : 0 <= u -> Rabs (sin u) <= u.
Proof.
  intro Hu. apply Rabs_le. destruct Hu as [Hu| <-]; [|rewrite sin_0; lra]. pose proof (SIN_bound u). pose proof (sin_lt_x u Hu). pose proof PI_ge_2.
  split; [|lra]. destruct (Rle_dec 1 u); [lra|]. assert (0 <= sin u) by (apply sin_ge_0; lra). lra.
Qed.
Lemma sincos_ge1 v : 0 <= v <= PI / 2 -> 1 <= sin v + cos v.
Proof.
  intros [H0 H1]. assert (0 <= sin v) by (apply sin_ge_0; lra). assert (0 <= cos v) by (apply cos_ge_0; lra). pose proof (sin2_cos2 v) as E. unfold Rsqr in E. nra.
Qed.
Lemma sincos_gap v : 0 <= v <= PI / 2 -> v - sin v <= 1 - cos v.
Proof.
  intros [H0 H1]. destruct H0 as [H0| <-]; [|rewrite sin_0, cos_0; lra].
  assert (D : forall c : R, 0 <= c <= v -> derivable_pt_lim (fun v => 1 - cos v - v + sin v) c (sin c - 1 + cos c)).
  { intros c _. replace (sin c - 1 + cos c) with (0 - - sin c - 1 + cos c) by ring.
    apply derivable_pt_lim_plus; [apply derivable_pt_lim_minus; [apply derivable_pt_lim_minus; [apply derivable_pt_lim_const|apply derivable_pt_lim_cos]|apply derivable_pt_lim_id]|apply derivable_pt_lim_sin]. }
  destruct (MVT_cor2 (fun v => 1 - cos v - v + sin v) (fun c => sin c - 1 + cos c) 0 v H0 D) as (c & E & Hc).
  assert (1 <= sin c + cos c) by (apply sincos_ge1; lra). rewrite sin_0, cos_0 in E. nra.
Qed.
Lemma damped_sine (t : R) : 0 <= t -> Rabs (sin t) * exp (- (t / cc)) <= sin t0 * exp (- (t0 / cc)).
Proof.
  intro Ht. pose proof cc_gt as Hc. pose proof cos_t0 as C0. pose proof t0_pos as T0. set (u := t - t0).
  assert (E : sin t = cos t0 * (cc * cos u + sin u)). { replace t with (t0 + u) by (unfold u; ring). rewrite sin_plus, sin_t0. ring. }
  assert (K : Rabs (cc * cos u + sin u) <= cc * exp (u / cc)).
  { destruct (Rle_dec 0 u) as [Hu|Hu].
    - pose proof (abs_sin_le u Hu) as S1. pose proof (COS_bound u). pose proof (exp_ineq1_le (u / cc)) as X. assert (cc + u <= cc * exp (u / cc)). { replace (cc + u) with (cc * (1 + u / cc)) by (field; lra). apply Rmult_le_compat_l; lra. }
      eapply Rle_trans; [apply Rabs_triang|]. rewrite Rabs_mult, (Rabs_right cc) by lra. assert (Rabs (cos u) <= 1) by (apply Rabs_le; lra). nra.
    - set (v := - u). assert (Hv : 0 <= v <= PI / 2) by (unfold v, u in *; lra). replace u with (- v) by (unfold v; ring). rewrite cos_neg, sin_neg.
      assert (S0 : 0 <= sin t) by (apply sin_ge_0; unfold u in *; lra). rewrite E in S0. replace u with (- v) in S0 by (unfold v; ring). rewrite cos_neg, sin_neg in S0.
      rewrite Rabs_right by nra. pose proof (sincos_gap v Hv) as G. pose proof (exp_ineq1_le (- v / cc)) as X. assert (G0 : 0 <= v - sin v). { destruct Hv as [[Hv| <-] _]; [pose proof (sin_lt_x v Hv); lra|rewrite sin_0; lra]. }
      assert (cc - v <= cc * exp (- v / cc)). { replace (cc - v) with (cc * (1 + - v / cc)) by (field; lra). apply Rmult_le_compat_l; lra. } nra. }
  rewrite E, Rabs_mult, (Rabs_right (cos t0)) by lra. rewrite sin_t0.
  replace (exp (- (t / cc))) with (exp (- (u / cc)) * exp (- (t0 / cc))) by (rewrite <- exp_plus; f_equal; unfold u; field; lra).
  pose proof (exp_pos (- (t0 / cc))) as P0. pose proof (exp_pos (- (u / cc))) as P1.
  assert (K' : Rabs (cc * cos u + sin u) * exp (- (u / cc)) <= cc). { apply Rle_trans with (cc * exp (u / cc) * exp (- (u / cc))); [apply Rmult_le_compat_r; lra|]. rewrite Rmult_assoc, <- exp_plus. replace (u / cc + - (u / cc)) with 0 by ring. rewrite exp_0. lra. }
  replace (cos t0 * Rabs (cc * cos u + sin u) * (exp (- (u / cc)) * exp (- (t0 / cc)))) with (cos t0 * exp (- (t0 / cc)) * (Rabs (cc * cos u + sin u) * exp (- (u / cc)))) by ring.
  replace (cc * cos t0 * exp (- (t0 / cc))) with (cos t0 * exp (- (t0 / cc)) * cc) by ring. apply Rmult_le_compat_l; [|exact K']. apply Rmult_le_pos; lra.
Qed.
Lemma abs_sin_abs x : Rabs (sin (Rabs x)) = Rabs (sin x).
Proof. destruct (Rcase_abs x) as [H|H]; [rewrite (Rabs_left x) by exact H; rewrite sin_neg, Rabs_Ropp; reflexivity|rewrite (Rabs_right x) by exact H; reflexivity]. Qed.
Lemma radius x y : (Rabs x + Rabs y) / cc <= sqrt (x ^ 2 + y ^ 2) / PI.
Proof.
  unfold cc. pose proof PI_ge_2. pose proof sqrt2_gt1 as S. replace ((Rabs x + Rabs y) / (PI * sqrt 2)) with ((Rabs x + Rabs y) / sqrt 2 / PI) by (field; lra).
  apply Rmult_le_compat_r; [left; apply Rinv_0_lt_compat; lra|]. apply Rsqr_incr_0; [| |apply sqrt_pos].
  - unfold Rsqr. assert (Q : sqrt (x ^ 2 + y ^ 2) * sqrt (x ^ 2 + y ^ 2) = x ^ 2 + y ^ 2) by (apply sqrt_sqrt; pose proof (pow2_ge_0 x); pose proof (pow2_ge_0 y); lra). rewrite Q.
    replace ((Rabs x + Rabs y) / sqrt 2 * ((Rabs x + Rabs y) / sqrt 2)) with ((Rabs x + Rabs y) ^ 2 / (sqrt 2 * sqrt 2)) by (field; lra). rewrite sqrt_sqrt by lra. rewrite <- (pow2_abs x), <- (pow2_abs y). pose proof (pow2_ge_0 (Rabs x - Rabs y)). lra.
  - apply Rmult_le_pos; [pose proof (Rabs_pos x); pose proof (Rabs_pos y); lra|left; apply Rinv_0_lt_compat; lra].
Qed.
(** the global minimum on the disc of radius 100 pi (the default box is inside) *)
Lemma crossintray_min x y : sqrt (x ^ 2 + y ^ 2) <= 100 * PI -> crossintray_of t0 t0 <= crossintray_of x y.
Proof.
  intro H. pose proof PI_ge_2 as HP. pose proof cc_gt as Hc. pose proof t0_pos as T0.
  assert (HT : 0 <= sin t0) by (apply sin_ge_0; lra).
  unfold crossintray_of. apply Rmult_le_compat_neg_l; [lra|]. apply Rle_Rpower_l; [lra|].
  match goal with |- 0 < ?a + 1 <= ?b + 1 => assert (L : a <= b); [|pose proof (Rabs_pos (sin x * sin y * exp (Rabs (100 - sqrt (x ^ 2 + y ^ 2) / PI)))); lra] end.
  assert (A1 : 0 <= 100 - sqrt (x ^ 2 + y ^ 2) / PI). { assert (sqrt (x ^ 2 + y ^ 2) / PI <= 100); [|lra]. apply (Rmult_le_reg_r PI); [lra|]. unfold Rdiv. rewrite Rmult_assoc, Rinv_l by lra. lra. }
  assert (E0 : sqrt (t0 ^ 2 + t0 ^ 2) / PI = t0 / cc + t0 / cc).
  { replace (t0 ^ 2 + t0 ^ 2) with (2 * t0 ^ 2) by ring. rewrite sqrt_mult by (try lra; apply pow2_ge_0). rewrite sqrt_pow2 by lra. unfold cc. pose proof sqrt2_gt1 as S2. 
    assert (Q : sqrt 2 * sqrt 2 = 2) by (apply sqrt_sqrt; lra). apply (Rmult_eq_reg_r (PI * sqrt 2)); [|nra]. field_simplify; [|lra..]. replace (sqrt 2 ^ 2) with 2 by (cbn; lra). reflexivity. }
  assert (B0 : t0 / cc <= 1). { apply (Rmult_le_reg_r cc); [lra|]. unfold Rdiv. rewrite Rmult_assoc, Rinv_l by lra. assert (PI <= 4) by apply PI_4. lra. }
  rewrite E0. rewrite (Rabs_right (100 - sqrt (x ^ 2 + y ^ 2) / PI)) by lra. rewrite (Rabs_right (100 - (t0 / cc + t0 / cc))) by lra.
  rewrite !Rabs_mult. rewrite (Rabs_right (exp _)) by (left; apply exp_pos). rewrite (Rabs_right (exp (100 - (t0 / cc + t0 / cc)))) by (left; apply exp_pos). rewrite (Rabs_right (sin t0)) by lra.
  pose proof (damped_sine _ (Rabs_pos x)) as Dx. pose proof (damped_sine _ (Rabs_pos y)) as Dy. rewrite abs_sin_abs in Dx, Dy. pose proof (radius x y) as Hr.
  assert (EX : exp (100 - sqrt (x ^ 2 + y ^ 2) / PI) <= exp 100 * (exp (- (Rabs x / cc)) * exp (- (Rabs y / cc)))).
  { rewrite <- !exp_plus. assert (LE : 100 - sqrt (x ^ 2 + y ^ 2) / PI <= 100 + (- (Rabs x / cc) + - (Rabs y / cc))) by lra. destruct LE as [LE|LE]; [left; apply exp_increasing; exact LE|right; f_equal; exact LE]. }
  replace (exp (100 - (t0 / cc + t0 / cc))) with (exp 100 * (exp (- (t0 / cc)) * exp (- (t0 / cc)))) by (rewrite <- !exp_plus; f_equal; ring).
  pose proof (Rabs_pos (sin x)) as Px. pose proof (Rabs_pos (sin y)) as Py. pose proof (exp_pos 100) as PE.
  apply Rle_trans with (Rabs (sin x) * Rabs (sin y) * (exp 100 * (exp (- (Rabs x / cc)) * exp (- (Rabs y / cc))))); [apply Rmult_le_compat_l; [apply Rmult_le_pos; assumption|exact EX]|].
  replace (Rabs (sin x) * Rabs (sin y) * (exp 100 * (exp (- (Rabs x / cc)) * exp (- (Rabs y / cc))))) with (exp 100 * ((Rabs (sin x) * exp (- (Rabs x / cc))) * (Rabs (sin y) * exp (- (Rabs y / cc))))) by ring.
  replace (sin t0 * sin t0 * (exp 100 * (exp (- (t0 / cc)) * exp (- (t0 / cc))))) with (exp 100 * ((sin t0 * exp (- (t0 / cc))) * (sin t0 * exp (- (t0 / cc))))) by ring.
  apply Rmult_le_compat_l; [lra|]. apply Rmult_le_compat; try assumption; apply Rmult_le_pos; try assumption; left; apply exp_pos.
Qed.
Lemma crossintray_box x y : -10 <= x <= 10 -> -10 <= y <= 10 -> crossintray_of t0 t0 <= crossintray_of x y.
Proof.
  intros Hx Hy. apply crossintray_min. pose proof PI_ge_2. apply Rsqr_incr_0; [|apply sqrt_pos|lra]. unfold Rsqr. rewrite sqrt_sqrt by nra. nra.
Qed.
