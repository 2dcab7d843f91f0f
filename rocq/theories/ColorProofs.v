(** ColorProofs.v - lemmas on colours. *)
From Coq Require Import Reals Lra Psatz.
From Flocq Require Import Core.Core.
From Verif Require Import Base Num ColorModel ColorSpec.
Local Open Scope R_scope.

Lemma py_max_spec x y : py_max x y = Rmax x y.
Proof. unfold py_max, Rltb, Rmax. destruct (Rlt_dec x y), (Rle_dec x y); lra. Qed.
Lemma py_min_spec x y : py_min x y = Rmin x y.
Proof. unfold py_min, Rltb, Rmin. destruct (Rlt_dec y x), (Rle_dec x y); lra. Qed.

Lemma mod1_eq x k : IZR k <= x < IZR k + 1 -> mod1 x = x - IZR k.
Proof.
  intros [H1 H2]. unfold mod1. rewrite (Zfloor_imp k); [reflexivity|]. rewrite plus_IZR. split; assumption.
Qed.
Lemma mod1_range x : 0 <= mod1 x < 1.
Proof. unfold mod1. pose proof (Zfloor_lb x). pose proof (Zfloor_ub x). lra. Qed.
Lemma mod1_shift x k : mod1 (x + IZR k) = mod1 x.
Proof.
  pose proof (Zfloor_lb x). pose proof (Zfloor_ub x).
  rewrite (mod1_eq _ (Zfloor x + k)); [|rewrite plus_IZR; lra]. unfold mod1. rewrite plus_IZR. ring.
Qed.
Lemma hls_v_shift m1 m2 x k : hls_v m1 m2 (x + IZR k) = hls_v m1 m2 x.
Proof. unfold hls_v. rewrite mod1_shift. reflexivity. Qed.
Lemma hls_v_mod m1 m2 x d : hls_v m1 m2 (mod1 x + d) = hls_v m1 m2 (x + d).
Proof.
  unfold mod1. replace (x - IZR (Zfloor x) + d) with (x + d + IZR (- Zfloor x)) by (rewrite opp_IZR; ring). apply hls_v_shift.
Qed.

Ltac unbool := unfold Rltb, Rleb, Reqb in *;
  repeat match goal with
  | |- context [Rlt_dec ?a ?b] => destruct (Rlt_dec a b)
  | |- context [Rle_dec ?a ?b] => destruct (Rle_dec a b)
  | |- context [Req_EM_T ?a ?b] => destruct (Req_EM_T a b)
  end.

Ltac minmax := unfold Rmax, Rmin in *;
  repeat match goal with
  | |- context [Rle_dec ?a ?b] => destruct (Rle_dec a b)
  | H : context [Rle_dec ?a ?b] |- _ => destruct (Rle_dec a b)
  end.

(** the weight of a hue *)
Definition wt (x : R) : R := hls_v 0 1 x.
Lemma hls_v_affine m1 m2 x : hls_v m1 m2 x = m1 + (m2 - m1) * wt x.
Proof. unfold wt, hls_v. unbool; ring. Qed.
Lemma wt_range x : 0 <= wt x <= 1.
Proof. unfold wt, hls_v. pose proof (mod1_range x). unbool; lra. Qed.
Lemma wt_shift x k : wt (x + IZR k) = wt x. Proof. apply hls_v_shift. Qed.
Lemma wt_mod x d : wt (mod1 x + d) = wt (x + d). Proof. apply hls_v_mod. Qed.
Lemma wt_mod0 x : wt (mod1 x) = wt x.
Proof. rewrite <- (Rplus_0_r (mod1 x)), wt_mod. f_equal. ring. Qed.
Lemma wt_up x : 0 <= x <= 1/6 -> wt x = 6 * x.
Proof. intro H. unfold wt, hls_v. rewrite (mod1_eq x 0) by lra. unbool; lra. Qed.
Lemma wt_top x : 1/6 <= x <= 1/2 -> wt x = 1.
Proof. intro H. unfold wt, hls_v. rewrite (mod1_eq x 0) by lra. unbool; lra. Qed.
Lemma wt_down x : 1/2 <= x <= 2/3 -> wt x = 4 - 6 * x.
Proof. intro H. unfold wt, hls_v. rewrite (mod1_eq x 0) by lra. unbool; lra. Qed.
Lemma wt_bot x : 2/3 <= x <= 1 -> wt x = 0.
Proof.
  intro H. unfold wt, hls_v. destruct (Req_dec x 1) as [->|Hn].
  - rewrite (mod1_eq 1 1) by lra. unbool; lra.
  - rewrite (mod1_eq x 0) by lra. unbool; lra.
Qed.
Lemma wt_prev x : wt (x + 1) = wt x. Proof. apply (wt_shift x 1). Qed.

(** among the three hues of a colour one has weight 1, one weight 0 *)
Lemma wt_extremes h : let a := wt (h + 1/3) in let b := wt h in let c := wt (h - 1/3) in
  Rmax a (Rmax b c) = 1 /\ Rmin a (Rmin b c) = 0.
Proof.
  assert (E : forall d, wt (h + d) = wt (mod1 h + d)) by (intro; symmetry; apply wt_mod).
  cbv zeta. replace (h - 1/3) with (h + - (1/3)) by ring. rewrite !E, <- (wt_mod0 h). clear E.
  pose proof (mod1_range h) as Hr. set (x := mod1 h) in *. clearbody x.
  pose proof (wt_range (x + 1/3)). pose proof (wt_range x). pose proof (wt_range (x + - (1/3))).
  assert (Hm : wt (x + - (1/3)) = wt (x + 2/3)) by (rewrite <- wt_prev; f_equal; field).
  assert (Hp : wt (x + 1/3) = wt (x - 2/3)) by (rewrite <- (wt_prev (x - 2/3)); f_equal; field).
  assert (D : (wt (x + 1/3) = 1 \/ wt x = 1 \/ wt (x + - (1/3)) = 1) /\ (wt (x + 1/3) = 0 \/ wt x = 0 \/ wt (x + - (1/3)) = 0)).
  { destruct (Rle_dec x (1/6)); [split; [left; apply wt_top; lra|right; right; rewrite Hm; apply wt_bot; lra]|].
    destruct (Rle_dec x (1/3)); [split; [right; left; apply wt_top; lra|right; right; rewrite Hm; apply wt_bot; lra]|].
    destruct (Rle_dec x (1/2)); [split; [right; left; apply wt_top; lra|left; apply wt_bot; lra]|].
    destruct (Rle_dec x (2/3)); [split; [right; right; apply wt_top; lra|left; apply wt_bot; lra]|].
    destruct (Rle_dec x (5/6)); [split; [right; right; apply wt_top; lra|right; left; apply wt_bot; lra]|].
    split; [left; rewrite Hp; apply wt_top; lra|right; left; apply wt_bot; lra]. }
  set (u := wt (x + 1/3)) in *. set (v := wt x) in *. set (w := wt (x + - (1/3))) in *. clearbody u v w.
  destruct D as [[D|[D|D]] [D'|[D'|D']]]; minmax; split; lra.
Qed.

(** one component as a function of lightness, saturation and weight *)
Definition chan (l s t : R) : R :=
  if Rleb l (1/2) then l * (1 - s + 2 * s * t) else l - s + l * s + 2 * s * (1 - l) * t.
Lemma hls_to_rgb_chan h l s : hls_to_rgb (h, l, s) = (chan l s (wt (h + 1/3)), chan l s (wt h), chan l s (wt (h - 1/3))).
Proof.
  unfold hls_to_rgb, chan. rewrite !hls_v_affine. unfold Reqb. destruct (Req_EM_T s 0) as [->|Hs].
  - unbool; apply f_equal2; try apply f_equal2; ring.
  - unbool; apply f_equal2; try apply f_equal2; ring.
Qed.
Lemma chan_range l s t : 0 <= l <= 1 -> 0 <= s <= 1 -> 0 <= t <= 1 -> 0 <= chan l s t <= 1.
Proof.
  intros Hl Hs Ht. unfold chan. unbool.
  - assert (0 <= 1 - s + 2 * s * t <= 2) by nra. nra.
  - assert (0 <= 1 + s - 2 * s * t <= 2) by nra. nra.
Qed.
Lemma chan_mono l l' s t : 0 <= l -> l <= l' -> l' <= 1 -> 0 <= s <= 1 -> 0 <= t <= 1 -> chan l s t <= chan l' s t.
Proof.
  intros H0 H1 H2 Hs Ht. unfold chan. assert (A : 0 <= 1 - s + 2 * s * t <= 2) by nra.
  unbool; nra.
Qed.
Lemma chan_black s t : chan 0 s t = 0. Proof. unfold chan. unbool; nra. Qed.
Lemma chan_white s t : chan 1 s t = 1. Proof. unfold chan. unbool; nra. Qed.

(** rgb_to_hls *)
Definition maxc (c : rgb) : R := let '(r, g, b) := c in Rmax (Rmax r g) b.
Definition minc (c : rgb) : R := let '(r, g, b) := c in Rmin (Rmin r g) b.
Definition hls_l (c : rgb) := snd (fst (rgb_to_hls c)).
Definition hls_s (c : rgb) := snd (rgb_to_hls c).
Definition hls_h (c : rgb) := fst (fst (rgb_to_hls c)).
Lemma rgb_to_hls_eq c : rgb_to_hls c = (hls_h c, hls_l c, hls_s c).
Proof. unfold hls_h, hls_l, hls_s. destruct (rgb_to_hls c) as [[? ?] ?]. reflexivity. Qed.
Lemma hls_l_eq c : hls_l c = (maxc c + minc c) / 2.
Proof.
  unfold hls_l, rgb_to_hls. destruct c as [[r g] b]. cbn -[py_max py_min]. rewrite !py_max_spec, !py_min_spec.
  destruct (Reqb _ _); reflexivity.
Qed.
Lemma minmax_ok c : color_ok c -> 0 <= minc c /\ minc c <= maxc c /\ maxc c <= 1.
Proof. destruct c as [[r g] b]. unfold color_ok, unit_interval, maxc, minc. intros (H1 & H2 & H3). minmax; lra. Qed.
Lemma lightness_eq c : lightness c = (maxc c + minc c) / 2.
Proof. destruct c as [[r g] b]. unfold lightness, maxc, minc. minmax; lra. Qed.
Lemma hls_s_eq c : hls_s c = if Reqb (minc c) (maxc c) then 0
  else if Rleb ((maxc c + minc c) / 2) (1/2) then (maxc c - minc c) / (maxc c + minc c) else (maxc c - minc c) / (2 - maxc c - minc c).
Proof.
  unfold hls_s, rgb_to_hls. destruct c as [[r g] b]. cbn -[py_max py_min]. rewrite !py_max_spec, !py_min_spec.
  destruct (Reqb _ _); [reflexivity|]. destruct (Rleb _ _); reflexivity.
Qed.
Lemma frac_range a b : 0 <= a <= b -> 0 < b -> 0 <= a / b <= 1.
Proof.
  intros [H1 H2] H. assert (E : a = a / b * b) by (field; lra). assert (0 < / b) by (apply Rinv_0_lt_compat; exact H).
  assert (0 <= a / b) by (unfold Rdiv; nra). split; [assumption|]. apply (Rmult_le_reg_r b); lra.
Qed.
Lemma hls_s_range c : color_ok c -> 0 <= hls_s c <= 1.
Proof.
  intro H. destruct (minmax_ok c H) as (H0 & H1 & H2). rewrite hls_s_eq. unbool; try lra.
  - apply frac_range; lra.
  - apply frac_range; lra.
Qed.
Lemma hls_l_range c : color_ok c -> 0 <= hls_l c <= 1.
Proof. intro H. destruct (minmax_ok c H) as (H0 & H1 & H2). rewrite hls_l_eq. lra. Qed.

(** the lightness and saturation of a colour give back its extremes *)
Lemma chan_back c t : color_ok c -> chan (hls_l c) (hls_s c) t = minc c + (maxc c - minc c) * t.
Proof.
  intro H. destruct (minmax_ok c H) as (H0 & H1 & H2). unfold chan. rewrite hls_l_eq, hls_s_eq.
  unfold Reqb. destruct (Req_EM_T (minc c) (maxc c)) as [E|E].
  - rewrite E. unbool; field.
  - unfold Rleb. destruct (Rle_dec ((maxc c + minc c) / 2) (1/2)); field; lra.
Qed.

Definition raw_hue (c : rgb) : R :=
  let '(r, g, b) := c in let M := maxc c in let d := M - minc c in
  (if Reqb r M then (M - b) / d - (M - g) / d
   else if Reqb g M then 2 + (M - r) / d - (M - b) / d
   else 4 + (M - g) / d - (M - r) / d) / 6.
Lemma hls_h_eq c : minc c <> maxc c -> hls_h c = mod1 (raw_hue c).
Proof.
  intro H. unfold hls_h, rgb_to_hls, raw_hue. destruct c as [[r g] b]. unfold minc, maxc in *. cbn -[py_max py_min]. rewrite !py_max_spec, !py_min_spec.
  unfold Reqb at 1. destruct (Req_EM_T _ _); [contradiction|]. reflexivity.
Qed.
Lemma wt_prev' x : wt (x - 1) = wt x. Proof. rewrite <- (wt_prev (x - 1)). f_equal. ring. Qed.
Lemma wt_up_m x : -1 <= x <= -5/6 -> wt x = 6 * (x + 1).
Proof. intro H. rewrite <- wt_prev. apply wt_up. lra. Qed.
Lemma wt_top_m x : -5/6 <= x <= -1/2 -> wt x = 1.
Proof. intro H. rewrite <- wt_prev. apply wt_top. lra. Qed.
Lemma wt_down_m x : -1/2 <= x <= -1/3 -> wt x = 4 - 6 * (x + 1).
Proof. intro H. rewrite <- wt_prev. apply wt_down. lra. Qed.
Lemma wt_bot_m x : -1/3 <= x <= 0 -> wt x = 0.
Proof. intro H. rewrite <- wt_prev. apply wt_bot. lra. Qed.
Lemma wt_up_p x : 1 <= x <= 7/6 -> wt x = 6 * (x - 1).
Proof. intro H. rewrite <- wt_prev'. apply wt_up. lra. Qed.
Lemma wt_top_p x : 7/6 <= x <= 3/2 -> wt x = 1.
Proof. intro H. rewrite <- wt_prev'. apply wt_top. lra. Qed.

(** the weights of the hues of a colour *)
Lemma weights_back r g b : let c := (r, g, b) in minc c <> maxc c ->
  let h := raw_hue c in let p x := (x - minc c) / (maxc c - minc c) in
  wt (h + 1/3) = p r /\ wt h = p g /\ wt (h - 1/3) = p b.
Proof.
  intros c Hn h p. subst h. unfold raw_hue. subst c. set (M := maxc (r, g, b)) in *. set (m := minc (r, g, b)) in *.
  assert (Hm : m <= r /\ m <= g /\ m <= b /\ r <= M /\ g <= M /\ b <= M /\ (m = r \/ m = g \/ m = b) /\ (M = r \/ M = g \/ M = b)).
  { subst M m. unfold maxc, minc. minmax; lra. }
  clearbody M m. destruct Hm as (m1 & m2 & m3 & M1 & M2 & M3 & Em & EM).
  assert (Hd : 0 < M - m) by (destruct (Rle_lt_or_eq_dec m M) as [?|?]; lra).
  set (d := M - m) in *.
  assert (P : forall x, m <= x <= M -> 0 <= p x <= 1).
  { intros x Hx. unfold p. apply frac_range; subst d; lra. }
  assert (Q : forall x, (M - x) / d = 1 - p x) by (intro x; unfold p; subst d; field; lra).
  rewrite !Q. pose proof (P r ltac:(lra)). pose proof (P g ltac:(lra)). pose proof (P b ltac:(lra)).
  assert (p1 : forall x, x = M -> p x = 1) by (intros x ->; unfold p; subst d; field; lra).
  assert (p0 : forall x, x = m -> p x = 0) by (intros x ->; unfold p; subst d; field; lra).
  clearbody p. unfold Reqb. destruct (Req_EM_T r M) as [Er|Er].
  - assert (pr := p1 r Er). destruct Em as [?|[Em|Em]]; [lra| |].
    + (* g = m *) assert (pg := p0 g (eq_sym Em)). rewrite pr, pg. split; [rewrite wt_top; lra|]. split; [rewrite wt_bot_m; lra|].
      rewrite wt_down_m; lra.
    + assert (pb := p0 b (eq_sym Em)). rewrite pr, pb. split; [rewrite wt_top; lra|]. split; [rewrite wt_up; lra|].
      rewrite wt_bot_m; lra.
  - destruct (Req_EM_T g M) as [Eg|Eg].
    + assert (pg := p1 g Eg). destruct Em as [Em|[Em|Em]]; [|lra|].
      * assert (pr := p0 r (eq_sym Em)). rewrite pr, pg. split; [rewrite wt_bot; lra|]. split; [rewrite wt_top; lra|]. rewrite wt_up; lra.
      * assert (pb := p0 b (eq_sym Em)). rewrite pb, pg. split; [rewrite wt_down; lra|]. split; [rewrite wt_top; lra|]. rewrite wt_bot_m; lra.
    + assert (Eb : b = M) by lra. assert (pb := p1 b Eb). destruct Em as [Em|[Em|Em]]; [| |lra].
      * assert (pr := p0 r (eq_sym Em)). rewrite pr, pb. split; [rewrite wt_bot; lra|]. split; [rewrite wt_down; lra|]. rewrite wt_top; lra.
      * assert (pg := p0 g (eq_sym Em)). rewrite pg, pb. split; [rewrite wt_up_p; lra|]. split; [rewrite wt_bot; lra|]. rewrite wt_top; lra.
Qed.

Lemma adjust_chan c a : adjust_lightness c a =
  let l := clamp01 (a * hls_l c) in let s := hls_s c in let h := hls_h c in
  (chan l s (wt (h + 1/3)), chan l s (wt h), chan l s (wt (h - 1/3))).
Proof.
  unfold adjust_lightness. rewrite rgb_to_hls_eq. rewrite hls_to_rgb_chan, py_max_spec, py_min_spec. reflexivity.
Qed.
Lemma clamp01_range x : 0 <= clamp01 x <= 1.
Proof. unfold clamp01. minmax; lra. Qed.
Lemma clamp01_id x : 0 <= x <= 1 -> clamp01 x = x.
Proof. unfold clamp01. intro. minmax; lra. Qed.
Lemma clamp01_mono x y : x <= y -> clamp01 x <= clamp01 y.
Proof. unfold clamp01. intro. minmax; lra. Qed.

Lemma adjust_identity c : color_ok c -> adjust_lightness c 1 = c.
Proof.
  intro H. rewrite adjust_chan. rewrite Rmult_1_l, (clamp01_id _ (hls_l_range c H)). cbv zeta. rewrite !(chan_back c _ H).
  destruct (Req_dec (minc c) (maxc c)) as [E|E].
  - rewrite E. destruct c as [[r g] b]. unfold minc, maxc in *. f_equal; [f_equal|]; minmax; lra.
  - rewrite (hls_h_eq c E). rewrite wt_mod, wt_mod0. replace (mod1 (raw_hue c) - 1/3) with (mod1 (raw_hue c) + - (1/3)) by ring.
    rewrite wt_mod. replace (raw_hue c + - (1/3)) with (raw_hue c - 1/3) by ring.
    destruct c as [[r g] b]. destruct (weights_back r g b E) as (-> & -> & ->).
    f_equal; [f_equal|]; field; lra.
Qed.
Lemma adjust_ok c a : color_ok c -> color_ok (adjust_lightness c a).
Proof.
  intro H. rewrite adjust_chan. pose proof (hls_s_range c H). pose proof (clamp01_range (a * hls_l c)).
  repeat split; apply chan_range; try assumption; apply wt_range.
Qed.
Lemma adjust_mono c a a' : color_ok c -> a <= a' -> not_lighter (adjust_lightness c a) (adjust_lightness c a').
Proof.
  intros H Ha. rewrite !adjust_chan. pose proof (hls_s_range c H). pose proof (clamp01_range (a * hls_l c)). pose proof (clamp01_range (a' * hls_l c)).
  pose proof (hls_l_range c H). assert (clamp01 (a * hls_l c) <= clamp01 (a' * hls_l c)) by (apply clamp01_mono; nra).
  unfold not_lighter, red_of, green_of, blue_of; cbn [fst snd]. repeat split; apply chan_mono; try apply wt_range; lra.
Qed.
Lemma lightness_of_chans l s h : 0 <= l <= 1 -> 0 <= s <= 1 ->
  lightness (chan l s (wt (h + 1/3)), chan l s (wt h), chan l s (wt (h - 1/3))) = l.
Proof.
  intros Hl Hs. destruct (wt_extremes h) as [Hmax Hmin].
  assert (A : exists m k, 0 <= k /\ (forall t, chan l s t = m + k * t) /\ m + k / 2 = l).
  { unfold chan. unfold Rleb. destruct (Rle_dec l (1/2)).
    - exists (l * (1 - s)), (2 * l * s). split; [nra|]. split; [intro; ring|field].
    - exists (l - s + l * s), (2 * s * (1 - l)). split; [nra|]. split; [intro; ring|field]. }
  destruct A as (m & k & Hk & Hc & Hl'). unfold lightness. rewrite !Hc.
  set (x := wt (h + 1/3)) in *. set (y := wt h) in *. set (z := wt (h - 1/3)) in *. clearbody x y z.
  assert (Mx : forall u v, Rmax (m + k * u) (m + k * v) = m + k * Rmax u v).
  { intros u v. unfold Rmax. destruct (Rle_dec u v), (Rle_dec (m + k * u) (m + k * v)); nra. }
  assert (Mn : forall u v, Rmin (m + k * u) (m + k * v) = m + k * Rmin u v).
  { intros u v. unfold Rmin. destruct (Rle_dec u v), (Rle_dec (m + k * u) (m + k * v)); nra. }
  rewrite !Mx, !Mn, Hmax, Hmin. lra.
Qed.
Lemma adjust_lightness_of c a : color_ok c -> lightness (adjust_lightness c a) = clamp01 (a * lightness c).
Proof.
  intro H. rewrite adjust_chan. cbv zeta. rewrite lightness_of_chans; [rewrite hls_l_eq, lightness_eq; reflexivity|apply clamp01_range|apply hls_s_range; exact H].
Qed.
Lemma lightness_range c : color_ok c -> 0 <= lightness c <= 1.
Proof. intro H. rewrite lightness_eq, <- hls_l_eq. apply hls_l_range, H. Qed.
Lemma adjust_black c a : color_ok c -> a <= 0 -> adjust_lightness c a = black.
Proof.
  intros H Ha. rewrite adjust_chan. cbv zeta. pose proof (hls_l_range c H). replace (clamp01 (a * hls_l c)) with 0; [rewrite !chan_black; reflexivity|].
  unfold clamp01. minmax; nra.
Qed.
Lemma adjust_white c a : color_ok c -> 1 <= a * lightness c -> adjust_lightness c a = white.
Proof.
  intros H Ha. rewrite adjust_chan. cbv zeta. rewrite lightness_eq, <- hls_l_eq in Ha. replace (clamp01 (a * hls_l c)) with 1; [rewrite !chan_white; reflexivity|].
  unfold clamp01. minmax; lra.
Qed.
Lemma adjust_grey x a : 0 <= x <= 1 -> adjust_lightness (x, x, x) a = (clamp01 (a * x), clamp01 (a * x), clamp01 (a * x)).
Proof.
  intro H. rewrite adjust_chan. cbv zeta. rewrite hls_l_eq, hls_s_eq. unfold maxc, minc, Reqb.
  replace (Rmax (Rmax x x) x) with x by (minmax; lra). replace (Rmin (Rmin x x) x) with x by (minmax; lra).
  destruct (Req_EM_T x x); [|lra]. replace ((x + x) / 2) with x by field. set (q := clamp01 (a * x)).
  assert (E : forall t, chan q 0 t = q) by (intro t; unfold chan; unbool; ring). rewrite !E. reflexivity.
Qed.
(** amounts below 1 darken *)
Lemma adjust_darkens c a : color_ok c -> c <> black -> a < 1 -> not_lighter (adjust_lightness c a) c /\ adjust_lightness c a <> c.
Proof.
  intros H Hb Ha. split.
  - rewrite <- (adjust_identity c H) at 2. apply adjust_mono; [exact H|lra].
  - intro E. pose proof (adjust_lightness_of c a H) as L. rewrite E in L. pose proof (lightness_range c H).
    assert (0 < lightness c).
    { destruct (Rle_lt_or_eq_dec 0 (lightness c)) as [?|E0]; [lra|assumption|]. exfalso. apply Hb.
      destruct c as [[r g] b]. destruct H as (H1 & H2 & H3). unfold lightness, unit_interval in *. unfold black.
      assert (r = 0 /\ g = 0 /\ b = 0) as (-> & -> & ->) by (minmax; lra). reflexivity. }
    unfold clamp01 in L. revert L. minmax; nra.
Qed.
Lemma adjust_not_darker c a : color_ok c -> 1 <= a -> not_lighter c (adjust_lightness c a).
Proof. intros H Ha. rewrite <- (adjust_identity c H) at 1. apply adjust_mono; assumption. Qed.
Lemma adjust_lightens c a : color_ok c -> c <> black -> lightness c < 1 -> 1 < a -> not_lighter c (adjust_lightness c a) /\ adjust_lightness c a <> c.
Proof.
  intros H Hb H1 Ha. split; [apply adjust_not_darker; [exact H|lra]|]. intro E.
  pose proof (adjust_lightness_of c a H) as L. rewrite E in L. pose proof (lightness_range c H).
  assert (lightness c <> 0).
  { intro Z. apply Hb. rewrite <- (adjust_identity c H). rewrite adjust_chan. cbv zeta. rewrite hls_l_eq, <- lightness_eq, Z, Rmult_0_r.
    replace (clamp01 0) with 0 by (unfold clamp01; minmax; lra). rewrite !chan_black. reflexivity. }
  unfold clamp01 in L. revert L. minmax; nra.
Qed.
Lemma docstring_refuted : ~ (forall c a, color_ok c -> a < 1 -> not_lighter c (adjust_lightness c a)) /\
  ~ (forall c a, color_ok c -> 1 < a -> not_lighter (adjust_lightness c a) c).
Proof.
  assert (K : color_ok (1/2, 1/2, 1/2)) by (repeat split; lra). split; intro H.
  - specialize (H (1/2, 1/2, 1/2) 0 K ltac:(lra)). rewrite (adjust_black _ _ K (Rle_refl 0)) in H. destruct H as [H _]. unfold red_of, black in H. cbn in H. lra.
  - specialize (H (1/2, 1/2, 1/2) 2 K ltac:(lra)). rewrite (adjust_white _ _ K) in H; [|unfold lightness; minmax; lra]. destruct H as [H _]. unfold red_of, white in H. cbn in H. lra.
Qed.
