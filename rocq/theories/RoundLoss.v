(** RoundLoss.v - rounding of the loss of a region (C112). *)
From Coq Require Import Reals Lra Psatz.
From Flocq Require Import Core.Core IEEE754.BinarySingleNaN.
From Verif Require Import Base Num NumLaws NumpyModel ConfigSpaceModel UtilsModel IceModel PartitionModel PartitionSpec
  ListLemmas IceProofs PartitionProofs RealSums PartitionReal2 B64Proofs RoundSpec RoundProofs.
Local Open Scope R_scope.

(** ** one squared deviation, over the reals *)
Lemma abs_sum_le a b x y : Rabs a <= x -> Rabs b <= y -> Rabs (a + b) <= x + y.
Proof. intros. eapply Rle_trans; [apply Rabs_triang|]. lra. Qed.
Lemma elem (x mu m M d e t : R) : 0 < M -> Rabs x <= M -> Rabs mu <= M -> 0 <= d -> d * uu <= / 16 -> tiny <= uu * M / 8 -> tiny <= uu * (M * M) / 8 ->
  Rabs (m - mu) <= 9/8 * (d + 1) * uu * M + tiny -> Rabs (e - (x - m)) <= uu * Rabs (x - m) -> Rabs (t - e * e) <= uu * Rabs (e * e) + tiny ->
  Rabs (t - (x - mu) * (x - mu)) <= (4.62 * d + 18.2) * uu * (M * M).
Proof.
  intros HM Hx Hmu Hd Hdu T1 T2 Hm He Ht. pose proof uu_pos as U. pose proof uu_small as U1.
  set (w := d * uu) in *. assert (W0 : 0 <= w) by (unfold w; nra).
  assert (A : Rabs (m - mu) <= (9/8 * w + 5/4 * uu) * M) by (unfold w; nra).
  assert (X0 : Rabs (x - mu) <= 2 * M) by (apply Rabs_le_inv in Hx, Hmu; apply Rabs_le; lra).
  assert (X1 : Rabs (x - m) <= (2 + (9/8 * w + 5/4 * uu)) * M).
  { replace (x - m) with ((x - mu) + - (m - mu)) by ring. eapply Rle_trans; [apply (abs_sum_le _ _ (2 * M) ((9/8 * w + 5/4 * uu) * M)); [exact X0|rewrite Rabs_Ropp; exact A]|]. lra. }
  set (k := 9/8 * w + 5/4 * uu) in *. assert (K0 : 0 <= k <= / 10) by (unfold k; lra).
  assert (B : Rabs (e - (x - mu)) <= (9/8 * w + 3.35 * uu) * M).
  { replace (e - (x - mu)) with ((e - (x - m)) + - (m - mu)) by ring.
    eapply Rle_trans; [apply (abs_sum_le _ _ (uu * ((2 + k) * M)) (k * M)); [eapply Rle_trans; [exact He|apply Rmult_le_compat_l; lra]|rewrite Rabs_Ropp; exact A]|].
    replace (uu * ((2 + k) * M) + k * M) with ((uu * (2 + k) + k) * M) by ring. apply Rmult_le_compat_r; [lra|]. unfold k in *. nra. }
  set (b := 9/8 * w + 3.35 * uu) in *. assert (B0 : 0 <= b <= 0.074) by (unfold b; lra).
  set (q := M * M) in *. assert (Q : 0 < q) by (unfold q; nra).
  assert (C : Rabs (e * e - (x - mu) * (x - mu)) <= 4.1 * b * q).
  { replace (e * e - (x - mu) * (x - mu)) with ((e - (x - mu)) * (2 * (x - mu) + (e - (x - mu)))) by ring. rewrite Rabs_mult.
    assert (C1 : Rabs (2 * (x - mu) + (e - (x - mu))) <= 4.1 * M).
    { eapply Rle_trans; [apply (abs_sum_le _ _ (4 * M) (b * M)); [rewrite Rabs_mult, (Rabs_pos_eq 2) by lra; lra|exact B]|]. nra. }
    replace (4.1 * b * q) with ((b * M) * (4.1 * M)) by (unfold q; ring). apply Rmult_le_compat; auto using Rabs_pos. }
  assert (D : Rabs (e * e) <= 4.31 * q).
  { assert (D1 : Rabs e <= 2.074 * M).
    { replace e with ((e - (x - mu)) + (x - mu)) by ring. eapply Rle_trans; [apply (abs_sum_le _ _ (b * M) (2 * M)); [exact B|exact X0]|]. nra. }
    rewrite Rabs_mult. eapply Rle_trans; [apply Rmult_le_compat; [apply Rabs_pos|apply Rabs_pos|exact D1|exact D1]|]. unfold q. nra. }
  replace (t - (x - mu) * (x - mu)) with ((t - e * e) + (e * e - (x - mu) * (x - mu))) by ring.
  eapply Rle_trans; [apply (abs_sum_le _ _ (uu * (4.31 * q) + tiny) (4.1 * b * q)); [eapply Rle_trans; [exact Ht|]; apply Rplus_le_compat_r, Rmult_le_compat_l; [apply Rlt_le; exact U|exact D]|exact C]|].
  replace ((4.62 * d + 18.2) * uu * q) with ((4.62 * w + 18.2 * uu) * q) by (unfold w; ring).
  assert (E : 4.1 * b * q <= 4.62 * (w * q) + 13.74 * (uu * q)).
  { replace (4.62 * (w * q) + 13.74 * (uu * q)) with ((4.62 * w + 13.74 * uu) * q) by ring. apply Rmult_le_compat_r; [lra|]. unfold b. lra. }
  assert (W : 0 <= uu * q) by (apply Rmult_le_pos; lra).
  replace ((4.62 * w + 18.2 * uu) * q) with (4.62 * (w * q) + 18.2 * (uu * q)) by ring. replace (uu * (4.31 * q)) with (4.31 * (uu * q)) by ring.
  clearbody b w q. clear - E T2 W. revert E T2 W. generalize (w * q), (uu * q), (4.1 * b * q). intros. lra.
Qed.

Lemma combine_seq {A B} (l : list A) (m : list B) (da : A) (db : B) G : length l = G -> length m = G ->
  combine l m = map (fun k => (nth k l da, nth k m db)) (seq 0 G).
Proof.
  intros Hl Hm. revert m G Hl Hm. induction l as [|x l IH]; intros [|y m] [|G] Hl Hm; cbn in *; try discriminate; [reflexivity|].
  f_equal. rewrite (IH m G) by lia. rewrite <- seq_shift, map_map. reflexivity.
Qed.
Lemma Rsum_map_diff {A} (f g : A -> R) l eps : (forall x, In x l -> Rabs (f x - g x) <= eps) ->
  Rabs (Rsum (map f l) - Rsum (map g l)) <= INR (length l) * eps.
Proof.
  induction l as [|x l IH]; intro H.
  - cbn. rewrite Rminus_0_r, Rabs_R0. lra.
  - cbn [map Rsum length]. rewrite S_INR. replace (f x + Rsum (map f l) - (g x + Rsum (map g l))) with ((f x - g x) + (Rsum (map f l) - Rsum (map g l))) by ring.
    eapply Rle_trans; [apply (abs_sum_le _ _ eps (INR (length l) * eps)); [apply H; left; reflexivity|apply IH; intros; apply H; right; assumption]|]. lra.
Qed.
Lemma loss_some {N : Num} (r : region N) G : Forall (fun row => length row = G) (r_v r) ->
  some_loss (length (r_v r)) (length (r_v r) * G) (r_v r) (region_loss r).
Proof.
  intro H. unfold region_loss. set (v := r_v r) in *. exists (mean_axis0 (width v) v). unfold mean_axis0. split; [rewrite map_length, seq_length; destruct v; reflexivity|].
  split.
  - intros k m E. rewrite nth_error_map in E. destruct (nth_error (seq 0 (width v)) k) as [k'|] eqn:Ek; [|discriminate]. injection E as <-.
    assert (k' = k). { assert (Hk : (k < width v)%nat) by (rewrite <- (seq_length (width v) 0); apply nth_error_Some; rewrite Ek; discriminate).
      rewrite (nth_error_nth' _ 0%nat) in Ek by (rewrite seq_length; exact Hk). rewrite seq_nth in Ek by exact Hk. injection Ek as <-. reflexivity. }
    subst k'. exists (nsum (column n0 k v)). unfold nmean. pose proof (nsum_added (column n0 k v)) as A. unfold column in *. rewrite map_length in A |- *. split; [exact A|reflexivity].
  - match goal with |- added _ ?l _ => set (dev := l) end.
    assert (Ld : length dev = (length v * G)%nat).
    { unfold dev. clear dev. set (means := map (fun k => nmean (column n0 k v)) (seq 0 (width v))). assert (Lm : v = [] \/ length means = G).
      { destruct v as [|row v']; [left; reflexivity|right]. unfold means. rewrite map_length, seq_length. inversion H; subst. reflexivity. }
      destruct Lm as [->|Lm]; [reflexivity|]. clearbody means. clearbody v. revert H. clear - Lm. induction v as [|row v IH]; intro H; [reflexivity|].
      inversion H as [|? ? H1 H2]; subst. cbn [map concat length]. rewrite app_length, map_length, combine_length, (IH H2). lia. }
    rewrite <- Ld. exact (nsum_added dev).
Qed.

Section Loss.
Variables (fe fl fr : b64 -> b64).
Notation BN := (B64 fe fl fr).
Notation val := (val fe fl fr).
Notation fin := (fin fe fl fr).
Notation fits := (fits fe fl fr).
Notation real_rows := (real_rows fe fl fr).

Lemma tiny_bounds M : bpow radix2 (-500) <= M -> tiny <= uu * M / 8 /\ tiny <= uu * (M * M) / 8.
Proof.
  intro H. assert (E8 : / 8 = bpow radix2 (-3)) by reflexivity. unfold tiny, uu, Rdiv. rewrite E8. split.
  - apply Rle_trans with (bpow radix2 (-53) * bpow radix2 (-500) * bpow radix2 (-3)).
    + rewrite <- !bpow_plus. apply bpow_le. lia.
    + apply Rmult_le_compat_r; [apply bpow_ge_0|]. apply Rmult_le_compat_l; [apply bpow_ge_0|exact H].
  - apply Rle_trans with (bpow radix2 (-53) * (bpow radix2 (-500) * bpow radix2 (-500)) * bpow radix2 (-3)).
    + rewrite <- !bpow_plus. apply bpow_le. lia.
    + apply Rmult_le_compat_r; [apply bpow_ge_0|]. apply Rmult_le_compat_l; [apply bpow_ge_0|]. apply Rmult_le_compat; auto using bpow_ge_0.
Qed.

Lemma small_uu d : (Z.of_nat d <= 2 ^ 49)%Z -> INR d * uu <= / 16.
Proof.
  intro H. pose proof (INR_pow d 49 H ltac:(lia)) as B. replace (/ 16) with (bpow radix2 49 * uu) by (unfold uu; rewrite <- bpow_plus; reflexivity).
  apply Rmult_le_compat_r; [apply Rlt_le, uu_pos|exact B].
Qed.

(** one squared deviation from a rounded mean *)
Lemma term_rounded (x m : BN) mu M d : bpow radix2 (-500) <= M <= bpow radix2 400 -> fits M x -> Rabs mu <= M -> (Z.of_nat d <= 2 ^ 49)%Z ->
  fin m -> Rabs (val m - mu) <= 9/8 * INR (S d) * uu * M + tiny ->
  let t := nmul (nsub x m) (nsub x m) in
  fin t /\ Rabs (val t - (val x - mu) * (val x - mu)) <= (4.62 * INR d + 18.2) * uu * (M * M).
Proof.
  intros [HM1 HM2] [Fx Bx] Bmu Hd Fm Em t. pose proof (tiny_bounds M HM1) as [T1 T2]. pose proof uu_pos as U. pose proof uu_small as U1.
  assert (M0 : 0 < M) by (pose proof (bpow_gt_0 radix2 (-500)); lra). pose proof (small_uu d Hd) as Hdu. pose proof (pos_INR d) as D0.
  rewrite S_INR in Em.
  assert (Bm : Rabs (val m) <= 1.1 * M).
  { replace (val m) with ((val m - mu) + mu) by ring. eapply Rle_trans; [apply (abs_sum_le _ _ _ _ Em Bmu)|].
    set (w := INR d * uu) in *. replace (9 / 8 * (INR d + 1) * uu * M) with (9/8 * (w + uu) * M) by (unfold w; ring). nra. }
  assert (P400 : 4 * M <= bpow radix2 402).
  { change 402%Z with (2 + 400)%Z. rewrite bpow_plus. change (bpow radix2 2) with 4. lra. }
  assert (Bd : Rabs (val x - val m) <= 3 * M).
  { apply Rabs_le_inv in Bx, Bm. apply Rabs_le. lra. }
  destruct (sub_ok fe fl fr x m 402 ltac:(lia) Fx Fm) as [Fe Ve]; [lra|].
  assert (Ee : Rabs (val (nsub x m) - (val x - val m)) <= uu * Rabs (val x - val m)).
  { rewrite Ve. unfold Rminus at 1 2 3. apply RN_plus; [apply fmt_val|apply generic_format_opp, fmt_val]. }
  assert (Be : Rabs (val (nsub x m)) <= bpow radix2 402).
  { rewrite Ve. apply RN_abs_le; [lia|lra]. }
  destruct (mul_ok fe fl fr (nsub x m) (nsub x m) 804 ltac:(lia) Fe Fe) as [Ft Vt].
  { rewrite Rabs_mult. change 804%Z with (402 + 402)%Z. rewrite bpow_plus. apply Rmult_le_compat; auto using Rabs_pos. }
  split; [exact Ft|]. apply (elem (val x) mu (val m) M (INR d) (val (nsub x m)) (val t)); auto.
  unfold t. rewrite Vt. apply RN_any.
Qed.

Theorem loss_rounded d1 d2 (v : list (list BN)) (a : BN) G M : some_loss d1 d2 v a -> Forall (fun row => length row = G) v -> Forall (Forall (fits M)) v ->
  bpow radix2 (-500) <= M <= bpow radix2 400 -> (Z.of_nat (length v) <= 2 ^ 49)%Z -> (Z.of_nat (length v * G) <= 2 ^ 49)%Z -> (Z.of_nat d1 < 2 ^ 49)%Z -> (Z.of_nat d2 <= 2 ^ 49)%Z ->
  fin a /\ Rabs (val a - within_variance G (real_rows v)) <= INR (length v * G) * INR (d1 + d2 + 3) * bpow radix2 (-50) * (M * M) /\
  Rabs (val a) <= 9 * INR (length v * G) * (M * M).
Proof.
  intros (means & Lm & Hm & Ad) HG HF HM Hn HK H1 H2.
  pose proof (tiny_bounds M (proj1 HM)) as [T1 T2]. pose proof uu_pos as U. pose proof uu_small as U1. destruct HM as [HM1 HM2].
  assert (M0 : 0 < M) by (pose proof (bpow_gt_0 radix2 (-500)); lra).
  assert (Lm' : v = [] \/ length means = G). { destruct v as [|row v']; [left; reflexivity|right]. inversion HG; subst. exact Lm. }
  set (mu := fun k => Rmean (at_grid k (real_rows v))).
  set (T := fun (row : list BN) k => nmul (nsub (nth k row n0) (nth k means n0)) (nsub (nth k row n0) (nth k means n0)) : BN).
  set (c := (4.62 * INR d1 + 18.2) * uu * (M * M)).
  assert (Term : forall row k, In row v -> (k < G)%nat -> fin (T row k) /\ Rabs (val (T row k) - (val (nth k row n0) - mu k) * (val (nth k row n0) - mu k)) <= c).
  { intros row k Hr Hk. destruct Lm' as [->|Lm']; [destruct Hr|].
    rewrite Forall_forall in HG, HF.
    assert (FC : Forall (fits M) (map (fun row => nth k row n0) v)).
    { apply Forall_map, Forall_forall. intros row' Hr'. specialize (HF row' Hr'). rewrite Forall_forall in HF. apply HF, nth_In. rewrite (HG row' Hr'). exact Hk. }
    destruct (Hm k (nth k means n0)) as (s & As & Em). { apply nth_error_nth'. lia. }
    assert (VC : vals fe fl fr (map (fun row => nth k row n0) v) = at_grid k (real_rows v)).
    { unfold vals, at_grid, real_rows. rewrite !map_map. apply map_ext_in. intros row' Hr'. rewrite (nth_indep (map val row') 0 (val n0)) by (rewrite map_length, (HG row' Hr'); exact Hk). symmetry. apply map_nth. }
    assert (NE : map (fun row => nth k row n0) v <> []) by (destruct v; [destruct Hr|discriminate]).
    destruct (mean_rounded fe fl fr d1 _ s M As NE) as [Fm Bm].
    { eapply Forall_impl; [|exact FC]. intros x [Fx _]. exact Fx. }
    { eapply Forall_impl; [|exact FC]. intros x [_ Bx]. exact Bx. }
    { eapply Rle_trans; [exact HM2|]. apply bpow_le. lia. }
    { rewrite map_length. exact Hn. }
    { exact H1. }
    rewrite map_length in Fm, Bm. rewrite <- Em in Fm, Bm. rewrite VC in Bm. fold (mu k) in Bm.
    assert (Sz : 0 <= Rmean (sizes fe fl fr (map (fun row => nth k row n0) v)) <= M).
    { apply Rmean_bounds; [unfold sizes; destruct v; [destruct Hr|discriminate]|]. unfold sizes. apply Forall_map. eapply Forall_impl; [|exact FC]. intros x [_ Bx]. split; [apply Rabs_pos|exact Bx]. }
    assert (Bm' : Rabs (val (nth k means n0) - mu k) <= 9/8 * INR (S d1) * uu * M + tiny).
    { eapply Rle_trans; [exact Bm|]. apply Rplus_le_compat_r, Rmult_le_compat_l; [|apply Sz]. pose proof (pos_INR (S d1)). apply Rmult_le_pos; lra. }
    assert (Bmu : Rabs (mu k) <= M).
    { apply Rabs_le. unfold mu. rewrite <- VC. apply Rmean_bounds; [unfold vals; destruct v; [destruct Hr|discriminate]|].
      unfold vals. apply Forall_map. eapply Forall_impl; [|exact FC]. intros x [_ Bx]. apply Rabs_le_inv in Bx. exact Bx. }
    apply (term_rounded (nth k row n0) (nth k means n0) (mu k) M d1); auto; [|lia].
    specialize (HF row Hr). rewrite Forall_forall in HF. apply HF, nth_In. rewrite (HG row Hr). exact Hk. }
  assert (Dev : concat (map (fun row => map (fun xm : BN * BN => nmul (nsub (fst xm) (snd xm)) (nsub (fst xm) (snd xm))) (combine row means)) v) =
                concat (map (fun row => map (T row) (seq 0 G)) v)).
  { f_equal. apply map_ext_in. intros row Hr. destruct Lm' as [->|Lm']; [destruct Hr|]. rewrite Forall_forall in HG.
    rewrite (combine_seq row means n0 n0 G (HG row Hr) Lm'), map_map. reflexivity. }
  rewrite Dev in Ad. set (dev := concat (map (fun row => map (T row) (seq 0 G)) v)) in *.
  assert (Ld : length dev = (length v * G)%nat).
  { unfold dev. clear. induction v as [|row v IH]; [reflexivity|]. cbn [map concat length]. rewrite app_length, map_length, seq_length, IH. lia. }
  pose proof (small_uu d1 ltac:(lia)) as Q1. pose proof (small_uu d2 H2) as Q2. pose proof (pos_INR d1) as P1. pose proof (pos_INR d2) as P2.
  set (q := M * M) in *. assert (Q : 0 < q) by (unfold q; nra).
  assert (Hc : 0 <= c <= 0.32 * q).
  { unfold c. split; [apply Rmult_le_pos; [apply Rmult_le_pos|]; lra|]. apply Rmult_le_compat_r; [lra|]. replace ((4.62 * INR d1 + 18.2) * uu) with (4.62 * (INR d1 * uu) + 18.2 * uu) by ring. lra. }
  assert (Sq : forall row k, In row v -> (k < G)%nat -> 0 <= (val (nth k row n0) - mu k) * (val (nth k row n0) - mu k) <= 4 * q).
  { intros row k Hr Hk. rewrite Forall_forall in HG, HF.
    assert (FC : forall row', In row' v -> fits M (nth k row' n0)).
    { intros row' Hr'. specialize (HF row' Hr'). rewrite Forall_forall in HF. apply HF, nth_In. rewrite (HG row' Hr'). exact Hk. }
    destruct (FC row Hr) as [_ Bx]. apply Rabs_le_inv in Bx.
    assert (Bmu : - M <= mu k <= M).
    { unfold mu, at_grid, real_rows. apply Rmean_bounds; [destruct v; [destruct Hr|discriminate]|]. rewrite map_map. apply Forall_map, Forall_forall. intros row' Hr'.
      rewrite (nth_indep (map val row') 0 (val n0)) by (rewrite map_length, (HG row' Hr'); exact Hk). rewrite (map_nth val). apply Rabs_le_inv. apply (FC row' Hr'). }
    unfold q. split; [apply Rle_0_sqr|]. set (z := val (nth k row n0) - mu k). assert (- (2 * M) <= z <= 2 * M) by (unfold z; lra). nra. }
  assert (FD : Forall fin dev /\ Forall (fun x => Rabs (val x) <= 4.32 * q) dev).
  { split; apply Forall_forall; intros x Hx; unfold dev in Hx; apply in_concat in Hx; destruct Hx as (l & Hl & Hx); apply in_map_iff in Hl; destruct Hl as (row & <- & Hr);
      apply in_map_iff in Hx; destruct Hx as (k & <- & Hk); apply in_seq in Hk; destruct (Term row k Hr ltac:(lia)) as [F E]; [exact F|].
    pose proof (Sq row k Hr ltac:(lia)) as S1. apply Rabs_le_inv in E. apply Rabs_le. lra. }
  destruct FD as [FD BD].
  assert (Hq : 4.32 * q <= bpow radix2 900).
  { apply Rle_trans with (bpow radix2 3 * (bpow radix2 400 * bpow radix2 400)).
    - change (bpow radix2 3) with 8. assert (q <= bpow radix2 400 * bpow radix2 400) by (unfold q; apply Rmult_le_compat; lra).
      pose proof (bpow_gt_0 radix2 400). assert (0 < bpow radix2 400 * bpow radix2 400) by (apply Rmult_lt_0_compat; assumption). lra.
    - rewrite <- !bpow_plus. apply bpow_le. lia. }
  rewrite <- Ld in HK. destruct (added_moderate fe fl fr d2 dev a (4.32 * q) Ad FD BD Hq HK H2) as [Fa Ea].
  pose proof (sizes_le fe fl fr dev (4.32 * q) BD) as Sz. pose proof (sizes_pos fe fl fr dev) as S0. pose proof (pw_lin d2 H2) as PL. pose proof (pw_two d2 H2) as PT. pose proof (pw_ge1 d2) as PG.
  rewrite Ld in Sz. set (K := INR (length v * G)) in *. assert (K0 : 0 <= K) by apply pos_INR.
  split; [exact Fa|].
  assert (S1 : Rsum (vals fe fl fr dev) = Rsum (map (fun row => Rsum (map (fun k => val (T row k)) (seq 0 G))) v)).
  { unfold vals, dev. rewrite concat_map, map_map, Rsum_concat, map_map. f_equal. apply map_ext. intro row. rewrite map_map. reflexivity. }
  assert (S2 : within_variance G (real_rows v) = Rsum (map (fun row => Rsum (map (fun k => (val (nth k row n0) - mu k) * (val (nth k row n0) - mu k)) (seq 0 G))) v)).
  { rewrite (Rsum_swap (fun row k => (val (nth k row n0) - mu k) * (val (nth k row n0) - mu k))). unfold within_variance. f_equal. apply map_ext_in. intros k Hk. apply in_seq in Hk.
    fold (mu k). unfold at_grid, real_rows. rewrite !map_map. f_equal. apply map_ext_in. intros row Hr. rewrite Forall_forall in HG.
    rewrite (nth_indep (map val row) 0 (val n0)) by (rewrite map_length, (HG row Hr); lia). rewrite (map_nth val). ring. }
  assert (ES : Rabs (Rsum (vals fe fl fr dev) - within_variance G (real_rows v)) <= K * c).
  { rewrite S1, S2. unfold K. rewrite mult_INR, Rmult_assoc. apply Rsum_map_diff. intros row Hr.
    eapply Rle_trans; [apply (Rsum_map_diff _ _ (seq 0 G) c)|rewrite seq_length; lra]. intros k Hk. apply in_seq in Hk. apply (Term row k Hr). lia. }
  split.
  - assert (E2 : Rabs (val a - Rsum (vals fe fl fr dev)) <= 9/8 * INR d2 * uu * (K * (4.32 * q))).
    { eapply Rle_trans; [exact Ea|]. apply Rmult_le_compat; lra. }
    replace (val a - within_variance G (real_rows v)) with ((val a - Rsum (vals fe fl fr dev)) + (Rsum (vals fe fl fr dev) - within_variance G (real_rows v))) by ring.
    eapply Rle_trans; [apply (abs_sum_le _ _ _ _ E2 ES)|].
    replace (bpow radix2 (-50)) with (8 * uu) by (unfold uu; change 8 with (bpow radix2 3); rewrite <- bpow_plus; reflexivity).
    rewrite !plus_INR. change (INR 3) with (1 + 1 + 1). unfold c.
    set (P := K * (uu * q)). assert (P0 : 0 <= P) by (apply Rmult_le_pos; [lra|apply Rmult_le_pos; lra]).
    replace (9 / 8 * INR d2 * uu * (K * (4.32 * q))) with (9/8 * 4.32 * (INR d2 * P)) by (unfold P; ring).
    replace (K * ((4.62 * INR d1 + 18.2) * uu * q)) with (4.62 * (INR d1 * P) + 18.2 * P) by (unfold P; ring).
    replace (K * (INR d1 + INR d2 + (1 + 1 + 1)) * (8 * uu) * q) with (8 * (INR d1 * P) + 8 * (INR d2 * P) + 24 * P) by (unfold P; ring).
    assert (P3 : 0 <= INR d1 * P) by (apply Rmult_le_pos; lra). assert (P4 : 0 <= INR d2 * P) by (apply Rmult_le_pos; lra).
    clear - P0 P3 P4. revert P0 P3 P4. generalize P, (INR d1 * P), (INR d2 * P). intros. lra.
  - pose proof (sum_sizes fe fl fr dev) as TS. apply Rabs_le_inv in TS, Ea.
    assert (pw d2 * Rsizes fe fl fr dev <= 2 * (K * (4.32 * q))) by (apply Rmult_le_compat; lra).
    assert (0 <= K * q) by (apply Rmult_le_pos; lra). apply Rabs_le. replace (9 * K * q) with (9 * (K * q)) by ring. replace (2 * (K * (4.32 * q))) with (2 * 4.32 * (K * q)) in H by ring. revert H H0 TS Ea. generalize (K * q), (pw d2). intros. split; nra.
Qed.
End Loss.
