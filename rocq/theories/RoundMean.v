(** RoundMean.v - rounding in curves and in the mean confidence (C111). *)
From Coq Require Import Reals Lra Psatz.
From Flocq Require Import Core.Core IEEE754.BinarySingleNaN.
From Verif Require Import Base Num NumLaws NumpyModel ConfigSpaceModel UtilsModel IceModel PartitionModel PartitionSpec
  ListLemmas IceProofs RealSums PartitionReal2 B64Proofs RoundSpec RoundProofs RoundLoss.
Local Open Scope R_scope.

Section Mean.
Variables (fe fl fr : b64 -> b64).
Notation BN := (B64 fe fl fr).
Notation val := (val fe fl fr).
Notation fin := (fin fe fl fr).
Notation fits := (fits fe fl fr).
Notation vals := (vals fe fl fr).
Notation sizes := (sizes fe fl fr).

Lemma Rmean_le l M : l <> [] -> Forall (fun x => x <= M) l -> Rmean l <= M.
Proof.
  intros NE F. assert (0 < INR (length l)) by (destruct l; [congruence|apply lt_0_INR; cbn; lia]).
  apply (Rmult_le_reg_l (INR (length l))); [assumption|]. rewrite Rmean_mult by exact NE.
  clear NE H. induction F as [|x l H F IH]; [cbn; lra|]. cbn [Rsum length]. rewrite S_INR. lra.
Qed.

(** ** the curves: means over the rows of a table *)
Lemma mean_axis0_rounded g (v : list (list BN)) k m M : v <> [] -> (Z.of_nat (length v) < 2 ^ 49)%Z -> M <= bpow radix2 900 ->
  (forall row, In row v -> fits M (nth k row n0)) -> nth_error (mean_axis0 g v) k = Some m ->
  fin m /\ Rabs (val m - Rmean (map (fun row => val (nth k row n0)) v)) <= 9/8 * INR (S (length v)) * uu * M + tiny.
Proof.
  intros NE Hn HM F E. unfold mean_axis0 in E. rewrite nth_error_map in E. destruct (nth_error (seq 0 g) k) as [k'|] eqn:Ek; [|discriminate].
  assert (k' = k). { pose proof (nth_error_nth _ _ 0%nat Ek) as X. rewrite seq_nth in X; [lia|]. apply nth_error_Some_lt in Ek. rewrite seq_length in Ek. exact Ek. } subst k'. cbn [option_map] in E. injection E as <-.
  set (col := column n0 k v). assert (Ec : col = map (fun row => nth k row n0) v) by reflexivity.
  assert (Lc : length col = length v) by (rewrite Ec; apply map_length).
  assert (Fc : Forall (fits M) col). { rewrite Ec, Forall_map. apply Forall_forall. exact F. }
  assert (Nc : col <> []) by (rewrite Ec; destruct v; [congruence|discriminate]).
  destruct (mean_rounded fe fl fr (length col) col (nsum col) M (nsum_added col) Nc) as [A B].
  - eapply Forall_impl; [|exact Fc]. intros x [X _]. exact X.
  - eapply Forall_impl; [|exact Fc]. intros x [_ X]. exact X.
  - exact HM.
  - lia.
  - lia.
  - split; [exact A|]. rewrite Lc in A, B.
    assert (Ev : vals col = map (fun row => val (nth k row n0)) v). { unfold RoundProofs.vals. rewrite Ec, map_map. reflexivity. }
    rewrite Ev in B. assert (Em : nmean col = ndiv (nsum col) (nofZ (Z.of_nat (length v)))) by (unfold nmean; rewrite Lc; reflexivity).
    rewrite <- Em in B. eapply Rle_trans; [exact B|]. apply Rplus_le_compat_r. apply Rmult_le_compat_l.
    + pose proof (pos_INR (S (length v))). pose proof uu_pos. apply Rmult_le_pos; lra.
    + apply Rmean_le; [unfold RoundProofs.sizes; intro Z; apply Nc; destruct col; [reflexivity|discriminate]|].
      unfold RoundProofs.sizes. rewrite Forall_map. eapply Forall_impl; [|exact Fc]. intros x [_ X]. exact X.
Qed.

(** the curve of a PDP: the mean of the predictions at each grid point *)
Theorem pdp_rounded (a : algorithm BN) predict d M g m : rect (num_features a) (a_samples a) -> ice_calculate a false predict = Ok d ->
  (forall rows means stds, predict rows = Ok (means, stds) -> Forall (fits M) means) -> M <= bpow radix2 900 ->
  (0 < num_samples a)%nat -> (Z.of_nat (num_samples a) < 2 ^ 49)%Z -> nth_error (y_pdp a d) g = Some m ->
  fin m /\ Rabs (val m - Rmean (map (fun row => val (nth g row n0)) (i_y d))) <= 9/8 * INR (num_samples a + 1) * uu * M + tiny.
Proof.
  intros RC E HP HM H0 Hn Hg. destruct (ice_calculate_shapes a false predict d RC E) as (_ & Ly & _ & _ & Fy & _).
  apply ice_calculate_ok in E. destruct E as (means & stds & _ & Hp & y & t & Hy & _ & _ & Ey). injection Ey as Ey. subst y.
  specialize (HP _ _ _ Hp). apply reshape2_ok in Hy. destruct Hy as (_ & _ & _ & _ & Ec).
  assert (Hg' : (g < num_grid_points a)%nat). { apply nth_error_Some_lt in Hg. unfold y_pdp, mean_axis0 in Hg. rewrite map_length, seq_length in Hg. exact Hg. }
  replace (num_samples a + 1)%nat with (S (length (i_y d))) by lia.
  apply (mean_axis0_rounded (num_grid_points a) (i_y d) g m M); [intro Z; rewrite Z in Ly; cbn in Ly; lia|rewrite Ly; exact Hn|exact HM| |exact Hg].
  intros row Hr. rewrite <- Ec in HP. rewrite Forall_forall in HP, Fy. apply HP. apply in_concat. exists row. split; [exact Hr|]. apply nth_In. rewrite (Fy row Hr). exact Hg'.
Qed.
(** the curve of a region *)
Theorem region_pdp_rounded (r : region BN) G M g m : r_y r <> [] -> Forall (fun row => length row = G) (r_y r) -> Forall (Forall (fits M)) (r_y r) ->
  M <= bpow radix2 900 -> (Z.of_nat (length (r_y r)) < 2 ^ 49)%Z -> nth_error (region_pdp_y r) g = Some m ->
  fin m /\ Rabs (val m - Rmean (map (fun row => val (nth g row n0)) (r_y r))) <= 9/8 * INR (length (r_y r) + 1) * uu * M + tiny.
Proof.
  intros NE HG HF HM Hn Hg. assert (W : width (r_y r) = G). { destruct (r_y r); [congruence|]. inversion HG; subst. reflexivity. }
  assert (Hg' : (g < G)%nat). { apply nth_error_Some_lt in Hg. unfold region_pdp_y, mean_axis0 in Hg. rewrite map_length, seq_length, W in Hg. exact Hg. }
  replace (length (r_y r) + 1)%nat with (S (length (r_y r))) by lia.
  apply (mean_axis0_rounded (width (r_y r)) (r_y r) g m M NE Hn HM); [|exact Hg].
  intros row Hr. rewrite Forall_forall in HF, HG. specialize (HF row Hr). rewrite Forall_forall in HF. apply HF, nth_In. rewrite (HG row Hr). exact Hg'.
Qed.

(** ** square roots *)
Lemma sqrt_ok (x : BN) : fin x -> 0 <= val x -> fin (nsqrt x) /\ val (nsqrt x) = RN (sqrt (val x)).
Proof.
  intros Fx P. pose proof (Bsqrt_correct 53 1024 prec53 emax1024 mode_NE x) as (A & B & _). split; [|exact A].
  unfold B64Proofs.fin, B64Proofs.val in *. cbn. rewrite B. destruct (x : b64) as [|s| |s m e H]; try discriminate; [reflexivity|].
  destruct s; [|reflexivity]. exfalso. cbn in P. unfold F2R in P. cbn in P.
  assert (IZR (Z.neg m) < 0) by (apply (IZR_lt _ 0); lia). pose proof (bpow_gt_0 radix2 e). nra.
Qed.
Lemma Rmean_diff {A} (f g h : A -> R) (l : list A) : l <> [] -> (forall x, In x l -> Rabs (f x - g x) <= h x) ->
  Rabs (Rmean (map f l) - Rmean (map g l)) <= Rmean (map h l).
Proof.
  intros NE H. assert (P : 0 < INR (length l)) by (destruct l; [congruence|apply lt_0_INR; cbn; lia]).
  unfold Rmean. rewrite !map_length. unfold Rdiv. rewrite <- Rmult_minus_distr_r, Rabs_mult, (Rabs_pos_eq (/ _)) by (apply Rlt_le, Rinv_0_lt_compat, P).
  apply Rmult_le_compat_r; [apply Rlt_le, Rinv_0_lt_compat, P|]. clear NE P.
  induction l as [|x l IH]; [cbn; rewrite Rminus_0_r, Rabs_R0; lra|]. cbn [map Rsum].
  replace (f x + Rsum (map f l) - (g x + Rsum (map g l))) with ((f x - g x) + (Rsum (map f l) - Rsum (map g l))) by ring.
  eapply Rle_trans; [apply Rabs_triang|]. apply Rplus_le_compat; [apply H; left; reflexivity|]. apply IH. intros y Hy. apply H. right. exact Hy.
Qed.
Lemma Rmean_lin (f : BN -> R) a b (l : list BN) : l <> [] -> Rmean (map (fun x => a * f x + b) l) = a * Rmean (map f l) + b.
Proof.
  intro NE. assert (P : INR (length l) <> 0) by (apply not_0_INR; destruct l; [congruence|discriminate]).
  unfold Rmean. rewrite !map_length. assert (E : Rsum (map (fun x => a * f x + b) l) = a * Rsum (map f l) + INR (length l) * b).
  { clear NE P. induction l as [|x l IH]; [cbn; ring|]. cbn [map Rsum length]. rewrite IH, S_INR. ring. }
  rewrite E. field. exact P.
Qed.
Lemma RN_pos x : 0 <= x -> 0 <= RN x.
Proof. intro H. replace 0 with (RN 0) by (apply RN_generic, generic_format_0). apply RN_mono. exact H. Qed.

(** the mean of the square roots of numbers that are not negative, added in any order *)
Theorem roots_mean_rounded d (l : list BN) (s : BN) : added d (map nsqrt l) s -> l <> [] ->
  Forall (fun x => fin x /\ 0 <= val x <= bpow radix2 1000) l -> (Z.of_nat (length l) <= 2 ^ 49)%Z -> (Z.of_nat d < 2 ^ 49)%Z ->
  let m := ndiv s (nofZ (Z.of_nat (length l))) in
  fin m /\ Rabs (val m - Rmean (map (fun x => sqrt (val x)) l)) <= 9/8 * INR (S (S d)) * uu * Rmean (map (fun x => sqrt (val x)) l) + 3 * tiny.
Proof.
  intros A NE F Hl Hd m. rewrite Forall_forall in F.
  assert (Q : forall x, In x l -> fin (nsqrt x) /\ val (nsqrt x) = RN (sqrt (val x)) /\ 0 <= sqrt (val x) <= bpow radix2 500).
  { intros x Hx. destruct (F x Hx) as (Fx & P & U). destruct (sqrt_ok x Fx P) as [X Y]. refine (conj X (conj Y (conj (sqrt_pos _) _))).
    replace (bpow radix2 500) with (sqrt (bpow radix2 1000)); [apply sqrt_le_1_alt; exact U|].
    replace (bpow radix2 1000) with (bpow radix2 500 * bpow radix2 500) by (rewrite <- bpow_plus; reflexivity). apply sqrt_square, bpow_ge_0. }
  assert (NE' : map (nsqrt (n := BN)) l <> []) by (destruct l; [congruence|discriminate]).
  destruct (mean_rounded fe fl fr d (map nsqrt l) s (bpow radix2 900) A NE') as [Fm Em].
  - rewrite Forall_map. apply Forall_forall. intros x Hx. apply Q, Hx.
  - rewrite Forall_map. apply Forall_forall. intros x Hx. destruct (Q x Hx) as (_ & -> & P & U).
    apply Rle_trans with (bpow radix2 500); [apply RN_abs_le; [lia|rewrite Rabs_pos_eq; lra]|apply bpow_le; lia].
  - apply Rle_refl.
  - rewrite map_length. exact Hl.
  - exact Hd.
  - rewrite map_length in Fm, Em. fold m in Fm, Em. split; [exact Fm|].
    set (g := fun x : BN => sqrt (val x)) in *. set (f := fun x : BN => val (nsqrt x)).
    assert (Ev : vals (map nsqrt l) = map f l) by (unfold RoundProofs.vals; rewrite map_map; reflexivity).
    assert (Es : sizes (map nsqrt l) = map f l).
    { unfold RoundProofs.sizes. rewrite map_map. apply map_ext_in. intros x Hx. apply Rabs_pos_eq. destruct (Q x Hx) as (_ & Y & P & _). change (0 <= val (nsqrt x)). rewrite Y. apply RN_pos, P. }
    rewrite Ev, Es in Em.
    assert (D : Rabs (Rmean (map f l) - Rmean (map g l)) <= uu * Rmean (map g l) + tiny).
    { rewrite <- (Rmean_lin g uu tiny l NE). apply Rmean_diff; [exact NE|]. intros x Hx. destruct (Q x Hx) as (_ & Y & P & _). unfold f. rewrite Y.
      eapply Rle_trans; [apply RN_any|]. rewrite Rabs_pos_eq by exact P. apply Rle_refl. }
    assert (Pg : 0 <= Rmean (map g l)).
    { unfold Rmean. apply Rmult_le_pos; [|destruct l; [congruence|apply Rlt_le, Rinv_0_lt_compat, lt_0_INR; cbn; lia]].
      apply Rsum_nonneg. rewrite Forall_map. apply Forall_forall. intros x _. apply sqrt_pos. }
    set (B := Rmean (map f l)) in *. set (C := Rmean (map g l)) in *.
    assert (Sm : INR (S d) * uu <= / 16) by (apply small_uu; lia).
    rewrite (S_INR (S d)). pose proof uu_pos as U0. pose proof uu_small as U1. pose proof tiny_pos as T0. pose proof (pos_INR (S d)) as D0.
    apply Rabs_le_inv in D. set (t := INR (S d)) in *.
    assert (BC : B <= (1 + uu) * C + tiny) by lra.
    assert (X1 : 9 / 8 * t * uu * B <= 9 / 8 * (t * uu) * ((1 + uu) * C + tiny)).
    { replace (9 / 8 * t * uu * B) with (9 / 8 * (t * uu) * B) by ring. apply Rmult_le_compat_l; [|exact BC]. assert (0 <= t * uu) by (apply Rmult_le_pos; lra). lra. }
    assert (X2 : t * uu * (uu * C) <= / 16 * (uu * C)). { apply Rmult_le_compat_r; [apply Rmult_le_pos; lra|exact Sm]. }
    assert (X3 : t * uu * tiny <= / 16 * tiny). { apply Rmult_le_compat_r; lra. }
    replace (val m - C) with ((val m - B) + (B - C)) by ring. eapply Rle_trans; [apply Rabs_triang|].
    assert (X4 : Rabs (B - C) <= uu * C + tiny) by (apply Rabs_le; lra).
    assert (UC : 0 <= uu * C) by (apply Rmult_le_pos; lra).
    replace (9 / 8 * (t + 1) * uu * C) with (9 / 8 * (t * uu * C) + 9 / 8 * (uu * C)) by ring.
    replace (9 / 8 * (t * uu) * ((1 + uu) * C + tiny)) with (9 / 8 * (t * uu * C) + 9 / 8 * (t * uu * (uu * C)) + 9 / 8 * (t * uu * tiny)) in X1 by ring.
    revert X1 X2 X3 X4 Em UC T0. generalize (t * uu * C), (t * uu * (uu * C)), (t * uu * tiny), (uu * C), (Rabs (B - C)), (Rabs (val m - B)), (9 / 8 * t * uu * B), tiny. intros; lra.
Qed.

(** mean_confidence of a region *)
Theorem confidence_rounded (r : region BN) : concat (r_v r) <> [] -> (Z.of_nat (length (concat (r_v r))) < 2 ^ 49)%Z ->
  Forall (Forall (fun x => fin x /\ 0 <= val x <= bpow radix2 1000)) (r_v r) ->
  let k := length (concat (r_v r)) in let e := Rmean (map (fun x => sqrt (val x)) (concat (r_v r))) in
  fin (mean_confidence r) /\ Rabs (val (mean_confidence r) - e) <= 9/8 * INR (k + 2) * uu * e + 3 * tiny.
Proof.
  intros NE H F k e. unfold mean_confidence, nmean. rewrite map_length. replace (k + 2)%nat with (S (S k)) by lia.
  apply (roots_mean_rounded k (concat (r_v r)) _); [|exact NE| |lia|exact H].
  - pose proof (nsum_added (map nsqrt (concat (r_v r)))) as X. rewrite map_length in X. exact X.
  - apply Forall_concat. exact F.
Qed.
End Mean.
