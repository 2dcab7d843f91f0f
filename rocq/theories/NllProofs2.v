(** NllProofs2.v - which predictions have the least negative log likelihood (C55). *)
From Coq Require Import Reals Lra Lia.
From Coquelicot Require Import Coquelicot.
From Verif Require Import Base Num NumLaws NumpyModel ConfigSpaceModel UtilsModel IceModel PartitionModel ListLemmas RealProofs RealSums SyntheticModel SyntheticSpec NllModel NllSpec NllProofs.
Local Open Scope R_scope.
Local Open Scope list_scope.

Lemma ln_le_pred x : 0 < x -> ln x <= x - 1 /\ (ln x = x - 1 -> x = 1).
Proof.
  intro H. destruct (Req_dec x 1) as [->|N]; [rewrite ln_1; lra|].
  assert (ln x <> 0) by (intro E; apply N, (ln_inv x 1); [exact H|lra|rewrite ln_1; exact E]).
  pose proof (exp_ineq1 (ln x) ltac:(assumption)) as K. rewrite exp_ln in K by exact H. split; intros; lra.
Qed.

Lemma gauss_nll_fit t m v : 0 < v -> gauss_nll m m v <= gauss_nll t m v /\ (gauss_nll t m v = gauss_nll m m v <-> t = m).
Proof.
  intro H. unfold gauss_nll. assert (E : (m - m) ^ 2 / (2 * v) = 0) by (field; lra). rewrite E. clear E.
  assert (P : 0 <= (t - m) ^ 2 / (2 * v)) by (apply Rmult_le_pos; [apply pow2_ge_0|apply Rlt_le, Rinv_0_lt_compat; lra]).
  split; [lra|]. split; [|intros ->; field; lra]. intro E.
  assert (Z : (t - m) ^ 2 / (2 * v) = 0) by lra. apply Rmult_eq_compat_r with (r := 2 * v) in Z. unfold Rdiv in Z. rewrite Rmult_assoc, Rinv_l in Z by lra. nra.
Qed.

Lemma gauss_nll_variance t m v : 0 < v -> t <> m ->
  gauss_nll t m ((t - m) ^ 2) <= gauss_nll t m v /\ (gauss_nll t m v = gauss_nll t m ((t - m) ^ 2) <-> v = (t - m) ^ 2).
Proof.
  intros H N. set (e := (t - m) ^ 2). assert (He : 0 < e) by (unfold e; apply pow2_gt_0; lra).
  assert (Q : gauss_nll t m v - gauss_nll t m e = (e / v - 1 - ln (e / v)) / 2).
  { unfold gauss_nll. fold e. pose proof PI_RGT_0 as PP.
    rewrite (ln_mult (2 * PI) v), (ln_mult (2 * PI) e) by lra. replace (ln (e / v)) with (ln e - ln v).
    - field. lra.
    - unfold Rdiv. rewrite ln_mult, ln_Rinv by (try apply Rinv_0_lt_compat; lra). ring. }
  destruct (ln_le_pred (e / v)) as [A B]; [apply Rdiv_lt_0_compat; lra|]. split; [lra|]. split; [|intros ->; reflexivity].
  intro E. specialize (B ltac:(lra)). apply Rmult_eq_compat_r with (r := v) in B. unfold Rdiv in B. rewrite Rmult_assoc, Rinv_l in B by lra. lra.
Qed.

Lemma Rmean_map_le {A} (f g : A -> R) l : l <> [] -> (forall x, In x l -> g x <= f x) ->
  Rmean (map g l) <= Rmean (map f l) /\ (Rmean (map f l) = Rmean (map g l) <-> forall x, In x l -> f x = g x).
Proof.
  intros NE H. unfold Rmean. rewrite !map_length. assert (LP : 0 < / INR (length l)) by (apply Rinv_0_lt_compat, lt_0_INR; destruct l; [congruence|cbn; lia]).
  pose proof (Rsum_map_le g f l H) as LE. unfold Rdiv. split; [nra|].
  assert (Z : Rsum (map (fun x => f x - g x) l) = 0 <-> forall x, In x l -> f x = g x).
  { rewrite Rsum_zero; [|apply Forall_map, Forall_forall; intros x Hx; specialize (H x Hx); lra]. rewrite Forall_map, Forall_forall.
    split; intros K x Hx; specialize (K x Hx); lra. }
  rewrite Rsum_map_minus in Z. rewrite <- Z. split; intro; nra.
Qed.

Lemma in_range i n : In i (seq 0 n) -> (i < n)%nat.
Proof. rewrite in_seq. lia. Qed.
Lemma range_in i n : (i < n)%nat -> In i (seq 0 n).
Proof. rewrite in_seq. lia. Qed.
Lemma range_some n : (0 < n)%nat -> seq 0 n <> [].
Proof. destruct n; [lia|discriminate]. Qed.

Section Least.
Variables (cs : cspace RNum) (h : hp RNum) (lo up : R) (lg : bool) (idx : nat) (r : region RNum).
Hypotheses (ND : NoDup (map hp_name cs)) (FR : Forall float_range cs) (NT : nth_error cs idx = Some h) (KI : hp_kind h = KFloat (lo : RNum) (up : RNum) lg)
  (L2 : (2 <= length cs)%nat) (W0 : (0 < width (r_x r))%nat) (RC : Forall (fun row => length row = length cs) (nth 0 (r_x r) []))
  (WY : width (r_y r) = width (r_x r)) (WV : width (r_v r) = width (r_x r)) (POS : forall i, (i < width (r_x r))%nat -> 0 < col_mean i (r_v r)).
Let truth i := true_pd cs h (grid_value r lo up lg idx i).

Theorem nll_best_fit : exists a, nll cs [h] r (stybtang_fn cs) = Ok (Some a) /\
  Rmean (map (fun i => ln (2 * PI * col_mean i (r_v r)) / 2) (seq 0 (width (r_x r)))) <= a /\
  (a = Rmean (map (fun i => ln (2 * PI * col_mean i (r_v r)) / 2) (seq 0 (width (r_x r)))) <->
   forall i, (i < width (r_x r))%nat -> col_mean i (r_y r) = true_pd cs h (grid_value r lo up lg idx i)).
Proof.
  eexists. split; [exact (nll_stybtang cs h lo up lg idx r ND FR NT KI L2 W0 RC WY WV POS)|].
  assert (NE : seq 0 (width (r_x r)) <> []) by (apply range_some; exact W0).
  assert (K : forall i, In i (seq 0 (width (r_x r))) -> ln (2 * PI * col_mean i (r_v r)) / 2 = gauss_nll (col_mean i (r_y r)) (col_mean i (r_y r)) (col_mean i (r_v r))).
  { intros i Hi. apply in_range in Hi. unfold gauss_nll. field. specialize (POS i Hi). lra. }
  destruct (Rmean_map_le (fun i => gauss_nll (truth i) (col_mean i (r_y r)) (col_mean i (r_v r))) (fun i => ln (2 * PI * col_mean i (r_v r)) / 2) (seq 0 (width (r_x r))) NE) as [A B].
  { intros i Hi. rewrite (K i Hi). apply in_range in Hi. apply gauss_nll_fit, POS. exact Hi. }
  split; [exact A|]. etransitivity; [exact B|]. split.
  - intros H i Hi. assert (I : In i (seq 0 (width (r_x r)))) by (apply range_in; exact Hi). specialize (H i I). cbv beta in H. rewrite (K i I) in H.
    symmetry. apply gauss_nll_fit in H; [exact H|apply POS; exact Hi].
  - intros H i I. cbv beta. rewrite (K i I). apply in_range in I. apply gauss_nll_fit; [apply POS; exact I|]. symmetry. apply H. exact I.
Qed.

Theorem nll_best_variance : (forall i, (i < width (r_x r))%nat -> true_pd cs h (grid_value r lo up lg idx i) <> col_mean i (r_y r)) ->
  let miss i := (true_pd cs h (grid_value r lo up lg idx i) - col_mean i (r_y r)) ^ 2 in
  exists a, nll cs [h] r (stybtang_fn cs) = Ok (Some a) /\
  Rmean (map (fun i => (1 + ln (2 * PI * miss i)) / 2) (seq 0 (width (r_x r)))) <= a /\
  (a = Rmean (map (fun i => (1 + ln (2 * PI * miss i)) / 2) (seq 0 (width (r_x r)))) <->
   forall i, (i < width (r_x r))%nat -> col_mean i (r_v r) = miss i).
Proof.
  intros MISS miss. eexists. split; [exact (nll_stybtang cs h lo up lg idx r ND FR NT KI L2 W0 RC WY WV POS)|].
  assert (NE : seq 0 (width (r_x r)) <> []) by (apply range_some; exact W0).
  assert (K : forall i, In i (seq 0 (width (r_x r))) -> (1 + ln (2 * PI * miss i)) / 2 = gauss_nll (truth i) (col_mean i (r_y r)) ((truth i - col_mean i (r_y r)) ^ 2)).
  { intros i Hi. apply in_range in Hi. unfold gauss_nll, miss. fold (truth i). set (e := (truth i - col_mean i (r_y r)) ^ 2).
    assert (0 < e) by (unfold e, truth; apply pow2_gt_0; specialize (MISS i Hi); lra). field. lra. }
  destruct (Rmean_map_le (fun i => gauss_nll (truth i) (col_mean i (r_y r)) (col_mean i (r_v r))) (fun i => (1 + ln (2 * PI * miss i)) / 2) (seq 0 (width (r_x r))) NE) as [A B].
  { intros i Hi. rewrite (K i Hi). apply in_range in Hi. apply gauss_nll_variance; [apply POS|apply MISS]; exact Hi. }
  split; [exact A|]. etransitivity; [exact B|]. split.
  - intros H i Hi. assert (I : In i (seq 0 (width (r_x r)))) by (apply range_in; exact Hi). specialize (H i I). cbv beta in H. rewrite (K i I) in H.
    apply gauss_nll_variance in H; [exact H|apply POS; exact Hi|apply MISS; exact Hi].
  - intros H i I. cbv beta. rewrite (K i I). apply in_range in I. apply gauss_nll_variance; [apply POS; exact I|apply MISS; exact I|]. apply H. exact I.
Qed.
End Least.
