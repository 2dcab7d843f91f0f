(** RoundProofs.v - rounding of sums and means in binary64 (C111). *)
From Coq Require Import Reals Lra.
From Flocq Require Import Core.Core IEEE754.BinarySingleNaN Relative Plus_error.
From Verif Require Import Base Num NumLaws NumpyModel ConfigSpaceModel UtilsModel IceModel PartitionModel PartitionSpec
  ListLemmas IceProofs RealSums B64Proofs RoundSpec.
Local Open Scope R_scope.

Definition uu : R := bpow radix2 (-53).
Definition tiny : R := bpow radix2 (-1075).
Lemma uu_pos : 0 < uu. Proof. apply bpow_gt_0. Qed.
Lemma tiny_pos : 0 < tiny. Proof. apply bpow_gt_0. Qed.
Lemma uu_small : uu <= / 1024.
Proof. unfold uu. change (/ 1024) with (/ IZR (2 ^ 10)). replace (/ IZR (2^10)) with (bpow radix2 (-10)) by reflexivity. apply bpow_le. lia. Qed.

#[local] Instance p53 : Prec_gt_0 53 := prec53.
Lemma ro_eq : u_ro radix2 53 = uu.
Proof. unfold u_ro, uu. change (bpow radix2 (-53)) with (bpow radix2 (-1 + -52)). rewrite (bpow_plus radix2 (-1) (-52)). reflexivity. Qed.

Lemma RN_plus x y : fmt x -> fmt y -> Rabs (RN (x + y) - (x + y)) <= uu * Rabs (x + y).
Proof.
  intros Fx Fy. destruct (FLT_plus_error_N_ex radix2 (-1074) 53 (fun x => negb (Z.even x)) x y Fx Fy) as (eps & He & E).
  change (RN (x + y) = (x + y) * (1 + eps)) in E. rewrite E, ro_eq in *.
  replace ((x + y) * (1 + eps) - (x + y)) with (eps * (x + y)) by ring. rewrite Rabs_mult. apply Rmult_le_compat_r; [apply Rabs_pos|].
  eapply Rle_trans; [exact He|]. pose proof uu_pos. apply (Rmult_le_reg_r (1 + uu)); [lra|]. unfold Rdiv. rewrite Rmult_assoc, Rinv_l; nra.
Qed.
Lemma RN_any x : Rabs (RN x - x) <= uu * Rabs x + tiny.
Proof.
  destruct (error_N_FLT radix2 (-1074) 53 prec53 (fun x => negb (Z.even x)) x) as (eps & eta & He & Ht & _ & E).
  change (RN x = x * (1 + eps) + eta) in E. rewrite E. replace (x * (1 + eps) + eta - x) with (eps * x + eta) by ring.
  eapply Rle_trans; [apply Rabs_triang|]. rewrite Rabs_mult. apply Rplus_le_compat.
  - apply Rmult_le_compat_r; [apply Rabs_pos|]. eapply Rle_trans; [exact He|]. apply Req_le. exact ro_eq.
  - eapply Rle_trans; [exact Ht|]. apply Req_le. unfold tiny. change (-1075)%Z with (-1 + -1074)%Z. rewrite bpow_plus. reflexivity.
Qed.

(** ** growth of the relative error *)
Definition pw (d : nat) : R := (1 + uu) ^ d.
Lemma pw_ge1 d : 1 <= pw d.
Proof. unfold pw. apply pow_R1_Rle. pose proof uu_pos. lra. Qed.
Lemma pw_S d : pw (S d) = pw d * (1 + uu).
Proof. unfold pw. cbn. ring. Qed.
Lemma pw_mono d e : (d <= e)%nat -> pw d <= pw e.
Proof. intro H. unfold pw. apply Rle_pow; [pose proof uu_pos; lra|exact H]. Qed.
Lemma pw_lin_aux d : 9/8 * INR d * uu <= / 8 -> pw d <= 1 + 9/8 * INR d * uu.
Proof.
  induction d as [|d IH]; intro H.
  - unfold pw. cbn. lra.
  - rewrite pw_S. rewrite S_INR in *. pose proof uu_pos. pose proof (pos_INR d). assert (IH' : pw d <= 1 + 9 / 8 * INR d * uu) by (apply IH; nra).
    assert (pw d * (1 + uu) <= (1 + 9 / 8 * INR d * uu) * (1 + uu)) by (apply Rmult_le_compat_r; lra). nra.
Qed.
Lemma INR_pow d k : (Z.of_nat d <= 2 ^ k)%Z -> (0 <= k)%Z -> INR d <= bpow radix2 k.
Proof. intros H Hk. rewrite INR_IZR_INZ, <- (IZR_Zpower radix2 k Hk). apply IZR_le. exact H. Qed.
Lemma pw_lin d : (Z.of_nat d <= 2 ^ 49)%Z -> pw d - 1 <= 9/8 * INR d * uu.
Proof.
  intro H. pose proof (INR_pow d 49 H ltac:(lia)) as B. enough (pw d <= 1 + 9/8 * INR d * uu) by lra. apply pw_lin_aux.
  assert (E : bpow radix2 49 * uu = / 16). { unfold uu. rewrite <- bpow_plus. reflexivity. }
  pose proof uu_pos. assert (INR d * uu <= bpow radix2 49 * uu) by (apply Rmult_le_compat_r; lra). lra.
Qed.
Lemma pw_two d : (Z.of_nat d <= 2 ^ 49)%Z -> pw d <= 2.
Proof.
  intro H. pose proof (pw_lin d H). pose proof (INR_pow d 49 H ltac:(lia)) as B.
  assert (E : bpow radix2 49 * uu = / 16). { unfold uu. rewrite <- bpow_plus. reflexivity. }
  pose proof uu_pos. assert (INR d * uu <= bpow radix2 49 * uu) by (apply Rmult_le_compat_r; lra). lra.
Qed.

Lemma fold_added {N : Num} (l : list N) : forall d p a, added d p a -> added (d + length l) (p ++ l) (fold_left nadd l a).
Proof.
  induction l as [|x l IH]; intros d p a H; cbn [fold_left length].
  - rewrite Nat.add_0_r, app_nil_r. exact H.
  - pose proof (added_both _ _ _ _ _ _ H (added_one x)) as K. rewrite Nat.max_0_r in K. apply IH in K.
    rewrite <- app_assoc in K. cbn in K. replace (d + S (length l))%nat with (S (d + length l)) by lia. exact K.
Qed.
Lemma nsum_added {N : Num} (l : list N) : added (length l) l (nsum l).
Proof. exact (fold_added l 0 [] n0 added_none). Qed.

Section Sums.
Variables (fe fl fr : b64 -> b64).
Notation BN := (B64 fe fl fr).
Notation val := (val fe fl fr).
Notation fin := (fin fe fl fr).
Definition vals (l : list BN) : list R := map val l.
Definition sizes (l : list BN) : list R := map (fun x => Rabs (val x)) l.
Definition Rsizes (l : list BN) : R := Rsum (sizes l).

Lemma fmt_val (x : BN) : fmt (val x).
Proof. apply generic_format_B2R. Qed.
Lemma sizes_pos (l : list BN) : 0 <= Rsizes l.
Proof. apply Rsum_nonneg. apply Forall_map, Forall_forall. intros. apply Rabs_pos. Qed.
Lemma sum_sizes (l : list BN) : Rabs (Rsum (vals l)) <= Rsizes l.
Proof.
  unfold Rsizes, vals, sizes. induction l as [|x l IH]; cbn; [rewrite Rabs_R0; lra|]. eapply Rle_trans; [apply Rabs_triang|]. apply Rplus_le_compat_l. exact IH.
Qed.
Lemma sizes_app (l l' : list BN) : Rsizes (l ++ l') = Rsizes l + Rsizes l'.
Proof. unfold Rsizes, sizes. rewrite map_app. apply Rsum_app. Qed.
Lemma sizes_perm (l l' : list BN) : Permutation l l' -> Rsizes l = Rsizes l'.
Proof. intro H. apply Rsum_perm. apply Permutation_map. exact H. Qed.
Lemma sizes_le (l : list BN) M : Forall (fun x => Rabs (val x) <= M) l -> Rsizes l <= INR (length l) * M.
Proof.
  intro H. unfold Rsizes, sizes. rewrite <- (Rsum_map_const M l). apply Rsum_map_le. intros x Hx. rewrite Forall_forall in H. exact (H x Hx).
Qed.

Lemma added_bound d (l : list BN) (s : BN) : added d l s -> Forall fin l -> pw d * Rsizes l <= bpow radix2 1000 ->
  fin s /\ Rabs (val s - Rsum (vals l)) <= (pw d - 1) * Rsizes l.
Proof.
  induction 1 as [|x|d d' l l' a b H IH H' IH'|d l l' a P H IH]; intros F B.
  - destruct (ofZ_exact fe fl fr 0 ltac:(lia)) as [F0 V0]. split; [exact F0|]. unfold n0. rewrite V0. change (Rabs (0 - 0) <= (1 - 1) * 0). rewrite Rminus_0_r, Rabs_R0. lra.
  - inversion F; subst. split; [assumption|]. change (Rabs (val x - (val x + 0)) <= (1 - 1) * Rsizes [x]). rewrite Rplus_0_r, Rminus_diag_eq by reflexivity. rewrite Rabs_R0. lra.
  - apply Forall_app in F. destruct F as [F F']. rewrite sizes_app in *. unfold vals in *. rewrite map_app, Rsum_app.
    set (m := Nat.max d d') in *. rewrite pw_S in *. pose proof uu_pos as U. pose proof (pw_ge1 m) as P1.
    pose proof (pw_mono d m (Nat.le_max_l d d')) as Pd. pose proof (pw_mono d' m (Nat.le_max_r d d')) as Pd'.
    pose proof (sizes_pos l) as S0. pose proof (sizes_pos l') as S0'. pose proof (pw_ge1 d) as G. pose proof (pw_ge1 d') as G'.
    set (A := Rsizes l) in *. set (A' := Rsizes l') in *.
    assert (BB : pw m * (A + A') <= bpow radix2 1000).
    { eapply Rle_trans; [|exact B]. rewrite Rmult_assoc. apply Rmult_le_compat_l; [lra|]. nra. }
    destruct (IH F) as [Fa Ea]. { eapply Rle_trans; [|exact BB]. apply Rmult_le_compat; lra. }
    destruct (IH' F') as [Fb Eb]. { eapply Rle_trans; [|exact BB]. apply Rmult_le_compat; lra. }
    pose proof (sum_sizes l) as T. pose proof (sum_sizes l') as T'. fold A in T. fold A' in T'. unfold vals in T, T'.
    set (Sa := Rsum (map val l)) in *. set (Sb := Rsum (map val l')) in *.
    assert (Ea1 : Rabs (val a - Sa) <= (pw m - 1) * A) by (eapply Rle_trans; [exact Ea|]; apply Rmult_le_compat_r; lra).
    assert (Eb1 : Rabs (val b - Sb) <= (pw m - 1) * A') by (eapply Rle_trans; [exact Eb|]; apply Rmult_le_compat_r; lra).
    assert (Bs : Rabs (val a + val b) <= pw m * (A + A')).
    { apply Rabs_le_inv in Ea1, Eb1, T, T'. apply Rabs_le. split; lra. }
    destruct (add_ok fe fl fr a b 1000 ltac:(lia) Fa Fb) as [Fs Vs]; [lra|]. split; [exact Fs|]. rewrite Vs.
    pose proof (RN_plus _ _ (fmt_val a) (fmt_val b)) as E.
    assert (E1 : Rabs (RN (val a + val b) - (val a + val b)) <= uu * (pw m * (A + A'))).
    { eapply Rle_trans; [exact E|]. apply Rmult_le_compat_l; lra. }
    apply Rabs_le_inv in Ea1, Eb1, E1. apply Rabs_le. split; lra.
  - rewrite <- (sizes_perm _ _ P) in *. destruct (IH (Permutation_Forall (Permutation_sym P) F) B) as [Fs E]. split; [exact Fs|].
    unfold vals in *. rewrite <- (Rsum_perm _ _ (Permutation_map val P)). exact E.
Qed.

(** a sum of numbers of moderate size *)
Lemma added_moderate d (l : list BN) (s : BN) M : added d l s -> Forall fin l -> Forall (fun x => Rabs (val x) <= M) l -> M <= bpow radix2 900 ->
  (Z.of_nat (length l) <= 2 ^ 49)%Z -> (Z.of_nat d <= 2 ^ 49)%Z ->
  fin s /\ Rabs (val s - Rsum (vals l)) <= (pw d - 1) * Rsizes l.
Proof.
  intros A F B HM Hl Hd. apply added_bound; [exact A|exact F|]. pose proof (pw_two d Hd) as P2. pose proof (sizes_pos l) as S0. pose proof (pw_ge1 d).
  destruct l as [|x l]. { change (Rsizes []) with 0. rewrite Rmult_0_r. apply bpow_ge_0. }
  pose proof (sizes_le (x :: l) M B) as S1. pose proof (INR_pow _ 49 Hl ltac:(lia)) as L.
  assert (M0 : 0 <= M) by (inversion B; subst; pose proof (Rabs_pos (val x)); lra).
  assert (S2 : Rsizes (x :: l) <= bpow radix2 949).
  { change 949%Z with (49 + 900)%Z. rewrite bpow_plus. eapply Rle_trans; [exact S1|]. apply Rmult_le_compat; try lra. apply pos_INR. }
  assert (E : 2 * bpow radix2 949 <= bpow radix2 1000).
  { change 2 with (bpow radix2 1). rewrite <- bpow_plus. apply bpow_le. lia. }
  eapply Rle_trans; [|exact E]. apply Rmult_le_compat; lra.
Qed.

Theorem mean_rounded d (l : list BN) (s : BN) M : added d l s -> l <> [] -> Forall fin l -> Forall (fun x => Rabs (val x) <= M) l -> M <= bpow radix2 900 ->
  (Z.of_nat (length l) <= 2 ^ 49)%Z -> (Z.of_nat d < 2 ^ 49)%Z ->
  let m := ndiv s (nofZ (Z.of_nat (length l))) in
  fin m /\ Rabs (val m - Rmean (vals l)) <= 9/8 * INR (S d) * uu * Rmean (sizes l) + tiny.
Proof.
  intros A NE F B HM Hl Hd m. destruct (added_moderate d l s M A F B HM Hl ltac:(lia)) as [Fs Es].
  destruct (ofZ_exact fe fl fr (Z.of_nat (length l)) ltac:(lia)) as [Fn Vn]. rewrite <- INR_IZR_INZ in Vn.
  assert (Ln : 1 <= INR (length l)). { change 1 with (INR 1). apply le_INR. destruct l; [congruence|cbn; lia]. }
  set (n := INR (length l)) in *. assert (n <> 0) by lra.
  pose proof (sizes_pos l) as S0. pose proof (sum_sizes l) as T. pose proof (pw_ge1 d) as P1. pose proof uu_pos as U.
  assert (Mn : Rmean (vals l) = Rsum (vals l) / n) by (unfold Rmean, vals; rewrite map_length; reflexivity).
  assert (Ms : Rmean (sizes l) = Rsizes l / n) by (unfold Rmean, Rsizes, sizes; rewrite map_length; reflexivity).
  assert (In : 0 < / n) by (apply Rinv_0_lt_compat; lra).
  set (S1 := Rsizes l) in *. set (S2 := Rsum (vals l)) in *.
  assert (Bs : Rabs (val s) <= pw d * S1). { apply Rabs_le_inv in Es, T. apply Rabs_le. split; lra. }
  assert (Eq : Rabs (val s / n - S2 / n) <= (pw d - 1) * (S1 / n)).
  { replace (val s / n - S2 / n) with ((val s - S2) * / n) by (unfold Rdiv; ring). rewrite Rabs_mult, (Rabs_pos_eq (/ n)) by lra.
    unfold Rdiv. rewrite <- Rmult_assoc. apply Rmult_le_compat_r; lra. }
  assert (Bq : Rabs (val s / n) <= pw d * (S1 / n)).
  { unfold Rdiv. rewrite Rabs_mult, (Rabs_pos_eq (/ n)) by lra. rewrite <- Rmult_assoc. apply Rmult_le_compat_r; lra. }
  assert (Q1 : S1 / n <= M).
  { unfold S1. apply (Rmult_le_reg_r n); [lra|]. unfold Rdiv. rewrite Rmult_assoc, Rinv_l, Rmult_1_r by lra. rewrite Rmult_comm. apply sizes_le. exact B. }
  assert (Q0 : 0 <= S1 / n) by (unfold Rdiv; apply Rmult_le_pos; lra).
  pose proof (pw_two d ltac:(lia)) as P2.
  assert (E : 2 * bpow radix2 900 <= bpow radix2 1000).
  { change 2 with (bpow radix2 1). rewrite <- bpow_plus. apply bpow_le. lia. }
  destruct (div_ok fe fl fr s (nofZ (Z.of_nat (length l))) 1000 ltac:(lia) Fs) as [Fm Vm].
  { rewrite Vn. lra. }
  { rewrite Vn. eapply Rle_trans; [exact Bq|]. eapply Rle_trans; [|exact E]. apply Rmult_le_compat; lra. }
  split; [exact Fm|]. fold m in Vm. rewrite Vm, Vn, Mn, Ms. pose proof (RN_any (val s / n)) as R1.
  assert (R2 : Rabs (RN (val s / n) - val s / n) <= uu * (pw d * (S1 / n)) + tiny).
  { eapply Rle_trans; [exact R1|]. apply Rplus_le_compat_r. apply Rmult_le_compat_l; lra. }
  pose proof (pw_lin (S d) ltac:(lia)) as PL. rewrite pw_S in PL.
  assert (PL' : (pw d * (1 + uu) - 1) * (S1 / n) <= 9 / 8 * INR (S d) * uu * (S1 / n)) by (apply Rmult_le_compat_r; lra).
  apply Rabs_le_inv in R2, Eq. apply Rabs_le. split; lra.
Qed.
End Sums.
