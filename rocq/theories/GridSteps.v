(** GridSteps.v - the number of grid points per axis in binary64 (C117). *)
From Coq Require Import Permutation Reals Lra.
From Coquelicot Require Import Coquelicot.
From Flocq Require Import Core.
From Verif Require Import Base Num NumLaws NumpyModel ConfigSpaceModel UtilsModel IceModel SamplerModel SamplerSpec ListLemmas IceProofs UtilsProofs
  SamplerProofs SamplerProofs2 SamplerProofs3 SamplerProofs4 SamplerReal SpreadSpec SpreadGrid GridPdpProofs.
Local Open Scope R_scope.
Local Open Scope list_scope.

(** rounding to the nearest binary64 number, ties to even *)
Definition near64 (x : R) : R := round radix2 (FLT_exp (-1074) 53) ZnearestE x.
(** int(np.ceil(n ** (1 / d))), sampler/grid_sampler.py:35, with every operation rounded to the nearest binary64 number *)
Definition steps64 (n d : nat) : nat := Z.to_nat (Zceil (near64 (Rpower (near64 (INR n)) (near64 (1 / near64 (INR d)))))).

Local Instance prec53 : Prec_gt_0 53. Proof. reflexivity. Qed.
Lemma near_int (z : Z) : (Z.abs z <= 2 ^ 53)%Z -> near64 (IZR z) = IZR z.
Proof.
  intro H. unfold near64. apply round_generic; [apply valid_rnd_N|].
  destruct (Z.eq_dec (Z.abs z) (2 ^ 53)) as [E|E].
  - assert (z = 2 ^ 53 \/ z = - 2 ^ 53)%Z as [-> | ->] by lia.
    + change (IZR (2 ^ 53)) with (bpow radix2 53). apply generic_format_bpow. cbn. lia.
    + rewrite opp_IZR. apply generic_format_opp. change (IZR (2 ^ 53)) with (bpow radix2 53). apply generic_format_bpow. cbn. lia.
  - apply generic_format_FLT. exists (Float radix2 z 0); [unfold F2R; cbn; ring|cbn; lia|cbn; lia].
Qed.
Lemma fifth : near64 (1 / 5) = 1 / 5 + / (5 * 2 ^ 54).
Proof.
  unfold near64, round, scaled_mantissa, cexp. rewrite (mag_unique radix2 (1 / 5) (-2)).
  - change (FLT_exp (-1074) 53 (-2)) with (-55)%Z. rewrite (Znearest_imp _ _ 7205759403792794).
    + unfold F2R. cbn. lra.
    + cbn. apply Rabs_lt. lra.
  - cbn. rewrite Rabs_pos_eq by lra. lra.
Qed.
Lemma exp_lower x : 1 + x <= exp x.
Proof. destruct (Req_dec x 0) as [->|H]; [rewrite exp_0; lra|left; apply exp_ineq1; exact H]. Qed.
Lemma exp_upper x : 0 <= x < 1 -> exp x <= 1 / (1 - x).
Proof.
  intro H. pose proof (exp_lower (- x)) as L. rewrite exp_Ropp in L. pose proof (exp_pos x) as P. apply Rmult_le_reg_r with (1 - x); [lra|]. unfold Rdiv. rewrite Rmult_assoc, Rinv_l, Rmult_1_r by lra.
  apply Rmult_le_reg_l with (/ exp x); [apply Rinv_0_lt_compat; exact P|]. rewrite <- Rmult_assoc, Rinv_l, Rmult_1_l, Rmult_1_r by lra. lra.
Qed.
Lemma exp_times x n : exp (INR n * x) = exp x ^ n.
Proof. induction n as [|n IH]; [cbn; rewrite Rmult_0_l; apply exp_0|]. rewrite S_INR, Rmult_plus_distr_r, Rmult_1_l, exp_plus, IH. cbn. ring. Qed.
Lemma ln_8 : 2 < ln 8.
Proof.
  rewrite <- (ln_exp 2). apply ln_increasing; [apply exp_pos|]. replace 2 with (INR 32 * / 16) by (cbn; lra). rewrite exp_times. pose proof (exp_upper (/ 16) ltac:(lra)) as Q.
  apply Rle_lt_trans with ((16 / 15) ^ 32); [|lra]. apply pow_incr. split; [left; apply exp_pos|]. lra.
Qed.
Lemma power_shift k : (1 <= k)%nat -> Rpower (INR (k ^ 5)) (1 / 5 + / (5 * 2 ^ 54)) = INR k * exp (ln (INR k) / 2 ^ 54).
Proof.
  intro Hk. assert (P : 0 < INR k) by (apply lt_0_INR; lia). rewrite pow_INR, <- Rpower_pow, Rpower_mult by exact P. unfold Rpower at 1. cbn [INR].
  replace ((1 + 1 + 1 + 1 + 1) * (1 / 5 + / (5 * 2 ^ 54)) * ln (INR k)) with (ln (INR k) + ln (INR k) / 2 ^ 54) by (field; lra).
  rewrite exp_plus, exp_ln by exact P. reflexivity.
Qed.
Theorem steps_five k : (8 <= k <= 1552)%nat -> steps64 (k ^ 5) 5 = S k.
Proof.
  intros [Hk HK]. unfold steps64.
  assert (HKz : (Z.of_nat (k ^ 5) <= 2 ^ 53)%Z). { rewrite Nat2Z.inj_pow. change (Z.of_nat 5) with 5%Z. apply Z.le_trans with (1552 ^ 5)%Z; [apply Z.pow_le_mono_l; lia|discriminate]. }
  rewrite (INR_IZR_INZ (k ^ 5)), near_int by lia. rewrite <- INR_IZR_INZ. replace (INR 5) with (IZR 5) by (cbn; lra). rewrite near_int by lia. rewrite fifth, power_shift by lia.
  set (x := INR k * exp (ln (INR k) / 2 ^ 54)). assert (P8 : 8 <= INR k) by (replace 8 with (INR 8) by (cbn; lra); apply le_INR; exact Hk).
  assert (LN : 2 < ln (INR k)). { pose proof ln_8. destruct (Req_dec 8 (INR k)) as [E|E]; [rewrite <- E; exact H|]. eapply Rlt_trans; [exact H|]. apply ln_increasing; lra. }
  assert (LU : ln (INR k) <= INR k). { pose proof (exp_lower (ln (INR k))) as Q. rewrite exp_ln in Q by lra. lra. }
  assert (KU : INR k <= 1552) by (rewrite INR_IZR_INZ; apply IZR_le; lia).
  assert (F1 : near64 (INR k + 1) = INR k + 1). { rewrite INR_IZR_INZ, <- plus_IZR. apply near_int. lia. }
  assert (F0 : generic_format radix2 (FLT_exp (-1074) 53) (INR k)).
  { rewrite INR_IZR_INZ. apply generic_format_FLT. exists (Float radix2 (Z.of_nat k) 0); [unfold F2R; cbn; ring|cbn; lia|cbn; lia]. }
  assert (UP : near64 x <= INR k + 1).
  { rewrite <- F1. apply round_le; [apply FLT_exp_valid; reflexivity|apply valid_rnd_N|]. unfold x. set (y := ln (INR k) / 2 ^ 54). assert (Y : 0 <= y <= / 10000) by (unfold y; split; lra).
    pose proof (exp_upper y ltac:(lra)) as Q. apply Rle_trans with (INR k * (1 / (1 - y))); [apply Rmult_le_compat_l; lra|]. apply Rmult_le_reg_r with (1 - y); [lra|].
    replace (INR k * (1 / (1 - y)) * (1 - y)) with (INR k) by (field; lra). nra. }
  assert (LO : INR k < near64 x).
  { apply Rlt_le_trans with (succ radix2 (FLT_exp (-1074) 53) (INR k)); [apply succ_gt_id; lra|].
    apply round_N_ge_midp; [apply FLT_exp_valid; reflexivity|apply generic_format_succ; [apply FLT_exp_valid; reflexivity|exact F0]|]. rewrite pred_succ; [|apply FLT_exp_valid; reflexivity|exact F0].
    rewrite succ_eq_pos by lra. rewrite ulp_neq_0 by lra. unfold cexp. destruct (mag radix2 (INR k)) as (e & He). cbn [mag_val]. specialize (He ltac:(lra)). rewrite Rabs_pos_eq in He by lra. destruct He as [He1 He2].
    assert (E0 : (0 <= e)%Z). { destruct (Z.le_gt_cases 0 e) as [|C]; [assumption|]. exfalso. assert (bpow radix2 e <= bpow radix2 0) by (apply bpow_le; lia). cbn in H. lra. }
    unfold FLT_exp. rewrite Z.max_l by lia.
    assert (B : bpow radix2 (e - 53) = 2 * bpow radix2 (e - 1) / 2 ^ 53).
    { replace (e - 53)%Z with (e - 1 + -52)%Z by ring. rewrite bpow_plus. cbn. lra. }
    rewrite B. unfold x. pose proof (exp_lower (ln (INR k) / 2 ^ 54)) as Q. apply Rlt_le_trans with (INR k * (1 + ln (INR k) / 2 ^ 54)); [|apply Rmult_le_compat_l; lra]. 
    assert (2 * bpow radix2 (e - 1) < INR k * ln (INR k)) by nra. nra. }
  rewrite (Zceil_imp (Z.of_nat (S k))); [apply Nat2Z.id|]. rewrite <- INR_IZR_INZ, S_INR. split; [|exact UP]. rewrite Nat2Z.inj_succ, <- Z.add_1_r, Z.add_simpl_r, <- INR_IZR_INZ. exact LO.
Qed.

(** ** the samples are then not the full grid *)
Section S.
Variable w : world RNum.
Lemma grid_loop_incl fuel : forall e (s : sampler RNum) g, s_grid s = Some g -> incl (s_configs (fst (grid_loop w fuel e s))) (s_configs s ++ g).
Proof.
  induction fuel as [|fuel IH]; intros e s g Eg; cbn [grid_loop]; (destruct (e <=? slen s)%nat; [intros c H; apply in_or_app; left; exact H|]); [intros c H; apply in_or_app; left; exact H|]. rewrite Eg. destruct g as [|c g]; [intros c H; apply in_or_app; left; exact H|]. destruct (existsb _ _).
  - intros c' H. pose proof (fun s0 E0 => IH e s0 g E0 c') as Q; apply Q in H; [|reflexivity]; clear Q; cbn in H. apply in_app_or in H. apply in_or_app. destruct H; [left; assumption|right; right; assumption].
  - unfold bindM, upd, call_obj. cbn [s_calls set_grid set_points set_calls s_configs s_ys log]. destruct (w_obj _ _ _) as [y|er].
    + intros c' H. pose proof (fun s0 E0 => IH e s0 g E0 c') as Q; apply Q in H; [|reflexivity]; clear Q; cbn in H. rewrite <- app_assoc in H. exact H.
    + intros c' H. cbn in H. apply in_app_or in H. apply in_or_app. destruct H as [H|[<-|[]]]; [left; exact H|right; left; reflexivity].
Qed.
Theorem grid_sampler_within n (s s' : sampler RNum) r : s_kind s = KGrid -> s_configs s = [] -> s_grid s = None -> s_cs s <> [] -> Forall float_hp (s_cs s) ->
  (length (s_cache s) < n)%nat -> sample w n s = (s', r) ->
  incl (sX s') (grid_rows (repeat (linspace (N:=RNum) (0 : R) (1 : R) (w_steps w n (length (s_cs s)))) (length (s_cs s)))).
Proof.
  intros K Hc Hg Hcs HF HC E. destruct (grid_vectors w (s_cs s) (w_steps w n (length (s_cs s))) HF) as (g & EG & VG).
  destruct (grid_first_eq w n s g K Hc Hg Hcs HC EG) as (s1 & A1 & A2 & EQ). rewrite EQ in E.
  pose proof (grid_loop_incl (S (length (shuffle w (s_rpos s) g))) n s1 _ A1) as T. rewrite E, A2 in T. cbn [fst app] in T. intros row H. rewrite <- VG.
  unfold sX in H. apply in_map_iff in H. destruct H as (c & <- & Hin). apply in_map. eapply Permutation_in; [exact (Permutation_sym (shuffle_perm w (s_rpos s) g))|]. exact (T c Hin).
Qed.
Theorem grid_sampler_other k n (s s' : sampler RNum) r : s_kind s = KGrid -> s_configs s = [] -> s_grid s = None -> s_cs s <> [] -> Forall float_hp (s_cs s) ->
  (length (s_cache s) < n)%nat -> (3 <= k)%nat -> w_steps w n (length (s_cs s)) = S k -> sample w n s = (s', r) ->
  ~ Permutation (sX s') (grid_rows (repeat (linspace (N:=RNum) (0 : R) (1 : R) k) (length (s_cs s)))).
Proof.
  intros K Hc Hg Hcs HF HC Hk HW E P. pose proof (grid_sampler_within n s s' r K Hc Hg Hcs HF HC E) as T. rewrite HW in T.
  destruct (s_cs s) as [|h cs]; [congruence|]. cbn [length repeat] in *. destruct (linspace_R 0 1 k) as [Lk Ek]. destruct (linspace_R 0 1 (S k)) as [Lm Em].
  pose proof (Ek 1%nat ltac:(lia)) as E1. rewrite (proj2 (Nat.eqb_neq k 1)) in E1 by lia. set (v := 0 + INR 1 * ((1 - 0) / INR (k - 1))) in *.
  assert (NE : grid_rows (repeat (linspace (N:=RNum) (0 : R) (1 : R) k) (length cs)) <> []) by (apply grid_nonempty, axes_nonempty; lia).
  destruct (grid_rows (repeat (linspace (N:=RNum) (0 : R) (1 : R) k) (length cs))) as [|rest rs] eqn:ER; [congruence|].
  assert (I1 : In (v :: rest) (sX s')).
  { eapply Permutation_in; [apply Permutation_sym; exact P|]. cbn [grid_rows]. apply in_flat_map. exists v. split; [eapply nth_error_In; exact E1|]. rewrite ER. left. reflexivity. }
  apply T in I1. destruct (grid_columns _ _ I1) as [_ G]. destruct (G 0%nat _ eq_refl) as (y & Ey & Hy). cbn in Ey. injection Ey as <-.
  destruct (In_nth_error _ _ Hy) as (i & Hi). assert (Li : (i < S k)%nat) by (rewrite <- Lm; eapply nth_error_Some_lt; exact Hi). rewrite (Em i Li) in Hi. rewrite (proj2 (Nat.eqb_neq (S k) 1)) in Hi by lia. injection Hi as Hi.
  unfold v in Hi. cbn [Nat.sub] in Hi. rewrite Nat.sub_0_r in Hi. assert (0 < INR k) by (apply lt_0_INR; lia). assert (0 < INR (k - 1)) by (apply lt_0_INR; lia).
  assert (Q : INR i * INR (k - 1) = INR k). { apply (Rmult_eq_reg_r (/ INR k * / INR (k - 1))); [|apply Rgt_not_eq; apply Rmult_lt_0_compat; apply Rinv_0_lt_compat; assumption]. cbn [INR] in Hi.
    transitivity (0 + INR i * ((1 - 0) / INR k)); [field; lra|]. rewrite Hi. field. lra. }
  rewrite <- mult_INR in Q. apply INR_eq in Q. destruct i as [|[|i]]; [lia|lia|]. assert (2 * (k - 1) <= S (S i) * (k - 1))%nat by (apply Nat.mul_le_mono_r; lia). lia.
Qed.
End S.
Theorem five_other : forall (w : world RNum) k (s s' : sampler RNum) r, s_kind s = KGrid -> s_configs s = [] -> s_grid s = None -> length (s_cs s) = 5%nat -> Forall float_hp (s_cs s) ->
    (length (s_cache s) < k ^ 5)%nat -> (8 <= k <= 1552)%nat -> (forall n d, w_steps w n d = steps64 n d) -> sample w (k ^ 5) s = (s', r) ->
    ~ Permutation (sX s') (grid_rows (repeat (linspace (N:=RNum) (0 : R) (1 : R) k) 5)).
Proof.
  intros w k s s' r K Hc Hg L5 HF HC Hk HW E. rewrite <- L5. apply (grid_sampler_other w k (k ^ 5) s s' r K Hc Hg); try assumption; [intro Z; rewrite Z in L5; discriminate|lia|]. rewrite L5, HW. apply steps_five. exact Hk.
Qed.
(** a sampler of five hyperparameters *)
Definition five_world : world RNum :=
  mkworld (fun _ _ => Ok (JNum (0 : RNum))) (fun _ _ _ => mkconf [] []) false (fun i => (7 * i + 3)%nat) steps64 (fun _ _ _ _ => []) (fun _ _ _ => Ok tt) (fun _ _ _ => Ok (mkconf [] []))
    (fun _ => Err ValueError) (fun _ => ""%string) (fun s => s).
Definition five_new : sampler RNum := sampler_new five_world KGrid (map (fun n => mkhp n (KFloat (0 : RNum) (1 : RNum) false)) ["a"; "b"; "c"; "d"; "e"]%string) true "k" (fun _ => None).
Lemma five_float : Forall float_hp (s_cs five_new).
Proof. cbn. repeat (apply Forall_cons; [exists 0, 1, false; split; [reflexivity|split; [lra|discriminate]]|]). apply Forall_nil. Qed.
Theorem five_case : exists s', sample five_world (8 ^ 5) five_new = (s', Ok tt) /\ ~ Permutation (sX s') (grid_rows (repeat (linspace (N:=RNum) (0 : R) (1 : R) 8) 5)).
Proof.
  assert (P : (length (s_cache five_new) < 8 ^ 5)%nat) by (change (0 < 8 ^ 5)%nat; apply Nat.neq_0_lt_0, Nat.pow_nonzero; discriminate).
  destruct (sample five_world (8 ^ 5) five_new) as [s' r] eqn:E. exists s'. split.
  - f_equal. destruct (float_grid five_world (s_cs five_new) (w_steps five_world (8 ^ 5) 5) five_float) as (g & EG & LG & NG).
    destruct (grid_first_eq five_world (8 ^ 5) five_new g eq_refl eq_refl eq_refl ltac:(discriminate) P EG) as (s1 & A1 & A2 & EQ). rewrite EQ in E.
    pose proof (grid_loop_ok five_world (S (length (shuffle five_world (s_rpos five_new) g))) (8 ^ 5) s1 (shuffle five_world (s_rpos five_new) g) (fun _ _ => eq_refl) A1) as T. rewrite E in T. apply T.
    + rewrite A2. cbn [app]. apply distinct_R. eapply Permutation_NoDup; [apply Permutation_map, shuffle_perm|exact NG].
    + unfold slen. rewrite A2, <- (Permutation_length (shuffle_perm five_world (s_rpos five_new) g)), LG. change (w_steps five_world (8 ^ 5) 5) with (steps64 (8 ^ 5) 5). rewrite steps_five by lia. apply Nat.pow_le_mono_l. lia.
    + lia.
  - apply (five_other five_world 8 five_new s' r eq_refl eq_refl eq_refl eq_refl five_float P); [lia|reflexivity|exact E].
Qed.
