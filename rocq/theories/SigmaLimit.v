(** SigmaLimit.v - C124: the acquisition functions for small deviations. *)
From Coq Require Import Reals Lra.
From Coquelicot Require Import Coquelicot.
From Flocq Require Import Core.Core.
From Verif Require Import Base Num NumLaws NumpyModel ConfigSpaceModel SamplerModel AcquisitionModel Gauss AcquisitionReal SamplerSpec
  AcquisitionProofs RoundAcq BoRegretSpec BoRegret BoRegretExamples SigmaSpec.
Local Open Scope R_scope.
Local Open Scope list_scope.

Lemma gain_half z : gain z <= Rmax z 0 + / 2.
Proof.
  assert (G0 : gain 0 <= / 2) by (unfold gain; pose proof (pdf_half 0); lra).
  destruct (Rle_dec z 0) as [H|H].
  - rewrite Rmax_right by exact H. pose proof (gain_nondecreasing z 0 H). lra.
  - rewrite Rmax_left by lra. rewrite gain_opp. pose proof (gain_nondecreasing (- z) 0 ltac:(lra)). lra.
Qed.
Theorem ei_bounds eta eps mean s : 0 < s -> Rmax (eta - mean - eps) 0 < ei eta eps mean s <= Rmax (eta - mean - eps) 0 + s / 2.
Proof.
  intro H. split; [apply Rmax_lub_lt; [apply ei_above|apply ei_pos]; exact H|]. rewrite ei_gain by lra. set (g := eta - mean - eps).
  pose proof (gain_half (g / s)) as G. apply (Rmult_le_compat_l s) in G; [|lra].
  assert (M : s * Rmax (g / s) 0 = Rmax g 0).
  { rewrite <- RmaxRmult by lra. f_equal; [field; lra|ring]. }
  rewrite Rmult_plus_distr_l, M in G. lra.
Qed.
Theorem ei_tends eta eps mean : tends (ei eta eps mean) (Rmax (eta - mean - eps) 0).
Proof.
  intros e He. exists e. split; [exact He|]. intros s Hs. pose proof (ei_bounds eta eps mean s (proj1 Hs)). rewrite Rabs_pos_eq; lra.
Qed.
Lemma tends_unique f a b : tends f a -> tends f b -> a = b.
Proof.
  intros Ha Hb. destruct (Req_dec a b) as [E|NE]; [exact E|exfalso]. assert (P : 0 < Rabs (a - b) / 2) by (assert (0 < Rabs (a - b)) by (apply Rabs_pos_lt; lra); lra).
  destruct (Ha _ P) as (d1 & P1 & H1). destruct (Hb _ P) as (d2 & P2 & H2). set (s := Rmin d1 d2 / 2).
  assert (M : 0 < Rmin d1 d2) by (apply Rmin_glb_lt; assumption). pose proof (Rmin_l d1 d2). pose proof (Rmin_r d1 d2).
  specialize (H1 s ltac:(unfold s; lra)). specialize (H2 s ltac:(unfold s; lra)).
  pose proof (Rabs_triang (a - f s) (f s - b)) as T. replace (a - f s + (f s - b)) with (a - b) in T by ring. rewrite (Rabs_minus_sym a (f s)) in T. lra.
Qed.
Theorem ei_jump eta eps mean : no_jump (ei eta eps mean) <-> eta - mean - eps <= 0.
Proof.
  unfold no_jump. rewrite ei_zero. split; intro H.
  - pose proof (tends_unique _ _ _ H (ei_tends eta eps mean)) as E. rewrite E. apply Rmax_l.
  - rewrite <- (Rmax_right (eta - mean - eps) 0 H). apply ei_tends.
Qed.

(** what maximizing and minimizing call an improvement *)
Notation surplus mn eta eps mean := (if mn : bool then eta - mean - eps else mean - eta - eps).
Lemma pi_tends_1 mn eta eps mean : 0 < surplus mn eta eps mean -> tends (pi mn eta eps mean) 1.
Proof.
  intros G e He. destruct (proj2 (is_lim_spec norm_cdf p_infty 1) cdf_lim (mkposreal e He)) as (M & HM) || destruct (proj1 (is_lim_spec norm_cdf p_infty 1) cdf_lim (mkposreal e He)) as (M & HM).
  set (g := surplus mn eta eps mean) in *. assert (PM : 0 < Rabs M + 1) by (pose proof (Rabs_pos M); lra). exists (g / (Rabs M + 1)). split; [apply Rdiv_lt_0_compat; assumption|].
  intros s [S1 S2]. rewrite pi_cdf by lra. fold g. apply (HM (g / s)). apply (Rmult_lt_compat_r (Rabs M + 1)) in S2; [|exact PM].
  replace (g / (Rabs M + 1) * (Rabs M + 1)) with g in S2 by (field; lra).
  assert (Rabs M + 1 < g / s). { apply (Rmult_lt_reg_r s); [exact S1|]. replace (g / s * s) with g by (field; lra). lra. }
  pose proof (Rle_abs M). lra.
Qed.
Lemma pi_tends_0 mn eta eps mean : surplus mn eta eps mean < 0 -> tends (pi mn eta eps mean) 0.
Proof.
  intros G. set (g := surplus mn eta eps mean) in *.
  assert (T : tends (pi true (- g) 0 0) 1) by (apply pi_tends_1; lra).
  intros e He. destruct (T e He) as (d & Pd & H). exists d. split; [exact Pd|]. intros s Hs. specialize (H s Hs). rewrite pi_cdf in H by lra. rewrite pi_cdf by lra. fold g.
  replace ((- g - 0 - 0) / s) with (- (g / s)) in H by (field; lra). rewrite cdf_opp in H. replace (norm_cdf (g / s) - 0) with (- (1 - norm_cdf (g / s) - 1)) by ring. rewrite Rabs_Ropp. exact H.
Qed.
Lemma pi_half mn eta eps mean s : surplus mn eta eps mean = 0 -> 0 < s -> pi mn eta eps mean s = / 2.
Proof. intros G H. rewrite pi_cdf by lra. rewrite G. unfold Rdiv. rewrite Rmult_0_l. apply cdf_0. Qed.
Theorem pi_tends mn eta eps mean :
  (0 < surplus mn eta eps mean -> tends (pi mn eta eps mean) 1) /\ (surplus mn eta eps mean = 0 -> tends (pi mn eta eps mean) (/ 2)) /\
  (surplus mn eta eps mean < 0 -> tends (pi mn eta eps mean) 0).
Proof.
  refine (conj (pi_tends_1 mn eta eps mean) (conj _ (pi_tends_0 mn eta eps mean))).
  intros G e He. exists 1. split; [lra|]. intros s Hs. rewrite pi_half by (auto; lra). rewrite Rminus_eq_0, Rabs_R0. exact He.
Qed.
Theorem pi_jump mn eta eps mean : no_jump (pi mn eta eps mean) <-> surplus mn eta eps mean < 0.
Proof.
  unfold no_jump. rewrite pi_zero. destruct (pi_tends mn eta eps mean) as (T1 & T2 & T3). split; [|exact T3]. intro H.
  destruct (Rtotal_order (surplus mn eta eps mean) 0) as [G|[G|G]]; [exact G| |].
  - pose proof (tends_unique _ _ _ H (T2 G)). lra.
  - pose proof (tends_unique _ _ _ H (T1 G)). lra.
Qed.
Theorem lcb_no_jump mn tau mean : no_jump (lcb mn tau mean).
Proof.
  intros e He. pose proof (Rabs_pos tau) as T. exists (e / (Rabs tau + 1)). split; [apply Rdiv_lt_0_compat; lra|]. intros s [S1 S2].
  assert (lcb mn tau mean s - lcb mn tau mean 0 = tau * s) as -> by (unfold lcb; rewrite !lcb_R; destruct mn; ring).
  rewrite Rabs_mult, (Rabs_pos_eq s) by lra. apply (Rmult_lt_compat_r (Rabs tau + 1)) in S2; [|lra]. replace (e / (Rabs tau + 1) * (Rabs tau + 1)) with e in S2 by (field; lra).
  eapply Rle_lt_trans; [|exact S2]. rewrite Rmult_plus_distr_l. rewrite (Rmult_comm s (Rabs tau)). lra.
Qed.

(** a candidate with deviation 0 is chosen only if all have deviation 0 *)
Theorem certain_last (predict : predictor) a mn l means stds c : (forall tau, a <> ALCB (N:=RNum) tau) ->
  predict (map (@c_vec RNum) l) = Ok (means, stds) -> length means = length l -> length stds = length l -> (forall s : R, In s stds -> 0 <= s) -> (exists s : R, In s stds /\ 0 < s) ->
  get_optimum predict norm_cdf norm_pdf a mn (DList l) = Ok (EConf c) -> exists i (s : R), nth_error l i = Some c /\ nth_error stds i = Some s /\ 0 < s.
Proof.
  intros Ha P Lm Ls Nn (s0 & I0 & P0) O. assert (NE : l <> []). { intros ->. destruct stds; [exact I0|discriminate]. }
  assert (C : exists v, acq_call predict norm_cdf norm_pdf a mn (XList (map IConf l)) = Ok v).
  { unfold acq_call. change (convert_configs (XList (map IConf l))) with (convert_configs (as_input (DList l))). rewrite convert_list, P. cbn [bind fst snd]. unfold elementwise.
    rewrite (proj2 (Nat.eqb_eq _ _) (eq_trans Lm (eq_sym Ls))). eauto. }
  destruct C as (v & C). destruct (acq_call_values predict norm_cdf norm_pdf _ _ _ _ C) as (means' & stds' & P' & _ & Lv & V).
  change (convert_configs (XList (map IConf l))) with (convert_configs (as_input (DList l))) in P'. rewrite convert_list in P'.
  assert (means' = means /\ stds' = stds) as [-> ->] by (rewrite P in P'; split; congruence).
  destruct (optimum_best R_order_laws predict norm_cdf norm_pdf a mn l v NE C) as (i & c' & x & _ & O' & Hl & B1 & B2 & _).
  { exact (eq_trans Lv Lm). }
  { apply R_ordinary. }
  assert (c' = c) as -> by congruence.
  assert (At : forall j, (j < length l)%nat -> exists m s, nth_error means j = Some m /\ nth_error stds j = Some s).
  { intros j Hj. destruct (nth_error means j) as [m|] eqn:Em; [|apply nth_error_None in Em; lia]. destruct (nth_error stds j) as [s|] eqn:Es; [|apply nth_error_None in Es; lia]. eauto. }
  assert (Hi : (i < length l)%nat) by (apply nth_error_Some; congruence). destruct (At i Hi) as (m & s & Em & Es). exists i, s. refine (conj Hl (conj Es _)).
  destruct (In_nth_error _ _ I0) as (j & Ej). assert (Hj : (j < length l)%nat) by (rewrite <- Ls; apply nth_error_Some; intro Z; pose proof (eq_trans (eq_sym Z) Ej); discriminate).
  destruct (At j Hj) as (mj & sj & Emj & Esj). assert (EE : @Some R sj = Some s0) by exact (eq_trans (eq_sym Esj) Ej). injection EE as ->.
  pose proof (B2 j _ (V j mj s0 Emj Esj)) as Q. assert (x = acq_value (N:=RNum) norm_cdf norm_pdf a mn m s) as -> by (pose proof (V i m s Em Es); congruence).
  apply R_le in Q. destruct (Nn s (nth_error_In _ _ Es)) as [Hs|Hs]; [exact Hs|exfalso].
  destruct a as [eta eps|eta eps|tau]; [| |exact (Ha tau eq_refl)].
  - change (ei eta eps mj s0 <= ei eta eps m s) in Q. rewrite <- Hs, ei_zero in Q. pose proof (ei_pos eta eps mj s0 P0). lra.
  - change (pi mn eta eps mj s0 <= pi mn eta eps m s) in Q. rewrite <- Hs, pi_zero in Q. rewrite pi_cdf in Q by lra. pose proof (cdf_bounds (surplus mn eta eps mj / s0)). lra.
Qed.

(** candidates 1, certain, and 5 with deviation 1 *)
Definition mixed_predict (X : list (list RNum)) : res (list RNum * list RNum) :=
  match X with [[a]; [b]] => Ok ([a; b], [(0 : RNum); (1 : RNum)]) | _ => Err ValueError end.
Lemma jump_example : ~ no_jump (ei 4 0 1) /\ no_jump (ei 1 0 4).
Proof. split; [intro H; apply ei_jump in H; lra|apply ei_jump; lra]. Qed.
Lemma mixed_choice a : In a [AEI (N:=RNum) 4 0; API (N:=RNum) 4 0] ->
  get_optimum mixed_predict norm_cdf norm_pdf a true (DList [rx_conf 1; rx_conf 5]) = Ok (EConf (rx_conf 5)).
Proof.
  intro H. assert (E : forall v1 v5 : R, v1 < v5 -> py_extreme (N:=RNum) (fun x y => nlt y x) (combine [EConf (rx_conf 1); EConf (rx_conf 5)] [v1; v5]) = Ok (EConf (rx_conf 5), v5)).
  { intros v1 v5 L. cbn. destruct (Rltb_spec v1 v5); [reflexivity|exfalso; lra]. }
  unfold get_optimum, get_optimum_pair, acq_call. rewrite (convert_list [rx_conf 1; rx_conf 5]). cbn [map rx_conf c_vec mixed_predict bind fst snd]. unfold elementwise. cbn [length Nat.eqb map2 bind elements map].
  destruct H as [<-|[<-|[]]]; cbn [acq_value].
  - assert (L : ei 4 0 1 0 < ei 4 0 5 1) by (rewrite ei_zero; apply ei_pos; lra).
    exact (f_equal (fun r => bind r (fun p => Ok (fst p))) (E _ _ L)).
  - assert (L : pi true 4 0 1 0 < pi true 4 0 5 1) by (rewrite pi_zero, pi_cdf by lra; exact (proj1 (cdf_bounds _))).
    exact (f_equal (fun r => bind r (fun p => Ok (fst p))) (E _ _ L)).
Qed.
