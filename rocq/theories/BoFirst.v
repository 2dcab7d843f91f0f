(** BoFirst.v - C123 for the call that draws the initial points. *)
From Coq Require Import Reals Lra.
From Coquelicot Require Import Coquelicot.
From Flocq Require Import Core.Core.
From Verif Require Import Base Num NumLaws NumpyModel ConfigSpaceModel SamplerModel AcquisitionModel Gauss AcquisitionReal SamplerSpec ListLemmas
  SamplerProofs SamplerProofs2 SamplerProofs3 AcquisitionProofs SamplerMetaReal B64Proofs RoundAcqSpec RoundAcq BoRegretSpec BoRegret SigmaLimit BoFiniteSpec BoFinite BoRegretExamples BoFiniteExamples.
Local Open Scope R_scope.
Local Open Scope list_scope.

Section First.
Variables (v : world RNum) (valid : conf RNum -> Prop) (f : config RNum -> R).
Hypothesis Obj : forall k vals, w_obj v k vals = Ok (@JNum RNum (f vals)).
Hypothesis Draw : forall d k i, valid (w_batch v d k i).

Lemma collect_ok cs : forall s s' ys, collect (map DBare cs) (call_drawn v) s = (s', Ok ys) -> ys = map (J f) cs /\ s_configs s' = s_configs s /\ s_ys s' = s_ys s /\
  s_acqs s' = s_acqs s /\ s_min s' = s_min s /\ (hash_ok s -> hash_ok s').
Proof.
  induction cs as [|c cs IH]; intros s s' ys; [cbn; unfold ret; intro E; injection E as <- <-; auto 10|]. cbn [map collect]. unfold bindM at 1. cbn [call_drawn]. unfold call_obj. cbv zeta. rewrite Obj.
  unfold bindM at 1. set (s1 := log _ _). destruct (collect (map DBare cs) (call_drawn v) s1) as [s2 [ys2|]] eqn:E2; [|discriminate]. unfold ret. intro E. injection E as <- <-.
  destruct (IH s1 s2 ys2 E2) as (-> & A1 & A2 & A3 & A4 & A5). repeat split; assumption.
Qed.
Lemma force_facts s s' : hash_ok s -> fit_surrogate v true s = (s', Ok tt) -> s_configs s' = s_configs s /\ s_ys s' = s_ys s /\ s_acqs s' = s_acqs s /\ s_min s' = s_min s /\ hash_ok s'.
Proof.
  intros H E. pose proof (fit_refits v true s H) as F. rewrite E in F. cbn [fst snd is_ok] in F. destruct F as (_ & _ & F3 & F4 & F5 & _ & _ & F8 & _ & _).
  refine (conj F4 (conj F5 (conj _ (conj F8 F3)))). unfold fit_surrogate in E. cbn [orb] in E. unfold bindM, surrogate_fit in E. destruct (w_fit _ _ _ _); [injection E as <-; reflexivity|discriminate].
Qed.
Lemma initial_facts ip n s s' : hash_ok s -> values_of f s -> (0 < ip)%nat -> (ip <= n)%nat -> sample_initial v ip n s = (s', Ok tt) ->
  exists init, length init = ip /\ Forall valid init /\ s_configs s' = s_configs s ++ init /\ values_of f s' /\ s_acqs s' = s_acqs s /\ s_min s' = s_min s /\ hash_ok s'.
Proof.
  intros H Vs Pi Le E. unfold sample_initial in E. cbv zeta in E. rewrite Nat.min_l in E by exact Le. unfold bindM at 1, sample_configuration in E. cbv zeta in E.
  set (init := map (w_batch v (s_draws s) ip) (seq 0 ip)) in E. set (s0 := log _ _) in E.
  assert (Li : length init = ip) by (unfold init; rewrite map_length, seq_length; reflexivity).
  assert (Vi : Forall valid init). { apply Forall_forall. intros c Hc. unfold init in Hc. apply in_map_iff in Hc. destruct Hc as (i & <- & _). apply Draw. }
  set (items := if (ip =? 1)%nat then _ else _) in E. assert (It : items = map DBare init \/ exists l, items = [DList l]).
  { unfold items. clearbody init. destruct init as [|c [|c' r]]; [cbn in Li; lia| |]; cbn in Li; subst ip; [|left; reflexivity]. destruct (w_bare v); [left; reflexivity|right; eexists; reflexivity]. }
  clearbody items. destruct It as [->|(l & ->)]; [|cbn in E; discriminate E].
  unfold bindM at 1 in E. destruct (collect (map DBare init) (call_drawn v) s0) as [s1 [ys|]] eqn:E1; [|discriminate]. destruct (collect_ok init s0 s1 ys E1) as (-> & A1 & A2 & A3 & A4 & A5).
  unfold bindM at 1, upd at 1 in E.
  assert (Ba : bare_all (map DBare init) = init) by (generalize init; intro l0; induction l0 as [|c r IH]; cbn; [reflexivity|f_equal; exact IH]). rewrite Ba in E. set (s2 := set_points _ _ s1) in E.
  destruct (force_facts s2 s' (A5 H) E) as (B1 & B2 & B3 & B4 & B5).
  assert (C2 : s_configs s2 = s_configs s ++ init) by (unfold s2; cbn; rewrite A1; reflexivity).
  exists init. refine (conj Li (conj Vi (conj _ (conj _ (conj _ (conj _ B5)))))); [congruence| | |].
  - unfold values_of. rewrite B1, B2, C2, map_app. unfold s2. cbn. rewrite A2. cbn. rewrite Vs. reflexivity.
  - rewrite B3. exact A3.
  - rewrite B4. exact A4.
Qed.
(** what is between the initial points and the end of the call *)
Lemma first_steps fs s s' ip n : sreaches v fs s -> s_kind s = KBO ip -> s_cache s = [] -> (slen s < ip)%nat -> (ip <= n)%nat -> values_of f s -> sample v n s = (s', Ok tt) ->
  exists s1 s2 init, hash_ok s1 /\ s_fitted s1 = Some (sX s1, s_ys s1) /\ length init = ip /\ Forall valid init /\ s_configs s1 = s_configs s ++ init /\ values_of f s1 /\
    s_acqs s1 = s_acqs s /\ s_min s1 = s_min s /\ times (n - ip) (bo_step v) s1 = (s2, Ok tt) /\ s_configs s' = s_configs s2 /\ s_ys s' = s_ys s2 /\ s_min s' = s_min s2.
Proof.
  intros Hr K C L Le Vs E. destruct (bo_reach v R_order_laws fs s ip Hr K) as [(_ & H & _) _].
  unfold sample in E. rewrite K in E. unfold bindM at 1 in E. destruct (sample_base v n s) as [s4 [[]|]] eqn:E4; [|discriminate].
  unfold sample_base in E4. rewrite C, K in E4. set (s0 := if _ <? _ then _ else _) in E4.
  assert (S0 : hash_ok s0 /\ s_cache s0 = [] /\ slen s0 = slen s /\ s_configs s0 = s_configs s /\ s_ys s0 = s_ys s /\ s_acqs s0 = s_acqs s /\ s_min s0 = s_min s). { unfold s0. destruct (_ <? _)%nat; auto 10. }
  destruct S0 as (H0 & C0 & L0 & X0 & Y0 & A0 & M0). destruct n as [|n]; [lia|].
  unfold bindM at 1 in E4. cbn [replay] in E4. rewrite C0 in E4. cbn [Nat.ltb Nat.leb] in E4. rewrite Nat.sub_0_r in E4. unfold sample_new, bo_sample in E4. unfold bindM at 1, get at 1 in E4. rewrite L0 in E4.
  rewrite (proj2 (Nat.ltb_lt _ _) L) in E4. unfold bindM at 1 in E4. unfold bindM at 1 in E4.
  destruct (sample_initial v ip (S n) s0) as [s1 [[]|]] eqn:E1; [|discriminate].
  destruct (initial_facts ip (S n) s0 s1 H0) as (init & Li & Vi & X1 & V1 & A1 & M1 & H1); [unfold values_of in *; congruence|lia|exact Le|exact E1|].
  unfold get at 1 in E4. assert (Al : (slen s1 - slen s)%nat = ip) by (unfold slen; rewrite X1, X0, app_length; lia). rewrite Al in E4. unfold bindM at 1 in E4.
  destruct (fit_surrogate v false s1) as [s2 [[]|]] eqn:E2; [|discriminate]. destruct (fit_facts v s1 s2 H1 E2) as (Q1 & Q2 & Q3 & Q4 & Q5 & Q6).
  destruct (bo_steps_facts v (S n - ip) s2 s4 Q5 Q6 E4) as (cs & ys & _ & _ & _ & _ & _ & B6 & _). destruct (fit_facts v s4 s' B6 E) as (D1 & D2 & D3 & D4 & _).
  exists s2, s4, init. repeat split; try assumption; try congruence.
Qed.
End First.

Theorem first_regret (w : world RNum) surr valid (tau : R) f mn cand none fs s s' ip n :
  let v := with_choice w surr (ALCB (N:=RNum) tau) mn cand none in
  calibrated valid tau f surr -> (forall k l, cand k = DList l -> Forall valid l) -> Forall valid (s_configs s) -> (forall d k i, valid (w_batch w d k i)) ->
  (forall k vals, w_obj w k vals = Ok (@JNum RNum (f vals))) ->
  sreaches v fs s -> s_kind s = KBO ip -> s_min s = mn -> s_cache s = [] -> (slen s < ip)%nat -> (ip <= n)%nat -> values_of f s ->
  sample v n s = (s', Ok tt) ->
  values_of f s' /\ slen s' = (slen s + n)%nat /\ firstn (slen s) (s_configs s') = s_configs s /\
  forall i, (i < n - ip)%nat -> exists l c d, cand (s_acqs s + i)%nat = DList l /\ nth_error (s_configs s') (slen s + ip + i)%nat = Some c /\ In c l /\
    (let known := firstn (slen s + ip + i) (s_configs s') in deviation (surr (Some (map (@c_vec RNum) known, map (fun c => @JNum RNum (f (c_vals c))) known))) l c d) /\
    nearly_best mn f l (f (c_vals c)) (2 * tau * d) /\
    exists best y, incumbent s' = Ok (Some (best, y)) /\ nearly_best mn f l y (2 * tau * d).
Proof.
  intros v Cal Vc Vk Draw Obj Hr K Mn C L Le Vs E.
  destruct (first_steps v valid f Obj Draw fs s s' ip n Hr K C L Le Vs E) as (s1 & s2 & init & H1 & F1 & Li & Vi & X1 & V1 & A1 & M1 & T & X2 & Y2 & M2).
  assert (Ne : s_configs s1 <> []). { rewrite X1. intro Z. apply app_eq_nil in Z. destruct Z as [_ Z]. rewrite Z in Li. cbn in Li. lia. }
  destruct (times_choices w surr (ALCB (N:=RNum) tau) f mn cand none s1 s2 (n - ip) Obj H1 F1 Ne V1 T) as (V2 & M3 & cs & Lc & X3 & Ch).
  assert (V' : values_of f s') by (unfold values_of in *; congruence).
  assert (X' : s_configs s' = (s_configs s ++ init) ++ cs) by congruence. rewrite A1, X1 in Ch.
  assert (Lo : length (s_configs s ++ init) = (slen s + ip)%nat) by (rewrite app_length; unfold slen; lia).
  refine (conj V' (conj _ (conj _ _))).
  { unfold slen in *. rewrite X', app_length, Lo, Lc. lia. }
  { rewrite X', <- app_assoc. unfold slen. rewrite firstn_app, Nat.sub_diag, firstn_all. cbn. apply app_nil_r. }
  intros i Hi. destruct (nth_error cs i) as [c|] eqn:Ec; [|apply nth_error_None in Ec; lia].
  destruct (Ch i c Ec) as (l & eta & El & Ic & G). cbv zeta in G. cbn [acq_update] in G.
  assert (Kn : firstn (slen s + ip + i) (s_configs s') = (s_configs s ++ init) ++ firstn i cs).
  { rewrite X', <- Lo, firstn_app. rewrite firstn_all2 by lia. f_equal. f_equal. lia. }
  assert (Icl : Forall valid cs). { apply Forall_forall. intros x Hx. destruct (In_nth_error _ _ Hx) as (q & Eq). destruct (Ch q x Eq) as (l' & e' & El' & I' & _). exact (proj1 (Forall_forall _ _) (Vc _ _ El') x I'). }
  set (known := (s_configs s ++ init) ++ firstn i cs) in *.
  assert (Vn : Forall valid known). { unfold known. apply Forall_app. split; [apply Forall_app; auto|]. apply Forall_forall. intros x Hx. apply (proj1 (Forall_forall _ _) Icl). rewrite <- (firstn_skipn i cs). apply in_or_app. left. exact Hx. }
  destruct (step_regret (surr (Some (map (@c_vec RNum) known, map (J f) known))) tau f mn l c) as (_ & d & Dv & Nb).
  { intros means stds Hp. exact (Cal known l means stds Vn (Vc _ _ El) Hp). }
  { exact G. }
  assert (Ix : In c (s_configs s')) by (rewrite X'; apply in_or_app; right; exact (nth_error_In _ _ Ec)).
  exists l, c, d. refine (conj El (conj _ (conj Ic (conj _ (conj Nb _))))).
  { rewrite X', nth_error_app2 by lia. rewrite Lo. replace (slen s + ip + i - (slen s + ip))%nat with i by lia. exact Ec. }
  { cbv zeta. rewrite Kn. exact Dv. }
  destruct (incumbent_known f s' V') as (b & y & I1 & _ & _ & I4).
  { rewrite X'. intro Z. rewrite X' in Ix. rewrite Z in Ix. exact Ix. }
  exists b, y. split; [exact I1|]. assert (Ms : s_min s' = mn) by congruence. rewrite Ms in I4. specialize (I4 c Ix). intros x Hx. specialize (Nb x Hx). destruct mn; lra.
Qed.
(** a new sampler with two initial points *)
Lemma first_regret_case : exists s', sample (mx_v (ALCB (N:=RNum) 1)) 5 (nx_s (ALCB (N:=RNum) 1)) = (s', Ok tt).
Proof. destruct nx_best as (s' & b & y & E & _). eauto. Qed.
