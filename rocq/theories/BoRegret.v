(** BoRegret.v - C123: what a calibrated surrogate implies for the points that the lower confidence bound chooses. *)
From Coq Require Import Reals Lra.
From Coquelicot Require Import Coquelicot.
From Flocq Require Import Core.Core.
From Verif Require Import Base Num NumLaws NumpyModel ConfigSpaceModel SamplerModel AcquisitionModel Gauss AcquisitionReal SamplerSpec ListLemmas
  SamplerProofs SamplerProofs2 SamplerProofs3 AcquisitionProofs SamplerMetaReal B64Proofs RoundAcqSpec RoundAcq BoRegretSpec.
Local Open Scope R_scope.
Local Open Scope list_scope.

Lemma R_ordinary (l : list RNum) : Forall ordinary l.
Proof. apply Forall_forall. intros x _. unfold ordinary. cbn. unfold Reqb. destruct (Req_EM_T x x); congruence. Qed.
Lemma R_le (x y : RNum) : nle x y = true -> (x <= y)%R.
Proof. cbn. destruct (Rleb_spec x y); [auto|discriminate]. Qed.
Lemma lcb_R mn (tau m s : R) : lcb_value (N:=RNum) mn tau m s = (if mn then - m + tau * s else m + tau * s)%R.
Proof. destruct mn; cbn; [|reflexivity]. ring. Qed.

(** one choice *)
Theorem step_regret (predict : predictor) (tau : R) f mn l c :
  (forall means stds, predict (map (@c_vec RNum) l) = Ok (means, stds) -> band tau f l means stds) ->
  get_optimum predict norm_cdf norm_pdf (ALCB (N:=RNum) tau) mn (DList l) = Ok (EConf c) ->
  In c l /\ exists d, deviation predict l c d /\ nearly_best mn f l (f (c_vals c)) (2 * tau * d).
Proof.
  intros Hb O. assert (D0 : l = [] \/ l <> []) by (destruct l; [left; reflexivity|right; discriminate]). destruct D0 as [->|NE].
  { exfalso. unfold get_optimum, get_optimum_pair in O. destruct (acq_call _ _ _ _ _ _); discriminate. }
  destruct (predict (map (@c_vec RNum) l)) as [[means stds]|e] eqn:P.
  2:{ exfalso. unfold get_optimum, get_optimum_pair, acq_call in O. rewrite convert_list, P in O. discriminate. }
  destruct (Hb means stds eq_refl) as (Lm & Ls & B). change (length (A:=RNum) means = length l) in Lm. change (length (A:=RNum) stds = length l) in Ls.
  assert (C : exists v, acq_call predict norm_cdf norm_pdf (ALCB (N:=RNum) tau) mn (XList (map IConf l)) = Ok v).
  { unfold acq_call. change (convert_configs (XList (map IConf l))) with (convert_configs (as_input (DList l))). rewrite convert_list, P. cbn [bind fst snd]. unfold elementwise.
    assert (LE : length (A:=RNum) means = length (A:=RNum) stds) by exact (eq_trans Lm (eq_sym Ls)). rewrite (proj2 (Nat.eqb_eq _ _) LE). eauto. }
  destruct C as (v & C). destruct (acq_call_values predict norm_cdf norm_pdf _ _ _ _ C) as (means' & stds' & P' & _ & Lv & V).
  change (convert_configs (XList (map IConf l))) with (convert_configs (as_input (DList l))) in P'. rewrite convert_list in P'.
  assert (means' = means /\ stds' = stds) as [-> ->] by (rewrite P in P'; split; congruence).
  destruct (optimum_best R_order_laws predict norm_cdf norm_pdf (ALCB (N:=RNum) tau) mn l v NE C) as (i & c' & x & _ & O' & Hl & B1 & B2 & _).
  { exact (eq_trans Lv Lm). }
  { apply R_ordinary. }
  assert (c' = c) as -> by congruence. split; [exact (nth_error_In _ _ Hl)|].
  assert (Hi : (i < length l)%nat) by (apply nth_error_Some; congruence).
  assert (At : forall j, (j < length l)%nat -> exists m s, nth_error means j = Some m /\ nth_error stds j = Some s).
  { intros j Hj. destruct (nth_error means j) as [m|] eqn:Em; [|apply nth_error_None in Em; exfalso; revert Em; rewrite Lm; lia].
    destruct (nth_error stds j) as [s|] eqn:Es; [|apply nth_error_None in Es; exfalso; revert Es; rewrite Ls; lia]. eauto. }
  destruct (At i Hi) as (m & s & Em & Es). exists s. split; [exists i, means, stds; auto|].
  intros c2 H2. destruct (In_nth_error _ _ H2) as (j & Hj). assert (Hj' : (j < length l)%nat) by (apply nth_error_Some; congruence).
  destruct (At j Hj') as (m2 & s2 & Em2 & Es2). pose proof (B2 j _ (V j m2 s2 Em2 Es2)) as Q. cbn [negb] in Q.
  assert (x = acq_value (N:=RNum) norm_cdf norm_pdf (ALCB (N:=RNum) tau) mn m s) as -> by (pose proof (V i m s Em Es); congruence).
  apply R_le in Q. change (lcb_value (N:=RNum) mn tau m2 s2 <= lcb_value (N:=RNum) mn tau m s)%R in Q. rewrite !lcb_R in Q.
  pose proof (B i c m s Hl Em Es) as Q1. pose proof (B j c2 m2 s2 Hj Em2 Es2) as Q2. apply Rabs_le_inv in Q1, Q2. destruct mn; lra.
Qed.

(** one choice in binary64 *)
Theorem step_regret_b64 fe fl fr (predict : list (list (B64 fe fl fr)) -> res (list (B64 fe fl fr) * list (B64 fe fl fr))) cdf pdf d
  (tau : B64 fe fl fr) (f : config (B64 fe fl fr) -> R) mn (l : list (conf (B64 fe fl fr))) means stds E :
  accurate fe fl fr d cdf norm_cdf -> accurate fe fl fr d pdf norm_pdf -> d <= / 8 ->
  l <> [] -> predict (map (@c_vec (B64 fe fl fr)) l) = Ok (means, stds) -> length means = length l -> length stds = length l ->
  (forall i m s, nth_error means i = Some m -> nth_error stds i = Some s -> in_range fe fl fr (ALCB tau) m s /\ acq_error fe fl fr d (ALCB tau) m s <= E) ->
  (forall i c m s, nth_error l i = Some c -> nth_error means i = Some m -> nth_error stds i = Some s ->
     Rabs (f (c_vals c) - val fe fl fr m) <= val fe fl fr tau * val fe fl fr s) ->
  exists i c s, get_optimum predict cdf pdf (ALCB tau) mn (DList l) = Ok (EConf c) /\ nth_error l i = Some c /\ nth_error stds i = Some s /\
    forall c', In c' l -> if mn then f (c_vals c) <= f (c_vals c') + 2 * val fe fl fr tau * val fe fl fr s + 2 * E
                          else f (c_vals c') <= f (c_vals c) + 2 * val fe fl fr tau * val fe fl fr s + 2 * E.
Proof.
  intros Hc Hp Hd NE P Lm Ls HR B. destruct (optimum_near fe fl fr predict cdf pdf d (ALCB tau) mn l means stds E Hc Hp Hd NE P Lm Ls HR) as (i & c & m & s & O & Hl & Em & Es & K).
  exists i, c, s. refine (conj O (conj Hl (conj Es _))). intros c2 H2. destruct (In_nth_error _ _ H2) as (j & Hj).
  assert (Hj' : (j < length l)%nat) by (apply nth_error_Some; congruence).
  destruct (nth_error means j) as [m2|] eqn:Em2; [|apply nth_error_None in Em2; lia]. destruct (nth_error stds j) as [s2|] eqn:Es2; [|apply nth_error_None in Es2; lia].
  pose proof (K j m2 s2 Em2 Es2) as Q. cbn [exact_acq acq_value] in Q. rewrite !lcb_R in Q.
  pose proof (B i c m s Hl Em Es) as Q1. pose proof (B j c2 m2 s2 Hj Em2 Es2) as Q2. apply Rabs_le_inv in Q1, Q2. destruct mn; lra.
Qed.

(** ** a step of Bayesian optimization *)
Section Run.
Variable w : world RNum.
Lemma fit_facts s s' : hash_ok s -> fit_surrogate w false s = (s', Ok tt) ->
  s_configs s' = s_configs s /\ s_ys s' = s_ys s /\ s_acqs s' = s_acqs s /\ s_min s' = s_min s /\ hash_ok s' /\ s_fitted s' = Some (sX s', s_ys s').
Proof.
  intros H E. pose proof (fit_refits w false s H) as F. rewrite E in F. cbn [fst snd is_ok] in F. destruct F as (_ & _ & F3 & F4 & F5 & _ & _ & F8 & _ & F10).
  specialize (F10 eq_refl). refine (conj F4 (conj F5 (conj _ (conj F8 (conj F3 _))))).
  - pose proof (hash_new s H) as E1. unfold fit_surrogate in E. cbn [s_fit_hash set_hash] in E. rewrite E1 in E. cbn [negb orb] in E. unfold bindM, surrogate_fit in E.
    destruct (w_fit w _ _ _); [|discriminate]. unfold upd in E. injection E as <-. reflexivity.
  - rewrite F10. unfold sX. rewrite F4, F5. reflexivity.
Qed.
Lemma bo_step_facts s s' : hash_ok s -> s_fitted s = Some (sX s, s_ys s) -> bo_step w s = (s', Ok tt) ->
  exists inc c y, incumbent s = Ok inc /\ w_acq w (s_acqs s) (Some (sX s, s_ys s)) (option_map snd inc) = Ok c /\ w_obj w (s_calls s) (c_vals c) = Ok y /\
    s_configs s' = s_configs s ++ [c] /\ s_ys s' = s_ys s ++ [y] /\ s_acqs s' = S (s_acqs s) /\ s_min s' = s_min s /\ hash_ok s' /\ s_fitted s' = Some (sX s', s_ys s').
Proof.
  intros H F E. unfold bo_step in E. unfold bindM at 1 in E. destruct (incumbent s) as [inc|] eqn:EI; [|discriminate].
  cbv zeta in E. unfold bindM at 1 in E. rewrite F in E. destruct (w_acq w _ _ _) as [c|] eqn:EA; [|discriminate].
  unfold bindM at 1 in E. unfold call_obj in E. cbv zeta in E. cbn [s_calls log set_acqs] in E. destruct (w_obj w _ _) as [y|] eqn:EO; [|discriminate].
  unfold bindM at 1 in E. unfold append, upd in E. apply fit_facts in E; [|exact H]. destruct E as (A1 & A2 & A3 & A4 & A5 & A6).
  exists inc, c, y. cbn in A1, A2, A3, A4. auto 10.
Qed.

(** the i-th of n steps, on the points known by then *)
Lemma bo_steps_facts n : forall s s', hash_ok s -> s_fitted s = Some (sX s, s_ys s) -> times n (bo_step w) s = (s', Ok tt) ->
  exists cs ys, length cs = n /\ length ys = n /\ s_configs s' = s_configs s ++ cs /\ s_ys s' = s_ys s ++ ys /\ s_min s' = s_min s /\ hash_ok s' /\
  forall i c y, nth_error cs i = Some c -> nth_error ys i = Some y -> exists t inc k,
    s_configs t = s_configs s ++ firstn i cs /\ s_ys t = s_ys s ++ firstn i ys /\ incumbent t = Ok inc /\
    w_acq w (s_acqs s + i)%nat (Some (sX t, s_ys t)) (option_map snd inc) = Ok c /\ w_obj w k (c_vals c) = Ok y.
Proof.
  induction n as [|n IH]; intros s s' H F E.
  { cbn in E. injection E as <-. exists [], []. rewrite !app_nil_r. repeat (split; [reflexivity || assumption|]). intros [|i] c y; discriminate. }
  cbn [times] in E. unfold bindM in E. destruct (bo_step w s) as [s1 [[]|]] eqn:E1; [|discriminate].
  destruct (bo_step_facts s s1 H F E1) as (inc & c & y & A1 & A2 & A3 & A4 & A5 & A6 & A7 & A8 & A9).
  destruct (IH s1 s' A8 A9 E) as (cs & ys & B1 & B2 & B3 & B4 & B5 & B6 & B7).
  exists (c :: cs), (y :: ys). cbn [length]. rewrite A4 in B3. rewrite A5 in B4. rewrite <- app_assoc in B3, B4.
  refine (conj (f_equal S B1) (conj (f_equal S B2) (conj B3 (conj B4 (conj (eq_trans B5 A7) (conj B6 _)))))).
  intros [|i] c' y' Hc Hy; cbn in Hc, Hy.
  - injection Hc as <-. injection Hy as <-. exists s, inc, (s_calls s). cbn [firstn]. rewrite !app_nil_r, Nat.add_0_r. auto.
  - destruct (B7 i c' y' Hc Hy) as (t & inc' & k & C1 & C2 & C3 & C4 & C5). exists t, inc', k. cbn [firstn].
    rewrite C1, C2, A4, A5, <- !app_assoc. refine (conj eq_refl (conj eq_refl (conj C3 (conj _ C5)))).
    rewrite A6 in C4. rewrite C2, A5, <- app_assoc in C4. replace (s_acqs s + S i)%nat with (S (s_acqs s) + i)%nat by lia. exact C4.
Qed.

Lemma sample_steps fs s s' ip n : sreaches w fs s -> s_kind s = KBO ip -> s_cache s = [] -> (ip <= slen s)%nat -> sample w n s = (s', Ok tt) ->
  exists s1 s2, hash_ok s1 /\ s_fitted s1 = Some (sX s1, s_ys s1) /\ s_configs s1 = s_configs s /\ s_ys s1 = s_ys s /\ s_acqs s1 = s_acqs s /\ s_min s1 = s_min s /\
    times n (bo_step w) s1 = (s2, Ok tt) /\ s_configs s' = s_configs s2 /\ s_ys s' = s_ys s2 /\ s_min s' = s_min s2.
Proof.
  intros Hr K C L E. destruct (bo_reach w R_order_laws fs s ip Hr K) as [(_ & H & _) _].
  unfold sample in E. rewrite K in E. unfold bindM at 1 in E. destruct (sample_base w n s) as [s2 [[]|]] eqn:E2; [|discriminate].
  unfold sample_base in E2. rewrite C, K in E2. set (s0 := if _ <? _ then _ else _) in E2.
  assert (S0 : s_configs s0 = s_configs s /\ s_ys s0 = s_ys s /\ s_acqs s0 = s_acqs s /\ s_min s0 = s_min s /\ hash_ok s0 /\ s_cache s0 = [] /\ s_fitted s0 = s_fitted s).
  { unfold s0. destruct (_ <? _); auto 10. }
  destruct S0 as (S1 & S2 & S3 & S4 & S5 & S6 & _).
  destruct n as [|n].
  - cbn in E2. injection E2 as <-. destruct (fit_facts s0 s' S5 E) as (A1 & A2 & A3 & A4 & A5 & A6).
    exists s', s'. cbn [times]. unfold ret. repeat split; try assumption; congruence.
  - unfold bindM at 1 in E2. cbn [replay] in E2. rewrite S6 in E2. cbn [Nat.ltb Nat.leb] in E2. rewrite Nat.sub_0_r in E2.
    unfold sample_new, bo_sample in E2. unfold bindM at 1, get at 1 in E2.
    assert (Lt : (slen s0 <? ip) = false) by (apply Nat.ltb_ge; unfold slen in *; rewrite S1; exact L). rewrite Lt in E2.
    unfold bindM at 1, ret in E2. unfold bindM at 1 in E2. destruct (fit_surrogate w false s0) as [s1 [[]|]] eqn:E1; [|discriminate]. rewrite Nat.sub_0_r in E2.
    destruct (fit_facts s0 s1 S5 E1) as (A1 & A2 & A3 & A4 & A5 & A6).
    destruct (bo_steps_facts (S n) s1 s2 A5 A6 E2) as (cs & ys & _ & _ & _ & _ & _ & B6 & _).
    destruct (fit_facts s2 s' B6 E) as (D1 & D2 & D3 & D4 & _). exists s1, s2. repeat split; try assumption; congruence.
Qed.
End Run.

(** a choice is one of the candidates; a single configuration yields names, not a configuration *)
Lemma py_best_In {A} better (l : list (A * RNum)) : forall b, In (py_best better b l) (b :: l).
Proof.
  induction l as [|p l IH]; intro b; cbn [py_best]; [left; reflexivity|]. destruct (IH (if better (snd p) (snd b) then p else b)) as [<-|H]; [|right; right; exact H].
  destruct (better _ _); [right; left|left]; reflexivity.
Qed.
Lemma py_extreme_In {A} better (l : list (A * RNum)) p : py_extreme better l = Ok p -> In p l.
Proof. destruct l as [|b l]; [discriminate|]. intro E. injection E as <-. apply py_best_In. Qed.
Lemma chosen_in (predict : predictor) a mn d c : get_optimum predict norm_cdf norm_pdf a mn d = Ok (EConf c) -> exists l, d = DList l /\ In c l.
Proof.
  intro G. unfold get_optimum, get_optimum_pair in G. destruct (acq_call _ _ _ _ _ _) as [vs|]; [|discriminate]. cbn [bind] in G.
  destruct (py_extreme _ _) as [[e x]|] eqn:PE; [|discriminate]. cbn in G. injection G as ->. apply py_extreme_In, in_combine_l in PE.
  destruct d as [b|l]; cbn in PE; apply in_map_iff in PE; destruct PE as (y & E & I); [discriminate|]. injection E as <-. exists l. auto.
Qed.

(** ** a run *)
Theorem run_regret (w : world RNum) surr valid (tau : R) f mn cand none fs s s' ip n :
  let v := with_choice w surr (ALCB (N:=RNum) tau) mn cand none in
  calibrated valid tau f surr -> (forall k l, cand k = DList l -> Forall valid l) -> Forall valid (s_configs s) -> (forall k vals, w_obj w k vals = Ok (@JNum RNum (f vals))) ->
  sreaches v fs s -> s_kind s = KBO ip -> s_min s = mn -> s_cache s = [] -> (ip <= slen s)%nat -> (0 < slen s)%nat -> values_of f s ->
  sample v n s = (s', Ok tt) ->
  values_of f s' /\ slen s' = (slen s + n)%nat /\ firstn (slen s) (s_configs s') = s_configs s /\
  forall i, (i < n)%nat -> exists l c d, cand (s_acqs s + i)%nat = DList l /\ nth_error (s_configs s') (slen s + i)%nat = Some c /\ In c l /\
    (let known := firstn (slen s + i) (s_configs s') in deviation (surr (Some (map (@c_vec RNum) known, map (fun c => @JNum RNum (f (c_vals c))) known))) l c d) /\
    nearly_best mn f l (f (c_vals c)) (2 * tau * d) /\
    exists best y, incumbent s' = Ok (Some (best, y)) /\ nearly_best mn f l y (2 * tau * d).
Proof.
  intros v Cal Vc Vk Obj Hr K Mn C L P Vs E.
  destruct (sample_steps v fs s s' ip n Hr K C L E) as (s1 & s2 & H1 & H2 & H3 & H4 & H5 & H6 & H7 & H8 & H9 & H10).
  destruct (bo_steps_facts v n s1 s2 H1 H2 H7) as (cs & ys & B1 & B2 & B3 & B4 & B5 & _ & B7).
  set (J := fun c : conf RNum => @JNum RNum (f (c_vals c))) in *.
  assert (Y : ys = map J cs).
  { apply list_eq_nth_error. intro i. rewrite nth_error_map. destruct (nth_error cs i) as [c|] eqn:Ec.
    - destruct (nth_error ys i) as [y|] eqn:Ey; [|apply nth_error_None in Ey; assert (i < length cs)%nat by (apply nth_error_Some; congruence); lia].
      destruct (B7 i c y Ec Ey) as (t & inc & k & _ & _ & _ & _ & W). change (w_obj v) with (w_obj w) in W. rewrite Obj in W. injection W as <-. reflexivity.
    - apply nth_error_None in Ec. apply nth_error_None. lia. }
  assert (X' : s_configs s' = s_configs s ++ cs) by congruence.
  assert (V' : values_of f s').
  { unfold values_of in *. fold J in Vs |- *. rewrite H9, B4, H4, X', map_app, <- Y, <- Vs. reflexivity. }
  assert (Ln : slen s' = (slen s + n)%nat) by (unfold slen; rewrite X', app_length, B1; reflexivity).
  refine (conj V' (conj Ln (conj _ _))).
  { rewrite X'. unfold slen. rewrite firstn_app, Nat.sub_diag, firstn_all. cbn. apply app_nil_r. }
  assert (Pick : forall t inc i c, s_configs t = s_configs s1 ++ firstn i cs -> s_ys t = s_ys s1 ++ firstn i ys -> incumbent t = Ok inc ->
    w_acq v (s_acqs s + i)%nat (Some (sX t, s_ys t)) (option_map snd inc) = Ok c ->
    exists l, cand (s_acqs s + i)%nat = DList l /\ In c l /\ get_optimum (surr (Some (sX t, s_ys t))) norm_cdf norm_pdf (ALCB (N:=RNum) tau) mn (DList l) = Ok (EConf c)).
  { intros t inc i c T1 T2 T3 T4. change (w_acq v) with (choose surr (ALCB (N:=RNum) tau) mn cand none) in T4.
    destruct inc as [[bc bv]|].
    2:{ exfalso. unfold incumbent in T3. rewrite T2, H4 in T3. unfold values_of in Vs. rewrite Vs in T3. unfold slen in P. destruct (s_configs s) as [|c0 r]; [cbn in P; lia|]. cbn in T3.
        destruct (mapM _ _) as [l|]; cbn in T3; [|discriminate]. destruct (py_nth _ _) in T3; cbn in T3; [|discriminate]. destruct (py_nth _ _) in T3; discriminate. }
    cbn [option_map snd choose acq_update] in T4.
    destruct (get_optimum _ _ _ _ _ _) as [[c'|nm]|] eqn:G; try discriminate. injection T4 as ->.
    destruct (chosen_in _ _ _ _ _ G) as (l & El & I). rewrite El in G. eauto. }
  assert (Vcs : Forall valid cs).
  { apply Forall_forall. intros c Hc. destruct (In_nth_error _ _ Hc) as (i & Ec). assert (Ey : nth_error ys i = Some (J c)) by (rewrite Y, nth_error_map, Ec; reflexivity).
    destruct (B7 i c _ Ec Ey) as (t & inc & k & T1 & T2 & T3 & T4 & _). rewrite H5 in T4. destruct (Pick _ _ _ _ T1 T2 T3 T4) as (l & El & I & _).
    exact (proj1 (Forall_forall _ _) (Vc _ l El) c I). }
  intros i Hi. destruct (nth_error cs i) as [c|] eqn:Ec; [|apply nth_error_None in Ec; lia].
  assert (Ey : nth_error ys i = Some (J c)) by (rewrite Y, nth_error_map, Ec; reflexivity).
  destruct (B7 i c _ Ec Ey) as (t & inc & k & T1 & T2 & T3 & T4 & _).
  assert (Kn : firstn (slen s + i) (s_configs s') = s_configs t).
  { rewrite X', T1, H3. unfold slen. rewrite firstn_app_2. reflexivity. }
  assert (Yt : s_ys t = map J (s_configs t)).
  { rewrite T1, T2, H3, H4, map_app, <- firstn_map, <- Y. unfold values_of in Vs. fold J in Vs. rewrite <- Vs. reflexivity. }
  assert (Nc : nth_error (s_configs s') (slen s + i) = Some c).
  { rewrite X', nth_error_app2 by (unfold slen; lia). replace (slen s + i - length (s_configs s))%nat with i by (unfold slen; lia). exact Ec. }
  rewrite H5 in T4. destruct (Pick _ _ _ _ T1 T2 T3 T4) as (l & El & I & G).
  exists l, c.
  destruct (step_regret (surr (Some (map (@c_vec RNum) (s_configs t), map J (s_configs t)))) tau f mn l c) as (_ & d & D & Nb).
  { intros means stds Hp. apply (Cal (s_configs t) l means stds); [|exact (Vc _ l El)|exact Hp].
    rewrite T1, H3. apply Forall_app. split; [exact Vk|]. rewrite <- (firstn_skipn i cs) in Vcs. exact (proj1 (proj1 (Forall_app _ _ _) Vcs)). }
  { unfold sX in G. rewrite Yt in G. exact G. }
  exists d. cbv zeta. rewrite Kn. refine (conj El (conj Nc (conj I (conj D (conj Nb _))))).
  set (vals := map (fun c : conf RNum => f (c_vals c)) (s_configs s')).
  assert (Ys : s_ys s' = map (@JNum RNum) (vals : list RNum)) by (unfold vals; rewrite V'; symmetry; apply map_map).
  destruct (incumbent_best R_order_laws s' (vals : list RNum) Ys) as (j & bc' & bv' & I1 & I2 & I3 & I4 & _).
  { rewrite V', map_length. reflexivity. }
  { intro Z. assert (length (s_configs s') = 0)%nat by (rewrite <- (map_length (fun c : conf RNum => f (c_vals c))); fold vals; exact (f_equal (@length _) Z)). unfold slen in *. lia. }
  { apply R_ordinary. }
  exists bc', bv'. split; [exact I1|]. intros c2 H2'. specialize (Nb c2 H2').
  assert (Q : nth_error (vals : list RNum) (slen s + i)%nat = Some (f (c_vals c))) by (unfold vals; rewrite nth_error_map, Nc; reflexivity).
  specialize (I4 _ _ Q). rewrite H10, B5, H6, Mn in I4. destruct mn; apply R_le in I4; lra.
Qed.
