(** BoFinite.v - C125: Bayesian optimization over the same finitely many candidates in every step. *)
From Coq Require Import Reals Lra.
From Coquelicot Require Import Coquelicot.
From Flocq Require Import Core.Core.
From Verif Require Import Base Num NumLaws NumpyModel ConfigSpaceModel SamplerModel AcquisitionModel Gauss AcquisitionReal SamplerSpec ListLemmas
  SamplerProofs SamplerProofs2 SamplerProofs3 AcquisitionProofs SamplerMetaReal B64Proofs RoundAcqSpec RoundAcq BoRegretSpec BoRegret SigmaLimit BoFiniteSpec.
Local Open Scope R_scope.
Local Open Scope list_scope.

Notation J f := (fun c : conf RNum => @JNum RNum (f (c_vals c))).

(** each new point is the choice of the acquisition function for the surrogate fitted on the points before it *)
Definition chosen (surr : option (list (list RNum) * list (json RNum)) -> predictor) (a : acq RNum) (f : config RNum -> R) (mn : bool) (cand : nat -> drawn RNum) (k : nat) (old cs : list (conf RNum)) : Prop :=
  forall i c, nth_error cs i = Some c -> exists l eta, cand (k + i)%nat = DList l /\ In c l /\
    let known := old ++ firstn i cs in
    get_optimum (surr (Some (map (@c_vec RNum) known, map (J f) known))) norm_cdf norm_pdf (acq_update a eta) mn (DList l) = Ok (EConf c).
Lemma times_choices (w : world RNum) (surr : option (list (list RNum) * list (json RNum)) -> predictor) a f mn cand none s1 s2 n :
  let v := with_choice w surr a mn cand none in
  (forall k vals, w_obj w k vals = Ok (@JNum RNum (f vals))) ->
  hash_ok s1 -> s_fitted s1 = Some (sX s1, s_ys s1) -> s_configs s1 <> [] -> values_of f s1 -> times n (bo_step v) s1 = (s2, Ok tt) ->
  values_of f s2 /\ s_min s2 = s_min s1 /\ exists cs, length cs = n /\ s_configs s2 = s_configs s1 ++ cs /\ chosen surr a f mn cand (s_acqs s1) (s_configs s1) cs.
Proof.
  intros v Obj H1 H2 P Vs H7.
  destruct (bo_steps_facts v n s1 s2 H1 H2 H7) as (cs & ys & B1 & B2 & B3 & B4 & B5 & _ & B7).
  assert (Y : ys = map (J f) cs).
  { apply list_eq_nth_error. intro i. rewrite nth_error_map. destruct (nth_error cs i) as [c|] eqn:Ec.
    - destruct (nth_error ys i) as [y|] eqn:Ey; [|apply nth_error_None in Ey; assert (i < length cs)%nat by (apply nth_error_Some; congruence); lia].
      destruct (B7 i c y Ec Ey) as (t & inc & k & _ & _ & _ & _ & W). change (w_obj v) with (w_obj w) in W. rewrite Obj in W. injection W as <-. reflexivity.
    - apply nth_error_None in Ec. apply nth_error_None. lia. }
  unfold values_of in *. refine (conj _ (conj B5 _)).
  { rewrite B4, B3, map_app, <- Y, <- Vs. reflexivity. }
  exists cs. refine (conj B1 (conj B3 _)). intros i c Ec.
  assert (Ey : nth_error ys i = Some (J f c)) by (rewrite Y, nth_error_map, Ec; reflexivity).
  destruct (B7 i c _ Ec Ey) as (t & inc & k & T1 & T2 & T3 & T4 & _).
  assert (Yt : s_ys t = map (J f) (s_configs t)).
  { rewrite T1, T2, map_app, <- firstn_map, <- Y, <- Vs. reflexivity. }
  change (w_acq v) with (choose surr a mn cand none) in T4.
  destruct inc as [[bc bv]|].
  2:{ exfalso. unfold incumbent in T3. rewrite T2, Vs in T3. destruct (s_configs s1) as [|c0 r]; [exact (P eq_refl)|]. cbn in T3.
      destruct (mapM _ _) as [l|]; cbn in T3; [|discriminate]. destruct (py_nth _ _) in T3; cbn in T3; [|discriminate]. destruct (py_nth _ _) in T3; discriminate. }
  cbn [option_map snd choose] in T4. destruct (get_optimum _ _ _ _ _ _) as [[c'|nm]|] eqn:G; try discriminate. injection T4 as ->.
  destruct (chosen_in _ _ _ _ _ G) as (l & El & I). exists l, bv. refine (conj El (conj I _)). cbv zeta. rewrite El in G. unfold sX in G. rewrite Yt, T1 in G. exact G.
Qed.
(** the choices of a run, for every acquisition function *)
Lemma run_choices (w : world RNum) surr a f mn cand none fs s s' ip n :
  let v := with_choice w surr a mn cand none in
  (forall k vals, w_obj w k vals = Ok (@JNum RNum (f vals))) ->
  sreaches v fs s -> s_kind s = KBO ip -> s_cache s = [] -> (ip <= slen s)%nat -> (0 < slen s)%nat -> values_of f s -> sample v n s = (s', Ok tt) ->
  values_of f s' /\ s_min s' = s_min s /\ exists cs, length cs = n /\ s_configs s' = s_configs s ++ cs /\ chosen surr a f mn cand (s_acqs s) (s_configs s) cs.
Proof.
  intros v Obj Hr K C L P Vs E.
  destruct (sample_steps v fs s s' ip n Hr K C L E) as (s1 & s2 & H1 & H2 & H3 & H4 & H5 & H6 & H7 & H8 & H9 & H10).
  destruct (times_choices w surr a f mn cand none s1 s2 n Obj H1 H2) as (A1 & A2 & cs & A3 & A4 & A5).
  { rewrite H3. unfold slen in P. destruct (s_configs s); [cbn in P; lia|discriminate]. }
  { unfold values_of in *. congruence. }
  { exact H7. }
  refine (conj _ (conj _ _)); [unfold values_of in *; congruence|congruence|]. exists cs. rewrite H3, H5 in *. refine (conj A3 (conj _ A5)). congruence.
Qed.

(** the incumbent is at least as good as every known value *)
Lemma incumbent_known f (s : sampler RNum) : values_of f s -> s_configs s <> [] ->
  exists best y, incumbent s = Ok (Some (best, y)) /\ y = f (c_vals best) /\ In best (s_configs s) /\
    forall c, In c (s_configs s) -> if s_min s then (y : R) <= f (c_vals c) else f (c_vals c) <= y.
Proof.
  intros Vs NE. set (vals := map (fun c : conf RNum => f (c_vals c)) (s_configs s)).
  assert (Ys : s_ys s = map (@JNum RNum) (vals : list RNum)) by (unfold vals; rewrite Vs; symmetry; apply map_map).
  destruct (incumbent_best R_order_laws s (vals : list RNum) Ys) as (j & b & y & I1 & I2 & I3 & I4 & _).
  { rewrite Vs, map_length. reflexivity. }
  { intro Z. apply NE. unfold vals in Z. destruct (s_configs s); [reflexivity|discriminate]. }
  { apply R_ordinary. }
  exists b, y. refine (conj I1 (conj _ (conj (nth_error_In _ _ I2) _))).
  - unfold vals in I3. pose proof (nth_error_map (fun c : conf RNum => f (c_vals c)) j (s_configs s)) as Q. rewrite I2 in Q. cbn in Q.
    pose proof (eq_trans (eq_sym I3) Q) as Q2. injection Q2 as ->. reflexivity.
  - intros c Hc. destruct (In_nth_error _ _ Hc) as (k & Ek). assert (Q : nth_error (vals : list RNum) k = Some (f (c_vals c))) by (unfold vals; rewrite nth_error_map, Ek; reflexivity).
    specialize (I4 _ _ Q). destruct (s_min s); apply R_le in I4; exact I4.
Qed.

(** either a known point is chosen again, or the new points are pairwise different and new *)
Lemma again_or_new {A} (old : list A) : forall cs, (exists i c, nth_error cs i = Some c /\ In c (old ++ firstn i cs)) \/ (NoDup cs /\ forall c, In c cs -> ~ In c old).
Proof.
  intro cs. induction cs as [|c cs IH] using rev_ind; [right; split; [constructor|intros c []]|].
  destruct IH as [(i & x & Hi & Hx)|[ND NI]].
  - left. exists i, x. assert (L : (i < length cs)%nat) by (apply nth_error_Some; congruence). rewrite nth_error_app1 by exact L. split; [exact Hi|].
    rewrite firstn_app. replace (i - length cs)%nat with 0%nat by lia. cbn. rewrite app_nil_r. exact Hx.
  - destruct (Classical_Prop.classic (In c (old ++ cs))) as [I|I].
    + left. exists (length cs), c. rewrite nth_error_app2, Nat.sub_diag by lia. split; [reflexivity|]. rewrite firstn_app, Nat.sub_diag, firstn_all. cbn. rewrite app_nil_r. exact I.
    + right. assert (I1 : ~ In c old) by (intro; apply I, in_or_app; auto). assert (I2 : ~ In c cs) by (intro; apply I, in_or_app; auto). split.
      * apply NoDup_Add with (a := c) (l := cs); [|auto]. rewrite <- (app_nil_r cs) at 1. apply Add_app.
      * intros x Hx. apply in_app_or in Hx. destruct Hx as [Hx|[<-|[]]]; auto.
Qed.

(** the lower confidence bound *)
Lemma lcb_core (surr : option (list (list RNum) * list (json RNum)) -> predictor) valid (tau : R) f mn l (s' : sampler RNum) k old cs :
  calibrated valid tau f surr -> sure_of_known valid surr f -> Forall valid l -> Forall valid old -> old <> [] -> s_min s' = mn -> values_of f s' ->
  s_configs s' = old ++ cs -> (length l <= length cs)%nat -> chosen surr (ALCB (N:=RNum) tau) f mn (fun _ => DList l) k old cs ->
  exists best y, incumbent s' = Ok (Some (best, y)) /\ nearly_best mn f l y 0.
Proof.
  intros Cal Sure Vl Vk NE Mn V' X' Ln Ch.
  destruct (incumbent_known f s' V') as (b & y & I1 & _ & _ & I4).
  { rewrite X'. destruct old; [contradiction|discriminate]. }
  exists b, y. split; [exact I1|]. rewrite Mn in I4. intros c Hc. rewrite Rplus_0_r. rewrite Rplus_0_r.
  assert (Icl : incl cs l).
  { intros x Hx. destruct (In_nth_error _ _ Hx) as (i & Ei). destruct (Ch i x Ei) as (l' & eta & El & I & _). injection El as <-. exact I. }
  destruct (again_or_new old cs) as [(i & x & Ei & Ix)|[ND _]].
  - destruct (Ch i x Ei) as (l' & eta & El & I & G). injection El as <-. cbv zeta in G. cbn [acq_update] in G. assert (Vn : Forall valid (old ++ firstn i cs)).
    { apply Forall_app. split; [exact Vk|]. apply Forall_forall. intros z Hz. apply (proj1 (Forall_forall _ _) Vl). apply Icl. rewrite <- (firstn_skipn i cs). apply in_or_app. left. exact Hz. }
    set (known := old ++ firstn i cs) in *.
    destruct (step_regret (surr (Some (map (@c_vec RNum) known, map (J f) known))) tau f mn l x) as (_ & d & (p & means & stds & Pd & Hp & Hd) & Nb).
    { intros means stds Hp. exact (Cal known l means stds Vn Vl Hp). }
    { exact G. }
    assert (d = 0) as -> by exact (Sure known l means stds Vn Vl Pd p x d Hp Hd Ix). specialize (Nb c Hc).
    assert (Ixs : In x (s_configs s')) by (rewrite X'; apply in_or_app; right; exact (nth_error_In _ _ Ei)). specialize (I4 x Ixs). destruct mn; lra.
  - assert (Il : incl l cs) by (apply NoDup_length_incl; [exact ND|lia|exact Icl]). apply I4. rewrite X'. apply in_or_app. right. exact (Il c Hc).
Qed.

Theorem finite_lcb (w : world RNum) surr valid (tau : R) f mn l none fs s s' ip n :
  let v := with_choice w surr (ALCB (N:=RNum) tau) mn (fun _ => DList l) none in
  calibrated valid tau f surr -> sure_of_known valid surr f -> Forall valid l -> Forall valid (s_configs s) -> (forall k vals, w_obj w k vals = Ok (@JNum RNum (f vals))) ->
  sreaches v fs s -> s_kind s = KBO ip -> s_min s = mn -> s_cache s = [] -> (ip <= slen s)%nat -> (0 < slen s)%nat -> values_of f s ->
  sample v n s = (s', Ok tt) -> (length l <= n)%nat ->
  exists best y, incumbent s' = Ok (Some (best, y)) /\ nearly_best mn f l y 0.
Proof.
  intros v Cal Sure Vl Vk Obj Hr K Mn C L P Vs E Ln.
  destruct (run_choices w surr (ALCB (N:=RNum) tau) f mn (fun _ => DList l) none fs s s' ip n Obj Hr K C L P Vs E) as (V' & M' & cs & Lc & X' & Ch).
  apply (lcb_core surr valid tau f mn l s' (s_acqs s) (s_configs s) cs); try assumption; [|congruence|lia].
  unfold slen in P. destruct (s_configs s); [cbn in P; lia|discriminate].
Qed.

(** expected and probability of improvement *)
Lemma improvement_core (surr : option (list (list RNum) * list (json RNum)) -> predictor) valid a f mn l (s' : sampler RNum) k old cs : (forall tau, a <> ALCB (N:=RNum) tau) ->
  unsure_of_others valid surr f -> sure_of_known valid surr f -> Forall valid l -> Forall valid old -> old <> [] -> s_min s' = mn -> values_of f s' ->
  s_configs s' = old ++ cs -> (length l <= length cs)%nat -> chosen surr a f mn (fun _ => DList l) k old cs ->
  incl l (s_configs s') /\ exists best y, incumbent s' = Ok (Some (best, y)) /\ nearly_best mn f l y 0.
Proof.
  intros Ha Un Sure Vl Vk NE Mn V' X' Ln Ch.
  assert (Icl : incl cs l).
  { intros x Hx. destruct (In_nth_error _ _ Hx) as (i & Ei). destruct (Ch i x Ei) as (l' & eta & El & I & _). injection El as <-. exact I. }
  assert (All : incl l (s_configs s')).
  { rewrite X'. destruct (again_or_new old cs) as [(i & x & Ei & Ix)|[ND _]].
    - destruct (Ch i x Ei) as (l' & eta & El & I & G). injection El as <-. cbv zeta in G. assert (Vn : Forall valid (old ++ firstn i cs)).
      { apply Forall_app. split; [exact Vk|]. apply Forall_forall. intros z Hz. apply (proj1 (Forall_forall _ _) Vl). apply Icl. rewrite <- (firstn_skipn i cs). apply in_or_app. left. exact Hz. }
      set (known := old ++ firstn i cs) in *.
      intros c Hc. destruct (Classical_Prop.classic (In c known)) as [Ik|Ik].
      { unfold known in Ik. apply in_or_app. apply in_app_or in Ik. destruct Ik as [Ik|Ik]; [left; exact Ik|right]. rewrite <- (firstn_skipn i cs). apply in_or_app. left. exact Ik. }
      exfalso. set (predict := surr (Some (map (@c_vec RNum) known, map (J f) known))) in *.
      destruct (predict (map (@c_vec RNum) l)) as [[means stds]|e] eqn:Pd.
      2:{ unfold get_optimum, get_optimum_pair, acq_call in G. rewrite convert_list, Pd in G. discriminate. }
      destruct (Un known l means stds Vn Vl Pd) as (Lm & Ls & Un').
      assert (Nn : forall t : R, In t stds -> 0 <= t).
      { intros t Ht. destruct (In_nth_error _ _ Ht) as (q & Eq). assert (Hq : (q < length l)%nat) by (rewrite <- Ls; apply nth_error_Some; intro Z; pose proof (eq_trans (eq_sym Z) Eq); discriminate).
        destruct (nth_error l q) as [z|] eqn:Ez; [|apply nth_error_None in Ez; lia]. destruct (Classical_Prop.classic (In z known)) as [Iz|Iz].
        - rewrite (Sure known l means stds Vn Vl Pd q z t Ez Eq Iz). lra.
        - left. exact (Un' q z t Ez Eq Iz). }
      assert (Ex : exists t : R, In t stds /\ 0 < t).
      { destruct (In_nth_error _ _ Hc) as (q & Eq). assert (Hq : (q < length l)%nat) by (apply nth_error_Some; congruence).
        destruct (nth_error stds q) as [t|] eqn:Et; [|apply nth_error_None in Et; exfalso; revert Hq; rewrite <- Ls; intro Hq; exact (Nat.lt_irrefl _ (Nat.lt_le_trans _ _ _ Hq Et))].
        exists t. split; [exact (nth_error_In _ _ Et)|exact (Un' q c t Eq Et Ik)]. }
      destruct (certain_last predict (acq_update a eta) mn l means stds x) as (q & t & Eq & Et & Pt); try assumption.
      { intros tau Z. destruct a as [eta0 eps|eta0 eps|tau0]; [discriminate|discriminate|exact (Ha tau0 eq_refl)]. }
      rewrite (Sure known l means stds Vn Vl Pd q x t Eq Et Ix) in Pt. lra.
    - intros c Hc. apply in_or_app. right. refine (NoDup_length_incl ND _ Icl c Hc). lia. }
  split; [exact All|]. destruct (incumbent_known f s' V') as (b & y & I1 & _ & _ & I4).
  { rewrite X'. destruct old; [contradiction|discriminate]. }
  exists b, y. split; [exact I1|]. rewrite Mn in I4. intros c Hc. rewrite !Rplus_0_r. exact (I4 c (All c Hc)).
Qed.

Theorem finite_improvement (w : world RNum) surr valid a f mn l none fs s s' ip n : (forall tau, a <> ALCB (N:=RNum) tau) ->
  let v := with_choice w surr a mn (fun _ => DList l) none in
  unsure_of_others valid surr f -> sure_of_known valid surr f -> Forall valid l -> Forall valid (s_configs s) -> (forall k vals, w_obj w k vals = Ok (@JNum RNum (f vals))) ->
  sreaches v fs s -> s_kind s = KBO ip -> s_min s = mn -> s_cache s = [] -> (ip <= slen s)%nat -> (0 < slen s)%nat -> values_of f s ->
  sample v n s = (s', Ok tt) -> (length l <= n)%nat ->
  incl l (s_configs s') /\ exists best y, incumbent s' = Ok (Some (best, y)) /\ nearly_best mn f l y 0.
Proof.
  intros Ha v Un Sure Vl Vk Obj Hr K Mn C L P Vs E Ln.
  destruct (run_choices w surr a f mn (fun _ => DList l) none fs s s' ip n Obj Hr K C L P Vs E) as (V' & M' & cs & Lc & X' & Ch).
  apply (improvement_core surr valid a f mn l s' (s_acqs s) (s_configs s) cs); try assumption; [|congruence|lia].
  unfold slen in P. destruct (s_configs s); [cbn in P; lia|discriminate].
Qed.

(** ** such a run does not raise *)
Section Runs.
Variables (w : world RNum) (surr : option (list (list RNum) * list (json RNum)) -> predictor) (valid : conf RNum -> Prop) (a : acq RNum) (f : config RNum -> R)
  (mn : bool) (l : list (conf RNum)) (none : res (conf RNum)).
Let v := with_choice w surr a mn (fun _ => DList l) none.
Hypothesis An : answers valid surr f.
Hypothesis Vl : Forall valid l.
Hypothesis NE : l <> [].
Hypothesis Obj : forall k vals, w_obj w k vals = Ok (@JNum RNum (f vals)).
Hypothesis Fit : forall k X ys, w_fit w k X ys = Ok tt.

Definition going (s : sampler RNum) : Prop := hash_ok s /\ values_of f s /\ s_configs s <> [] /\ Forall valid (s_configs s).
Lemma fit_going s : going s -> exists s', fit_surrogate v false s = (s', Ok tt) /\ going s' /\ s_fitted s' = Some (sX s', s_ys s').
Proof.
  intros (H & Vs & Ne & Vk). destruct (fit_surrogate v false s) as [s' r] eqn:E. pose proof (fit_refits v false s H) as F. rewrite E in F. cbn [fst snd] in F.
  destruct F as (_ & _ & _ & _ & _ & _ & _ & _ & F9 & _). change (w_fit v) with (w_fit w) in F9. rewrite Fit in F9. subst r.
  destruct (fit_facts v s s' H E) as (A1 & A2 & _ & _ & A5 & A6). exists s'. refine (conj eq_refl (conj (conj A5 (conj _ (conj _ _))) A6)); [unfold values_of in *; congruence|congruence|rewrite A1; exact Vk].
Qed.
Lemma choose_ok predict means stds aa : predict (map (@c_vec RNum) l) = Ok (means, stds) -> length means = length l -> length stds = length l ->
  exists c, get_optimum predict norm_cdf norm_pdf aa mn (DList l) = Ok (EConf c) /\ In c l.
Proof.
  intros P Lm Ls. assert (C : exists x, acq_call predict norm_cdf norm_pdf aa mn (XList (map IConf l)) = Ok x).
  { unfold acq_call. change (convert_configs (XList (map IConf l))) with (convert_configs (as_input (DList l))). rewrite convert_list, P. cbn [bind fst snd]. unfold elementwise.
    rewrite (proj2 (Nat.eqb_eq _ _) (eq_trans Lm (eq_sym Ls))). eauto. }
  destruct C as (x & C). destruct (acq_call_values predict norm_cdf norm_pdf _ _ _ _ C) as (means' & stds' & P' & _ & Lv & _).
  change (convert_configs (XList (map IConf l))) with (convert_configs (as_input (DList l))) in P'. rewrite convert_list in P'.
  assert (means' = means) as -> by (rewrite P in P'; congruence).
  destruct (optimum_best R_order_laws predict norm_cdf norm_pdf aa mn l x NE C (eq_trans Lv Lm) (R_ordinary _)) as (i & c & y & _ & O & Hl & _).
  exists c. split; [exact O|exact (nth_error_In _ _ Hl)].
Qed.
Lemma step_going s : going s -> s_fitted s = Some (sX s, s_ys s) -> exists s', bo_step v s = (s', Ok tt) /\ going s' /\ s_fitted s' = Some (sX s', s_ys s').
Proof.
  intros (H & Vs & Ne & Vk) F. destruct (incumbent_known f s Vs Ne) as (b & y & I1 & _).
  destruct (An (s_configs s) l Ne Vk Vl) as (means & stds & P & Lm & Ls).
  destruct (choose_ok _ means stds (acq_update a y) P Lm Ls) as (c & G & Ic).
  assert (A : w_acq v (s_acqs s) (Some (sX s, s_ys s)) (Some y) = Ok c).
  { change (w_acq v) with (choose surr a mn (fun _ => DList l) none). unfold choose. rewrite Vs. unfold sX. unfold fitted_on in G. rewrite G. reflexivity. }
  unfold bo_step. unfold bindM at 1. rewrite I1. cbn [option_map snd]. unfold bindM at 1. rewrite F, A.
  unfold bindM at 1. unfold call_obj. cbv zeta. change (w_obj v) with (w_obj w). rewrite Obj. unfold bindM at 1. unfold append, upd.
  apply fit_going. refine (conj H (conj _ (conj _ _))).
  - unfold values_of. cbn. rewrite map_app, Vs. reflexivity.
  - cbn. intro Z. apply (app_cons_not_nil (s_configs s) [] c). symmetry. exact Z.
  - cbn. apply Forall_app. split; [exact Vk|]. constructor; [|constructor]. exact (proj1 (Forall_forall _ _) Vl c Ic).
Qed.
Lemma times_going n : forall s, going s -> s_fitted s = Some (sX s, s_ys s) -> exists s', times n (bo_step v) s = (s', Ok tt) /\ going s'.
Proof.
  induction n as [|n IH]; intros s H F; [exists s; auto|]. destruct (step_going s H F) as (s1 & E1 & H1 & F1). destruct (IH s1 H1 F1) as (s' & E & H').
  exists s'. cbn [times]. unfold bindM. rewrite E1. auto.
Qed.
Theorem runs fs s ip n : sreaches v fs s -> s_kind s = KBO ip -> s_cache s = [] -> (ip <= slen s)%nat -> (0 < slen s)%nat -> values_of f s -> Forall valid (s_configs s) ->
  exists s', sample v n s = (s', Ok tt).
Proof.
  intros Hr K C L P Vs Vk. destruct (bo_reach v R_order_laws fs s ip Hr K) as [(_ & H & _) _].
  assert (Gs : going s). { refine (conj H (conj Vs (conj _ Vk))). intro Z. unfold slen in P. rewrite Z in P. cbn in P. lia. }
  unfold sample. rewrite K. unfold bindM at 1. unfold sample_base. rewrite C, K. set (s0 := if (_ <? _)%nat then _ else _).
  assert (S0 : going s0 /\ s_cache s0 = [] /\ slen s0 = slen s). { unfold s0. destruct (_ <? _)%nat; auto. }
  destruct S0 as (G0 & C0 & L0). destruct n as [|n].
  - cbn. unfold ret. destruct (fit_going s0 G0) as (s' & E & _). eauto.
  - unfold bindM at 1. cbn [replay]. rewrite C0. cbn [Nat.ltb Nat.leb]. rewrite Nat.sub_0_r. unfold sample_new, bo_sample. unfold bindM at 1, get at 1. rewrite L0.
    assert (Lt : (slen s <? ip)%nat = false) by (apply Nat.ltb_ge; exact L). rewrite Lt. unfold bindM at 1, ret at 1. unfold bindM at 1.
    destruct (fit_going s0 G0) as (s1 & E1 & G1 & F1). rewrite E1. rewrite Nat.sub_0_r. destruct (times_going (S n) s1 G1 F1) as (s2 & E2 & G2). rewrite E2.
    destruct (fit_going s2 G2) as (s3 & E3 & _). eauto.
Qed.

(** ** the call that draws the initial points *)
Hypothesis Bare : w_bare w = true.
Hypothesis Draw : forall d k i, valid (w_batch w d k i).

Lemma collect_bare cs : forall s, exists s', collect (map DBare cs) (call_drawn v) s = (s', Ok (map (J f) cs)) /\ s_configs s' = s_configs s /\ s_ys s' = s_ys s /\
  s_acqs s' = s_acqs s /\ s_min s' = s_min s /\ (hash_ok s -> hash_ok s').
Proof.
  induction cs as [|c cs IH]; intro s; [exists s; cbn; auto 10|]. cbn [map collect]. unfold bindM at 1. cbn [call_drawn]. unfold call_obj. cbv zeta. change (w_obj v) with (w_obj w). rewrite Obj.
  unfold bindM at 1. set (s1 := log _ _). destruct (IH s1) as (s' & E & A1 & A2 & A3 & A4 & A5). rewrite E. exists s'. repeat split; assumption.
Qed.
Lemma force_going s : going s -> exists s', fit_surrogate v true s = (s', Ok tt) /\ going s' /\ s_configs s' = s_configs s /\ s_acqs s' = s_acqs s /\ s_min s' = s_min s.
Proof.
  intros (H & Vs & Ne & Vk). destruct (fit_surrogate v true s) as [s' r] eqn:E. pose proof (fit_refits v true s H) as F. rewrite E in F. cbn [fst snd] in F.
  destruct F as (_ & _ & F3 & F4 & F5 & _ & _ & F8 & F9 & _). change (w_fit v) with (w_fit w) in F9. rewrite Fit in F9. subst r.
  assert (Ac : s_acqs s' = s_acqs s). { unfold fit_surrogate in E. cbn [orb] in E. unfold bindM, surrogate_fit in E. change (w_fit v) with (w_fit w) in E. rewrite Fit in E. injection E as <-. reflexivity. }
  exists s'. repeat split; try assumption; [unfold values_of in *; congruence|congruence|rewrite F4; exact Vk].
Qed.
Lemma initial_going ip n s : hash_ok s -> values_of f s -> Forall valid (s_configs s) -> (0 < ip)%nat -> (ip <= n)%nat ->
  exists s' init, sample_initial v ip n s = (s', Ok tt) /\ going s' /\ length init = ip /\ s_configs s' = s_configs s ++ init /\ s_acqs s' = s_acqs s /\ s_min s' = s_min s.
Proof.
  intros H Vs Vk Pi Le. unfold sample_initial. cbv zeta. rewrite Nat.min_l by exact Le. unfold bindM at 1, sample_configuration. cbv zeta.
  change (w_batch v) with (w_batch w). change (w_bare v) with (w_bare w). rewrite Bare. set (init := map (w_batch w (s_draws s) ip) (seq 0 ip)). set (s0 := log _ _).
  assert (Li : length init = ip) by (unfold init; rewrite map_length, seq_length; reflexivity).
  assert (Vi : Forall valid init). { apply Forall_forall. intros c Hc. unfold init in Hc. apply in_map_iff in Hc. destruct Hc as (i & <- & _). apply Draw. }
  set (items := if (ip =? 1)%nat then _ else _). assert (It : items = map DBare init).
  { unfold items. clearbody init. destruct init as [|c [|c' r]]; [cbn in Li; lia| |]; cbn in Li; subst ip; reflexivity. }
  rewrite It. unfold bindM at 1. destruct (collect_bare init s0) as (s1 & E1 & A1 & A2 & A3 & A4 & A5). rewrite E1. unfold bindM at 1, upd at 1.
  assert (Ba : bare_all (map DBare init) = init) by (generalize init; intro l0; induction l0 as [|c r IH]; cbn; [reflexivity|f_equal; exact IH]). rewrite Ba. set (s2 := set_points _ _ s1).
  assert (C2 : s_configs s2 = s_configs s ++ init) by (unfold s2; cbn; rewrite A1; reflexivity).
  destruct (force_going s2) as (s' & E & G & B1 & B2 & B3).
  { refine (conj (A5 H) (conj _ (conj _ _))).
    - unfold values_of. rewrite C2, map_app. unfold s2. cbn. rewrite A2. cbn. rewrite Vs. reflexivity.
    - rewrite C2. intro Z. apply app_eq_nil in Z. destruct Z as [_ Z]. rewrite Z in Li. cbn in Li. lia.
    - rewrite C2. apply Forall_app. auto. }
  exists s', init. refine (conj E (conj G (conj Li (conj _ (conj _ _))))); [congruence| |].
  - rewrite B2. exact A3.
  - rewrite B3. exact A4.
Qed.
Theorem first_call fs s ip n : sreaches v fs s -> s_kind s = KBO ip -> s_cache s = [] -> (slen s < ip)%nat -> (ip <= n)%nat -> values_of f s -> Forall valid (s_configs s) ->
  exists s', sample v n s = (s', Ok tt) /\ values_of f s' /\ s_min s' = s_min s /\ exists init cs, length init = ip /\ length cs = (n - ip)%nat /\
    s_configs s' = (s_configs s ++ init) ++ cs /\ Forall valid (s_configs s ++ init) /\ chosen surr a f mn (fun _ => DList l) (s_acqs s) (s_configs s ++ init) cs.
Proof.
  intros Hr K C L Le Vs Vk. destruct (bo_reach v R_order_laws fs s ip Hr K) as [(_ & H & _) _].
  unfold sample. rewrite K. unfold bindM at 1. unfold sample_base. rewrite C, K. set (s0 := if (_ <? _)%nat then _ else _).
  assert (S0 : hash_ok s0 /\ s_cache s0 = [] /\ slen s0 = slen s /\ s_configs s0 = s_configs s /\ s_ys s0 = s_ys s /\ s_acqs s0 = s_acqs s /\ s_min s0 = s_min s). { unfold s0. destruct (_ <? _)%nat; auto 10. }
  destruct S0 as (H0 & C0 & L0 & X0 & Y0 & A0 & M0). destruct n as [|n]; [lia|].
  unfold bindM at 1. cbn [replay]. rewrite C0. cbn [Nat.ltb Nat.leb]. rewrite Nat.sub_0_r. unfold sample_new, bo_sample. unfold bindM at 1, get at 1. rewrite L0.
  rewrite (proj2 (Nat.ltb_lt _ _) L). unfold bindM at 1. unfold bindM at 1.
  destruct (initial_going ip (S n) s0 H0) as (s1 & init & E1 & G1 & Li & X1 & A1 & M1); [unfold values_of in *; congruence|rewrite X0; exact Vk|lia|exact Le|].
  rewrite E1. unfold get at 1. assert (Al : (slen s1 - slen s)%nat = ip) by (unfold slen; rewrite X1, X0, app_length; lia). rewrite Al. unfold bindM at 1.
  destruct (fit_going s1 G1) as (s2 & E2 & G2 & F2). rewrite E2. destruct (times_going (S n - ip) s2 G2 F2) as (s3 & E3 & G3). rewrite E3.
  destruct (fit_going s3 G3) as (s4 & E4 & G4 & _). rewrite E4. exists s4.
  destruct (fit_facts v s1 s2 (proj1 G1) E2) as (Q1 & Q2 & Q3 & Q4 & Q5 & _). destruct (fit_facts v s3 s4 (proj1 G3) E4) as (U1 & U2 & U3 & U4 & _).
  destruct (times_choices w surr a f mn (fun _ => DList l) none s2 s3 (S n - ip) Obj Q5 F2 (proj1 (proj2 (proj2 G2))) (proj1 (proj2 G2)) E3) as (_ & T2 & cs & T3 & T4 & T5).
  refine (conj eq_refl (conj (proj1 (proj2 G4)) (conj _ _))); [congruence|]. exists init, cs.
  assert (X2 : s_configs s2 = s_configs s ++ init) by congruence. assert (A2 : s_acqs s2 = s_acqs s) by congruence. rewrite X2, A2 in T5.
  refine (conj Li (conj T3 (conj _ (conj _ T5)))); [congruence|]. rewrite <- X2. exact (proj2 (proj2 (proj2 G2))).
Qed.
End Runs.

(** the first call finds the best *)
Theorem first_lcb (w : world RNum) surr valid (tau : R) f mn l none fs s ip n :
  let v := with_choice w surr (ALCB (N:=RNum) tau) mn (fun _ => DList l) none in
  calibrated valid tau f surr -> sure_of_known valid surr f -> answers valid surr f -> Forall valid l -> l <> [] -> Forall valid (s_configs s) ->
  (forall k vals, w_obj w k vals = Ok (@JNum RNum (f vals))) -> (forall k X ys, w_fit w k X ys = Ok tt) -> w_bare w = true -> (forall d k i, valid (w_batch w d k i)) ->
  sreaches v fs s -> s_kind s = KBO ip -> s_min s = mn -> s_cache s = [] -> (slen s < ip)%nat -> values_of f s -> (ip + length l <= n)%nat ->
  exists s', sample v n s = (s', Ok tt) /\ slen s' = (slen s + n)%nat /\ exists best y, incumbent s' = Ok (Some (best, y)) /\ nearly_best mn f l y 0.
Proof.
  intros v Cal Sure An Vl NE Vk Obj Fit Bare Draw Hr K Mn C L Vs Ln.
  destruct (first_call w surr valid (ALCB (N:=RNum) tau) f mn l none An Vl NE Obj Fit Bare Draw fs s ip n Hr K C L ltac:(lia) Vs Vk) as (s' & E & V' & M' & init & cs & Li & Lc & X' & Vo & Ch).
  exists s'. split; [exact E|]. split; [unfold slen; rewrite X', !app_length; lia|].
  apply (lcb_core surr valid tau f mn l s' (s_acqs s) (s_configs s ++ init) cs); try assumption; [|congruence|lia].
  intro Z. apply app_eq_nil in Z. destruct Z as [_ Z]. rewrite Z in Li. cbn in Li. lia.
Qed.
Theorem first_improvement (w : world RNum) surr valid a f mn l none fs s ip n : (forall tau, a <> ALCB (N:=RNum) tau) ->
  let v := with_choice w surr a mn (fun _ => DList l) none in
  unsure_of_others valid surr f -> sure_of_known valid surr f -> answers valid surr f -> Forall valid l -> l <> [] -> Forall valid (s_configs s) ->
  (forall k vals, w_obj w k vals = Ok (@JNum RNum (f vals))) -> (forall k X ys, w_fit w k X ys = Ok tt) -> w_bare w = true -> (forall d k i, valid (w_batch w d k i)) ->
  sreaches v fs s -> s_kind s = KBO ip -> s_min s = mn -> s_cache s = [] -> (slen s < ip)%nat -> values_of f s -> (ip + length l <= n)%nat ->
  exists s', sample v n s = (s', Ok tt) /\ slen s' = (slen s + n)%nat /\ incl l (s_configs s') /\ exists best y, incumbent s' = Ok (Some (best, y)) /\ nearly_best mn f l y 0.
Proof.
  intros Ha v Un Sure An Vl NE Vk Obj Fit Bare Draw Hr K Mn C L Vs Ln.
  destruct (first_call w surr valid a f mn l none An Vl NE Obj Fit Bare Draw fs s ip n Hr K C L ltac:(lia) Vs Vk) as (s' & E & V' & M' & init & cs & Li & Lc & X' & Vo & Ch).
  exists s'. split; [exact E|]. split; [unfold slen; rewrite X', !app_length; lia|].
  apply (improvement_core surr valid a f mn l s' (s_acqs s) (s_configs s ++ init) cs); try assumption; [|congruence|lia].
  intro Z. apply app_eq_nil in Z. destruct Z as [_ Z]. rewrite Z in Li. cbn in Li. lia.
Qed.

