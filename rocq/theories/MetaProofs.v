(** MetaProofs.v - the meta objective and the points of plot_tree_data (C120). *)
From Coq Require Import Reals Lra Lia Permutation Sorted.
From Verif Require Import Base Num NumLaws NumpyModel ConfigSpaceModel UtilsModel IceModel PartitionModel PartitionSpec ListLemmas IceProofs IceProofs2 UtilsProofs
  RealProofs RealSums PartitionProofs PartitionProofs2 PartitionProofs3 PartitionProofs4 PartitionProofs5 PartitionProofs6 PartitionReal ForestSpec ConfidenceProofs ExperimentProofs MetaModel MetaSpec.
Local Open Scope R_scope.
Local Open Scope list_scope.

Lemma nonneg_mean l : Forall (fun x => 0 <= x) l -> 0 <= Rmean l.
Proof.
  intro F. destruct l as [|x l]; [unfold Rmean; cbn; lra|]. unfold Rmean. apply Rmult_le_pos; [|left; apply Rinv_0_lt_compat, lt_0_INR; cbn; lia].
  induction F as [|y t H F IH]; cbn [Rsum]; [lra|]. lra.
Qed.
Lemma confidence_nonneg (r : region RNum) : 0 <= mean_confidence r.
Proof. rewrite mean_confidence_R. apply nonneg_mean. apply Forall_forall. intros x Hx. apply in_map_iff in Hx. destruct Hx as (v & <- & _). apply sqrt_pos. Qed.
Lemma all_some {N : Num} (l : list N) : all_numbers (map Some l) = Some l.
Proof. induction l as [|x l IH]; [reflexivity|]. cbn. rewrite IH. reflexivity. Qed.
Lemma all_none {N : Num} (l : list (option N)) : In None l -> all_numbers l = None.
Proof. induction l as [|x l IH]; intros []; [subst; reflexivity|]. cbn. rewrite (IH H). destruct x; reflexivity. Qed.
Lemma some_or_none {N : Num} (l : list (option N)) : In None l \/ exists vs, l = map Some vs.
Proof.
  induction l as [|[x|] l [H|(vs & ->)]]; [right; exists []; reflexivity|left; right; exact H|right; exists (x :: vs); reflexivity|left; left; reflexivity|left; left; reflexivity].
Qed.
Lemma gain_value (m b : R) : log_gain (N:=RNum) (Some m) (Some b) = if Req_EM_T b 0 then None else Some ((b - m) / Rabs b).
Proof.
  unfold log_gain. cbn [neqb RNum]. unfold Reqb. change (n0 (N:=RNum)) with (IZR 0). destruct (Req_EM_T b 0); [reflexivity|]. f_equal. exact (log_delta_R m b).
Qed.

Lemma repeat_some {A} (x : A) n : repeat (Some x) n = map Some (repeat x n).
Proof. induction n as [|n IH]; [reflexivity|]. cbn. rewrite IH. reflexivity. Qed.

Lemma mean_numbers {N : Num} (vs : list N) : vs <> [] -> np_mean (map Some vs) = Some (nmean vs).
Proof. intro H. destruct vs as [|v vs]; [contradiction|]. unfold np_mean. pose proof (all_some (v :: vs)) as E. cbn [map] in E |- *. rewrite E. reflexivity. Qed.
Lemma std_numbers {N : Num} (vs : list N) : vs <> [] ->
  np_std (map Some vs) = Some (nsqrt (nmean (map (fun x => nmul (nsub x (nmean vs)) (nsub x (nmean vs))) vs))).
Proof. intro H. destruct vs as [|v vs]; [contradiction|]. unfold np_std. pose proof (all_some (v :: vs)) as E. cbn [map] in E |- *. rewrite E. reflexivity. Qed.
Lemma mean_nan {N : Num} (l : list (option N)) : In None l -> np_mean l = None /\ np_std l = None.
Proof. intro H. destruct l as [|v l]; [contradiction|]. unfold np_mean, np_std. rewrite (all_none _ H). split; reflexivity. Qed.

Section Objective.
Variables (s : setup RNum) (inc : config RNum).
Hypothesis SO : setup_ok s.
Hypothesis MP : (1 <= su_minpts s)%nat.
Hypothesis NE : su_samples s <> [].
Hypothesis AN : all_numerical (su_cs s).
Hypothesis TC : total_config (su_cs s) inc.
Hypothesis NN : su_nots s = None.
Let objective splits reps := meta_objective (su_cs s) (su_predict s) (su_sel s) (su_samples s) (su_gpa s) (su_splits s) (su_minpts s) inc splits reps.

Lemma Rsum_member {A} (f : A -> R) l x : (forall y, In y l -> 0 <= f y) -> In x l -> f x <= Rsum (map f l).
Proof.
  assert (P : forall l', (forall y, In y l' -> 0 <= f y) -> 0 <= Rsum (map f l')).
  { induction l' as [|y l' IH]; intro H; cbn [map Rsum]; [lra|]. pose proof (H y (or_introl eq_refl)). pose proof (IH (fun z Hz => H z (or_intror Hz))). lra. }
  induction l as [|y l IH]; [intros _ []|]. intros H [->|Hx]; cbn [map Rsum].
  - pose proof (P l (fun z Hz => H z (or_intror Hz))). lra.
  - pose proof (H y (or_introl eq_refl)). pose proof (IH (fun z Hz => H z (or_intror Hz)) Hx). lra.
Qed.

Theorem objective_value p0 splits reps : construct s = Ok p0 -> (0 < splits)%nat -> (0 < reps)%nat ->
  exists root p' ids id nd, deref p0 0 = Some root /\ partition p0 splits = (p', Ok ids) /\ In id ids /\ deref p' id = Some nd /\ lies_in (su_cs s) inc nd /\
    let b := mean_confidence (n_region root) in let m := mean_confidence (n_region nd) in
    (b = 0 -> objective splits reps = Ok None) /\
    (b <> 0 -> objective splits reps = Ok (Some (m / b - 1)) /\ -1 <= m / b - 1 <= INR (length (su_samples s)) / INR (region_len (n_region nd)) - 1) /\
    (0 < region_len (n_region nd))%nat /\ (n_depth nd = 0%nat \/ (su_minpts s <= region_len (n_region nd))%nat).
Proof.
  intros Hc Hd Hr. assert (RE : reaches s p0) by (exists p0, []; split; [exact Hc|reflexivity]).
  destruct (config_in_exactly_one_leaf R_order_laws s p0 splits inc SO AN (R_unscaled_ordinary s) TC RE Hd) as (p' & ids & lv & k & E & F & Hk & U & G).
  destruct (confidence_weighted s p0 splits SO MP NE RE Hd) as (p1 & ids1 & lv1 & root & E1 & F1 & D0 & PS & RL & SUM & _).
  rewrite E in E1. injection E1 as <- <-. pose proof (same_leaves _ _ _ _ F F1) as <-.
  destruct (nth_error lv k) as [nd|] eqn:En; [|apply nth_error_None in En; lia].
  destruct (nth_error ids k) as [id|] eqn:Ei; [|apply nth_error_None in Ei; pose proof (Forall2_length _ _ _ F); lia].
  pose proof (Forall2_nth_pair _ _ _ _ _ _ F Ei En) as D. cbv beta in D.
  assert (RE1 : reaches s p') by (pose proof (reaches_partition s p0 splits RE) as Q; rewrite E in Q; exact Q).
  destruct (reaches_facts R_order_laws s p0 SO RE) as (rt & dd & sel & ns & RF). pose proof (rf_deref _ _ _ _ _ _ RF) as D0'.
  assert (D00 : deref p0 0 = Some root).
  { destruct (reaches_facts R_order_laws s p' SO RE1) as (rt' & dd' & sel' & ns' & RF'). pose proof (rf_deref _ _ _ _ _ _ RF') as Q. rewrite D0 in Q. injection Q as <-.
    rewrite D0'. f_equal. rewrite (rf_root _ _ _ _ _ _ RF), (rf_root _ _ _ _ _ _ RF'). pose proof (rf_sel _ _ _ _ _ _ RF) as S1. pose proof (rf_sel _ _ _ _ _ _ RF') as S2.
    assert (ES : sel = sel') by (rewrite S1 in S2; injection S2 as ->; reflexivity). subst sel'.
    pose proof (rf_ice _ _ _ _ _ _ RF) as Q1. pose proof (rf_ice _ _ _ _ _ _ RF') as Q2. assert (EI : dd = dd') by (rewrite Q1 in Q2; injection Q2 as ->; reflexivity). subst dd'. reflexivity. }
  exists root, p', ids, id, nd. refine (conj D00 (conj E (conj (nth_error_In _ _ Ei) (conj D (conj (proj2 (proj2 (U k nd En)) eq_refl) _))))).
  assert (LN : (0 < region_len (n_region nd))%nat) by exact (proj1 (Forall_forall _ _) PS nd (nth_error_In _ _ En)).
  intros b m.
  assert (V : objective splits reps = Ok (option_map (fun m => nsub n0 m) (np_mean (repeat (log_gain (N:=RNum) (Some m) (Some b)) reps)))).
  { unfold objective, meta_objective. assert (ED : meta_delta (su_cs s) (su_predict s) (su_sel s) (su_samples s) (su_gpa s) (su_splits s) (su_minpts s) inc splits = Ok (log_gain (N:=RNum) (Some m) (Some b))).
    { unfold meta_delta. unfold construct in Hc. rewrite NN in Hc. rewrite Hc. cbn [bind]. rewrite D00. cbn [bind]. rewrite E. cbn [bind]. rewrite G. cbn [bind]. rewrite D. reflexivity. }
    rewrite ED. assert (EM : forall a, mapM (fun _ : nat => Ok (log_gain (N:=RNum) (Some m) (Some b))) (seq a reps) = Ok (repeat (log_gain (N:=RNum) (Some m) (Some b)) reps)).
    { clear. induction reps as [|n IH]; intro a; [reflexivity|]. cbn [seq mapM bind repeat]. rewrite IH. reflexivity. }
    rewrite EM. reflexivity. }
  split; [|split; [|split; [exact LN|exact (min_points_respected R_order_laws s p' SO RE1 id nd D)]]].
  - intro Hb. rewrite V, gain_value. destruct (Req_EM_T b 0) as [_|]; [|contradiction]. destruct reps; [lia|]. reflexivity.
  - intro Hb. pose proof (confidence_nonneg (n_region root)) as B0. fold b in B0. pose proof (confidence_nonneg (n_region nd)) as M0. fold m in M0. assert (B1 : 0 < b) by (unfold Rdiv; lra).
    rewrite V, gain_value. destruct (Req_EM_T b 0) as [|_]; [contradiction|]. split.
    + rewrite Rabs_pos_eq by lra. pose proof (repeat_some ((b - m) / b) reps) as ER.
      assert (EN : np_mean (N:=RNum) (repeat (Some ((b - m) / b)) reps) = Some ((b - m) / b)).
      { rewrite ER. refine (eq_trans (mean_numbers (N:=RNum) (repeat ((b - m) / b) reps) _) _); [destruct reps; [lia|discriminate]|].
        f_equal. rewrite nmean_R. apply Rmean_const; [destruct reps; [lia|discriminate]|]. apply Forall_forall. intros x Hx. exact (repeat_spec _ _ _ Hx). }
      refine (eq_trans (f_equal (fun q => Ok (option_map (fun m : RNum => nsub n0 m) q)) EN) _). cbn [option_map]. do 2 f_equal. change (@eq R (0 - (b - m) / b) (m / b - 1)). field. exact Hb.
    + assert (Q : INR (region_len (n_region nd)) * m <= INR (length (su_samples s)) * b).
      { rewrite <- RL. unfold b. rewrite <- SUM. apply (Rsum_member (fun nd : dnode RNum => INR (region_len (n_region nd)) * mean_confidence (n_region nd))); [|exact (nth_error_In _ _ En)].
        intros y _. apply Rmult_le_pos; [apply pos_INR|apply confidence_nonneg]. }
      assert (L0 : 0 < INR (region_len (n_region nd))) by (apply lt_0_INR; exact LN).
      split; [pose proof (Rmult_le_pos m (/ b) M0 (or_introl (Rinv_0_lt_compat b B1))) as Z; unfold Rdiv; lra|].
      apply Rplus_le_compat_r. apply (Rmult_le_reg_l (INR (region_len (n_region nd)) * b)); [apply Rmult_lt_0_compat; assumption|].
      replace (INR (region_len (n_region nd)) * b * (m / b)) with (INR (region_len (n_region nd)) * m) by (field; lra).
      replace (INR (region_len (n_region nd)) * b * (INR (length (su_samples s)) / INR (region_len (n_region nd)))) with (INR (length (su_samples s)) * b) by (field; lra). exact Q.
Qed.
End Objective.

(** the points of plot_tree_data *)
Lemma group_records key (l : list record) : group (N:=RNum) key l = records_of key l.
Proof.
  apply filter_ext. intros [[k b] m]. cbn [fst]. destruct (key_dec k key) as [E|H]; destruct k as [a|], key as [c|]; try reflexivity; try congruence.
  - injection E as ->. apply Z.eqb_refl.
  - destruct (Z.eqb_spec a c); [subst; congruence|reflexivity].
Qed.
Lemma gain_line (r : record) :
  (usable r /\ log_gain (N:=RNum) (snd r) (snd (fst r)) = Some (reduction r / 100)) \/ (~ usable r /\ log_gain (N:=RNum) (snd r) (snd (fst r)) = None).
Proof.
  destruct r as [[k [b|]] [m|]]; cbn [fst snd].
  - rewrite gain_value. destruct (Req_EM_T b 0) as [->|H].
    + right. split; [|reflexivity]. intros (x & y & E & _ & Z). cbn [fst snd] in E. injection E as <-. apply Z. reflexivity.
    + left. split; [exists b, m; auto|]. f_equal. unfold reduction. field. apply Rabs_no_R0. exact H.
  - right. split; [|reflexivity]. intros (x & y & _ & E & _). discriminate E.
  - right. split; [|reflexivity]. intros (x & y & E & _). discriminate E.
  - right. split; [|reflexivity]. intros (x & y & E & _). discriminate E.
Qed.
Lemma gains_lines (g : list record) :
  (Forall usable g /\ map (fun l : record => log_gain (N:=RNum) (snd l) (snd (fst l))) g = map Some (map (fun r => reduction r / 100) g)) \/
  (Exists (fun r => ~ usable r) g /\ In None (map (fun l : record => log_gain (N:=RNum) (snd l) (snd (fst l))) g)).
Proof.
  induction g as [|r g IH]; [left; split; [constructor|reflexivity]|]. cbn [map].
  destruct (gain_line r) as [[U E]|[U E]].
  - destruct IH as [[F H]|[X H]]; [left|right].
    + split; [constructor; assumption|]. f_equal; assumption.
    + split; [apply Exists_cons_tl, X|right; exact H].
  - right. split; [apply Exists_cons_hd, U|left; exact E].
Qed.
Lemma Rmean_scaled c l : Rmean (map (fun x => c * x) l) = c * Rmean l.
Proof.
  unfold Rmean. rewrite map_length. assert (E : Rsum (map (fun x => c * x) l) = c * Rsum l) by (induction l as [|x l IH]; cbn [map Rsum]; [lra|rewrite IH; lra]).
  rewrite E. unfold Rdiv. ring.
Qed.
Lemma point_of_group (g : list record) : g <> [] -> is_point g (point (N:=RNum) g).
Proof.
  intro NE. unfold is_point, point. destruct (gains_lines g) as [[F E]|[X H]]; [left|right]; (split; [assumption|]).
  - assert (NE' : map (fun r => reduction r / 100) g <> []) by (destruct g; [contradiction|discriminate]).
    assert (E1 : map (fun r => reduction r / 100) g = map (fun x => / 100 * x) (map reduction g)) by (rewrite map_map; apply map_ext; intro; unfold Rdiv; ring).
    assert (MEAN : nmean (N:=RNum) (map (fun r => reduction r / 100) g) = / 100 * Rmean (map reduction g)) by (rewrite nmean_R, E1; apply Rmean_scaled).
    f_equal.
    + refine (eq_trans (f_equal _ (eq_trans (f_equal _ E) (mean_numbers (N:=RNum) _ NE'))) _). cbn [option_map]. f_equal.
      refine (eq_trans (f_equal (fun x => x * 100) MEAN) _). field.
    + refine (eq_trans (f_equal _ (eq_trans (f_equal _ E) (std_numbers (N:=RNum) _ NE'))) _). cbn [option_map]. f_equal.
      unfold deviation. change (sqrt (nmean (N:=RNum) (map (fun x => (x - nmean (N:=RNum) (map (fun r => reduction r / 100) g)) * (x - nmean (N:=RNum) (map (fun r => reduction r / 100) g))) (map (fun r => reduction r / 100) g))) * 100
        = sqrt (Rmean (map (fun x => (x - Rmean (map reduction g)) ^ 2) (map reduction g)))).
      rewrite nmean_R, MEAN, E1, map_map.
      assert (E2 : map (fun x => (/ 100 * x - / 100 * Rmean (map reduction g)) * (/ 100 * x - / 100 * Rmean (map reduction g))) (map reduction g)
        = map (fun x => (/ 100 * / 100) * x) (map (fun x => (x - Rmean (map reduction g)) ^ 2) (map reduction g))) by (rewrite (map_map (fun x => (x - Rmean (map reduction g)) ^ 2)); apply map_ext; intro; ring).
      rewrite E2, Rmean_scaled, sqrt_mult_alt, sqrt_square by lra. field.
  - destruct (mean_nan _ H) as [A B]. f_equal; [exact (f_equal _ A)|exact (f_equal _ B)].
Qed.

Lemma in_insert k j l : In j (insert_key k l) <-> j = k \/ In j l.
Proof.
  induction l as [|x l IH]; cbn [insert_key]; [cbn; intuition congruence|].
  destruct (Z.ltb_spec k x); [cbn; intuition congruence|]. destruct (Z.eqb_spec k x); [subst; cbn; intuition congruence|]. cbn [In]. rewrite IH. intuition congruence.
Qed.
Lemma insert_sorted k l : StronglySorted Z.lt l -> StronglySorted Z.lt (insert_key k l).
Proof.
  induction 1 as [|x l S IH F]; cbn [insert_key]; [repeat constructor|].
  destruct (Z.ltb_spec k x).
  - constructor; [constructor; assumption|]. constructor; [assumption|]. eapply Forall_impl; [|exact F]. cbv beta. lia.
  - destruct (Z.eqb_spec k x); [constructor; assumption|]. constructor; [assumption|]. apply Forall_forall. intros j Hj. apply in_insert in Hj.
    destruct Hj as [->|Hj]; [lia|]. exact (proj1 (Forall_forall _ _) F j Hj).
Qed.
Lemma numbers_sorted (l : list record) : StronglySorted Z.lt (tree_numbers (N:=RNum) l).
Proof. induction l as [|[[[k|] b] m] l IH]; cbn [tree_numbers fold_right fst]; [constructor|apply insert_sorted; exact IH|exact IH]. Qed.
Lemma numbers_in (l : list record) k : In k (tree_numbers (N:=RNum) l) <-> exists b m, In (Some k, b, m) l.
Proof.
  induction l as [|[[[j|] b] m] l IH]; cbn [tree_numbers fold_right fst]; [split; [intros []|intros (? & ? & [])]| |].
  - rewrite in_insert. fold (tree_numbers (N:=RNum) l). rewrite IH. split.
    + intros [->|(b' & m' & H)]; [exists b, m; left; reflexivity|exists b', m'; right; exact H].
    + intros (b' & m' & [H|H]); [injection H as -> _ _; left; reflexivity|right; exists b', m'; exact H].
  - fold (tree_numbers (N:=RNum) l). rewrite IH. split; intros (b' & m' & H); exists b', m'; [right; exact H|destruct H as [H|H]; [discriminate H|exact H]].
Qed.
Lemma sorted_ext l l' : StronglySorted Z.lt l -> StronglySorted Z.lt l' -> (forall k, In k l <-> In k l') -> l = l'.
Proof.
  intro S. revert l'. induction S as [|x l S IH F]; intros l' S' H.
  - destruct l' as [|y l']; [reflexivity|]. destruct (proj2 (H y) (or_introl eq_refl)).
  - destruct S' as [|y l' S' F']; [destruct (proj1 (H x) (or_introl eq_refl))|].
    assert (x = y).
    { destruct (proj1 (H x) (or_introl eq_refl)) as [->|Hx]; [reflexivity|]. destruct (proj2 (H y) (or_introl eq_refl)) as [->|Hy]; [reflexivity|].
      pose proof (proj1 (Forall_forall _ _) F' x Hx). pose proof (proj1 (Forall_forall _ _) F y Hy). lia. }
    subst y. f_equal. apply IH; [assumption|]. intro k. split; intro Hk.
    + destruct (proj1 (H k) (or_intror Hk)) as [<-|Q]; [|exact Q]. pose proof (proj1 (Forall_forall _ _) F x Hk). lia.
    + destruct (proj2 (H k) (or_intror Hk)) as [<-|Q]; [|exact Q]. pose proof (proj1 (Forall_forall _ _) F' x Hk). lia.
Qed.
Lemma numbers_group (l : list record) k : In k (tree_numbers (N:=RNum) l) -> records_of (Some k) l <> [].
Proof.
  intros H E. apply numbers_in in H. destruct H as (b & m & H). assert (Q : In (Some k, b, m) (records_of (Some k) l)).
  { apply filter_In. split; [exact H|]. cbn [fst]. destruct (key_dec (Some k) (Some k)); [reflexivity|contradiction]. }
  rewrite E in Q. exact Q.
Qed.

Theorem tree_points (l : list record) :
  (records_of None l = [] -> tree_data (N:=RNum) l = Err KeyError) /\
  (records_of None l <> [] -> exists star curve, tree_data (N:=RNum) l = Ok (star, curve) /\
     is_point (records_of None l) star /\
     StronglySorted Z.lt (map fst curve) /\ (forall k, In k (map fst curve) <-> exists b m, In (Some k, b, m) l) /\
     (forall k pt, In (k, pt) curve -> is_point (records_of (Some k) l) pt)).
Proof.
  unfold tree_data. rewrite group_records. split; intro H.
  - change (carrier RNum) with R. rewrite H. reflexivity.
  - destruct (records_of None l) as [|r g] eqn:E; [contradiction|]. eexists _, _. split; [reflexivity|].
    split; [apply (point_of_group (r :: g)); discriminate|]. split; [|split].
    + rewrite map_map. cbn [fst]. rewrite map_id. apply numbers_sorted.
    + intro k. rewrite map_map. cbn [fst]. rewrite map_id. apply numbers_in.
    + intros k pt Hk. apply in_map_iff in Hk. destruct Hk as (j & Ej & Hj). injection Ej as -> <-. rewrite group_records. apply point_of_group, numbers_group, Hj.
Qed.

Lemma filter_perm {A} (f : A -> bool) l l' : Permutation l l' -> Permutation (filter f l) (filter f l').
Proof. induction 1; cbn; repeat match goal with |- context [if ?c then _ else _] => destruct c end; eauto using Permutation. Qed.
Lemma point_perm (g g' : list record) : Permutation g g' -> g <> [] -> point (N:=RNum) g = point (N:=RNum) g'.
Proof.
  intros P NE. assert (NE' : g' <> []) by (intros ->; apply Permutation_sym, Permutation_nil in P; contradiction).
  destruct (point_of_group g NE) as [[F E]|[X E]], (point_of_group g' NE') as [[F' E']|[X' E']].
  - refine (eq_trans E (eq_trans _ (eq_sym E'))). pose proof (Permutation_map reduction P) as Q. unfold deviation. rewrite (Rmean_perm _ _ Q). do 3 f_equal. apply Rmean_perm, Permutation_map, Q.
  - exfalso. apply Exists_exists in X'. destruct X' as (r & Hr & U). apply U. apply (proj1 (Forall_forall _ _) F). eapply Permutation_in; [apply Permutation_sym, P|exact Hr].
  - exfalso. apply Exists_exists in X. destruct X as (r & Hr & U). apply U. apply (proj1 (Forall_forall _ _) F'). eapply Permutation_in; [exact P|exact Hr].
  - exact (eq_trans E (eq_sym E')).
Qed.
Theorem tree_order (l l' : list record) : Permutation l l' -> tree_data (N:=RNum) l = tree_data (N:=RNum) l'.
Proof.
  intro P. unfold tree_data. rewrite !group_records.
  assert (PN : forall k, Permutation (records_of k l) (records_of k l')) by (intro; apply filter_perm, P).
  assert (EK : tree_numbers (N:=RNum) l = tree_numbers (N:=RNum) l').
  { apply sorted_ext; [apply numbers_sorted..|]. intro k. rewrite !numbers_in. split; intros (b & m & H); exists b, m; [eapply Permutation_in; [exact P|exact H]|eapply Permutation_in; [apply Permutation_sym, P|exact H]]. }
  assert (EC : map (fun k => (k, point (N:=RNum) (group (N:=RNum) (Some k) l))) (tree_numbers (N:=RNum) l) = map (fun k => (k, point (N:=RNum) (group (N:=RNum) (Some k) l'))) (tree_numbers (N:=RNum) l')).
  { rewrite <- EK. apply map_ext_in. intros k Hk. f_equal. rewrite !group_records. apply point_perm; [apply PN|apply numbers_group, Hk]. }
  pose proof (PN None) as P0. destruct (records_of None l) as [|r g] eqn:E, (records_of None l') as [|r' g'] eqn:E'.
  - reflexivity.
  - apply Permutation_nil in P0. discriminate.
  - apply Permutation_sym, Permutation_nil in P0. discriminate.
  - rewrite <- EC. do 2 f_equal. apply point_perm; [exact P0|discriminate].
Qed.

(** a point is at most 100 when no region has a negative number; it is 100 only when all regions have 0 *)
Theorem point_bound (g : list record) v d : g <> [] -> is_point g (Some v, Some d) ->
  Forall (fun r => exists base mc, snd (fst r) = Some base /\ snd r = Some mc /\ 0 < base /\ 0 <= mc) g -> v <= 100 /\ 0 <= d.
Proof.
  intros NE [[_ E]|[_ E]] F; [|discriminate E]. injection E as -> ->. split; [|apply sqrt_pos].
  assert (L : Forall (fun x => x <= 100) (map reduction g)).
  { apply Forall_map. eapply Forall_impl; [|exact F]. intros [[k b'] m'] (b & m & Eb & Em & Hb & Hm). cbn [fst snd] in Eb, Em. subst. unfold reduction.
    rewrite Rabs_pos_eq by lra. replace ((b - m) / b) with (1 - m * / b) by (field; lra). assert (0 <= m * / b) by (apply Rmult_le_pos; [lra|left; apply Rinv_0_lt_compat; lra]). lra. }
  unfold Rmean. assert (Q : Rsum (map reduction g) <= 100 * INR (length (map reduction g))).
  { induction L as [|x t Hx L IH]; cbn [Rsum length]; [cbn; lra|]. rewrite S_INR. lra. }
  apply (Rmult_le_reg_r (INR (length (map reduction g)))); [apply lt_0_INR; destruct g; [contradiction|cbn; lia]|].
  unfold Rdiv. rewrite Rmult_assoc, Rinv_l; [lra|]. apply not_0_INR. destruct g; [contradiction|discriminate].
Qed.
