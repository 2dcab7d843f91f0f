(** ExperimentProofs.v - the rows of the experiment (C103). *)
From Coq Require Import Reals Lra Lia Sorted.
From Coquelicot Require Import Coquelicot.
From Verif Require Import Base Num NumLaws NumpyModel ConfigSpaceModel UtilsModel IceModel PartitionModel PartitionSpec
  ListLemmas IceProofs IceProofs2 UtilsProofs PartitionProofs PartitionProofs2 PartitionProofs3 PartitionProofs4 PartitionProofs6
  RealProofs RealSums PartitionReal PartitionReal2 IceReal ConfidenceProofs SyntheticModel SyntheticSpec SyntheticPd SyntheticProofs NllModel NllSpec NllProofs NllProofs2
  DrawSpec DrawProofs6 DrawProofs7 ExperimentModel ExperimentSpec.
Local Open Scope R_scope.
Local Open Scope list_scope.

Lemma float_numeric cs : float_space cs -> numeric_space cs.
Proof. intro F. eapply Forall_impl; [|exact F]. intros h (lo & up & lg & K & G). exists lo, up, lg. split; [left; exact K|exact G]. Qed.

Lemma Rmean_pos (l : list R) : l <> [] -> Forall (fun x => 0 < x) l -> 0 < Rmean l.
Proof.
  intros NE F. unfold Rmean. apply Rdiv_lt_0_compat.
  - induction F as [|x l Hx F IH]; [congruence|]. cbn [Rsum]. destruct l as [|y l]; [cbn; lra|]. specialize (IH ltac:(discriminate)). lra.
  - apply lt_0_INR. destruct l; [congruence|cbn; lia].
Qed.

(** variances of a node are squares of predicted deviations *)
Lemma node_variances (s : setup RNum) p id nd : setup_ok s -> reaches s p -> deref p id = Some nd -> uncertain (su_predict s) ->
  Forall (Forall (fun v : R => 0 < v)) (r_v (n_region nd)).
Proof.
  intros SO RE D UC. destruct (regions_are_selections R_order_laws s p SO RE) as (root & D0 & _ & K).
  destruct (K id nd D) as (_ & idxs & _ & IR & _). clear K.
  destruct (root_is_ice R_order_laws s p SO RE) as (sel & d & _ & HI & D0').
  assert (root = mkdnode 0 (mkregion (i_x d) (i_y d) (i_v d)) []) by congruence. subst root.
  destruct (ice_calculate_ok _ _ _ _ HI) as (means & stds & _ & HP & y & st & _ & RS & EV & _).
  destruct (reshape2_ok _ _ _ _ _ RS) as (L1 & L2 & L3 & NTH & _).
  specialize (UC _ _ _ HP). destruct IR as (_ & _ & IV). cbn [n_region r_v] in IV. rewrite EV in IV.
  destruct (rows_of_map _ _ _ _ IV) as (src & E & F). rewrite E. apply Forall_forall. intros row Hr. apply in_map_iff in Hr as (m & <- & Hm).
  destruct (Forall2_in_r _ _ _ _ F Hm) as (i & _ & Hi). apply Forall_forall. intros v Hv. apply in_map_iff in Hv as (x & <- & Hx).
  destruct (In_nth _ _ 0 Hx) as (j & Lj & Ej). 
  assert (Lm : length m = num_grid_points (mkalg (su_cs s) sel (su_samples s) (su_gpa s))) by (apply (proj1 (Forall_forall _ _) L3); exact (nth_error_In _ _ Hi)).
  assert (Li : (i < num_samples (mkalg (su_cs s) sel (su_samples s) (su_gpa s)))%nat).
  { rewrite <- L2. apply nth_error_Some. rewrite Hi. discriminate. }
  pose proof (NTH i j Li ltac:(rewrite <- Lm; exact Lj)) as Q. rewrite (nth_error_nth_some _ _ _ [] Hi) in Q.
  assert (X : x <> 0). 
  { rewrite <- Ej. change (nth j m 0) with (nth j m (n0 (N:=RNum))). rewrite Q. apply (proj1 (Forall_forall _ _) UC). apply nth_In.
    rewrite L1. assert (j < num_grid_points (mkalg (su_cs s) sel (su_samples s) (su_gpa s)))%nat by (rewrite <- Lm; exact Lj). nia. }
  change (0 < x * x). nra.
Qed.

Lemma Forall2_nth_pair {A B} (P : A -> B -> Prop) l m j a b : Forall2 P l m -> nth_error l j = Some a -> nth_error m j = Some b -> P a b.
Proof. intro F. revert j. induction F as [|x y l m H F IH]; intros [|j] E1 E2; try discriminate; [injection E1 as <-; injection E2 as <-; exact H|exact (IH j E1 E2)]. Qed.
Lemma Forall2_of_nth {A B} (P : A -> B -> Prop) l m : length l = length m -> (forall j a b, nth_error l j = Some a -> nth_error m j = Some b -> P a b) -> Forall2 P l m.
Proof.
  revert m. induction l as [|a l IH]; intros [|b m] L H; try discriminate; constructor; [exact (H 0%nat a b eq_refl eq_refl)|].
  apply IH; [cbn in L; lia|]. intros j x y E1 E2. exact (H (S j) x y E1 E2).
Qed.
Lemma box_ext (b : fbox RNum) n (lo up : R) lg : b_name b = n -> b_lower b = lo -> b_upper b = up -> b_log b = lg -> b = mkfbox (N:=RNum) n lo up lg.
Proof. destruct b. cbn. intros -> -> -> ->. reflexivity. Qed.

Lemma node_box (s : setup RNum) p id nd h (lo up : R) lg idx inc :
  setup_ok s -> float_space (su_cs s) -> reaches s p -> nth_error (su_cs s) idx = Some h -> hp_kind h = KFloat (lo : RNum) (up : RNum) lg ->
  convert_hyperparameters (su_sel s) (su_cs s) = Ok [h] -> legal_config (su_cs s) inc ->
  deref p id = Some nd -> contains (su_cs s) (n_conds nd) inc = Ok true -> (0 < region_len (n_region nd))%nat ->
  exists boxes, implied_config_space (su_cs s) (n_conds nd) = Ok boxes /\ Forall2 (side_of inc) (su_cs s) boxes /\
    nth_error boxes idx = Some (mkfbox (N:=RNum) (hp_name h) lo up lg).
Proof.
  intros SO FS RE NT HK CS LC D CT RL. pose proof (float_numeric _ FS) as NS. pose proof (proj1 SO) as ND.
  destruct (reaches_facts R_order_laws s p SO RE) as (root & dd & sel & ns & RF).
  assert (sel = [h]) by (pose proof (rf_sel _ _ _ _ _ _ RF) as Q; rewrite CS in Q; injection Q as <-; reflexivity). subst sel.
  pose proof (leaf_conds_in_cs s p root dd [h] ns nd RF (deref_derived s p root dd [h] ns id nd RF D)) as HC.
  assert (HC' : Forall (fun c => In (c_hp c) (su_cs s) /\ 0 < c_val c < 1) (n_conds nd)).
  { eapply Forall_impl; [|exact HC]. cbn. intros c (A & _ & _ & B). split; [exact A|]. apply (split_vals_open _ _ B). }
  destruct (implied_inv (su_cs s) (n_conds nd) ND NS HC') as (boxes & E & F).
  destruct (implied_space_describes_region s p SO NS RE id nd D) as (boxes' & E' & Nm & Bd & Sem). rewrite E in E'. injection E' as <-.
  exists boxes. refine (conj E (conj _ _)).
  - destruct (Sem inc) as (b & Cb & Iff).
    { intros k l1 u1 g1 Hi Hp. apply LC; [exact Hi|]. unfold extent. destruct Hp as [K|(l2 & u2 & K & -> & ->)]; rewrite K; reflexivity. }
    rewrite CT in Cb. injection Cb as <-. pose proof (proj1 Iff eq_refl) as In_. clear Iff Sem.
    apply Forall2_of_nth; [exact (Forall2_length _ _ _ F)|]. intros j k b E1 E2. pose proof (Forall2_nth_pair _ _ _ _ _ _ F E1 E2) as B.
    pose proof (nth_error_In _ _ E1) as Hi. destruct (proj1 (Forall_forall _ _) FS k Hi) as (l1 & u1 & g1 & K & G).
    destruct (Bd j k b l1 u1 g1 E1 E2 (or_introl K)) as (B1 & B2 & B3 & B4). specialize (B4 RL).
    destruct (LC k l1 u1 Hi) as (x & Ex & Hx); [unfold extent; rewrite K; reflexivity|].
    destruct (In_ j k b l1 u1 g1 x E1 E2 (or_introl K) Ex) as (I1 & I2).
    split; [exact (bi_name _ _ _ B)|]. exists l1, u1, g1, x. refine (conj K (conj B1 (conj (conj B2 B4) (conj B3 (conj Ex (conj _ I1)))))).
    destruct I2 as [I2|[I2 I3]]; lra.
  - destruct (nth_error boxes idx) as [b|] eqn:Eb; [|apply nth_error_None in Eb; pose proof (Forall2_length _ _ _ F) as L; assert (idx < length (su_cs s))%nat by (apply nth_error_Some; rewrite NT; discriminate); lia].
    pose proof (Forall2_nth_pair _ _ _ _ _ _ F NT Eb) as B. pose proof (nth_error_In _ _ NT) as Hi.
    destruct (proj1 (Forall_forall _ _) FS h Hi) as (l1 & u1 & g1 & K & G). rewrite HK in K. injection K as <- <- <-.
    destruct (bi _ _ _ B lo up lg (or_introl HK) G) as (B1 & _ & _ & B4 & B5 & _).
    assert (NA : forall c, In c (n_conds nd) -> ~ about h c).
    { intros c Hc A. pose proof (proj1 (Forall_forall _ _) HC c Hc) as (_ & X & _). apply X. left. symmetry. exact A. }
    f_equal. apply box_ext; [exact (bi_name _ _ _ B)| | |exact B1].
    + destruct B4 as [B4|(c & Hc & A & _)]; [exact B4|exfalso; exact (NA c Hc A)].
    + destruct B5 as [B5|(c & Hc & A & _)]; [exact B5|exfalso; exact (NA c Hc A)].
Qed.

Lemma hp_ext (h : hp RNum) k : hp_kind h = k -> mkhp (hp_name h) k = h.
Proof. destruct h. cbn. intros <-. reflexivity. Qed.

(** the likelihood of a node on a space that holds the selected hyperparameter *)
Lemma node_nll (s : setup RNum) p id nd h (lo up : R) lg idx fcs :
  setup_ok s -> reaches s p -> nth_error (su_cs s) idx = Some h -> hp_kind h = KFloat (lo : RNum) (up : RNum) lg -> uncertain (su_predict s) ->
  deref p id = Some nd -> (0 < region_len (n_region nd))%nat ->
  NoDup (map hp_name fcs) -> Forall float_range fcs -> In h fcs -> (2 <= length fcs)%nat ->
  nll (su_cs s) [h] (n_region nd) (stybtang_fn fcs) = Ok (Some (region_nll fcs h lo up lg idx (n_region nd))).
Proof.
  intros SO RE NT HK UC D RL NDf FR Inf L2. pose proof (node_variances s p id nd SO RE D UC) as VP.
  destruct (reaches_facts R_order_laws s p SO RE) as (root & dd & sel & ns & RF).
  pose proof (derived_wf p root nd (inv_wf _ _ (rf_inv _ _ _ _ _ _ RF)) (deref_derived s p root dd sel ns id nd RF D)) as W.
  rewrite (rf_cs _ _ _ _ _ _ RF) in W. destruct W as [Wy Wv (G & G0 & Gx & Gy & Gv) Wf]. unfold region_len in RL.
  assert (Wd : forall {A} (l : list (list A)), (0 < length l)%nat -> Forall (fun m => length m = G) l -> width l = G).
  { intros A l L F. destruct F as [|m l E F]; [cbn in L; lia|]. exact E. }
  assert (Ex : width (r_x (n_region nd)) = G) by (apply Wd; assumption).
  assert (Ey : width (r_y (n_region nd)) = G) by (apply Wd; [rewrite Wy; exact RL|exact Gy]).
  assert (Ev : width (r_v (n_region nd)) = G) by (apply Wd; [rewrite Wv; exact RL|exact Gv]).
  unfold region_nll. apply nll_stybtang_on; auto.
  - exact (proj1 SO).
  - rewrite Ex. exact G0.
  - destruct Wf as [|m l Hm Wf]; [cbn in RL; lia|exact Hm].
  - rewrite Ey, Ex. reflexivity.
  - rewrite Ev, Ex. reflexivity.
  - rewrite Ex. intros i Hi. unfold col_mean. rewrite <- Wv in RL. clear - RL VP Gv Hi. apply Rmean_pos.
    + destruct (r_v (n_region nd)); [cbn in RL; lia|discriminate].
    + apply Forall_forall. intros v Hv. apply in_map_iff in Hv as (row & <- & Hr). rewrite Forall_forall in VP, Gv. specialize (VP row Hr). rewrite Forall_forall in VP. apply VP. apply nth_In. eapply Nat.lt_le_trans; [exact Hi|]. apply Nat.eq_le_incl. symmetry. exact (Gv row Hr).
Qed.

Lemma side_space inc cs boxes : NoDup (map hp_name cs) -> Forall2 (side_of inc) cs boxes ->
  NoDup (map hp_name (box_space boxes)) /\ Forall float_range (box_space boxes) /\ length (box_space boxes) = length cs.
Proof.
  intros ND F. refine (conj _ (conj _ _)).
  - replace (map hp_name (box_space boxes)) with (map hp_name cs); [exact ND|]. clear ND. unfold box_space.
    induction F as [|h b cs boxes (E & _) F IH]; [reflexivity|]. cbn [map hp_name]. rewrite E, IH. reflexivity.
  - unfold box_space. apply Forall_map. clear ND. induction F as [|h b cs boxes (E & lo & up & lg & x & _ & _ & L & _) F IH]; constructor; [|exact IH].
    exists (b_lower b), (b_upper b), (b_log b). split; [reflexivity|exact (proj2 L)].
  - unfold box_space. rewrite map_length. symmetry. exact (Forall2_length _ _ _ F).
Qed.
Lemma side_selected boxes idx h (lo up : R) lg : hp_kind h = KFloat (lo : RNum) (up : RNum) lg ->
  nth_error boxes idx = Some (mkfbox (N:=RNum) (hp_name h) lo up lg) -> In h (box_space boxes).
Proof. intros K E. apply in_map_iff. exists (mkfbox (N:=RNum) (hp_name h) lo up lg). split; [exact (hp_ext h _ K)|exact (nth_error_In _ _ E)]. Qed.

Section Rows.
Variables (s : setup RNum) (h : hp RNum) (lo up : R) (lg : bool) (idx : nat) (inc : config RNum).
Hypothesis SO : setup_ok s.
Hypothesis MP : (1 <= su_minpts s)%nat.
Hypothesis NE : su_samples s <> [].
Hypothesis FS : float_space (su_cs s).
Hypothesis L2 : (2 <= length (su_cs s))%nat.
Hypothesis NT : nth_error (su_cs s) idx = Some h.
Hypothesis HK : hp_kind h = KFloat (lo : RNum) (up : RNum) lg.
Hypothesis CS : convert_hyperparameters (su_sel s) (su_cs s) = Ok [h].
Hypothesis UC : uncertain (su_predict s).
Hypothesis LC : legal_config (su_cs s) inc.

Lemma same_leaves (p : dtp RNum) ids l1 l2 : Forall2 (fun id nd => deref p id = Some nd) ids l1 -> Forall2 (fun id nd => deref p id = Some nd) ids l2 -> l1 = l2.
Proof. clear. intro H. revert l2. induction H as [|i n ids l E F IH]; intros l2 A; inversion A; subst; [reflexivity|]. f_equal; [congruence|apply IH; assumption]. Qed.

Lemma one_row p d : reaches s p -> (0 < d)%nat -> exists p' ids row, partition p d = (p', Ok ids) /\ incumbent_numbers p' inc = Ok row /\ row_is s h lo up lg idx inc d row.
Proof.
  intros RE Hd. pose proof RE as (p0 & ds & Hc & _).
  assert (R0 : reaches s p0) by (exists p0, []; split; [exact Hc|reflexivity]).
  destruct (partition_history_independent R_order_laws s p p0 d SO Hc RE Hd) as (p1 & ids1 & p2 & ids2 & leaves & E1 & E2 & F1 & F2 & _).
  pose proof (float_numeric _ FS) as NS. pose proof (numeric_space_numerical _ NS) as AN.
  destruct (config_in_exactly_one_leaf R_order_laws s p d inc SO AN (R_unscaled_ordinary s) (legal_total _ _ NS LC) RE Hd) as (p' & ids & lv & k & E & F & Hk & U & G).
  rewrite E1 in E. injection E as <- <-. pose proof (same_leaves _ _ _ _ F1 F) as <-. 
  destruct (confidence_weighted s p d SO MP NE RE Hd) as (p' & ids & lv & root & E & F' & _ & PS & _).
  rewrite E1 in E. injection E as <- <-. pose proof (same_leaves _ _ _ _ F1 F') as <-. clear F F'.
  destruct (nth_error leaves k) as [nd|] eqn:En; [|apply nth_error_None in En; lia].
  assert (RL : (0 < region_len (n_region nd))%nat) by exact (proj1 (Forall_forall _ _) PS nd (nth_error_In _ _ En)).
  destruct (U k nd En) as (CT & SAT). rewrite Nat.eqb_refl in CT. pose proof (proj2 SAT eq_refl) as ST.
  destruct (nth_error ids1 k) as [id1|] eqn:Ei1; [|apply nth_error_None in Ei1; pose proof (Forall2_length _ _ _ F1); lia].
  destruct (nth_error ids2 k) as [id2|] eqn:Ei2; [|apply nth_error_None in Ei2; pose proof (Forall2_length _ _ _ F2); lia].
  pose proof (Forall2_nth_pair _ _ _ _ _ _ F1 Ei1 En) as D1. pose proof (Forall2_nth_pair _ _ _ _ _ _ F2 Ei2 En) as D2. cbv beta in D1, D2.
  pose proof (reaches_partition s p d RE) as RE1. rewrite E1 in RE1. cbn [fst] in RE1.
  destruct (node_box s p1 id1 nd h lo up lg idx inc SO FS RE1 NT HK CS LC D1 CT RL) as (boxes & EB & FB & SB).
  destruct (side_space inc _ _ (proj1 SO) FB) as (NDb & FRb & Lb).
  pose proof (node_nll s p1 id1 nd h lo up lg idx (box_space boxes) SO RE1 NT HK UC D1 RL NDb FRb (side_selected _ _ _ _ _ _ HK SB) ltac:(rewrite Lb; exact L2)) as EN.
  exists p1, ids1, (mean_confidence (n_region nd) : R, Some (region_nll (box_space boxes) h lo up lg idx (n_region nd))).
  destruct (reaches_facts R_order_laws s p1 SO RE1) as (rt & dd & sel & ns & RF).
  refine (conj E1 (conj _ _)).
  - unfold incumbent_numbers. rewrite G. cbn [bind]. rewrite D1, (rf_cs _ _ _ _ _ _ RF), (reaches_sel R_order_laws s p1 [h] SO RE1 CS), EB. cbn [bind]. rewrite EN. reflexivity.
  - exists p0, p2, ids2, id2, nd, boxes. refine (conj Hc (conj E2 (conj (nth_error_In _ _ Ei2) (conj D2 (conj ST (conj EB (conj FB (conj SB eq_refl)))))))).
Qed.

Lemma rows_of p n_splits : reaches s p -> Forall (fun d => 1 <= d)%nat n_splits -> exists rows, split_rows p inc n_splits = Ok rows /\ Forall2 (row_is s h lo up lg idx inc) n_splits rows.
Proof.
  intros RE F. revert p RE. induction F as [|d t Hd F IH]; intros p RE; [exists []; split; [reflexivity|constructor]|].
  destruct (one_row p d RE ltac:(lia)) as (p' & ids & row & E & EI & RI). pose proof (reaches_partition s p d RE) as RE1. rewrite E in RE1. cbn [fst] in RE1.
  destruct (IH p' RE1) as (rows & ER & FR). exists (row :: rows). split; [|constructor; assumption].
  cbn [split_rows]. rewrite E. cbn [bind]. rewrite EI. cbn [bind]. rewrite ER. reflexivity.
Qed.

Theorem experiment_rows n_splits p0 : su_nots s = None -> construct s = Ok p0 -> Forall (fun d => 1 <= d)%nat n_splits ->
  exists root rows, deref p0 0 = Some root /\
    experiment (su_cs s) (su_predict s) (su_sel s) (su_samples s) (su_gpa s) (su_splits s) (su_minpts s) inc n_splits =
      Ok (mean_confidence (n_region root) : R, Some (region_nll (su_cs s) h lo up lg idx (n_region root)), rows) /\
    Forall2 (row_is s h lo up lg idx inc) n_splits rows.
Proof.
  intros NN Hc F. assert (R0 : reaches s p0) by (exists p0, []; split; [exact Hc|reflexivity]).
  destruct (rows_of p0 n_splits R0 F) as (rows & ER & FR).
  destruct (reaches_facts R_order_laws s p0 SO R0) as (root & dd & sel & ns & RF). pose proof (rf_deref _ _ _ _ _ _ RF) as D0.
  assert (RL : (0 < region_len (n_region root))%nat).
  { unfold region_len. rewrite (rf_root _ _ _ _ _ _ RF). cbn [n_region r_x]. rewrite (rf_len _ _ _ _ _ _ RF). destruct (su_samples s); [congruence|cbn; lia]. }
  assert (FRc : Forall float_range (su_cs s)).
  { eapply Forall_impl; [|exact FS]. intros k (l1 & u1 & g1 & K & G). exists l1, u1, g1. split; [exact K|exact (proj1 G)]. }
  pose proof (node_nll s p0 0%nat root h lo up lg idx (su_cs s) SO R0 NT HK UC D0 RL (proj1 SO) FRc (nth_error_In _ _ NT) L2) as EN.
  exists root, rows. refine (conj D0 (conj _ FR)). unfold experiment. unfold construct in Hc. rewrite NN in Hc. rewrite Hc. cbn [bind]. rewrite D0. cbn [bind].
  rewrite (rf_cs _ _ _ _ _ _ RF), (reaches_sel R_order_laws s p0 [h] SO R0 CS), EN. cbn [bind]. rewrite ER. reflexivity.
Qed.
End Rows.

(** ** the averages of visualize_bad_nll *)
Lemma log_delta_R (a b : R) : calculate_log_delta (N:=RNum) a b = (b - a) / Rabs b.
Proof. unfold calculate_log_delta, nabs. cbn. unfold Rltb, Rabs. destruct (Rlt_dec b 0), (Rcase_abs b); try lra; try reflexivity. f_equal. f_equal. lra. Qed.

Lemma bad_nll_sums (reps : list (R * R)) : forall B A D, fold_left (fun acc q => let region_nll := (snd (fst acc) + fst q)%R in let base_nll := (fst (fst acc) + snd q)%R in
    (base_nll, region_nll, (snd acc + calculate_log_delta (N:=RNum) region_nll base_nll)%R)) reps (B, A, D) =
  (B + Rsum (map snd reps), A + Rsum (map fst reps),
   D + Rsum (map (fun k => (B + Rsum (map snd (firstn k reps)) - (A + Rsum (map fst (firstn k reps)))) / Rabs (B + Rsum (map snd (firstn k reps)))) (seq 1 (length reps)))).
Proof.
  induction reps as [|(a, b) reps IH]; intros B A D; [cbn; f_equal; [f_equal|]; lra|].
  cbn [fold_left fst snd length seq map Rsum firstn]. rewrite IH. rewrite log_delta_R, <- (seq_shift (length reps) 1), map_map. f_equal; [f_equal; lra|].
  rewrite !Rplus_0_r. rewrite Rplus_assoc. f_equal. f_equal. f_equal. apply map_ext. intro k. cbn [firstn map Rsum fst snd]. rewrite !Rplus_assoc. reflexivity.
Qed.

Theorem bad_nll_value (reps : list (R * R)) : bad_nll reps =
  (Rmean (map snd reps), Rmean (map fst reps),
   100 * Rmean (map (fun k => (Rsum (map snd (firstn k reps)) - Rsum (map fst (firstn k reps))) / Rabs (Rsum (map snd (firstn k reps)))) (seq 1 (length reps)))).
Proof.
  unfold bad_nll. rewrite bad_nll_sums. cbn [fst snd]. unfold Rmean. rewrite !map_length, seq_length, !Rplus_0_l.
  f_equal. unfold Rdiv at 1. rewrite Rmult_assoc. f_equal. unfold Rdiv at 2. f_equal. f_equal. apply map_ext. intro k. rewrite !Rplus_0_l. reflexivity.
Qed.

Lemma table_entry_value (reps : list (R * R)) : table_entry reps = 100 * Rmean (map (fun q => (snd q - fst q) / Rabs (snd q)) reps).
Proof. unfold table_entry. rewrite nmean_R, Rmult_comm. f_equal. f_equal. apply map_ext. intros (a, b). exact (log_delta_R a b). Qed.
Theorem bad_nll_one a b : snd (bad_nll [(a, b)]) = table_entry [(a, b)].
Proof. rewrite bad_nll_value, table_entry_value. unfold Rmean. cbn [snd fst length seq map firstn Rsum]. rewrite !Rplus_0_r. reflexivity. Qed.

Theorem bad_nll_differs : snd (bad_nll [(1, 2); (3, 2)]) = 25 /\ table_entry [(1, 2); (3, 2)] = 0.
Proof.
  rewrite bad_nll_value, table_entry_value. unfold Rmean. cbn [snd fst length seq map firstn Rsum INR]. rewrite !Rabs_pos_eq by lra. split; lra.
Qed.
Theorem table_positive : 0 < table_entry [(1, 2); (13, 10)] /\ Rmean (map snd [(1, 2); (13, 10)]) < Rmean (map fst [(1, 2); (13, 10)]).
Proof. rewrite table_entry_value. unfold Rmean. cbn [snd fst length seq map firstn Rsum INR]. rewrite !Rabs_pos_eq by lra. split; lra. Qed.
(** every replication better, then the table says so *)
Theorem table_sign (reps : list (R * R)) : reps <> [] -> Forall (fun q => snd q <> 0 /\ fst q < snd q) reps -> 0 < table_entry reps.
Proof.
  intros NE F. rewrite table_entry_value. apply Rmult_lt_0_compat; [lra|]. apply Rmean_pos; [destruct reps; [congruence|discriminate]|].
  apply Forall_map. eapply Forall_impl; [|exact F]. intros (a, b) [H1 H2]. cbn [fst snd] in *. apply Rdiv_lt_0_compat; [lra|apply Rabs_pos_lt; exact H1].
Qed.

Theorem table_facts (reps : list (R * R)) : reps <> [] ->
  table_entry reps = 100 * Rmean (map (fun q => (snd q - fst q) / Rabs (snd q)) reps) /\
  (Forall (fun q => snd q <> 0 /\ fst q < snd q) reps -> 0 < table_entry reps) /\
  (length reps = 1%nat -> snd (bad_nll reps) = table_entry reps).
Proof.
  intro NE. refine (conj (table_entry_value reps) (conj (table_sign reps NE) _)). destruct reps as [|(a, b) [|q l]]; try discriminate. intros _. apply bad_nll_one.
Qed.
