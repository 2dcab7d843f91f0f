(** GainReal.v - regions without variance and steps of the uncertainty, in exact arithmetic. *)
From Coq Require Import Reals Lra Sorted.
From Verif Require Import Base Num NumLaws NumpyModel ConfigSpaceModel UtilsModel IceModel PartitionModel PartitionSpec
  ListLemmas IceProofs IceProofs2 PartitionProofs PartitionProofs2 PartitionProofs3 PartitionProofs4 PartitionProofs5 PartitionProofs6
  RealProofs RealSums PartitionReal PartitionReal2 IceShapeSpec IceShapeProofs GainSpec GainProofs.
Local Open Scope nat_scope.
Local Open Scope list_scope.

Lemma zero_loss nf (r : region RNum) : wf_region nf r -> (forall a b, In a (r_v r) -> In b (r_v r) -> a = b) -> region_loss r = 0%R.
Proof. intros W H. destruct (loss_is_within_variance nf r W) as (G & _ & _ & _ & Z). apply Z. exact H. Qed.
Lemma zero_loss_inv nf (r : region RNum) : wf_region nf r -> region_loss r = 0%R -> forall a b, In a (r_v r) -> In b (r_v r) -> a = b.
Proof. intros W H. destruct (loss_is_within_variance nf r W) as (G & _ & _ & _ & Z). apply Z. exact H. Qed.
Lemma loss_nonneg nf (r : region RNum) : wf_region nf r -> (0 <= region_loss r)%R.
Proof. intros W. destruct (loss_is_within_variance nf r W) as (G & _ & _ & Z & _). exact Z. Qed.
Lemma zero_loss_sub nf f (r : region RNum) : wf_region nf r -> region_loss r = 0%R -> region_loss (sel_region f r) = 0%R.
Proof.
  intros W Z. apply (zero_loss nf); [apply sel_region_wf; exact W|]. intros a b Ha Hb. cbn in Ha, Hb.
  apply (zero_loss_inv nf r W Z); eapply mask_select_in; eassumption.
Qed.
Lemma total_is (l r : dnode RNum) : split_total (l, r) = (region_loss (n_region l) + region_loss (n_region r))%R.
Proof. reflexivity. Qed.
Lemma nlt_R (x y : RNum) : nlt x y = true <-> (x < y)%R.
Proof. cbn. unfold Rltb. destruct (Rlt_dec x y); split; intro; auto; discriminate. Qed.

Lemma region_rows (s : setup RNum) p id nd root dd sel ns : setup_ok s -> reach_facts s p root dd sel ns -> deref p id = Some nd ->
  wf_region (length (su_cs s)) (n_region nd) /\ (forall v, In v (r_v (n_region nd)) -> In v (i_v dd)) .
Proof.
  intros SO F D. pose proof (deref_derived s p root dd sel ns id nd F D) as De. split.
  - rewrite <- (rf_cs _ _ _ _ _ _ F). apply (derived_wf p root); [apply (inv_wf _ _ (rf_inv _ _ _ _ _ _ F))|exact De].
  - intros v Hv. destruct (derived_is_leaf_of_conditions s p root dd sel ns nd SO F De) as (_ & idxs & _ & (_ & _ & IR) & _).
    rewrite (rf_root _ _ _ _ _ _ F) in IR. cbn in IR. clear - IR Hv. induction IR as [|i m li lm H F IH]; [destruct Hv|].
    destruct Hv as [->|Hv]; [eapply nth_error_In; exact H|exact (IH Hv)].
Qed.

Lemma same_variances (s : setup RNum) p root dd sel ns f sd : setup_ok s -> reach_facts s p root dd sel ns -> su_predict s = rowwise f sd ->
  only_uses (is_selected (su_cs s) sel) sd -> forall a b, In a (i_v dd) -> In b (i_v dd) -> a = b.
Proof.
  intros (ND & RC & G) F Hp U a b Ha Hb. pose proof (rf_ice _ _ _ _ _ _ F) as E. rewrite Hp in E.
  destruct (same_curves (alg_of s sel) f sd dd ND RC E) as (_ & K). specialize (K U).
  destruct (ice_calculate_shapes (alg_of s sel) false (rowwise f sd) dd RC E) as (_ & _ & Lv & _).
  apply In_nth_error in Ha, Hb. destruct Ha as (i & Ha), Hb as (i' & Hb).
  pose proof (nth_error_Some_lt _ _ _ Ha) as La. pose proof (nth_error_Some_lt _ _ _ Hb) as Lb. rewrite Lv in La, Lb.
  rewrite (K i i' La Lb) in Ha. rewrite Ha in Hb. inversion Hb. reflexivity.
Qed.

(** a deviation that ignores everything but the selected hyperparameters: no region has a loss, yet regions are
    split as long as the settings allow it, at the first candidate of the loops *)
Theorem no_gain (s : setup RNum) p f sd sel : setup_ok s -> reaches s p -> su_predict s = rowwise f sd ->
  convert_hyperparameters (su_sel s) (su_cs s) = Ok sel -> only_uses (is_selected (su_cs s) sel) sd ->
  (forall id nd, deref p id = Some nd -> region_loss (n_region nd) = 0%R) /\
  forall id c, nth_error (d_heap p) id = Some c ->
    (n_left c = None /\ n_right c = None) \/
    exists a b l r j k, n_left c = Some a /\ n_right c = Some b /\ deref p a = Some l /\ deref p b = Some r /\
      offered_at s (n_node c) j k l r /\ forall j' k' l' r', offered_at s (n_node c) j' k' l' r' -> ~ tried_before j' k' j k.
Proof.
  intros SO RE Hp Hs U. destruct (reaches_facts R_order_laws s p SO RE) as (root & dd & sel' & ns & F).
  pose proof (rf_sel _ _ _ _ _ _ F) as Es. rewrite Hs in Es. injection Es as <-.
  pose proof (same_variances s p root dd sel ns f sd SO F Hp U) as SV.
  assert (Z : forall id nd, deref p id = Some nd -> region_loss (n_region nd) = 0%R).
  { intros id nd D. destruct (region_rows s p id nd root dd sel ns SO F D) as (W & K). apply (zero_loss _ _ W). auto. }
  split; [exact Z|]. intros id c Hc. destruct (tree_splits_first R_order_laws s p SO RE id c Hc) as [H|(a & b & l & r & j & k & La & Lb & Da & Db & Of & Op)]; [left; exact H|].
  right. exists a, b, l, r, j, k. refine (conj La (conj Lb (conj Da (conj Db (conj Of _))))). intros j' k' l' r' Of' TB.
  destruct (Op j' k' l' r' Of') as (_ & O2). specialize (O2 TB eq_refl). apply nlt_R in O2. rewrite !total_is in O2.
  assert (Dc : deref p id = Some (n_node c)) by (unfold deref; rewrite Hc; reflexivity).
  destruct (region_rows s p id (n_node c) root dd sel ns SO F Dc) as (W & K).
  rewrite (Z a l Da), (Z b r Db) in O2.
  assert (ZS : forall q ch, In (c_hp q) (su_cs s) -> side (su_cs s) (n_node c) q ch -> region_loss (n_region ch) = 0%R).
  { intros q ch Hq Sd. destruct SO as (ND & SO'). rewrite (side_unique _ _ _ _ _ Sd (child_side _ _ _ W ND Hq)).
    cbn [child n_region]. apply (zero_loss_sub (length (su_cs s))); [exact W|]. exact (Z id _ Dc). }
  destruct Of' as (h & v & Hj & _ & _ & S1 & S2 & _). apply nth_error_In in Hj.
  assert (E1 : region_loss (n_region l') = 0%R) by exact (ZS (mkcond h v true) l' Hj S1).
  assert (E2 : region_loss (n_region r') = 0%R) by exact (ZS (mkcond h v false) r' Hj S2).
  rewrite E1, E2 in O2. clear - O2. cbn in O2. lra.
Qed.

(** ** steps *)
Definition at_most (j : nat) (v : R) (row : list R) : bool := Rleb (nth j row 0%R) v.

Lemma Rltb_negb x y : Rltb x y = negb (Rleb y x).
Proof. unfold Rltb, Rleb. destruct (Rlt_dec x y), (Rle_dec y x); auto; lra. Qed.

Lemma filter_map_length {A B} (g : A -> B) (q : B -> bool) (q' : A -> bool) l : (forall x, In x l -> q (g x) = q' x) -> length (filter q (map g l)) = length (filter q' l).
Proof.
  induction l as [|x l IH]; intro H; [reflexivity|]. cbn. rewrite (H x (or_introl eq_refl)).
  specialize (IH (fun y Hy => H y (or_intror Hy))). destruct (q' x); cbn; rewrite IH; reflexivity.
Qed.

Lemma at_most_iff j v rx ry : at_most j v rx = at_most j v ry -> (nth j rx 0 <= v <-> nth j ry 0 <= v)%R.
Proof. unfold at_most, Rleb. destruct (Rle_dec (nth j rx 0%R) v), (Rle_dec (nth j ry 0%R) v); intro; try discriminate; tauto. Qed.
Lemma step_coord idx (gp row : list R) j x : ~ In j idx -> nth_error (assign_row idx gp row) j = Some x -> x = nth j row 0%R.
Proof. intros H E. rewrite <- (assign_row_other idx gp row j 0%R H). symmetry. apply nth_error_nth. exact E. Qed.
Lemma sum_zero x y : (0 <= x)%R -> (0 <= y)%R -> (x + y <= 0)%R -> x = 0%R /\ y = 0%R.
Proof. intros. lra. Qed.
Lemma not_lt_sum (x y : R) : nlt (n:=RNum) (0 + 0)%R (x + y)%R = false -> (x + y <= 0)%R.
Proof. cbn. unfold Rltb. destruct (Rlt_dec (0 + 0) (x + y)); intro; [discriminate|lra]. Qed.
Lemma tleaves_pos (t : tree (N:=RNum)) : 1 <= length (tleaves t).
Proof. induction t as [x|x l IHl r IHr]; cbn; [lia|]. rewrite app_length. lia. Qed.

Theorem step_recovered (s : setup RNum) p d f sd sel j h v : setup_ok s -> reaches s p -> 0 < d -> su_predict s = rowwise f sd ->
  convert_hyperparameters (su_sel s) (su_cs s) = Ok sel -> nth_error (su_cs s) j = Some h -> splittable s h ->
  In v (possible_split_vals (N:=RNum) (su_splits s)) -> step_at (is_selected (su_cs s) sel) j v sd ->
  su_minpts s <= length (filter (at_most j v) (su_samples s)) ->
  su_minpts s <= length (filter (fun row => negb (at_most j v row)) (su_samples s)) -> 2 <= length (su_samples s) ->
  exists p' ids leaves, partition p d = (p', Ok ids) /\ Forall2 (fun id nd => deref p' id = Some nd) ids leaves /\
    2 <= length ids /\ Forall (fun nd : dnode RNum => region_loss (n_region nd) = 0%R) leaves.
Proof.
  intros SO RE Hd Hp Hs Hj Sp Hv ST M1 M2 H2. destruct (reaches_facts R_order_laws s p SO RE) as (root & dd & sel' & ns & F).
  pose proof (rf_sel _ _ _ _ _ _ F) as Es. rewrite Hs in Es. injection Es as <-.
  destruct (partition_facts R_order_laws s p root dd sel ns d F Hd) as (p' & ids & t & Uf).
  exists p', ids, (tleaves t). refine (conj (ru_eq _ _ _ _ _ _ _ Uf) (conj (ru_leaves _ _ _ _ _ _ _ Uf) _)).
  pose proof SO as (ND & RC & G).
  assert (W : wf_region (length (su_cs s)) (n_region root)).
  { rewrite <- (rf_cs _ _ _ _ _ _ F). apply (inv_wf _ _ (rf_inv _ _ _ _ _ _ F)). }
  pose proof (rf_ice _ _ _ _ _ _ F) as E. rewrite Hp in E.
  destruct (rowwise_closed (alg_of s sel) f sd dd RC E) as (idx & grid & Hi & Hg & Lg & Edd).
  assert (Gp : 0 < length grid). { rewrite Lg. apply Nat.neq_0_lt_0, Nat.pow_nonzero. cbn. lia. }
  assert (Nj : ~ In j idx).
  { intro I. apply (idx_selected _ _ _ _ ND Hi) in I. destruct I as (q & Hq & Hin). cbn in Hq, Hin. rewrite Hj in Hq. injection Hq as <-.
    destruct Sp as (_ & Sp & _). exact (Sp sel Hs Hin). }
  assert (CO : forall row, coord j (x_curve idx grid row) = nth j row 0%R).
  { intro row. unfold coord, x_curve. destruct grid as [|g grid]; [cbn in Gp; lia|]. cbn [map nth].
    exact (assign_row_other idx g row j 0%R Nj). }
  pose proof (cs_idx_nodup (su_cs s) j h ND Hj) as CI.
  assert (C1 : forall row, cond_sat (su_cs s) (mkcond (N:=RNum) h v true) (x_curve idx grid row) = at_most j v row).
  { intro row. unfold cond_sat. cbn [c_hp]. rewrite CI. unfold cond_mask. cbn [c_le c_val]. rewrite CO. reflexivity. }
  assert (C2 : forall row, cond_sat (su_cs s) (mkcond (N:=RNum) h v false) (x_curve idx grid row) = negb (at_most j v row)).
  { intro row. unfold cond_sat. cbn [c_hp]. rewrite CI. unfold cond_mask. cbn [c_le c_val]. rewrite CO. apply Rltb_negb. }
  assert (RX : r_x (n_region root) = map (x_curve idx grid) (su_samples s)) by (rewrite (rf_root _ _ _ _ _ _ F), Edd; reflexivity).
  set (vc := fun row => map (fun r => nmul (n:=RNum) (sd r) (sd r)) (x_curve idx grid row)).
  assert (RV : r_v (n_region root) = map vc (su_samples s)) by (rewrite (rf_root _ _ _ _ _ _ F), Edd; reflexivity).
  assert (ZB : forall b, region_loss (n_region (child (su_cs s) root (mkcond h v b))) = 0%R).
  { intro b. apply (zero_loss (length (su_cs s))); [apply sel_region_wf; exact W|]. cbn [child n_region sel_region r_v].
    rewrite RX, RV, map_map, mask_select_map, mask_select_filter. intros x y Hx Hy.
    apply in_map_iff in Hx, Hy. destruct Hx as (rx & <- & Hx), Hy as (ry & <- & Hy). apply filter_In in Hx, Hy. destruct Hx as (Ix & Hx), Hy as (Iy & Hy).
    assert (SS : at_most j v rx = at_most j v ry). { destruct b; [rewrite C1 in Hx, Hy|rewrite C2 in Hx, Hy]; destruct (at_most j v rx), (at_most j v ry); auto; discriminate. }
    unfold rect in RC. rewrite Forall_forall in RC. pose proof (RC rx Ix) as Lx. pose proof (RC ry Iy) as Ly.
    unfold vc, x_curve. rewrite !map_map. apply map_ext_in. intros gp Hgp.
    assert (Q : sd (assign_row idx gp rx) = sd (assign_row idx gp ry)); [|rewrite Q; reflexivity].
    assert (Lr : length rx = length ry) by (rewrite Lx, Ly; reflexivity).
    apply ST; [rewrite !assign_row_length; exact Lr| |].
    - intros i Hi'. apply In_nth_error in Hgp. destruct Hgp as (g & Hgp). refine (assign_agree (N:=RNum) idx gp rx ry i (grid_row_len (alg_of s sel) idx grid g gp Hi Hg Hgp) Lr _).
      left. apply (idx_selected _ _ _ _ ND Hi). exact Hi'.
    - intros x x' Ex Ex'. rewrite (step_coord idx gp rx j x Nj Ex), (step_coord idx gp ry j x' Nj Ex').
      exact (at_most_iff j v rx ry SS). }
  assert (Adm : exists a b, admissible (su_cs s) (d_possible p) (su_splits s) (su_minpts s) root a b (child (su_cs s) root (mkcond h v true)) (child (su_cs s) root (mkcond h v false))).
  { apply In_nth_error in Hv. destruct Hv as (b & Hb).
    assert (O : offered_at s root j b (child (su_cs s) root (mkcond h v true)) (child (su_cs s) root (mkcond h v false))).
    { exists h, v. refine (conj Hj (conj Sp (conj Hb (conj _ (conj _ (conj _ _)))))).
      - apply child_side; auto. exact (proj1 Sp).
      - apply child_side; auto. exact (proj1 Sp).
      - cbn [child n_region]. rewrite sel_region_len, RX. rewrite (filter_map_length _ _ (at_most j v)); [exact M1|]. intros; apply C1.
      - cbn [child n_region]. rewrite sel_region_len, RX. rewrite (filter_map_length _ _ (fun row => negb (at_most j v row))); [exact M2|]. intros; apply C2. }
    apply (offered_at_admissible s p root dd sel ns) in O; auto. destruct O as (_ & a & _ & _ & _ & O). eauto. }
  assert (HI : incl (d_possible p) (su_cs s)).
  { intros q Hq. rewrite (rf_poss _ _ _ _ _ _ F), split_parameters_spec in Hq. tauto. }
  assert (RL : 1 < region_len (n_region root)). { unfold region_len. rewrite RX. rewrite map_length. lia. }
  destruct Adm as (a0 & b0 & Adm).
  destruct (best_split_optimal R_order_laws (su_cs s) (d_possible p) (su_splits s) (su_minpts s) root W HI RL) as [[_ E']|(a & b & l & r & E' & Ad & _ & Opt)].
  { specialize (E' _ _ _ _ Adm). discriminate. }
  destruct (Opt _ _ _ _ Adm) as (O1 & _). clear Opt.
  destruct Ad as (hb & vb & Hab & _ & Spl & _).
  assert (Kn : known (su_cs s) hb) by (apply cs_idx_in, HI; eapply nth_error_In; exact Hab).
  rewrite split_ok in Spl by assumption. injection Spl as El Er.
  assert (Wl : wf_region (length (su_cs s)) (n_region l)) by (rewrite <- El; apply sel_region_wf; exact W).
  assert (Wr : wf_region (length (su_cs s)) (n_region r)) by (rewrite <- Er; apply sel_region_wf; exact W).
  pose proof (loss_nonneg _ _ Wl) as Nl. pose proof (loss_nonneg _ _ Wr) as Nr.
  assert (Zlr : region_loss (n_region l) = 0%R /\ region_loss (n_region r) = 0%R).
  { apply (sum_zero _ _ Nl Nr). rewrite !total_is, !ZB in O1. exact (not_lt_sum _ _ O1). }
  pose proof (ru_build _ _ _ _ _ _ _ Uf) as B. destruct d as [|d]; [lia|]. cbn [build] in B.
  assert (IS : is_splittable root = true) by (apply Nat.ltb_lt; exact RL). rewrite IS in B.
  rewrite (rf_cs _ _ _ _ _ _ F), (rf_ns _ _ _ _ _ _ F), (rf_mp _ _ _ _ _ _ F), E' in B. cbn [bind] in B.
  destruct (build p d l) as [tl|] eqn:Bl; [|discriminate]. cbn [bind] in B. destruct (build p d r) as [tr|] eqn:Br; [|discriminate]. cbn [bind] in B.
  injection B as <-. pose proof (ru_grown _ _ _ _ _ _ _ Uf) as Gt. destruct (grown_child p d root tl tr Gt) as (_ & _ & _ & _ & _ & _ & _ & _ & Gl & Gr & _).
  cbn [tleaves]. split.
  - pose proof (Forall2_length _ _ _ (ru_leaves _ _ _ _ _ _ _ Uf)) as Ln. cbn [tleaves] in Ln. rewrite app_length in Ln.
    pose proof (tleaves_pos tl). pose proof (tleaves_pos tr). lia.
  - apply Forall_forall. intros nd Hn. apply in_app_or in Hn.
    assert (Q : forall u c, build p d c = Ok u -> grown p d u -> wf_region (length (su_cs s)) (n_region c) -> region_loss (n_region c) = 0%R -> In nd (tleaves u) -> region_loss (n_region nd) = 0%R).
    { intros u c Bu Gu Wc Zc Hu. pose proof (build_root p d c u Bu) as Ru.
      destruct (tree_nodes p d u Gu) with (nd := nd) as (suf & _ & _ & _ & En & _).
      - rewrite Ru. apply Wc. - rewrite Ru. apply Wc. - apply tleaves_tnodes. exact Hu.
      - rewrite En, Ru. apply (zero_loss_sub (length (su_cs s))); assumption. }
    destruct Hn as [Hn|Hn]; [exact (Q tr r Br Gr Wr (proj2 Zlr) Hn)|exact (Q tl l Bl Gl Wl (proj1 Zlr) Hn)].
Qed.
