(** BoxRegion.v - the PDP of a region on evenly spread samples (C116). *)
From Coq Require Import Reals Lra Sorted.
From Coquelicot Require Import Coquelicot.
From Verif Require Import Base Num NumLaws NumpyModel ConfigSpaceModel UtilsModel IceModel PartitionModel PartitionSpec ListLemmas IceProofs IceProofs2 UtilsProofs
  RealProofs RealSums IceReal IceShapeSpec IceShapeProofs IceShapeReal PartitionProofs PartitionProofs2 PartitionProofs3 PartitionProofs4 PartitionReal
  SpreadSpec SpreadProofs SpreadSynSpec SpreadIce SpreadSynthetic BoxSpec BoxProofs.
Local Open Scope R_scope.
Local Open Scope list_scope.

(** ** the bounds of the box are borders of cells *)
Lemma Rmax_frac a b k : (0 < k)%nat -> Rmax (INR a / INR k) (INR b / INR k) = INR (Nat.max a b) / INR k.
Proof.
  intro Hk. destruct (Nat.le_ge_cases a b) as [H|H].
  - rewrite Nat.max_r by exact H. apply Rmax_right. apply frac_le; assumption.
  - rewrite Nat.max_l by exact H. apply Rmax_left. apply frac_le; assumption.
Qed.
Lemma Rmin_frac a b k : (0 < k)%nat -> Rmin (INR a / INR k) (INR b / INR k) = INR (Nat.min a b) / INR k.
Proof.
  intro Hk. destruct (Nat.le_ge_cases a b) as [H|H].
  - rewrite Nat.min_l by exact H. apply Rmin_left. apply frac_le; assumption.
  - rewrite Nat.min_r by exact H. apply Rmin_right. apply frac_le; assumption.
Qed.
Lemma val_frac n k (v : R) : (exists m, k = m * (n + 1))%nat -> (0 < k)%nat -> In v (possible_split_vals (N:=RNum) n) -> exists i, (1 <= i <= k)%nat /\ (v = INR i / INR k :> R).
Proof.
  intros (m & ->) Hk Hv. rewrite split_vals_R in Hv. apply in_map_iff in Hv as (i & <- & Hi). apply in_seq in Hi. exists (m * i)%nat. assert (0 < m)%nat by nia. split; [nia|].
  change (INR i / INR (n + 1) = INR (m * i) / INR (m * (n + 1)) :> R). rewrite !mult_INR. field. split; apply not_0_INR; lia.
Qed.
Lemma max_frac k (l : list R) : (0 < k)%nat -> (forall v, In v l -> exists i, (1 <= i <= k)%nat /\ v = INR i / INR k) -> exists a, (a <= k)%nat /\ fold_right Rmax 0 l = INR a / INR k.
Proof.
  intro Hk. induction l as [|v l IH]; intro H.
  - exists 0%nat. split; [lia|]. cbn. unfold Rdiv. rewrite Rmult_0_l. reflexivity.
  - destruct IH as (a & Ha & E); [intros; apply H; right; assumption|]. destruct (H v (or_introl eq_refl)) as (i & Hi & ->). exists (Nat.max i a). split; [lia|]. cbn [fold_right]. rewrite E. apply Rmax_frac. exact Hk.
Qed.
Lemma min_frac k (l : list R) : (0 < k)%nat -> (forall v, In v l -> exists i, (1 <= i <= k)%nat /\ v = INR i / INR k) -> exists b, (1 <= b <= k)%nat /\ fold_right Rmin 1 l = INR b / INR k.
Proof.
  intro Hk. induction l as [|v l IH]; intro H.
  - exists k. split; [lia|]. cbn. change (1 = INR k / INR k :> R). field. apply not_0_INR. lia.
  - destruct IH as (a & Ha & E); [intros; apply H; right; assumption|]. destruct (H v (or_introl eq_refl)) as (i & Hi & ->). exists (Nat.min i a). split; [lia|]. cbn [fold_right]. rewrite E. apply Rmin_frac. exact Hk.
Qed.
Lemma fold_max_in (l : list R) : (fold_right Rmax 0 l = 0 \/ In (fold_right Rmax 0 l) l) /\ (0 <= fold_right Rmax 0 l) /\ forall v, In v l -> v <= fold_right Rmax 0 l.
Proof.
  induction l as [|v l (H1 & H2 & H3)]; cbn [fold_right]; [split; [left; reflexivity|split; [lra|intros v []]]|].
  split; [|split].
  - destruct (Rle_dec v (fold_right Rmax 0 l)) as [H|H]; [rewrite Rmax_right by exact H; destruct H1 as [H1|H1]; [left; exact H1|right; right; exact H1]|rewrite Rmax_left by lra; right; left; reflexivity].
  - eapply Rle_trans; [exact H2|apply Rmax_r].
  - intros w [->|Hw]; [apply Rmax_l|]. eapply Rle_trans; [apply H3; exact Hw|apply Rmax_r].
Qed.
Lemma fold_min_in (l : list R) : (fold_right Rmin 1 l = 1 \/ In (fold_right Rmin 1 l) l) /\ (fold_right Rmin 1 l <= 1) /\ forall v, In v l -> fold_right Rmin 1 l <= v.
Proof.
  induction l as [|v l (H1 & H2 & H3)]; cbn [fold_right]; [split; [left; reflexivity|split; [lra|intros v []]]|].
  split; [|split].
  - destruct (Rle_dec v (fold_right Rmin 1 l)) as [H|H]; [rewrite Rmin_left by exact H; right; left; reflexivity|rewrite Rmin_right by lra; destruct H1 as [H1|H1]; [left; exact H1|right; right; exact H1]].
  - eapply Rle_trans; [apply Rmin_r|exact H2].
  - intros w [->|Hw]; [apply Rmin_l|]. eapply Rle_trans; [apply Rmin_r|apply H3; exact Hw].
Qed.

Definition ranged (cs : cspace RNum) (conds : list (cond RNum)) (q : range) : Prop :=
  qok q /\ box_lo cs conds (qj q) = INR (qa q) / INR (qk q) /\ box_up cs conds (qj q) = INR (qb q) / INR (qk q).
Lemma ranges_exist cs conds n : (forall c, In c conds -> In (c_val c) (possible_split_vals (N:=RNum) n)) ->
  forall Jk, (forall j k, In (j, k) Jk -> (0 < k)%nat /\ exists m, k = (m * (n + 1))%nat) -> exists Q, map qJk Q = Jk /\ Forall (ranged cs conds) Q.
Proof.
  intro HV. induction Jk as [|[j k] Jk IH]; intro H; [exists []; split; [reflexivity|constructor]|].
  destruct IH as (Q & EQ & FQ); [intros j' k' Hin; apply (H j' k'); right; exact Hin|]. destruct (H j k (or_introl eq_refl)) as [Hk Hm].
  assert (G : forall P v, In v (map (fun c : cond RNum => (c_val c : R)) (filter P conds)) -> exists i, (1 <= i <= k)%nat /\ v = INR i / INR k).
  { intros P v Hv. apply in_map_iff in Hv as (c & <- & Hc). apply filter_In in Hc as [Hc _]. apply (val_frac n k); auto. }
  destruct (max_frac k _ Hk (G (fun c => about cs j c && negb (c_le c)))) as (a & Ha & Ea). destruct (min_frac k _ Hk (G (fun c => about cs j c && c_le c))) as (b & Hb & Eb).
  exists (mkrange j k a b :: Q). split; [cbn; rewrite EQ; reflexivity|]. constructor; [|exact FQ]. split; [exact Hb|]. split; [exact Ea|exact Eb].
Qed.

(** ** the kept rows are those that meet the conditions *)
Definition meets (cs : cspace RNum) (c : cond RNum) (row : list R) : Prop :=
  exists j x, about cs j c = true /\ nth_error row j = Some x /\ if c_le c then x <= c_val c else c_val c < x.
Lemma about_inj cs c i j : NoDup (map hp_name cs) -> about cs i c = true -> about cs j c = true -> i = j.
Proof.
  unfold about. intros ND Hi Hj. destruct (nth_error cs i) as [h|] eqn:Ei; [|discriminate]. destruct (nth_error cs j) as [h'|] eqn:Ej; [|discriminate].
  apply String.eqb_eq in Hi, Hj. rewrite NoDup_nth_error in ND. apply ND; [rewrite map_length; eapply nth_error_Some_lt; exact Ei|]. rewrite !nth_error_map, Ei, Ej. cbn. congruence.
Qed.
Lemma kept_meets cs conds Q row : NoDup (map hp_name cs) -> Forall (ranged cs conds) Q -> (forall q, In q Q -> (qj q < length row)%nat) -> in_cube row ->
  (forall c, In c conds -> 0 < c_val c /\ exists q, In q Q /\ about cs (qj q) c = true) ->
  keep Q row = true <-> Forall (fun c => meets cs c row) conds.
Proof.
  intros ND FQ Hlen Hc Hcov. unfold keep. rewrite forallb_forall, Forall_forall. rewrite Forall_forall in FQ. split.
  - intros H c Hcin. destruct (Hcov c Hcin) as (Hpos & q & Hq & Hab). specialize (H q Hq). unfold keep1 in H. destruct (nth_error row (qj q)) as [x|] eqn:Ex; [|discriminate].
    destruct (FQ q Hq) as (Hok & El & Eu). rewrite <- El, <- Eu in H. apply andb_true_iff in H as [H1 H2]. exists (qj q), x. split; [exact Hab|]. split; [exact Ex|].
    destruct (c_le c) eqn:Ele.
    + destruct (Rleb_spec x (box_up cs conds (qj q))) as [H|]; [|discriminate]. eapply Rle_trans; [exact H|]. apply (proj2 (proj2 (fold_min_in _))). apply in_map_iff. exists c. split; [reflexivity|]. apply filter_In. rewrite Hab, Ele. auto.
    + assert (B : c_val c <= box_lo cs conds (qj q)).
      { apply (proj2 (proj2 (fold_max_in _))). apply in_map_iff. exists c. split; [reflexivity|]. apply filter_In. rewrite Hab, Ele. auto. }
      apply orb_true_iff in H1 as [H1|H1].
      * exfalso. apply Nat.eqb_eq in H1. rewrite El, H1 in B. cbn in B. unfold Rdiv in B. rewrite Rmult_0_l in B. change (0 < (c_val c : R)) in Hpos. lra.
      * destruct (Rltb_spec (box_lo cs conds (qj q)) x) as [H|]; [|discriminate]. eapply Rle_lt_trans; [exact B|exact H].
  - intros H q Hq. specialize (Hlen q Hq). destruct (FQ q Hq) as (Hok & El & Eu). unfold keep1. destruct (nth_error row (qj q)) as [x|] eqn:Ex; [|apply nth_error_None in Ex; lia].
    rewrite <- El, <- Eu. assert (Hx : 0 <= x <= 1) by (unfold in_cube in Hc; rewrite Forall_forall in Hc; apply Hc; eapply nth_error_In; exact Ex).
    assert (HM : forall c, In c conds -> about cs (qj q) c = true -> if c_le c then x <= c_val c else c_val c < x).
    { intros c Hcin Hab. destruct (H c Hcin) as (j & y & Hab' & Ey & B). rewrite (about_inj cs c _ _ ND Hab' Hab) in Ey. rewrite Ex in Ey. injection Ey as <-. exact B. }
    apply andb_true_iff. split.
    + apply orb_true_iff. destruct (fold_max_in (map (fun c : cond RNum => (c_val c : R)) (filter (fun c => about cs (qj q) c && negb (c_le c)) conds))) as [[Z|Hin] _]; fold (box_lo cs conds (qj q)) in *.
      * left. apply Nat.eqb_eq. rewrite El in Z. apply INR_eq. cbn. assert (INR (qk q) <> 0) by (apply not_0_INR; unfold qok in Hok; lia). apply (Rmult_eq_reg_r (/ INR (qk q))); [|apply Rinv_neq_0_compat; assumption]. rewrite Rmult_0_l. exact Z.
      * right. apply in_map_iff in Hin as (c & Ec & Hcin). apply filter_In in Hcin as [Hcin Hf]. apply andb_true_iff in Hf as [Hab Hle]. apply negb_true_iff in Hle. specialize (HM c Hcin Hab). rewrite Hle in HM.
        destruct (Rltb_spec (box_lo cs conds (qj q)) x) as [|Hn]; [reflexivity|]. exfalso. apply Hn. rewrite <- Ec. exact HM.
    + destruct (Rleb_spec x (box_up cs conds (qj q))) as [|Hn]; [reflexivity|]. exfalso. apply Hn.
      destruct (fold_min_in (map (fun c : cond RNum => (c_val c : R)) (filter (fun c => about cs (qj q) c && c_le c) conds))) as [[Z|Hin] _]; fold (box_up cs conds (qj q)) in *.
      * rewrite Z. apply Hx.
      * apply in_map_iff in Hin as (c & Ec & Hcin). apply filter_In in Hcin as [Hcin Hf]. apply andb_true_iff in Hf as [Hab Hle]. specialize (HM c Hcin Hab). rewrite Hle in HM. rewrite <- Ec. exact HM.
Qed.

(** ** the rows of a region *)
Lemma picked {A B} (h : A -> B) (d : A) samples idxs (l : list B) : Forall2 (fun i m => nth_error (map h samples) i = Some m) idxs l -> l = map (fun i => h (nth i samples d)) idxs.
Proof.
  induction 1 as [|i m idxs l H _ IH]; [reflexivity|]. cbn [map]. f_equal; [|exact IH]. rewrite nth_error_map in H. destruct (nth_error samples i) as [x|] eqn:E; [|discriminate]. cbn in H. injection H as <-.
  f_equal. symmetry. apply nth_error_nth. exact E.
Qed.
Lemma sorted_nodup (l : list nat) : StronglySorted lt l -> NoDup l.
Proof. induction 1 as [|x l _ IH F]; constructor; [|exact IH]. intro H. rewrite Forall_forall in F. specialize (F x H). lia. Qed.
Lemma spread_cells_map (h : list R -> list R) : forall Jk rows, (forall row j k, In (j, k) Jk -> nth_error (h row) j = nth_error row j) -> spread_cells Jk rows -> spread_cells Jk (map h rows).
Proof.
  induction Jk as [|[j k] Jk IH]; intros rows Hh S; cbn [spread_cells] in *.
  - intro E. apply S. destruct rows; [reflexivity|discriminate].
  - destruct S as (parts & n & Hk & Hn & Hp & Hperm & Hparts). exists (map (map h) parts), n. split; [exact Hk|]. split; [exact Hn|].
    split; [rewrite map_length; exact Hp|]. split; [rewrite <- concat_map; apply Permutation_map; exact Hperm|].
    intros i p Hi. rewrite nth_error_map in Hi. destruct (nth_error parts i) as [q|] eqn:Eq; [|discriminate]. injection Hi as <-.
    destruct (Hparts i q Eq) as (H1 & H2 & H3). split; [rewrite map_length; exact H1|]. split.
    + apply IH; [intros row j' k' Hin; apply (Hh row j' k'); right; exact Hin|exact H2].
    + apply Forall_map. eapply Forall_impl; [|exact H3]. intros row (x & Hx & B). exists x. split; [|exact B]. rewrite (Hh row j k) by (left; reflexivity). exact Hx.
Qed.
Lemma spread_cells_nonempty : forall Jk rows, spread_cells Jk rows -> rows <> [].
Proof.
  induction Jk as [|[j k] Jk IH]; intros rows H; [exact H|]. cbn in H. destruct H as (parts & n & Hk & Hn & Lp & Pp & Hparts). intros ->.
  destruct parts as [|p parts]; [cbn in Lp; lia|]. destruct (Hparts 0%nat p eq_refl) as (Hl & _). apply Permutation_nil in Pp. cbn in Pp. apply app_eq_nil in Pp as [-> _]. cbn in Hl. lia.
Qed.

Lemma Rleb_true x y : Rleb x y = true <-> x <= y.
Proof. destruct (Rleb_spec x y); split; intro H; auto; try discriminate; contradiction. Qed.
Lemma Rltb_true x y : Rltb x y = true <-> x < y.
Proof. destruct (Rltb_spec x y); split; intro H; auto; try discriminate; contradiction. Qed.
Lemma perm_eq {A} (l l' : list A) : l = l' -> Permutation l l'.
Proof. intros ->. apply Permutation_refl. Qed.
Lemma picked_filter {A} (P : A -> bool) (d : A) samples idxs : NoDup idxs -> (forall i, In i idxs -> (i < length samples)%nat) ->
  (forall i, (i < length samples)%nat -> In i idxs <-> P (nth i samples d) = true) -> Permutation (map (fun i => nth i samples d) idxs) (filter P samples).
Proof.
  intros ND Hlt H. assert (E : filter P samples = map (fun i => nth i samples d) (filter (fun i => P (nth i samples d)) (seq 0 (length samples)))) by (rewrite <- filter_map_comm, <- as_seq; reflexivity).
  rewrite E. apply Permutation_map. apply NoDup_Permutation; [exact ND|apply NoDup_filter, seq_NoDup|].
  intro i. rewrite filter_In, in_seq. split.
  - intro Hi. pose proof (Hlt i Hi). split; [lia|]. apply H; assumption.
  - intros [Hi HP]. apply H; [lia|exact HP].
Qed.
Lemma curve_meets cs sel idx grid gp row c : (forall j, In j idx <-> is_selected cs sel j) -> nth_error grid 0 = Some gp -> ~ In (hp_name (c_hp c)) (map hp_name sel) ->
  curve_satisfies (N:=RNum) cs c (x_curve (N:=RNum) idx grid row) <-> meets cs c row.
Proof.
  intros Hidx Hgp Hns.
  assert (K : forall j h, nth_error cs j = Some h -> hp_name h = hp_name (c_hp c) -> nth_error (assign_row (A:=RNum) idx gp row) j = nth_error row j).
  { intros j h Hh En. apply (assign_other (N:=RNum)). rewrite Hidx. intros (h' & Hh' & Hin). rewrite Hh in Hh'. injection Hh' as <-. rewrite En in Hin. exact (Hns Hin). }
  split.
  - intros (j & h & r & x & Hh & En & H0 & Hx & B). unfold x_curve in H0. rewrite nth_error_map, Hgp in H0. cbn in H0. injection H0 as <-.
    exists j, x. unfold about. rewrite Hh, En, String.eqb_refl. split; [reflexivity|]. split; [exact (eq_trans (eq_sym (K j h Hh En)) Hx)|].
    destruct (c_le c); [exact (proj1 (Rleb_true _ _) B)|exact (proj1 (Rltb_true _ _) B)].
  - intros (j & x & Hab & Hx & B). unfold about in Hab. destruct (nth_error cs j) as [h|] eqn:Hh; [|discriminate]. apply String.eqb_eq in Hab.
    exists j, h, (assign_row (A:=RNum) idx gp row), x. split; [exact Hh|]. split; [exact Hab|]. split; [unfold x_curve; rewrite nth_error_map, Hgp; reflexivity|].
    split; [exact (eq_trans (K j h Hh Hab) Hx)|]. destruct (c_le c); [exact (proj2 (Rleb_true _ _) B)|exact (proj2 (Rltb_true _ _) B)].
Qed.

Lemma forallb_ext' {A} (f g : A -> bool) l : (forall x, In x l -> f x = g x) -> forallb f l = forallb g l.
Proof. induction l as [|x l IH]; intro H; [reflexivity|]. cbn. rewrite (H x (or_introl eq_refl)), IH; [reflexivity|]. intros; apply H; right; assumption. Qed.

Section Region.
Variables (s : setup RNum) (p : dtp RNum) (f sd : list R -> R) (sel : list (hp RNum)) (Jk : list (nat * nat)) (id : nat) (nd : dnode RNum).
Hypothesis SO : setup_ok s.
Hypothesis RE : reaches s p.
Hypothesis HP : su_predict s = rowwise (N:=RNum) f sd.
Hypothesis HSel : convert_hyperparameters (su_sel s) (su_cs s) = Ok sel.
Hypothesis HC : Forall in_cube (su_samples s).
Hypothesis NJ : NoDup (map fst Jk).
Hypothesis HJ : forall j, In j (map fst Jk) <-> (j < length (su_cs s))%nat /\ not_selected (su_cs s) sel j.
Hypothesis HM : forall j k, In (j, k) Jk -> exists m, k = (m * (su_splits s + 1))%nat.
Hypothesis HS : spread_cells Jk (su_samples s).
Hypothesis HD : deref p id = Some nd.
Let lo := box_lo (su_cs s) (n_conds nd).
Let up := box_up (su_cs s) (n_conds nd).

Lemma spread_pos : forall Jk' rows, spread_cells Jk' rows -> forall j k, In (j, k) Jk' -> (0 < k)%nat.
Proof.
  induction Jk' as [|[j0 k0] Jk' IH]; intros rows H j k Hin; [destruct Hin|]. cbn in H. destruct H as (parts & n & Hk & Hn & Lp & Pp & Hparts). destruct Hin as [E|Hin]; [injection E as <- <-; exact Hk|].
  destruct parts as [|q parts]; [cbn in Lp; lia|]. destruct (Hparts 0%nat q eq_refl) as (_ & Hs & _). exact (IH q Hs j k Hin).
Qed.

Lemma region_closed : exists idx grid idxs Q, get_selected_idx sel (su_cs s) = Ok idx /\ grid_points (alg_of s sel) = Ok grid /\ length grid = (su_gpa s ^ length sel)%nat /\
  map qJk Q = Jk /\ Forall (ranged (su_cs s) (n_conds nd)) Q /\
  (forall j k, In (j, k) Jk -> ~ In j idx) /\
  Permutation (map (fun i => nth i (su_samples s) []) idxs) (filter (keep Q) (su_samples s)) /\
  r_x (n_region nd) = map (x_curve (N:=RNum) idx grid) (map (fun i => nth i (su_samples s) []) idxs) /\
  r_y (n_region nd) = map (fun row => map f (x_curve (N:=RNum) idx grid row)) (map (fun i => nth i (su_samples s) []) idxs) /\
  r_v (n_region nd) = map (fun row => map (fun r => sd r * sd r) (x_curve (N:=RNum) idx grid row)) (map (fun i => nth i (su_samples s) []) idxs).
Proof.
  pose proof SO as (ND & RC & G1). destruct (reaches_facts R_order_laws s p SO RE) as (root & dd & sel' & ns & F).
  assert (sel' = sel) by (pose proof (rf_sel _ _ _ _ _ _ F); congruence). subst sel'.
  pose proof (rf_ice _ _ _ _ _ _ F) as E. rewrite HP in E.
  destruct (rowwise_closed (alg_of s sel) f sd dd RC E) as (idx & grid & Hi & Hg & Lg & Ed).
  pose proof (deref_derived s p root dd sel ns id nd F HD) as De.
  destruct (derived_is_leaf_of_conditions s p root dd sel ns nd SO F De) as (_ & idxs & Hso & (Rx & Ry & Rv) & Hin).
  rewrite (rf_root _ _ _ _ _ _ F) in Rx, Ry, Rv, Hin. rewrite Ed in Rx, Ry, Rv, Hin. cbn [n_region r_x r_y r_v i_x i_y i_v alg_of a_samples] in Rx, Ry, Rv, Hin.
  destruct (never_split_selected R_order_laws s p SO RE) as (sel' & nots & Es & _ & HCo). assert (sel' = sel) by congruence. subst sel'. specialize (HCo id nd HD). rewrite Forall_forall in HCo.
  destruct (ranges_exist (su_cs s) (n_conds nd) (su_splits s)) with (Jk := Jk) as (Q & EQ & FQ).
  { intros c Hc. apply (HCo c Hc). }
  { intros j k Hjk. split; [exact (spread_pos Jk _ HS j k Hjk)|exact (HM j k Hjk)]. }
  assert (Hidx : forall j, In j idx <-> is_selected (su_cs s) sel j) by (intro j; apply (idx_selected (su_cs s) sel idx j ND Hi)).
  assert (Hno : forall j, In j (map fst Jk) -> ~ In j idx).
  { intros j Hj. rewrite Hidx. apply HJ in Hj as [_ Hns]. intros (h & Hh & Hn). exact (Hns h Hh Hn). }
  exists idx, grid, idxs, Q. refine (conj Hi (conj Hg (conj Lg (conj EQ (conj FQ (conj _ (conj _ (conj _ (conj _ _))))))))).
  - intros j k Hjk. apply Hno. apply in_map_iff. exists (j, k). auto.
  - (* which rows *)
    assert (Hgrid : exists gp, nth_error grid 0 = Some gp).
    { destruct grid as [|gp grid']; [|exists gp; reflexivity]. exfalso. cbn [length] in Lg. symmetry in Lg. unfold num_grid_points in Lg. cbn [alg_of a_gpa] in Lg. apply Nat.pow_nonzero in Lg; [exact Lg|lia]. }
    destruct Hgrid as (gp & Hgp).
    assert (HQJ : forall q, In q Q -> In (qj q) (map fst Jk)) by (intros q Hq; rewrite <- EQ, map_map; apply in_map_iff; exists q; auto).
    assert (K : forall i, (i < length (su_samples s))%nat -> In i idxs <-> keep Q (nth i (su_samples s) []) = true).
    { intros i Hi'. set (row := nth i (su_samples s) []). assert (Erow : nth_error (su_samples s) i = Some row) by (apply nth_error_nth'; exact Hi').
      assert (Hl : length row = length (su_cs s)) by (rewrite Forall_forall in RC; apply RC; eapply nth_error_In; exact Erow).
      assert (Hcu : in_cube row) by (rewrite Forall_forall in HC; apply HC; eapply nth_error_In; exact Erow).
      rewrite (kept_meets (su_cs s) (n_conds nd) Q row ND FQ); [|intros q Hq; pose proof (proj1 (proj1 (HJ _) (HQJ q Hq))) as Q0; rewrite <- Hl in Q0; exact Q0|exact Hcu|].
      - rewrite Hin. rewrite (rf_cs _ _ _ _ _ _ F). split.
        + intros (curve & Ec & Hall). rewrite nth_error_map, Erow in Ec. cbn in Ec. injection Ec as <-. rewrite Forall_forall in Hall |- *. intros c Hc.
          apply (curve_meets (su_cs s) sel idx grid gp row c Hidx Hgp); [apply (HCo c Hc)|apply (Hall c Hc)].
        + intro Hall. exists (x_curve (N:=RNum) idx grid row). split; [rewrite nth_error_map, Erow; reflexivity|]. rewrite Forall_forall in Hall |- *. intros c Hc.
          apply (curve_meets (su_cs s) sel idx grid gp row c Hidx Hgp); [apply (HCo c Hc)|apply (Hall c Hc)].
      - intros c Hc. destruct (HCo c Hc) as (Hcs & Hns & _ & Hv). split; [apply (split_vals_open _ _ Hv)|]. destruct (In_nth_error _ _ Hcs) as (j & Hj).
        assert (HjJ : In j (map fst Jk)) by (apply HJ; split; [eapply nth_error_Some_lt; exact Hj|]; intros h Eh; rewrite Hj in Eh; injection Eh as <-; exact Hns).
        rewrite <- EQ, map_map in HjJ. apply in_map_iff in HjJ as (q & Eq & Hq). exists q. split; [exact Hq|]. unfold about. cbn in Eq. rewrite Eq, Hj. apply String.eqb_refl. }
    apply picked_filter; [apply sorted_nodup; exact Hso| |exact K].
    intros i Hii. apply Hin in Hii as (curve & Ec & _). rewrite nth_error_map in Ec. destruct (nth_error (su_samples s) i) eqn:E0; [eapply nth_error_Some_lt; exact E0|discriminate].
  - rewrite map_map. apply (picked (x_curve (N:=RNum) idx grid) [] (su_samples s)). exact Rx.
  - rewrite map_map. exact (picked (fun row => map f (x_curve (N:=RNum) idx grid row)) [] (su_samples s) idxs _ Ry).
  - rewrite map_map. exact (picked (fun row => map (fun r => sd r * sd r) (x_curve (N:=RNum) idx grid row)) [] (su_samples s) idxs _ Rv).
Qed.

Lemma volume_cells cs conds : forall Q, Forall (ranged cs conds) Q -> volume (box_lo cs conds) (box_up cs conds) (map qj Q) * INR (cells Q) = INR (kept Q).
Proof.
  induction 1 as [|q Q (Hok & El & Eu) _ IH]; [cbn; lra|]. unfold volume, cells, kept in *. cbn [map fold_right]. rewrite !mult_INR. rewrite <- IH. rewrite El, Eu.
  assert (Pk : 0 < INR (qk q)) by (apply lt_0_INR; unfold qok in Hok; lia).
  assert (E : Rmax 0 (INR (qb q) / INR (qk q) - INR (qa q) / INR (qk q)) * INR (qk q) = INR (qb q - qa q)).
  { destruct (Nat.le_ge_cases (qa q) (qb q)) as [H|H].
    - rewrite Rmax_right by (pose proof (frac_le (qa q) (qb q) (qk q) (INR_lt 0 (qk q) Pk) H); lra). rewrite minus_INR by exact H. field. lra.
    - rewrite Rmax_left by (pose proof (frac_le (qb q) (qa q) (qk q) (INR_lt 0 (qk q) Pk) H); lra). replace (qb q - qa q)%nat with 0%nat by lia. cbn. lra. }
  rewrite <- E. ring.
Qed.
Lemma ranged_ok cs conds Q : Forall (ranged cs conds) Q -> Forall qok Q.
Proof. intro H. eapply Forall_impl; [|exact H]. intros q Hq. apply Hq. Qed.
Lemma qj_fst Q : map qJk Q = Jk -> map qj Q = map fst Jk.
Proof. intros <-. rewrite map_map. reflexivity. Qed.
Lemma cells_pos cs conds Q : Forall (ranged cs conds) Q -> (0 < cells Q)%nat.
Proof. induction 1 as [|q Q (Hok & _) _ IH]; [cbn; lia|]. unfold cells in *. cbn [map fold_right]. unfold qok in Hok. nia. Qed.

(** the number of the curves of a region is its share of the box *)
Theorem region_volume : INR (region_len (n_region nd)) = INR (length (su_samples s)) * volume lo up (map fst Jk).
Proof.
  destruct region_closed as (idx & grid & idxs & Q & Hi & Hg & Lg & EQ & FQ & _ & P & Ex & _). unfold region_len. rewrite Ex, map_length, (Permutation_length P).
  pose proof HS as HS'. rewrite <- EQ in HS'. pose proof (count_kept Q (su_samples s) (ranged_ok _ _ _ FQ) HS') as C. apply (f_equal INR) in C. rewrite !mult_INR in C.
  pose proof (volume_cells _ _ _ FQ) as V. rewrite (qj_fst Q EQ) in V. assert (Pc : 0 < INR (cells Q)) by (apply lt_0_INR; exact (cells_pos _ _ _ FQ)).
  apply (Rmult_eq_reg_r (INR (cells Q))); [|lra]. refine (eq_trans C _). fold lo up in V. rewrite <- V. symmetry. apply Rmult_assoc.
Qed.
Lemma kept_sides Q : (0 < kept Q)%nat -> forall q, In q Q -> (qa q < qb q)%nat.
Proof. unfold kept. induction Q as [|q' Q IH]; intros H q Hq; [destruct Hq|]. cbn [map fold_right] in H. destruct Hq as [->|Hq]; [nia|apply IH; [nia|exact Hq]]. Qed.
(** the region of a node has curves exactly if its box is not flat *)
Theorem region_box : region_len (n_region nd) <> 0%nat <-> (forall j, In j (map fst Jk) -> 0 <= lo j < up j /\ up j <= 1).
Proof.
  destruct region_closed as (idx & grid & idxs & Q & Hi & Hg & Lg & EQ & FQ & _ & P & Ex & _).
  pose proof HS as HS'. rewrite <- EQ in HS'. pose proof (count_kept Q (su_samples s) (ranged_ok _ _ _ FQ) HS') as C0.
  assert (C : (length (map (fun i => nth i (su_samples s) []) idxs) * cells Q = length (su_samples s) * kept Q)%nat) by (rewrite (Permutation_length P); exact C0). clear C0.
  assert (EL : region_len (n_region nd) = length (map (fun i => nth i (su_samples s) []) idxs)) by (unfold region_len; rewrite Ex, map_length; reflexivity). rewrite <- EL in C.
  pose proof (cells_pos _ _ _ FQ) as Pc. pose proof (spread_cells_nonempty _ _ HS) as NE. assert (LS : (0 < length (su_samples s))%nat) by (destruct (su_samples s); [contradiction|cbn; lia]).
  split.
  - intros Hn j Hj. assert (Pk : (0 < kept Q)%nat) by nia. rewrite <- (qj_fst Q EQ) in Hj. apply in_map_iff in Hj as (q & <- & Hq). pose proof (kept_sides Q Pk q Hq) as Hab.
    rewrite Forall_forall in FQ. destruct (FQ q Hq) as (Hok & El & Eu). unfold lo, up. rewrite El, Eu. unfold qok in Hok. assert (P0 : 0 < INR (qk q)) by (apply lt_0_INR; lia). split; [split|].
    + apply Rmult_le_pos; [apply pos_INR|left; apply Rinv_0_lt_compat; exact P0].
    + apply Rmult_lt_compat_r; [apply Rinv_0_lt_compat; exact P0|apply lt_INR; exact Hab].
    + replace 1 with (INR (qk q) / INR (qk q)) by (field; lra). apply frac_le; lia.
  - intros HB E0. pose proof region_volume as V. rewrite E0 in V. cbn in V. symmetry in V. apply Rmult_integral in V as [V|V]; [change (INR (length (su_samples s)) = 0) in V; apply lt_0_INR in LS; lra|].
    assert (Pv : forall J, (forall j, In j J -> 0 <= lo j < up j /\ up j <= 1) -> 0 < volume lo up J).
    { induction J as [|j J IH]; intro H; unfold volume in *; cbn [map fold_right]; [lra|]. apply Rmult_lt_0_compat; [|apply IH; intros; apply H; right; assumption]. destruct (H j (or_introl eq_refl)). rewrite Rmax_right; lra. }
    pose proof (Pv _ HB). lra.
Qed.

Lemma region_near (F : list R -> R) (L : nat -> R) g base idx grid gp idxs Q (lmn : list (list R)) :
  get_selected_idx sel (su_cs s) = Ok idx -> grid_points (alg_of s sel) = Ok grid -> nth_error grid g = Some gp -> map qJk Q = Jk -> Forall (ranged (su_cs s) (n_conds nd)) Q ->
  (forall j k, In (j, k) Jk -> ~ In j idx) -> Permutation (map (fun i => nth i (su_samples s) []) idxs) (filter (keep Q) (su_samples s)) ->
  r_x (n_region nd) = map (x_curve (N:=RNum) idx grid) (map (fun i => nth i (su_samples s) []) idxs) ->
  lmn = map (fun row => map F (x_curve (N:=RNum) idx grid row)) (map (fun i => nth i (su_samples s) []) idxs) ->
  region_len (n_region nd) <> 0%nat -> region_at (su_cs s) sel (n_region nd) g base ->
  (forall j, In j (map fst Jk) -> lipschitz_in (length (su_cs s)) j (L j) F) ->
  exists y : R, nth_error (mean_axis0 (N:=RNum) (width lmn) lmn) g = Some y /\ Rabs (y - box_average lo up (map fst Jk) F base) <= spread_error L Jk.
Proof.
  intros Hi Hg Hn EQ FQ Hno P Ex Em Hne (Hb & Hbc & Hagree) HL. pose proof SO as (ND & RC & G1). set (rows := map (fun i => nth i (su_samples s) []) idxs) in *.
  assert (EL : region_len (n_region nd) = length rows) by (unfold region_len; rewrite Ex, map_length; reflexivity).
  assert (W : width lmn = length grid).
  { rewrite Em. destruct rows as [|row rows']; [cbn in EL; contradiction|]. cbn [map width]. rewrite map_length. unfold x_curve. apply map_length. }
  assert (Gl : (g < length grid)%nat) by (eapply nth_error_Some_lt; exact Hn).
  assert (Hcol : nth_error (mean_axis0 (N:=RNum) (width lmn) lmn) g = Some (Rmean (map (fun row => F (assign_row (A:=RNum) idx gp row)) rows))).
  { rewrite W. unfold mean_axis0. rewrite nth_error_map, (nth_error_nth' _ 0%nat) by (rewrite seq_length; exact Gl). rewrite seq_nth by exact Gl. cbn [option_map plus].
    apply (f_equal (@Some R)). rewrite nmean_R. unfold column. rewrite Em, map_map. apply (f_equal Rmean). apply map_ext. intro row. apply nth_error_nth. exact (map_nth_error F _ _ (map_nth_error (fun gp0 => assign_row (A:=RNum) idx gp0 row) _ _ Hn)). }
  eexists. split; [exact Hcol|].
  rewrite (Rmean_perm _ (map F (filter (keep Q) (map (assign_row (A:=RNum) idx gp) (su_samples s))))).
  2:{ rewrite filter_map_comm. rewrite map_map. apply Permutation_map. eapply Permutation_trans; [exact P|]. apply perm_eq. apply filter_ext. intro row. unfold keep. apply forallb_ext'.
      intros q Hq. unfold keep1. rewrite (assign_other (N:=RNum)); [reflexivity|]. apply (Hno (qj q) (qk q)). rewrite <- EQ. apply in_map_iff. exists q. auto. }
  assert (Hidx : forall j, In j idx <-> is_selected (su_cs s) sel j) by (intro j; apply (idx_selected (su_cs s) sel idx j ND Hi)).
  pose proof HS as HS'. rewrite <- EQ in HS'. rewrite <- (qj_fst Q EQ). rewrite <- EQ.
  assert (HQJ : forall q, In q Q -> In (qj q) (map fst Jk)) by (intros q Hq; rewrite <- EQ, map_map; apply in_map_iff; exists q; auto).
  apply (kept_mean (length (su_cs s))).
  - rewrite (qj_fst Q EQ). exact NJ.
  - exact (ranged_ok _ _ _ FQ).
  - intros q Hq. rewrite Forall_forall in FQ. destruct (FQ q Hq) as (Hok & El & Eu). split; [|split; assumption].
    pose proof (proj1 region_box Hne (qj q) (HQJ q Hq)) as [[_ B] _]. unfold lo, up in B. rewrite El, Eu in B. unfold qok in Hok. assert (P0 : 0 < INR (qk q)) by (apply lt_0_INR; lia).
    apply INR_lt. apply (Rmult_lt_reg_r (/ INR (qk q))); [apply Rinv_0_lt_compat; exact P0|exact B].
  - intros q Hq. split; [apply (HJ (qj q)); auto|]. apply HL. auto.
  - apply spread_cells_map; [|exact HS']. intros row j k Hjk. rewrite EQ in Hjk. apply (assign_other (N:=RNum)). exact (Hno j k Hjk).
  - exact Hb.
  - exact Hbc.
  - apply Forall_map. apply Forall_forall. intros row Hin.
    assert (Hlr : length row = length (su_cs s)) by (exact (proj1 (Forall_forall _ _) RC row Hin)).
    split; [exact (eq_trans (assign_row_length _ _ _) Hlr)|]. split.
    + apply assign_unit; [exact (grid_unit _ grid g gp Hg Hn)|exact (proj1 (Forall_forall _ _) HC row Hin)].
    + intros j Hj. rewrite (qj_fst Q EQ) in Hj. destruct (Nat.lt_ge_cases j (length (su_cs s))) as [Hlt|Hge].
      * assert (Hsel : In j idx).
        { destruct (in_dec Nat.eq_dec j idx) as [|Hn0]; [assumption|]. exfalso. apply Hj. apply HJ. split; [exact Hlt|]. apply not_selected_iff; [exact Hlt|]. rewrite <- Hidx. exact Hn0. }
        destruct rows as [|row0 rows'] eqn:Er; [cbn in EL; contradiction|].
        assert (H0 : at3 (r_x (n_region nd)) 0 g = Some (assign_row (A:=RNum) idx gp row0)) by (rewrite Ex, at3_closed, Hn; reflexivity).
        rewrite (Hagree 0%nat _ j H0 (proj1 (Hidx j) Hsel)).
        assert (Hin0 : In row0 (su_samples s)) by (assert (In row0 (filter (keep Q) (su_samples s))) as I0 by (eapply Permutation_in; [exact P|left; reflexivity]); apply filter_In in I0; apply I0).
        apply (assign_agree (N:=RNum)); [exact (grid_row_len (alg_of s sel) idx grid g gp Hi Hg Hn)| |left; exact Hsel].
        rewrite Hlr. symmetry. exact (proj1 (Forall_forall _ _) RC row0 Hin0).
      * rewrite (proj2 (nth_error_None _ _)) by (rewrite (eq_trans (assign_row_length _ _ _) Hlr); exact Hge). symmetry. apply nth_error_None. rewrite Hb. exact Hge.
Qed.

(** the PDP of a region is close to the average over its box *)
Theorem region_pdp_near (L : nat -> R) g base : region_len (n_region nd) <> 0%nat -> (g < su_gpa s ^ length sel)%nat -> region_at (su_cs s) sel (n_region nd) g base ->
  ((forall j, In j (map fst Jk) -> lipschitz_in (length (su_cs s)) j (L j) f) ->
     exists y : R, nth_error (region_pdp_y (n_region nd)) g = Some y /\ Rabs (y - box_average lo up (map fst Jk) f base) <= spread_error L Jk) /\
  ((forall j, In j (map fst Jk) -> lipschitz_in (length (su_cs s)) j (L j) (fun r => sd r * sd r)) ->
     exists v : R, nth_error (region_pdp_v (n_region nd)) g = Some v /\ Rabs (v - box_average lo up (map fst Jk) (fun r => sd r * sd r) base) <= spread_error L Jk).
Proof.
  intros Hne Hg0 Hb. destruct region_closed as (idx & grid & idxs & Q & Hi & Hg & Lg & EQ & FQ & Hno & P & Ex & Ey & Ev).
  destruct (nth_error grid g) as [gp|] eqn:E; [|apply nth_error_None in E; lia].
  split; intro HL; [apply (region_near f L g base idx grid gp idxs Q)|apply (region_near (fun r => sd r * sd r) L g base idx grid gp idxs Q)]; assumption.
Qed.
(** the row of any of its curves can be taken *)
Theorem region_row_at i g row : at3 (r_x (n_region nd)) i g = Some row -> region_at (su_cs s) sel (n_region nd) g row.
Proof.
  pose proof SO as (ND & RC & G1). destruct region_closed as (idx & grid & idxs & Q & Hi & Hg & Lg & EQ & FQ & Hno & P & Ex & Ey & Ev). set (rows := map (fun i => nth i (su_samples s) []) idxs) in *.
  assert (Hrows : forall r, In r rows -> length r = length (su_cs s) /\ in_cube r).
  { intros r Hr. assert (In r (su_samples s)) as Hs by (assert (In r (filter (keep Q) (su_samples s))) as I0 by (eapply Permutation_in; [exact P|exact Hr]); apply filter_In in I0; apply I0).
    split; [exact (proj1 (Forall_forall _ _) RC r Hs)|exact (proj1 (Forall_forall _ _) HC r Hs)]. }
  assert (K : forall i row, at3 (r_x (n_region nd)) i g = Some row -> exists gp r, nth_error grid g = Some gp /\ In r rows /\ row = assign_row (A:=RNum) idx gp r).
  { intros i0 row0 H. rewrite Ex, at3_closed in H. destruct (nth_error rows i0) as [r|] eqn:Er; [|discriminate]. destruct (nth_error grid g) as [gp|] eqn:Eg; [|discriminate]. injection H as <-. exists gp, r. split; [reflexivity|]. split; [exact (nth_error_In _ _ Er)|reflexivity]. }
  intro H. destruct (K i row H) as (gp & r & Eg & Hr & ->). destruct (Hrows r Hr) as [Lr Cr]. split; [exact (eq_trans (assign_row_length _ _ _) Lr)|].
  split; [apply assign_unit; [exact (grid_unit _ grid g gp Hg Eg)|exact Cr]|].
  intros i' row' j H' Hsel. destruct (K i' row' H') as (gp' & r' & Eg' & Hr' & ->). assert (gp' = gp) by congruence. subst gp'. destruct (Hrows r' Hr') as [Lr' _].
  apply (assign_agree (N:=RNum)); [exact (grid_row_len (alg_of s sel) idx grid g gp Hi Hg Eg)|congruence|left; apply (idx_selected (su_cs s) sel idx j ND Hi); exact Hsel].
Qed.
End Region.
