(** BoxExamples.v - full grids, and concrete cases for C116. *)
From Coq Require Import Reals Lra Sorted.
From Coquelicot Require Import Coquelicot.
From Verif Require Import Base Num NumLaws NumpyModel ConfigSpaceModel UtilsModel IceModel PartitionModel PartitionSpec ListLemmas IceProofs IceProofs2 UtilsProofs
  RealProofs RealSums IceReal IceShapeSpec IceShapeProofs IceShapeReal PartitionProofs PartitionProofs2 PartitionProofs3 PartitionProofs4 PartitionProofs6 PartitionReal
  GainSpec GainReal SyntheticModel SpreadSpec SpreadProofs SpreadSynSpec SpreadIce SpreadGrid SpreadSynthetic SpreadExamples BoxSpec BoxProofs BoxRegion.
Local Open Scope R_scope.
Local Open Scope list_scope.

(** ** full grids *)
Theorem grid_spread_cells : forall Jk axes, Forall (fun axis => axis <> []) axes -> NoDup (map fst Jk) ->
  (forall j k, In (j, k) Jk -> exists axis, nth_error axes j = Some axis /\ length axis = k /\ lower_cell_axis axis) -> spread_cells Jk (grid_rows axes).
Proof.
  induction Jk as [|[j k] Jk IH]; intros axes F ND H; [apply grid_nonempty; exact F|]. cbn [spread_cells]. cbn [map fst] in ND. inversion ND as [|? ? Hj ND']; subst.
  destruct (H j k (or_introl eq_refl)) as (axis & Ea & La & Ca). set (parts := map (fun x => grid_rows (set_nth j [x] axes)) axis).
  assert (Hne : axis <> []) by (rewrite Forall_forall in F; apply F; eapply nth_error_In; exact Ea).
  assert (Hk : (0 < k)%nat) by (destruct axis; [congruence|cbn in La; lia]).
  exists parts, (length (grid_rows (set_nth j [0] axes))). refine (conj Hk (conj _ (conj _ (conj _ _)))).
  - pose proof (grid_nonempty _ (set_nonempty j 0 axes F)). destruct (grid_rows (set_nth j [0] axes)); [congruence|cbn; lia].
  - unfold parts. rewrite map_length. exact La.
  - unfold parts. rewrite <- flat_map_concat_map. apply grid_by_column. exact Ea.
  - intros i p Hp. destruct (nth_flat _ _ _ _ Hp) as (x & Hx & ->). assert (Lj : (j < length axes)%nat) by (eapply nth_error_Some_lt; exact Ea).
    refine (conj _ (conj _ _)).
    + rewrite !grid_length. f_equal. apply lengths_set.
    + apply IH; [apply set_nonempty; exact F|exact ND'|]. intros j' k' Hin. destruct (H j' k' (or_intror Hin)) as (axis' & E' & R'). exists axis'. split; [|exact R'].
      rewrite nth_error_set_nth_neq; [exact E'|]. intros ->. apply Hj. apply in_map_iff. exists (j', k'). auto.
    + apply Forall_forall. intros row Hrow. destruct (grid_columns _ _ Hrow) as [_ G]. destruct (G j [x]) as (y & Hy & [<-|[]]); [apply nth_error_set_nth_eq; exact Lj|].
      exists x. split; [exact Hy|]. rewrite <- La. apply Ca. exact Hx.
Qed.
Lemma evenly_lower_cells axis k : evenly 0 1 axis k -> lower_cell_axis axis.
Proof.
  intros Hev i x Hi. pose proof (evenly_cells axis k Hev i x Hi) as B. destruct Hev as [La H]. assert (Li : (i < k)%nat) by (rewrite <- La; eapply nth_error_Some_lt; exact Hi).
  pose proof Hi as Hi'. rewrite (H i Li) in Hi'. injection Hi' as Ex. rewrite La in B |- *. assert (Pk : 0 < INR k) by (apply lt_0_INR; lia).
  split; [eapply Rle_trans; [|apply B]; apply Rmult_le_pos; [apply pos_INR|left; apply Rinv_0_lt_compat; exact Pk]|]. split; [|apply B].
  destruct (Nat.eq_dec i 0) as [->|Hi0]; [left; reflexivity|right]. rewrite <- Ex. destruct (Nat.eqb_spec k 1) as [->|Hk]; [lia|].
  assert (P : 0 < INR (k - 1)) by (apply lt_0_INR; lia). assert (Q : 0 < INR i) by (apply lt_0_INR; lia). assert (E : INR k = INR (k - 1) + 1) by (rewrite <- S_INR; f_equal; lia).
  replace (0 + INR i * ((1 - 0) / INR (k - 1))) with (INR i / INR (k - 1)) by (field; lra). apply Rmult_lt_compat_l; [exact Q|]. apply Rinv_lt_contravar; [apply Rmult_lt_0_compat; lra|lra].
Qed.

(** ** a step at 1/2: a partition with two regions, the number of samples arbitrary *)
Definition bx_step (row : list R) : R := if Rle_dec (nth 1 row 0) (1 / 2) then 1 else 3.
Definition bx_setup (m : nat) : setup RNum :=
  mksetup [sp1; sp2] (rowwise (N:=RNum) (exact_model [sp1; sp2]) bx_step) (SelOne (SName "x1")) (grid_rows (sp_axes (2 * m)) : list (list RNum)) 3 1 1 None.
Lemma bx_ok m : setup_ok (bx_setup m).
Proof.
  split; [exact sp_names|]. split; [|cbn; lia]. apply Forall_forall. intros row H. exact (proj1 (sp_rows (2 * m) row H)).
Qed.
Lemma bx_spread m : (0 < m)%nat -> spread_cells [(1%nat, (2 * m)%nat)] (grid_rows (sp_axes (2 * m))).
Proof.
  intro Hm. apply grid_spread_cells.
  - unfold sp_axes. apply Forall_cons; [discriminate|apply Forall_cons; [|apply Forall_nil]]. intro E. pose proof (f_equal (@length R) E) as Q. rewrite (proj1 (linspace_R 0 1 (2 * m))) in Q. cbn in Q. lia.
  - repeat constructor. intros [].
  - intros j k' [E|[]]. injection E as <- <-. exists (linspace (N:=RNum) (0 : R) (1 : R) (2 * m)). split; [reflexivity|]. split; [apply (proj1 (linspace_R 0 1 (2 * m)))|]. apply (evenly_lower_cells _ (2 * m)). apply linspace_R.
Qed.
Lemma bx_construct m : exists p0, construct (bx_setup m) = Ok p0.
Proof.
  apply (construct_total (bx_setup m) [sp1]).
  - apply bx_ok. - reflexivity. - discriminate. - repeat constructor. - discriminate.
  - intro rows. do 2 eexists. refine (conj eq_refl (conj _ _)); apply map_length.
Qed.
Lemma bx_row m i : (i < 2 * m)%nat -> In [0; INR i / INR (2 * m - 1)] (grid_rows (sp_axes (2 * m))).
Proof.
  intro Hi. destruct (linspace_R 0 1 (2 * m)) as [L H]. specialize (H i Hi). cbn [grid_rows sp_axes flat_map]. rewrite app_nil_r. apply in_map. apply in_flat_map. exists (INR i / INR (2 * m - 1)). split; [|left; reflexivity].
  apply nth_error_In with i. rewrite H. f_equal. destruct (Nat.eqb_spec (2 * m) 1) as [E|E]; [lia|]. field. apply not_0_INR. lia.
Qed.
Lemma in_filter_pos {A} (f : A -> bool) l x : In x l -> f x = true -> (1 <= length (filter f l))%nat.
Proof. intros H E. assert (I : In x (filter f l)) by (apply filter_In; auto). destruct (filter f l); [destruct I|cbn; lia]. Qed.
Lemma bx_counts m : (0 < m)%nat -> (1 <= length (filter (at_most 1 (1 / 2)) (grid_rows (sp_axes (2 * m)))))%nat /\
  (1 <= length (filter (fun row => negb (at_most 1 (1 / 2) row)) (grid_rows (sp_axes (2 * m)))))%nat.
Proof.
  intro Hm. assert (P : 0 < INR (2 * m - 1)) by (apply lt_0_INR; lia). split.
  - apply (in_filter_pos _ _ _ (bx_row m 0 ltac:(lia))). unfold at_most. cbn [nth INR]. apply Rleb_true. unfold Rdiv. rewrite Rmult_0_l. lra.
  - apply (in_filter_pos _ _ _ (bx_row m (2 * m - 1) ltac:(lia))). unfold at_most. cbn [nth]. replace (INR (2 * m - 1) / INR (2 * m - 1)) with 1 by (field; lra).
    apply negb_true_iff. destruct (Rleb_spec 1 (1 / 2)); [lra|reflexivity].
Qed.
Lemma bx_step_at P : step_at P 1 (1 / 2) bx_step.
Proof.
  intros r r' L _ H. unfold bx_step. destruct (Nat.lt_ge_cases 1 (length r)) as [Hl|Hl].
  - specialize (H (nth 1 r 0) (nth 1 r' 0) (nth_error_nth' _ _ Hl) (nth_error_nth' _ _ (Nat.lt_le_trans _ _ _ Hl (Nat.eq_le_incl _ _ L)))).
    destruct (Rle_dec (nth 1 r 0) (1 / 2)), (Rle_dec (nth 1 r' 0) (1 / 2)); tauto.
  - rewrite (nth_overflow r), (nth_overflow r') by lia. reflexivity.
Qed.
Lemma bx_rest j : In j (map fst [(1%nat, 7%nat)]) <-> (j < length [sp1; sp2])%nat /\ not_selected (N:=RNum) [sp1; sp2] [sp1] j.
Proof. exact (sp_rest 0 j). Qed.
Lemma len_sum {A} (l : list (list A)) : length (concat l) = fold_right Nat.add 0%nat (map (@length A) l).
Proof. induction l as [|x l IH]; [reflexivity|]. cbn. rewrite app_length, IH. reflexivity. Qed.
Lemma less_than_all (l : list nat) : (2 <= length l)%nat -> Forall (fun x => 1 <= x)%nat l -> Forall (fun x => x < fold_right Nat.add 0 l)%nat l.
Proof.
  intros H F. apply Forall_forall. intros x Hx. apply in_split in Hx as (a & b & ->). rewrite fold_right_app. cbn [fold_right]. apply Forall_app in F as [Fa Fb]. inversion Fb as [|? ? _ Fb']; subst. rewrite app_length in H. cbn in H.
  assert (S : forall l y, Forall (fun x => 1 <= x)%nat l -> (length l + y <= fold_right Nat.add y l)%nat).
  { clear. induction l as [|z l IH]; intros y F; cbn; [lia|]. inversion F; subst. specialize (IH y H2). lia. }
  pose proof (S a (x + fold_right Nat.add 0 b)%nat Fa). pose proof (S b 0%nat Fb'). lia.
Qed.
Lemma F2_length {A B} (R0 : A -> B -> Prop) l l' : Forall2 R0 l l' -> length l = length l'.
Proof. induction 1; cbn; congruence. Qed.
Lemma F2_in_l {A B} (R0 : A -> B -> Prop) l l' x : Forall2 R0 l l' -> In x l -> exists y, In y l' /\ R0 x y.
Proof. induction 1 as [|a b l l' H _ IH]; [intros []|]. intros [->|H0]; [exists b; split; [left; reflexivity|exact H]|]. destruct (IH H0) as (y & Hy & Hr). exists y. split; [right; exact Hy|exact Hr]. Qed.

Theorem bx_close m : (0 < m)%nat -> exists p0 p' ids, construct (bx_setup m) = Ok p0 /\ partition p0 1 = (p', Ok ids) /\ (2 <= length ids)%nat /\
  forall id, In id ids -> exists nd a, deref p' id = Some nd /\ region_len (n_region nd) = m /\ (a = 0 \/ a = 1 / 2) /\
    forall g base, (g < 3)%nat -> region_at [sp1; sp2] [sp1] (n_region nd) g base -> exists y : R, nth_error (region_pdp_y (n_region nd)) g = Some y /\
      Rabs (y - 2 * RInt (fun t => exact_model [sp1; sp2] (set_nth 1 t base)) a (a + 1 / 2)) <= 1725 / INR (2 * m).
Proof.
  intro Hm. destruct (bx_construct m) as (p0 & E0). exists p0. pose proof (bx_ok m) as SO. set (s := bx_setup m) in *.
  assert (RE : reaches s p0) by (exists p0, []; split; [exact E0|reflexivity]).
  assert (V : possible_split_vals (N:=RNum) 1 = [1 / 2]) by (rewrite split_vals_R; cbn; f_equal; field).
  destruct (step_recovered s p0 1 (exact_model [sp1; sp2]) bx_step [sp1] 1 sp2 (1 / 2) SO RE ltac:(lia) eq_refl eq_refl eq_refl) as (p' & ids & leaves & Ep & Fl & L2 & _).
  - split; [cbn; auto|]. split; [|discriminate]. intros sel E. cbn in E. injection E as <-. cbn. intuition discriminate.
  - cbn [s bx_setup su_splits]. rewrite V. left. reflexivity.
  - apply bx_step_at.
  - apply (bx_counts m Hm).
  - apply (bx_counts m Hm).
  - cbn [s bx_setup su_samples]. destruct (bx_counts m Hm) as [A B]. pose proof (grid_length (sp_axes (2 * m))) as G. cbn [sp_axes map fold_right length] in G. rewrite (proj1 (linspace_R 0 1 (2 * m))) in G.
    change (2 <= length (grid_rows (sp_axes (2 * m))))%nat. cbn [sp_axes]. lia.
  - exists p', ids. split; [exact E0|]. split; [exact Ep|]. split; [exact L2|]. intros id Hid.
    assert (RE' : reaches s p') by (pose proof (reaches_partition s p0 1 RE) as Q; rewrite Ep in Q; exact Q).
    destruct (F2_in_l _ _ _ id Fl Hid) as (nd & Hnd & HD). exists nd.
    assert (HC : Forall in_cube (su_samples s)) by (apply Forall_forall; intros row H; apply (sp_rows (2 * m) row H)).
    assert (NJ : NoDup (map fst [(1%nat, (2 * m)%nat)])) by (repeat constructor; intros []).
    assert (HM : forall j k, In (j, k) [(1%nat, (2 * m)%nat)] -> exists m', k = (m' * (su_splits s + 1))%nat) by (intros j k [E|[]]; injection E as <- <-; exists m; cbn; lia).
    pose proof (bx_spread m Hm) as HS.
    assert (Vol : forall id' nd', deref p' id' = Some nd' -> INR (region_len (n_region nd')) = INR (2 * m) * volume (box_lo [sp1; sp2] (n_conds nd')) (box_up [sp1; sp2] (n_conds nd')) [1%nat]).
    { intros id' nd' HD'. pose proof (region_volume s p' (exact_model [sp1; sp2]) bx_step [sp1] [(1%nat, (2 * m)%nat)] id' nd' SO RE' eq_refl eq_refl HC NJ bx_rest HM HS HD') as Q. refine (eq_trans Q _). f_equal. f_equal.
      pose proof (grid_length (sp_axes (2 * m))) as G. cbn [sp_axes map fold_right length] in G. rewrite (proj1 (linspace_R 0 1 (2 * m))) in G. refine (eq_trans G _). lia. }
    assert (P2 : 0 < INR (2 * m)) by (apply lt_0_INR; lia).
    assert (Co : forall id' nd', deref p' id' = Some nd' -> n_depth nd' = length (n_conds nd') /\ forall c, In c (n_conds nd') -> about [sp1; sp2] 1 c = true /\ (c_val c = 1 / 2 :> R)).
    { intros id' nd' HD'. destruct (reaches_facts R_order_laws s p' SO RE') as (root & dd & sel' & ns & F).
      split; [exact (proj1 (derived_is_leaf_of_conditions s p' root dd sel' ns nd' SO F (deref_derived s p' root dd sel' ns id' nd' F HD')))|].
      destruct (never_split_selected R_order_laws s p' SO RE') as (sel & nots & Es & _ & HCo). cbn in Es. injection Es as <-. specialize (HCo id' nd' HD'). rewrite Forall_forall in HCo.
      intros c Hc. destruct (HCo c Hc) as (Hin & Hns & _ & Hv). cbn [s bx_setup su_splits] in Hv. rewrite V in Hv. destruct Hv as [Hv|[]]. split; [|symmetry; exact Hv].
      destruct Hin as [E|[E|[]]]; [exfalso; apply Hns; rewrite <- E; left; reflexivity|]. unfold about. cbn [nth_error]. rewrite <- E. reflexivity. }
    assert (Full : forall id' nd', deref p' id' = Some nd' -> n_conds nd' = [] -> region_len (n_region nd') = (2 * m)%nat).
    { intros id' nd' HD' Ec. specialize (Vol id' nd' HD'). rewrite Ec in Vol. unfold volume in Vol. cbn in Vol. rewrite Rmax_right in Vol by lra. apply INR_eq. rewrite Vol. cbn. ring. }
    assert (Pos : forall id' nd', deref p' id' = Some nd' -> (1 <= region_len (n_region nd'))%nat).
    { intros id' nd' HD'. destruct (min_points_respected R_order_laws s p' SO RE' id' nd' HD') as [H|H]; [|exact H]. rewrite (Full id' nd' HD'); [lia|]. destruct (Co id' nd' HD') as [D _]. rewrite H in D. destruct (n_conds nd'); [reflexivity|discriminate]. }
    assert (Lt : (region_len (n_region nd) < 2 * m)%nat).
    { destruct (leaves_partition_curves R_order_laws s p0 1 SO (R_no_nan s) (R_splits_ordinary s) RE ltac:(lia)) as (p'' & ids'' & leaves'' & root & parts & Ep'' & Fl'' & _ & _ & _ & Pp & _ & Fp).
      rewrite Ep in Ep''. injection Ep'' as <- <-.
      assert (leaves'' = leaves) by (clear - Fl Fl''; revert leaves'' Fl''; induction Fl as [|i n l l' H _ IH]; intros l'' F; inversion F as [|? n' ? ? H' F']; subst; [reflexivity|]; f_equal; [congruence|apply IH; exact F']). subst leaves''.
      assert (LP : map (@length nat) parts = map (fun n : dnode RNum => region_len (n_region n)) leaves) by (clear - Fp; induction Fp as [|i n l l' (H & _) _ IH]; [reflexivity|]; cbn; f_equal; [exact (F2_length _ _ _ H)|exact IH]).
      pose proof (Permutation_length Pp) as PL. rewrite len_sum, LP, seq_length in PL.
      assert (LS : length (su_samples s) = (2 * m)%nat) by (pose proof (grid_length (sp_axes (2 * m))) as G; cbn [sp_axes map fold_right length] in G; rewrite (proj1 (linspace_R 0 1 (2 * m))) in G; refine (eq_trans G _); lia).
      assert (LTA : Forall (fun x => x < fold_right Nat.add 0 (map (fun n : dnode RNum => region_len (n_region n)) leaves))%nat (map (fun n : dnode RNum => region_len (n_region n)) leaves)).
      { apply less_than_all; [rewrite map_length, <- (F2_length _ _ _ Fl); exact L2|]. apply Forall_map. clear - Fl Pos. induction Fl as [|i n l l' H _ IH]; constructor; [exact (Pos i n H)|exact IH]. }
      rewrite Forall_forall in LTA. specialize (LTA _ (in_map _ _ _ Hnd)). rewrite PL, LS in LTA. exact LTA. }
    assert (Hc : exists c rest, n_conds nd = c :: rest) by (destruct (n_conds nd) as [|c rest] eqn:E; [rewrite (Full id nd HD E) in Lt; lia|eauto]). destruct Hc as (c & rest & Ec).
    pose proof (proj1 (region_box s p' (exact_model [sp1; sp2]) bx_step [sp1] [(1%nat, (2 * m)%nat)] id nd SO RE' eq_refl eq_refl HC NJ bx_rest HM HS HD) ltac:(pose proof (Pos id nd HD); lia) 1%nat (or_introl eq_refl)) as Bx.
    change (0 <= box_lo [sp1; sp2] (n_conds nd) 1 < box_up [sp1; sp2] (n_conds nd) 1 /\ box_up [sp1; sp2] (n_conds nd) 1 <= 1) in Bx.
    assert (Blo : box_lo [sp1; sp2] (n_conds nd) 1 = 0 \/ box_lo [sp1; sp2] (n_conds nd) 1 = 1 / 2).
    { destruct (proj1 (fold_max_in (map (fun c : cond RNum => (c_val c : R)) (filter (fun c => about [sp1; sp2] 1 c && negb (c_le c)) (n_conds nd))))) as [Z|Hi]; [left; exact Z|right].
      apply in_map_iff in Hi as (c' & E' & Hc'). apply filter_In in Hc' as [Hc' _]. unfold box_lo. rewrite <- E'. apply (Co id nd HD). exact Hc'. }
    assert (Bup : box_up [sp1; sp2] (n_conds nd) 1 = 1 \/ box_up [sp1; sp2] (n_conds nd) 1 = 1 / 2).
    { destruct (proj1 (fold_min_in (map (fun c : cond RNum => (c_val c : R)) (filter (fun c => about [sp1; sp2] 1 c && c_le c) (n_conds nd))))) as [Z|Hi]; [left; exact Z|right].
      apply in_map_iff in Hi as (c' & E' & Hc'). apply filter_In in Hc' as [Hc' _]. unfold box_up. rewrite <- E'. apply (Co id nd HD). exact Hc'. }
    assert (Some_c : 1 / 2 <= box_lo [sp1; sp2] (n_conds nd) 1 \/ box_up [sp1; sp2] (n_conds nd) 1 <= 1 / 2).
    { destruct (proj2 (Co id nd HD) c) as [Hab Hv]; [rewrite Ec; left; reflexivity|]. rewrite <- Hv. destruct (c_le c) eqn:Ele.
      - right. apply (proj2 (proj2 (fold_min_in _))). apply in_map_iff. exists c. split; [reflexivity|]. apply filter_In. rewrite Hab, Ele, Ec. split; [left|]; reflexivity.
      - left. apply (proj2 (proj2 (fold_max_in _))). apply in_map_iff. exists c. split; [reflexivity|]. apply filter_In. rewrite Hab, Ele, Ec. split; [left|]; reflexivity. }
    set (lo1 := box_lo [sp1; sp2] (n_conds nd) 1) in *. set (up1 := box_up [sp1; sp2] (n_conds nd) 1) in *.
    assert (Eu : up1 = lo1 + 1 / 2) by lra.
    exists lo1. split; [exact HD|]. split; [|split; [exact Blo|]].
    + apply INR_eq. rewrite (Vol id nd HD). unfold volume. cbn [map fold_right]. fold lo1 up1. rewrite Eu, Rmax_right by lra. rewrite mult_INR. cbn [INR]. field.
    + intros g base Hg Hb.
      destruct (proj1 (region_pdp_near s p' (exact_model [sp1; sp2]) bx_step [sp1] [(1%nat, (2 * m)%nat)] id nd SO RE' eq_refl eq_refl HC NJ bx_rest HM HS HD (fun _ => 1725) g base ltac:(pose proof (Pos id nd HD); lia) Hg Hb)) as (y & Ey & By).
      * intros j [<-|[]]. cbn [fst]. pose proof (exact_lip [sp1; sp2] (345 / 2) 1 sp_linear sp_names ltac:(cbn; lia)) as Q. replace 1725 with (345 / 2 * hp_width (hpn [sp1; sp2] 1)) by (unfold hp_width, hpn; cbn; lra).
        apply Q. apply slope_default. unfold hpn. cbn. lra.
      * exists y. split; [exact Ey|]. unfold spread_error in By. cbn [map fst snd Rsum box_average] in By. change (box_lo (su_cs s) (n_conds nd) 1) with lo1 in By. change (box_up (su_cs s) (n_conds nd) 1) with up1 in By.
        rewrite Eu in By. unfold Rsum in By. cbn [fold_right] in By. generalize dependent (RInt (fun t => exact_model [sp1; sp2] (set_nth 1 t base)) lo1 (lo1 + 1 / 2)). intros z Bz.
        change (Rabs (y - z / (lo1 + 1 / 2 - lo1)) <= 1725 / INR (2 * m) + 0) in Bz. replace (2 * z) with (z / (lo1 + 1 / 2 - lo1)) by (field; lra). lra.
Qed.
