(** SpreadIce.v - the PDP on evenly spread samples (C115). *)
From Coq Require Import Reals Lra.
From Coquelicot Require Import Coquelicot.
From Verif Require Import Base Num NumLaws NumpyModel ConfigSpaceModel UtilsModel IceModel ListLemmas IceProofs IceProofs2 UtilsProofs
  RealProofs RealSums IceReal IceShapeSpec IceShapeProofs IceShapeReal SpreadSpec SpreadProofs SpreadSynSpec.
Local Open Scope R_scope.
Local Open Scope list_scope.

Lemma evenly_unit l n : evenly 0 1 l n -> Forall (fun x => 0 <= x <= 1) l.
Proof.
  intros [Hl H]. apply Forall_forall. intros x Hx. destruct (In_nth_error _ _ Hx) as (i & Hi). assert (Li : (i < n)%nat) by (rewrite <- Hl; eapply nth_error_Some_lt; exact Hi).
  rewrite (H i Li) in Hi. injection Hi as <-. destruct (Nat.eqb_spec n 1) as [->|Hn]; [lra|].
  assert (P : 0 < INR (n - 1)) by (apply lt_0_INR; lia). assert (B : INR i <= INR (n - 1)) by (apply le_INR; lia). pose proof (pos_INR i).
  replace (0 + INR i * ((1 - 0) / INR (n - 1))) with (INR i / INR (n - 1)) by (field; lra). split.
  - apply Rmult_le_pos; [assumption|left; apply Rinv_0_lt_compat; exact P].
  - apply (Rmult_le_reg_r (INR (n - 1))); [exact P|]. unfold Rdiv. rewrite Rmult_assoc, Rinv_l by lra. lra.
Qed.
Lemma grid_unit (a : algorithm RNum) grid g gp : grid_points a = Ok grid -> nth_error grid g = Some gp -> Forall (fun x : R => 0 <= x <= 1) gp.
Proof.
  intros Hg Hn. destruct (ice_grid a grid Hg) as (axis & Ev & _ & _ & _ & _ & H & _). destruct (H g gp Hn) as (ks & Hk & ->).
  pose proof (evenly_unit _ _ Ev) as Fa. rewrite Forall_forall in Fa. apply Forall_map. apply Forall_forall. intros k Hin.
  destruct Hk as [_ Hk]. rewrite Forall_forall in Hk. specialize (Hk k Hin). apply Fa. apply nth_In. rewrite (proj1 Ev). exact Hk.
Qed.
Lemma assign_unit idx : forall (vals row : list R), Forall (fun x => 0 <= x <= 1) vals -> in_cube row -> in_cube (assign_row idx vals row).
Proof.
  unfold assign_row. induction idx as [|i idx IH]; intros [|v vals] row Hv Hr; cbn; auto. inversion Hv; subst. apply IH; [assumption|]. apply in_cube_set; assumption.
Qed.

Section Near.
Variables (a : algorithm RNum) (f s : list R -> R) (d : icedata RNum) (Jk : list (nat * nat)).
Hypothesis ND : NoDup (map hp_name (a_cs a)).
Hypothesis RC : rect (num_features a) (a_samples a).
Hypothesis HC : Forall in_cube (a_samples a).
Hypothesis HI : ice_calculate a false (rowwise (N:=RNum) f s) = Ok d.
Hypothesis NJ : NoDup (map fst Jk).
Hypothesis HJ : rest_of a (map fst Jk).
Hypothesis HS : spread Jk (a_samples a).

Lemma mean_near (F : list R -> R) (L : nat -> R) idx grid g gp base :
  get_selected_idx (a_sel a) (a_cs a) = Ok idx -> grid_points a = Ok grid -> nth_error grid g = Some gp -> at_grid a d g base ->
  (forall j k, In (j, k) Jk -> lipschitz_in (num_features a) j (L j) F) ->
  Rabs (Rmean (map (fun row => F (assign_row (A:=RNum) idx gp row)) (a_samples a)) - cube_average (map fst Jk) F base) <= spread_error L Jk.
Proof.
  intros Hi Hg Hn (Hb & Hbc & Hagree) HL. rewrite <- (map_map (assign_row (A:=RNum) idx gp) F).
  assert (Hidx : forall j, In j idx <-> is_selected (a_cs a) (a_sel a) j) by (intro j; apply (idx_selected _ _ _ _ ND Hi)).
  assert (HnotJ : forall j k, In (j, k) Jk -> ~ In j idx /\ (j < num_features a)%nat).
  { intros j k Hin. assert (In j (map fst Jk)) as Hj by (apply in_map_iff; exists (j, k); auto). apply HJ in Hj. destruct Hj as [Hlt Hns]. split; [|exact Hlt].
    rewrite Hidx. apply not_selected_iff; assumption. }
  apply (spread_mean (num_features a)); auto.
  - intros j k Hin. split; [apply (HnotJ j k Hin)|apply (HL j k Hin)].
  - apply spread_map; [|exact HS]. intros row j k Hin. apply (assign_other (N:=RNum)). apply (HnotJ j k Hin).
  - apply Forall_map. apply Forall_forall. intros row Hin.
    assert (Hlr : length row = num_features a) by (exact (proj1 (Forall_forall _ _) RC row Hin)).
    split; [exact (eq_trans (assign_row_length _ _ _) Hlr)|]. split.
    + apply assign_unit; [exact (grid_unit a grid g gp Hg Hn)|exact (proj1 (Forall_forall _ _) HC row Hin)].
    + intros j Hj. destruct (Nat.lt_ge_cases j (num_features a)) as [Hlt|Hge].
      * assert (Hsel : In j idx).
        { destruct (in_dec Nat.eq_dec j idx) as [|Hno]; [assumption|]. exfalso. apply Hj. apply HJ. split; [exact Hlt|]. apply not_selected_iff; [exact Hlt|]. rewrite <- Hidx. exact Hno. }
        destruct (In_nth_error _ _ Hin) as (i & Hrow). symmetry. apply (Hagree i); [|apply Hidx; exact Hsel].
        destruct (rowwise_closed a f s d RC HI) as (idx' & grid' & Hi' & Hg' & _ & Ed).
        assert (idx' = idx) by congruence. assert (grid' = grid) by congruence. subst idx' grid'. rewrite Ed. cbn [i_x]. rewrite at3_closed.
        rewrite Hrow, Hn. reflexivity.
      * rewrite (proj2 (nth_error_None _ _)) by (rewrite (eq_trans (assign_row_length _ _ _) Hlr); exact Hge). symmetry. apply nth_error_None. rewrite Hb. exact Hge.
Qed.

Theorem pdp_near (L : nat -> R) g base : (g < num_grid_points a)%nat -> at_grid a d g base ->
  ((forall j, In j (map fst Jk) -> lipschitz_in (num_features a) j (L j) f) ->
     exists y, nth_error (y_pdp a d) g = Some y /\ Rabs (y - cube_average (map fst Jk) f base) <= spread_error L Jk) /\
  ((forall j, In j (map fst Jk) -> lipschitz_in (num_features a) j (L j) (fun r => s r * s r)) ->
     exists v, nth_error (v_pdp a d) g = Some v /\ Rabs (v - cube_average (map fst Jk) (fun r => s r * s r) base) <= spread_error L Jk).
Proof.
  intros Hgl Hb. destruct (rowwise_closed a f s d RC HI) as (idx & grid & Hi & Hg & Lg & _).
  destruct (nth_error grid g) as [gp|] eqn:E; [|apply nth_error_None in E; lia].
  destruct (pdp_at a f s d idx grid g gp RC HI Hi Hg E) as [Py Pv]. split; intro HL; eexists.
  - split; [exact Py|]. apply (mean_near f L idx grid g gp base Hi Hg E Hb). intros j k Hin. apply HL. apply in_map_iff. exists (j, k). auto.
  - split; [exact Pv|]. apply (mean_near (fun r => s r * s r) L idx grid g gp base Hi Hg E Hb). intros j k Hin. apply HL. apply in_map_iff. exists (j, k). auto.
Qed.

(** the coordinates of the PDP itself are such a row *)
Theorem pdp_row_at_grid g row : (0 < num_samples a)%nat -> (g < num_grid_points a)%nat -> nth_error (x_pdp a d) g = Some row -> at_grid a d g row.
Proof.
  intros Hn Hgl Hrow. destruct (pdp_is_mean a false _ d ND RC Hn HI g Hgl) as (_ & _ & row' & Er & Hl & Hm & _).
  rewrite Hrow in Er. injection Er as <-.
  destruct (rowwise_closed a f s d RC HI) as (idx & grid & Hi & Hg & Lg & Ed).
  destruct (nth_error grid g) as [gp|] eqn:E; [|apply nth_error_None in E; lia].
  assert (Hat : forall i r, at3 (i_x d) i g = Some r -> exists srow, nth_error (a_samples a) i = Some srow /\ r = assign_row (A:=RNum) idx gp srow).
  { intros i r H. rewrite Ed in H. cbn [i_x] in H. rewrite at3_closed in H. destruct (nth_error (a_samples a) i) as [srow|]; [|discriminate]. rewrite E in H. injection H as <-. eauto. }
  assert (Hcube : forall i r, at3 (i_x d) i g = Some r -> length r = num_features a /\ in_cube r).
  { intros i r H. destruct (Hat i r H) as (srow & Hs & ->). apply nth_error_In in Hs. split; [exact (eq_trans (assign_row_length _ _ _) (proj1 (Forall_forall _ _) RC srow Hs))|].
    apply assign_unit; [exact (grid_unit a grid g gp Hg E)|exact (proj1 (Forall_forall _ _) HC srow Hs)]. }
  split; [exact Hl|]. split.
  - apply Forall_forall. intros x Hx. destruct (In_nth_error _ _ Hx) as (j & Hj). assert (Lj : (j < num_features a)%nat) by (rewrite <- Hl; eapply nth_error_Some_lt; exact Hj).
    destruct (Hm j Lj) as (m & Em & vs & Lv & Hvs & -> & i1 & i2 & v & w & E1 & E2 & B).
    assert (x = Rmean vs) by (pose proof (eq_trans (eq_sym Hj) Em) as Q0; injection Q0 as Q0; exact Q0). subst x.
    assert (Q : forall i u, at3j (i_x d) i g j = Some u -> 0 <= u <= 1).
    { intros i u H. unfold at3j in H. destruct (at3 (i_x d) i g) as [r|] eqn:Er; [|discriminate]. destruct (Hcube i r Er) as [_ Hc]. unfold in_cube in Hc. rewrite Forall_forall in Hc. apply Hc. eapply nth_error_In; exact H. }
    pose proof (Q i1 v E1). pose proof (Q i2 w E2). lra.
  - intros i r j Hr Hsel. destruct (Hat i r Hr) as (srow & Hs & ->).
    assert (Lj : (j < num_features a)%nat) by (destruct Hsel as (h & Hh & _); eapply nth_error_Some_lt; exact Hh).
    assert (In_idx : In j idx) by (apply (idx_selected _ _ _ _ ND Hi); exact Hsel).
    destruct (Hm j Lj) as (m & Em & vs & Lv & Hvs & -> & _). refine (eq_trans Em _).
    assert (Hsl : length srow = num_features a) by (exact (proj1 (Forall_forall _ _) RC srow (nth_error_In _ _ Hs))).
    assert (Hj : (j < length (assign_row (A:=RNum) idx gp srow))%nat) by (rewrite (eq_trans (assign_row_length _ _ _) Hsl); exact Lj).
    rewrite (nth_error_nth' (assign_row (A:=RNum) idx gp srow) (0 : RNum) Hj). apply (f_equal (@Some R)).
    apply Rmean_const; [intros ->; cbn in Lv; lia|]. apply Forall_forall. intros u Hu. destruct (In_nth_error _ _ Hu) as (i' & Hi'). 
    assert (Li' : (i' < num_samples a)%nat) by (rewrite <- Lv; eapply nth_error_Some_lt; exact Hi').
    rewrite <- (Hvs i' Li') in Hi'. unfold at3j in Hi'. destruct (at3 (i_x d) i' g) as [r'|] eqn:Er'; [|discriminate].
    destruct (Hat i' r' Er') as (srow' & Hs' & ->). assert (Hsl' : length srow' = num_features a) by (exact (proj1 (Forall_forall _ _) RC srow' (nth_error_In _ _ Hs'))).
    rewrite (assign_agree (N:=RNum) idx gp srow' srow j) in Hi'; [|exact (grid_row_len a idx grid g gp Hi Hg E)|congruence|left; exact In_idx].
    rewrite (nth_error_nth' (assign_row (A:=RNum) idx gp srow) (0 : RNum) Hj) in Hi'. injection Hi' as <-. reflexivity.
Qed.
End Near.
