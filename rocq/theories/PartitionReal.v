(** PartitionReal.v - partitioner facts in exact arithmetic (C03, C09, C10, C11). *)
From Coq Require Import Reals Lra Sorted.
From Verif Require Import Base Num NumLaws NumpyModel ConfigSpaceModel UtilsModel IceModel PartitionModel PartitionSpec
  ListLemmas IceProofs PartitionProofs PartitionProofs2 PartitionProofs3 PartitionProofs4 PartitionProofs5
  RealProofs RealSums.
Local Open Scope R_scope.

Lemma R_splits_ordinary (s : setup RNum) : splits_ordinary s.
Proof. apply Forall_forall. intros. apply R_ordinary. Qed.
Lemma R_no_nan (s : setup RNum) : no_nan s.
Proof. apply Forall_forall. intros. apply Forall_forall. intros. apply R_ordinary. Qed.
Lemma R_unscaled_ordinary (s : setup RNum) : unscaled_ordinary s.
Proof. intros h v u _ _ _. apply R_ordinary. Qed.

(** ** C09 over the reals *)
Theorem split_values_inside (s : setup RNum) p : setup_ok s -> reaches s p ->
  exists sel nots, convert_hyperparameters (su_sel s) (su_cs s) = Ok sel /\
    (match su_nots s with None => nots = [] | Some q => get_hyperparameters q (su_cs s) = Ok nots end) /\
    forall id nd, deref p id = Some nd ->
      Forall (fun c => In (c_hp c) (su_cs s) /\ ~ In (hp_name (c_hp c)) (map hp_name sel) /\
                       ~ In (hp_name (c_hp c)) (map hp_name nots) /\ 0 < c_val c < 1) (n_conds nd).
Proof.
  intros SO R. destruct (never_split_selected R_order_laws s p SO R) as (sel & nots & H1 & H2 & H3).
  exists sel, nots. split; [exact H1|]. split; [exact H2|]. intros id nd Hd. specialize (H3 id nd Hd).
  eapply Forall_impl; [|exact H3]. cbn. intros c (A & B & C & D). repeat split; auto; apply (split_vals_open _ _ D).
Qed.

(** ** C03 *)
Definition float_hp (h : hp RNum) : Prop := exists lo up lg, hp_kind h = KFloat (N:=RNum) lo up lg /\ good_bounds lo up lg.
Definition float_space (cs : cspace RNum) : Prop := Forall float_hp cs.

Lemma config_of_vector_get (cs : cspace RNum) (row : list RNum) : float_space cs -> NoDup (map hp_name cs) -> length row = length cs ->
  exists cfg, config_of_vector cs row = Ok cfg /\
  (forall j h lo up lg, nth_error cs j = Some h -> hp_kind h = KFloat (N:=RNum) lo up lg ->
     config_get cfg (hp_name h) = Some (VNum (float_transform (N:=RNum) lo up lg (nth j row n0)))).
Proof.
  intros F ND. revert row. induction cs as [|h0 cs IH]; intros row Hl.
  - destruct row; [|discriminate]. exists []. split; [reflexivity|]. intros [|?]; discriminate.
  - destruct row as [|x row]; [discriminate|]. inversion F as [|? ? (lo0 & up0 & lg0 & K0 & G0) F']; subst.
    inversion ND as [|? ? Hnin ND']; subst. apply eq_add_S in Hl.
    destruct (IH F' ND' row Hl) as (cfg & E & Hget).
    exists ((hp_name h0, VNum (float_transform (N:=RNum) lo0 up0 lg0 x)) :: cfg). cbn [config_of_vector].
    unfold hp_transform. rewrite (R_ordinary x). cbn [negb]. rewrite K0. cbn [bind]. rewrite E. cbn [bind]. split; [reflexivity|].
    intros j' h' lo up lg Hn K. destruct j' as [|j'].
    + cbn in Hn. inversion Hn; subst h'. rewrite K0 in K. inversion K; subst. cbn [config_get]. rewrite String.eqb_refl. reflexivity.
    + cbn in Hn. cbn [config_get]. destruct (String.eqb_spec (hp_name h0) (hp_name h')) as [E'|E'].
      * exfalso. apply Hnin. rewrite E'. apply in_map. eapply nth_error_In; exact Hn.
      * rewrite (Hget j' h' lo up lg Hn K). reflexivity.
Qed.

Lemma float_space_numerical cs : float_space cs -> all_numerical cs.
Proof. intro F. eapply Forall_impl; [|exact F]. intros h (lo & up & lg & K & _). unfold is_numerical. rewrite K. reflexivity. Qed.

(** the value is on the same side of the unscaled split value as the coordinate of the split value *)
Lemma transform_side lo up lg x v : good_bounds lo up lg -> 0 < v < 1 ->
  (clampmm lo up (raw_unscale lo up lg x) <= clamp lo up (raw_unscale lo up lg v) <-> x <= v).
Proof.
  intros G Hv. destruct (G) as [Hlt _]. rewrite clampmm_clamp by lra.
  pose proof (raw_unscale_0 lo up lg G) as U0. pose proof (raw_unscale_1 lo up lg G) as U1.
  pose proof (raw_unscale_strict lo up lg 0 v G (proj1 Hv)) as A. pose proof (raw_unscale_strict lo up lg v 1 G (proj2 Hv)) as B.
  rewrite (clamp_id lo up (raw_unscale lo up lg v)) by lra. split.
  - intro H. destruct (Rle_lt_dec x v) as [|C]; [assumption|]. exfalso.
    pose proof (raw_unscale_strict lo up lg v x G C). unfold clamp, Rmin, Rmax in H. repeat destruct (Rle_dec _ _); lra.
  - intro H. pose proof (raw_unscale_mono lo up lg x v G H). unfold clamp, Rmin, Rmax. repeat destruct (Rle_dec _ _); lra.
Qed.

Theorem sample_in_its_region (s : setup RNum) p :
  setup_ok s -> float_space (su_cs s) -> reaches s p ->
  exists root, deref p 0 = Some root /\
  forall id nd, deref p id = Some nd ->
  exists idxs, StronglySorted lt idxs /\ is_rows (n_region root) idxs (n_region nd) /\
  forall i row, nth_error (su_samples s) i = Some row ->
  exists cfg b, config_of_vector (su_cs s) row = Ok cfg /\ contains (su_cs s) (n_conds nd) cfg = Ok b /\
    (b = true <-> In i idxs).
Proof.
  intros SO F R. destruct (reaches_facts R_order_laws s p SO R) as (root & dd & sel & ns & RF).
  exists root. split; [apply RF|]. intros id nd Hd.
  pose proof (deref_derived s p root dd sel ns id nd RF Hd) as D.
  destruct (derived_is_leaf_of_conditions s p root dd sel ns nd SO RF D) as (_ & idxs & S1 & S2 & S3).
  exists idxs. split; [exact S1|]. split; [exact S2|]. intros i row Hrow.
  destruct SO as (ND & Hrect & _).
  assert (Hlen : length row = length (su_cs s)).
  { rewrite Forall_forall in Hrect. apply Hrect. eapply nth_error_In; exact Hrow. }
  destruct (config_of_vector_get (su_cs s) row F ND Hlen) as (cfg & Ec & Hget).
  assert (TC : total_config (su_cs s) cfg).
  { intros h Hin. pose proof (proj1 (Forall_forall _ _) F h Hin) as (lo & up & lg & K & _).
    destruct (In_nth_error _ _ Hin) as (j & Hj). rewrite (Hget j h lo up lg Hj K). eexists. split; [reflexivity|apply R_ordinary]. }
  pose proof (leaf_conds_in_cs s p root dd sel ns nd RF D) as HC.
  destruct (contains_total (su_cs s) cfg (n_conds nd) (float_space_numerical _ F) TC) as (E & Iff).
  { eapply Forall_impl; [|exact HC]. cbn. tauto. }
  exists cfg, (forallb (sat_b (su_cs s) cfg) (n_conds nd)). split; [exact Ec|]. split; [exact E|].
  rewrite Iff, S3. rewrite (rf_cs _ _ _ _ _ _ RF).
  (* the curve of sample i *)
  assert (Hi : (i < length (i_x dd))%nat) by (rewrite (rf_len _ _ _ _ _ _ RF); eapply nth_error_Some_lt; exact Hrow).
  destruct (nth_error (i_x dd) i) as [curve|] eqn:Hcur; [|apply nth_error_None in Hcur; lia].
  assert (Hrx : r_x (n_region root) = i_x dd) by (rewrite (rf_root _ _ _ _ _ _ RF); reflexivity).
  rewrite Hrx.
  assert (Each : forall c, In c (n_conds nd) -> (config_satisfies (su_cs s) c cfg <-> curve_satisfies (su_cs s) c curve)).
  { intros c Hc. rewrite Forall_forall in HC. destruct (HC c Hc) as (Hin & Hns & Hnn & Hval).
    pose proof (split_vals_open _ _ Hval) as Hv.
    pose proof (proj1 (Forall_forall _ _) F _ Hin) as (lo & up & lg & K & G).
    destruct (In_nth_error _ _ Hin) as (j & Hj).
    assert (Hposs : In (c_hp c) (d_possible p)).
    { rewrite (rf_poss _ _ _ _ _ _ RF). apply split_parameters_spec. auto. }
    pose proof (cs_idx_nodup (su_cs s) j (c_hp c) ND Hj) as Hidx.
    assert (Wr : wf_region (length (d_cs p)) (n_region root)) by (apply (inv_wf _ _ (rf_inv _ _ _ _ _ _ RF))).
    assert (Hin_cur : In curve (r_x (n_region root))) by (rewrite Hrx; eapply nth_error_In; exact Hcur).
    destruct (wf_curve _ _ _ Wr Hin_cur) as (grow & Hg0 & Hgl).
    pose proof (rf_coord _ _ _ _ _ _ RF (c_hp c) j curve row Hposs Hidx i Hcur Hrow 0%nat grow Hg0) as Hco.
    assert (Hjlt : (j < length grow)%nat).
    { rewrite Hgl, (rf_cs _ _ _ _ _ _ RF). eapply nth_error_Some_lt; exact Hj. }
    assert (Hgj : nth_error grow j = Some (nth j row n0)) by (rewrite <- Hco; apply nth_error_nth'; exact Hjlt).
    assert (Hus : unscale_float (c_val c) (su_cs s) (c_hp c) = Ok (clamp lo up (raw_unscale lo up lg (c_val c)))).
    { apply (unscale_float_R (su_cs s) (c_hp c) (c_hp c)); [|left; exact K]. apply cs_get_nodup; assumption. }
    pose proof (Hget j (c_hp c) lo up lg Hj K) as Hcg. rewrite float_transform_R in Hcg.
    pose proof (transform_side lo up lg (nth j row n0) (c_val c) G Hv) as Side.
    split.
    - intros (x & u & Hx & Hu & Hcmp). rewrite Hcg in Hx. rewrite Hus in Hu. inversion Hx; subst x. inversion Hu; subst u.
      exists j, (c_hp c), grow, (nth j row n0). repeat split; auto.
      destruct (c_le c).
      + apply R_le_true. apply R_le_true in Hcmp. apply Side. exact Hcmp.
      + apply R_lt_true. apply R_lt_true in Hcmp. destruct (Rlt_le_dec (c_val c) (nth j row n0)) as [|X]; [assumption|].
        exfalso. apply Side in X. exact (Rle_not_lt _ _ X Hcmp).
    - intros (j' & h' & row' & x & Hj' & Hn' & Hr' & Hx & Hcmp).
      assert (j' = j).
      { pose proof (cs_idx_nodup (su_cs s) j' h' ND Hj') as A. rewrite Hn' in A. congruence. }
      subst j'. rewrite Hg0 in Hr'. inversion Hr'; subst row'. rewrite Hgj in Hx. inversion Hx; subst x.
      eexists _, _. split; [exact Hcg|]. split; [exact Hus|]. destruct (c_le c).
      + apply R_le_true. apply R_le_true in Hcmp. apply Side. exact Hcmp.
      + apply R_lt_true. apply R_lt_true in Hcmp.
        destruct (Rlt_le_dec (clamp lo up (raw_unscale lo up lg (c_val c))) (clampmm lo up (raw_unscale lo up lg (nth j row n0)))) as [|X]; [assumption|].
        exfalso. apply Side in X. exact (Rle_not_lt _ _ X Hcmp). }
  split.
  - intro H. exists curve. split; [exact Hcur|]. rewrite Forall_forall in *. intros c Hc. apply Each; auto.
  - intros (curve' & Hc' & H). rewrite Hcur in Hc'. inversion Hc'; subst curve'. rewrite Forall_forall in *. intros c Hc. apply Each; auto.
Qed.
