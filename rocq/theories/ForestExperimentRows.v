(** ForestExperimentRows.v - the rows of the forest experiment (C118). *)
From Coq Require Import Reals Lra Sorted Permutation.
From Verif Require Import Base Num NumLaws NumpyModel ConfigSpaceModel UtilsModel IceModel PartitionModel PartitionSpec ListLemmas IceProofs IceProofs2 UtilsProofs
  RealProofs RealSums PartitionProofs PartitionProofs2 PartitionProofs3 PartitionProofs4 PartitionProofs5 PartitionProofs6 PartitionReal ForestModel ForestSpec ForestProofs ForestProofs2
  ForestExperimentModel ForestExperimentSpec ForestExperimentProofs.
Local Open Scope nat_scope.
Local Open Scope list_scope.

Section Any.
Context {N : Num} (L : order_laws N).
Implicit Types (f : forest N).

Lemma reaches_step f op : forest_reaches f -> forest_reaches (fst (forest_step f op)).
Proof.
  intros (f0 & ops & S & ->). exists f0, (ops ++ [op]). split; [exact S|].
  clear S. revert f0. induction ops as [|o ops IH]; intro f0; cbn [forest_run app].
  - cbn [fst]. destruct (forest_step f0 op). reflexivity.
  - destruct (forest_step f0 o) as [f1 r]. specialize (IH f1). destruct (forest_run f1 ops) as [f2 rs]. destruct (forest_run f1 (ops ++ [op])). cbn in *. exact IH.
Qed.
Lemma reaches_partition_f f n d s f' r : forest_reaches f -> forest_partition f n d s = (f', r) -> forest_reaches f'.
Proof. intros H E. pose proof (reaches_step f (FPartition n d s) H) as Q. cbn in Q. rewrite E in Q. exact Q. Qed.
Lemma reaches_incumbent f c k f' r : forest_reaches f -> forest_incumbent_region f c k = (f', r) -> forest_reaches f'.
Proof. intros H E. pose proof (reaches_step f (FIncumbent c k) H) as Q. cbn in Q. rewrite E in Q. exact Q. Qed.

(** ** what the ICE object shows does not change *)
Lemma shows_read_v f x y v : finv f -> shows f x y v -> snd (read_v (f_ice f)) = Ok v.
Proof.
  intros I H. unfold shows in H. cbn [ice_run_ops ice_step] in H. unfold read_x, read_y, read_v, read_field in *.
  destruct (fi_ice _ I) as [(C1 & C2 & C3)|(d & (C1 & C2 & C3) & c & p & D)].
  - rewrite C1 in H. rewrite C3. unfold ice_run in *. destruct (ice_calculate (ic_alg (f_ice f)) (ic_centered (f_ice f)) (ic_predict (f_ice f))) as [d|e] eqn:E; cbn in H |- *.
    + inversion H; subst. reflexivity.
    + rewrite C2, E in H. cbn in H. rewrite C3, E in H. cbn in H. discriminate H.
  - rewrite C1, C2, C3 in H. inversion H; subst. rewrite C3. reflexivity.
Qed.
Lemma holds_shows f d : holds (f_ice f) d -> shows f (i_x d) (i_y d) (i_v d).
Proof.
  intros (C1 & C2 & C3). unfold shows. cbn [ice_run_ops ice_step]. unfold read_x, read_y, read_v, read_field. rewrite C1, C2, C3. reflexivity.
Qed.
Lemma incumbent_holds f x y v c k f' r : finv f -> shows f x y v -> forest_incumbent_region f c k = (f', Ok r) ->
  holds (f_ice f') (mkice x y v) /\ ic_predict (f_ice f') = ic_predict (f_ice f).
Proof.
  intros I H E. unfold forest_incumbent_region in E. destruct (f_trees f) as [[|t ts]|]; try discriminate E.
  destruct (bind _ _) as [counts|e]; [|discriminate E].
  unfold shows in H. cbn [ice_run_ops ice_step] in H.
  assert (K : exists i3, (let (i1, x) := read_x (f_ice f) in let (i2, y) := read_y i1 in let (i3, v) := read_v i2 in i3) = i3 /\ holds i3 (mkice x y v) /\ ic_predict i3 = ic_predict (f_ice f)).
  { unfold read_x, read_y, read_v, read_field in *. destruct (fi_ice _ I) as [(C1 & C2 & C3)|(d & (C1 & C2 & C3) & c' & p & D)].
    - rewrite C1 in *. unfold ice_run in *. destruct (ice_calculate (ic_alg (f_ice f)) (ic_centered (f_ice f)) (ic_predict (f_ice f))) as [d|e] eqn:Ec; cbn in H |- *.
      + inversion H; subst. eexists. split; [reflexivity|]. split; [repeat split|reflexivity].
      + rewrite C2, Ec in H. cbn in H. rewrite C3, Ec in H. cbn in H. discriminate H.
    - rewrite C1, C2, C3 in *. inversion H; subst. eexists. split; [reflexivity|]. split; [repeat split; assumption|reflexivity]. }
  destruct K as (i3 & K1 & K2 & K3). destruct (read_x (f_ice f)) as [i1 xr]. destruct (read_y i1) as [i2 yr]. destruct (read_v i2) as [i3' vr]. subst i3'.
  injection E as <- _. cbn [f_ice]. split; assumption.
Qed.

(** ** numbers of a region *)
Lemma mean_std_none (v : list (list N)) G : 0 < G -> Forall (fun m => length m = G) v -> (mean_std v = None <-> v = []).
Proof.
  intros HG F. destruct F as [|m v Hm F]; [split; reflexivity|]. unfold mean_std. cbn [concat]. destruct m as [|a m]; [cbn in Hm; lia|]. cbn. split; discriminate.
Qed.

Lemma node_nonempty (s : setup N) p id nd : setup_ok s -> reaches s p -> su_samples s <> [] -> 1 <= su_minpts s -> deref p id = Some nd -> 1 <= region_len (n_region nd).
Proof.
  intros SO RE Hs Hm H. destruct (min_points_respected L s p SO RE id nd H) as [D|D]; [|lia].
  destruct (reaches_facts L s p SO RE) as (root & dd & sel & ns & F). pose proof (deref_derived s p root dd sel ns id nd F H) as De.
  destruct (derived_is_leaf_of_conditions s p root dd sel ns nd SO F De) as (Dc & idxs & _ & (Rx & _) & Hin).
  rewrite D in Dc. destruct (n_conds nd); [|discriminate]. unfold region_len. rewrite <- (Forall2_length _ _ _ Rx).
  pose proof (rf_len _ _ _ _ _ _ F) as Ln. destruct (su_samples s) as [|row rows]; [congruence|].
  destruct (nth_error (r_x (n_region root)) 0) as [m|] eqn:E.
  - assert (In 0 idxs) by (apply Hin; exists m; split; [exact E|constructor]). destruct idxs; [contradiction|cbn; lia].
  - apply nth_error_None in E. rewrite (rf_root _ _ _ _ _ _ F) in E. cbn in E, Ln. lia.
Qed.
Lemma node_width (s : setup N) p id nd : setup_ok s -> reaches s p -> deref p id = Some nd ->
  length (r_v (n_region nd)) = region_len (n_region nd) /\ exists G, 0 < G /\ Forall (fun m => length m = G) (r_v (n_region nd)).
Proof.
  intros SO RE H. destruct (reaches_facts L s p SO RE) as (root & dd & sel & ns & F). pose proof (deref_derived s p root dd sel ns id nd F H) as De.
  destruct (derived_is_leaf_of_conditions s p root dd sel ns nd SO F De) as (Dc & idxs & _ & (Rx & _ & Rv) & Hin).
  destruct (rf_inv _ _ _ _ _ _ F) as [WS W D0 C0 _]. destruct (wf_G _ _ W) as (G & HG & _ & _ & Wv).
  split; [unfold region_len; rewrite <- (Forall2_length _ _ _ Rx), <- (Forall2_length _ _ _ Rv); reflexivity|].
  exists G. split; [exact HG|]. apply Forall_forall. intros m Hm. destruct (In_nth_error _ _ Hm) as (j & Ej). destruct (Forall2_nth_r _ _ _ _ _ Rv Ej) as (i & _ & Em).
  exact (proj1 (Forall_forall _ _) Wv m (nth_error_In _ _ Em)).
Qed.

Lemma half_least n k : (n <= 2 * k)%Z <-> (half_overlap n <= k)%Z.
Proof. unfold half_overlap. pose proof (Z.div_mod (- n) 2). pose proof (Z.mod_pos_bound (- n) 2). lia. Qed.

(** ** the loop *)
Lemma ok_alg f f' inc : f_alg f' = f_alg f -> ic_predict (f_ice f') = ic_predict (f_ice f) -> experiment_ok f inc -> experiment_ok f' inc.
Proof.
  intros A P [X1 X2 X3 X4 X5 X6 X7 X8 X9 X10]. constructor; rewrite ?A, ?P; try assumption.
  - unfold forest_ok. rewrite A. exact X1.
  - destruct X6 as (h & Hh). exists h. unfold may_split in *. rewrite A. exact Hh.
Qed.

Lemma one_row f inc depth size x y v n : forest_reaches f -> experiment_ok f inc -> shows f x y v -> (0 < n)%Z -> (0 < depth)%Z -> (0 < size)%Z ->
  exists f1 f2 r, forest_partition f n depth (Some size) = (f1, Ok tt) /\ forest_incumbent_region f1 inc (Some (half_overlap n)) = (f2, Ok r) /\
    holds (f_ice f2) (mkice x y v) /\ ic_predict (f_ice f2) = ic_predict (f_ice f) /\ forest_reaches f2 /\ f_alg f2 = f_alg f /\
    forest_row f inc depth size x y v n (n, mean_std v, mean_std (r_v r)).
Proof.
  intros RE XO SH Hn Hd Hk. destruct XO as [X1 X2 X3 X4 X5 X6 X7 X8 X9 X10].
  destruct (forest_trees L f n depth size RE X1 Hn Hd Hk X4 X6 X8 X7 X9) as (f1 & ts & E1 & Et & Lt & EI & _).
  pose proof (reaches_partition_f _ _ _ _ _ _ RE E1) as RE1. assert (A1 : f_alg f1 = f_alg f) by (unfold f_alg; rewrite EI; reflexivity).
  assert (SH1 : shows f1 x y v) by (unfold shows; rewrite EI; exact SH).
  destruct (forest_region_total L f1 ts inc (Some (half_overlap n)) RE1) as (r & Er); rewrite ?A1, ?EI; try assumption.
  { apply (forest_ok_alg f1 f); [symmetry; exact A1|exact X1]. }
  { intros ->. cbn in Lt. lia. }
  destruct (forest_incumbent_region f1 inc (Some (half_overlap n))) as [f2 r2] eqn:E2. cbn in Er. subst r2.
  destruct (incumbent_holds f1 x y v inc _ f2 r (reach_inv L f1 RE1) SH1 E2) as [HH HP].
  exists f1, f2, r. split; [exact E1|]. split; [exact E2|]. split; [exact HH|]. split; [rewrite HP, EI; reflexivity|]. split; [exact (reaches_incumbent _ _ _ _ _ RE1 E2)|].
  split; [pose proof (proj2 (proj2 (incumbent_inv f1 inc (Some (half_overlap n)) (reach_inv L f1 RE1)))) as Q; rewrite E2 in Q; exact (eq_trans Q A1)|].
  assert (Ne1 : a_samples (f_alg f1) <> []) by (rewrite A1; exact X4).
  destruct (forest_region_is_overlap f1 inc (Some (half_overlap n)) r) as (nds & x' & y' & v' & idxs & IR & SH' & SS & IS & M); [rewrite E2; reflexivity|exact Ne1|].
  unfold shows in SH1, SH'. rewrite SH1 in SH'. injection SH' as <- <- <-. cbn [threshold] in M.
  exists f, f1, nds, idxs, r. split; [exact RE|]. split; [reflexivity|]. split; [exact E1|]. split; [exact IR|]. split.
  { destruct IR as (ts' & Et' & F). rewrite Et in Et'. injection Et' as <-. rewrite <- (Forall2_length _ _ _ F). exact Lt. }
  split; [apply sorted_NoDup; exact SS|]. split; [exact IS|]. split; [|split; [reflexivity|]].
  - intro i. rewrite M, A1. split.
    + intros (row & c & Hr & Hc & O). exists c, (half_overlap n). split; [exists row; auto|]. split; [exact O|]. apply half_least. apply Z.le_refl.
    + intros (c & k & (row & Hr & Hc) & O & Hk'). exists row, c. split; [exact Hr|]. split; [exact Hc|]. eapply overlaps_mono; [|exact O]. apply half_least. exact Hk'.
  - destruct (shows_data f x y v (reach_inv L f RE) SH) as (cc & pp & D).
    assert (RC' : rect (num_features (f_alg f)) (a_samples (f_alg f))) by apply X1.
    pose proof (ice_calculate_wf (f_alg f) cc pp _ RC' (proj2 (proj2 X1)) D) as W. destruct (wf_G _ _ W) as (G & HG & _ & _ & Wv). cbn in Wv.
    destruct IS as (_ & _ & IV). cbn in IV.
    rewrite (mean_std_none (r_v r) G HG).
    + pose proof (Forall2_length _ _ _ IV) as LV. split; intro Q; [rewrite Q in LV; destruct idxs; [reflexivity|discriminate]|subst idxs; destruct (r_v r); [reflexivity|discriminate]].
    + apply Forall_forall. intros m Hm. destruct (In_nth_error _ _ Hm) as (j & Ej). destruct (Forall2_nth_r _ _ _ _ _ IV Ej) as (i & _ & Em).
      exact (proj1 (Forall_forall _ _) Wv m (nth_error_In _ _ Em)).
Qed.

Lemma row_alg f f' inc depth size x y v n row : f_alg f' = f_alg f -> forest_row f' inc depth size x y v n row -> forest_row f inc depth size x y v n row.
Proof.
  intros A (g & g' & nds & idxs & r & H1 & H2 & H3 & H4 & H5 & H6 & H7 & H8 & H9). exists g, g', nds, idxs, r.
  split; [exact H1|]. split; [congruence|]. do 5 (split; [assumption|]). split; [|exact H9]. unfold sample_is in *. rewrite A in H8. exact H8.
Qed.

Theorem rows_of_forests f inc depth size x y v ns : forest_reaches f -> experiment_ok f inc -> shows f x y v -> Forall (fun n => (0 < n)%Z) ns -> (0 < depth)%Z -> (0 < size)%Z ->
  exists f' rows, forest_rows f inc depth size ns = (f', Ok rows) /\ forest_reaches f' /\ f_alg f' = f_alg f /\ ic_predict (f_ice f') = ic_predict (f_ice f) /\ shows f' x y v /\
    Forall2 (forest_row f inc depth size x y v) ns rows.
Proof.
  intros RE XO SH F Hd Hk. revert f RE XO SH. induction F as [|n ns Hn F IH]; intros f RE XO SH.
  - exists f, []. cbn. refine (conj eq_refl (conj RE (conj eq_refl (conj eq_refl (conj SH _))))). constructor.
  - destruct (one_row f inc depth size x y v n RE XO SH Hn Hd Hk) as (f1 & f2 & r & E1 & E2 & HH & HP & RE2 & A2 & Row).
    cbn [forest_rows]. rewrite E1, E2. destruct HH as (H1 & H2 & H3). assert (EV : read_v (f_ice f2) = (f_ice f2, Ok v)) by (unfold read_v, read_field; rewrite H3; reflexivity).
    rewrite EV. set (f3 := mkforest _ _ _ _ _ _ _). assert (E3 : f3 = f2) by (unfold f3; destruct f2; reflexivity). rewrite E3. clear f3 E3.
    destruct (IH f2 RE2 (ok_alg f f2 inc A2 HP XO) (holds_shows f2 (mkice x y v) (conj H1 (conj H2 H3)))) as (f' & rows & E & RE' & A' & P' & SH' & FR).
    rewrite E. exists f', ((n, mean_std v, mean_std (r_v r)) :: rows). cbn [bind]. refine (conj eq_refl (conj RE' (conj _ (conj _ (conj SH' _))))); [congruence|congruence|].
    constructor; [exact Row|]. clear -FR A2. induction FR as [|a b l m H FR IH]; constructor; [eapply row_alg; [exact A2|exact H]|exact IH].
Qed.

Theorem row_of_tree f inc depth x y v : forest_reaches f -> experiment_ok f inc -> shows f x y v -> 0 < depth ->
  exists row, tree_row (f_ice f) inc depth = Ok row /\ tree_row_is (f_alg f) (ic_predict (f_ice f)) inc depth v row.
Proof.
  intros RE [X1 X2 X3 X4 X5 X6 X7 X8 X9 X10] SH Hd. pose proof (reach_inv L f RE) as I.
  set (s := tree_setup (f_alg f) (ic_predict (f_ice f))).
  assert (SO : setup_ok s) by exact X1.
  destruct (construct_total s (a_sel (f_alg f))) as (p0 & E0); auto.
  { cbn [su_sel su_cs s tree_setup]. apply convert_hps. }
  { intros q E. discriminate E. }
  assert (RP : reaches s p0) by (exists p0, []; split; [exact E0|reflexivity]).
  destruct (config_in_exactly_one_leaf L s p0 depth inc SO X2 X3 X10 RP Hd) as (p' & ids & lv & k & Ep & FL & Hlt & HL & HI).
  assert (RP' : reaches s p') by (pose proof (reaches_partition s p0 depth RP) as Q; rewrite Ep in Q; exact Q).
  destruct (nth_error lv k) as [nd|] eqn:End; [|apply nth_error_None in End; lia].
  destruct (Forall2_nth_r _ _ _ _ _ FL End) as (id & Eid & Hder).
  assert (NN : mean_std (r_v (n_region nd)) <> None).
  { destruct (node_width s p' id nd SO RP' Hder) as (LV & G & HG & FG). rewrite (mean_std_none _ G HG FG). intro Q. rewrite Q in LV. cbn in LV.
    pose proof (node_nonempty s p' id nd SO RP' X4 ltac:(cbn; lia) Hder). lia. }
  destruct (mean_std (r_v (n_region nd))) as [m|] eqn:Em; [|congruence].
  exists (mean_std v, Some m). split.
  - unfold tree_row. change (dt_from_ice (f_ice f) 100 10 None) with (construct s). rewrite E0. cbn [bind]. rewrite Ep. cbn [bind]. rewrite HI, Eid. cbn [bind]. rewrite Hder.
    rewrite (shows_read_v f x y v I SH). cbn [bind]. rewrite Em. reflexivity.
  - exists p0, p', ids, id, nd, m. refine (conj E0 (conj Ep (conj (nth_error_In _ _ Eid) (conj Hder (conj _ (conj _ Em)))))); [|rewrite Em; reflexivity].
    apply (proj2 (HL k nd End)). reflexivity.
Qed.

Theorem experiment_rows (o : ice N) rng f inc depth size ns : forest_start f -> forest_from_ice o rng = Ok f -> experiment_ok f inc ->
  Forall (fun n => (0 < n)%Z) ns -> (0 < depth)%Z -> (0 < size)%Z ->
  exists x y v rows row, shows f x y v /\ forest_experiment o rng inc depth size ns = Ok (rows, row) /\
    Forall2 (forest_row f inc depth size x y v) ns rows /\ tree_row_is (f_alg f) (ic_predict (f_ice f)) inc (Z.to_nat depth) v row.
Proof.
  intros ST E XO F Hd Hk. assert (RE : forest_reaches f) by (exists f, []; split; [exact ST|reflexivity]).
  pose proof XO as [X1 X2 X3 X4 X5 X6 X7 X8 X9 X10].
  assert (SH : exists x y v, shows f x y v).
  { destruct (reads_ok f (reach_inv L f RE) X1 X8 X7 X9) as (d & i3 & _ & ER). exists (i_x d), (i_y d), (i_v d). unfold shows. cbn [ice_run_ops ice_step].
    destruct (read_x (f_ice f)) as [i1 xr]. destruct (read_y i1) as [i2 yr]. destruct (read_v i2) as [i3' vr]. inversion ER; subst. reflexivity. }
  destruct SH as (x & y & v & SH).
  destruct (rows_of_forests f inc depth size x y v ns RE XO SH F Hd Hk) as (f' & rows & E1 & RE' & A' & P' & SH' & FR).
  destruct (row_of_tree f' inc (Z.to_nat depth) x y v RE' (ok_alg f f' inc A' P' XO) SH' ltac:(lia)) as (row & E2 & TR).
  exists x, y, v, rows, row. split; [exact SH|]. split.
  - unfold forest_experiment. rewrite E. cbn [bind]. rewrite E1. cbn [bind]. rewrite E2. reflexivity.
  - split; [exact FR|]. rewrite A', P' in TR. exact TR.
Qed.

End Any.

(** ** every tree's region holds a sample *)
Theorem tree_holds_sample (f f' : forest RNum) n d k cfg nds : forest_reaches f -> forest_ok f -> float_space (a_cs (f_alg f)) ->
  forest_partition f n d (Some k) = (f', Ok tt) -> incumbent_regions f' cfg nds ->
  Forall (fun nd => exists i c, sample_is f i c /\ lies_in (a_cs (f_alg f)) c nd) nds.
Proof.
  intros RE FO FS E IR. pose proof (reach_inv R_order_laws f RE) as I. unfold forest_partition in E.
  destruct (0 <? n)%Z eqn:En; [|discriminate E]. cbn [negb] in E. destruct (0 <? k)%Z eqn:Ek; [|discriminate E]. cbn [negb] in E.
  destruct (0 <? d)%Z eqn:Ed; [|discriminate E]. cbn [negb] in E. apply Z.ltb_lt in En, Ek, Ed.
  destruct (grow_trees _ _ _ _ _ _) as [[pos ts] r] eqn:EG. injection E as <- Er.
  destruct (grow_trees_spec R_order_laws f (Z.to_nat d) (Z.to_nat k) I FO ltac:(lia) _ _ _ _ _ _ EG) as (new & Ets & _ & _ & F). cbn [app] in Ets. subst new.
  destruct IR as (ts' & Et & FN). cbn in Et. injection Et as <-. clear EG Er.
  induction FN as [|t nd ts nds (id & Hg & Hd) FN IH]; [constructor|]. inversion F as [|? ? (_ & rows & hps & (Lr & Fr) & _ & _ & (nots & p0 & ids & _ & Ec & Ep & _)) F']; subst.
  constructor; [|apply IH; exact F']. clear IH F F' FN. set (s := mksetup _ _ _ rows _ _ _ _) in Ec.
  assert (SO : setup_ok s).
  { destruct FO as (ND & RC & HG). refine (conj ND (conj _ HG)). cbn. eapply Forall_impl; [|exact Fr]. intros row Hin. exact (proj1 (Forall_forall _ _) RC row Hin). }
  assert (RP : reaches s t) by (assert (RP0 : reaches s p0) by (exists p0, []; split; [exact Ec|reflexivity]); pose proof (reaches_partition s p0 (Z.to_nat d) RP0) as Q; rewrite Ep in Q; exact Q).
  assert (Ne : rows <> []) by (intros ->; cbn in Lr; lia).
  pose proof (node_nonempty R_order_laws s t id nd SO RP Ne ltac:(cbn; lia) Hd) as NN.
  destruct (sample_in_its_region s t SO FS RP) as (root & Hroot & HS). destruct (HS id nd Hd) as (idxs & _ & (IX & _) & HI).
  destruct (root_is_ice R_order_laws s t SO RP) as (sel & dd & _ & Hice & Hroot'). rewrite Hroot in Hroot'. injection Hroot' as ->.
  unfold region_len in NN. destruct (r_x (n_region nd)) as [|m ms] eqn:Em; [cbn in NN; lia|]. inversion IX as [|i ? idxs' ? Hi _]; subst. cbn in Hi.
  assert (Li : i < length rows).
  { destruct (ice_calculate_shapes (mkalg (su_cs s) sel (su_samples s) (su_gpa s)) false (su_predict s) dd (proj1 (proj2 SO)) Hice) as (Lx & _). apply nth_error_Some_lt in Hi. exact (eq_ind _ (fun q => i < q) Hi _ Lx). }
  destruct (nth_error rows i) as [row|] eqn:Erow; [|apply nth_error_None in Erow; lia].
  destruct (HI i row Erow) as (c & b & Hc & Hb & Hiff). assert (b = true) by (apply Hiff; left; reflexivity). subst b.
  pose proof (proj1 (Forall_forall _ _) Fr row (nth_error_In _ _ Erow)) as Hin. destruct (In_nth_error _ _ Hin) as (j & Hj).
  exists j, c. split; [exists row; split; [exact Hj|exact Hc]|]. apply contains_spec in Hb. apply Hb. reflexivity.
Qed.

(** at most two trees: never nan *)
Theorem few_trees (f : forest RNum) inc depth size x y v n row : forest_ok f -> float_space (a_cs (f_alg f)) ->
  (n <= 2)%Z -> forest_row f inc depth size x y v n row -> exists b m, row = (n, b, Some m).
Proof.
  intros FO FS Hn (g & g' & nds & idxs & r & RG & AG & EP & IR & LN & ND & IS & M & -> & NN).
  pose proof (tree_holds_sample g g' n depth size inc nds RG (forest_ok_alg g f (eq_sym AG) FO)) as T. rewrite AG in T. specialize (T FS EP IR).
  assert (Hn' : (0 < n)%Z) by (unfold forest_partition in EP; destruct (0 <? n)%Z eqn:E; [apply Z.ltb_lt; exact E|discriminate EP]).
  destruct nds as [|nd nds]; [cbn in LN; lia|]. apply Forall_inv in T. destruct T as (i & c & Sc & Hl).
  assert (In i idxs).
  { apply M. exists c, 1%Z. split; [unfold sample_is in *; rewrite <- AG; exact Sc|]. split; [|lia].
    exists [0]. split; [repeat constructor; intros []|]. split; [cbn; lia|]. constructor; [|constructor]. exists nd. split; [reflexivity|exact Hl]. }
  destruct (mean_std (r_v r)) as [m|]; [eauto|]. exfalso. rewrite (proj1 NN eq_refl) in H. destruct H.
Qed.

(** the numbers of a row are means of the standard deviations *)
Theorem mean_std_R (v : list (list RNum)) :
  (mean_std v = None <-> List.concat v = []) /\
  (forall m, mean_std v = Some m -> (m * INR (length (List.concat v)) = fold_right (fun x t => sqrt x + t) 0 (List.concat v))%R).
Proof.
  unfold mean_std. destruct (List.concat v) as [|x l]; [split; [split; reflexivity|discriminate]|]. split; [split; discriminate|].
  intros m H. assert (E : m = Rmean (map (nsqrt (n:=RNum)) (x :: l))) by (etransitivity; [|exact (nmean_R _)]; congruence). rewrite E. unfold Rmean. clear E H.
  assert (K : forall k : list RNum, Rsum (map (nsqrt (n:=RNum)) k) = fold_right (fun x t => sqrt x + t)%R 0%R k).
  { induction k as [|a k IH]; [reflexivity|]. change (Rsum (map (nsqrt (n:=RNum)) (a :: k))) with (sqrt a + Rsum (map (nsqrt (n:=RNum)) k))%R. rewrite IH. reflexivity. }
  rewrite <- K, map_length. field. apply not_0_INR. discriminate.
Qed.
