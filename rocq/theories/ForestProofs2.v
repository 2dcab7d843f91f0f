(** ForestProofs2.v - thresholds, ignored settings and the missing sample size (C17, C18, C20). *)
From Verif Require Import Base Num NumLaws NumpyModel ConfigSpaceModel UtilsModel IceModel PartitionModel PartitionSpec
  ListLemmas IceProofs IceProofs2 PartitionProofs PartitionProofs2 PartitionProofs3 PartitionProofs4 PartitionProofs5 PartitionProofs6
  ForestModel ForestSpec ForestProofs.
From Coq Require Import Sorted.
Local Open Scope nat_scope.
Local Open Scope list_scope.

Lemma sorted_head (a : nat) l x : StronglySorted lt (a :: l) -> In x (a :: l) -> a <= x.
Proof. intros S [->|H]; [lia|]. inversion S; subst. rewrite Forall_forall in H3. specialize (H3 x H). lia. Qed.
Lemma sorted_ext (l l' : list nat) : StronglySorted lt l -> StronglySorted lt l' -> (forall i, In i l <-> In i l') -> l = l'.
Proof.
  revert l'. induction l as [|a l IH]; intros l' S S' E.
  - destruct l' as [|b l']; [reflexivity|]. destruct (proj2 (E b) (or_introl eq_refl)).
  - destruct l' as [|b l']; [destruct (proj1 (E a) (or_introl eq_refl))|].
    assert (a = b) by (pose proof (sorted_head _ _ b S (proj2 (E b) (or_introl eq_refl))); pose proof (sorted_head _ _ a S' (proj1 (E a) (or_introl eq_refl))); lia).
    subst b. inversion S; inversion S'; subst. f_equal. apply IH; auto. intro i. rewrite Forall_forall in H2, H6. split; intro Hi.
    + destruct (proj1 (E i) (or_intror Hi)) as [->|]; [specialize (H2 i Hi); lia|assumption].
    + destruct (proj2 (E i) (or_intror Hi)) as [->|]; [specialize (H6 i Hi); lia|assumption].
Qed.
Lemma rows_seq {A} (l r : list A) k : Forall2 (fun i m => nth_error l i = Some m) (seq k (length l - k)) r -> k <= length l -> r = skipn k l.
Proof.
  remember (length l - k) as n. revert k r Heqn. induction n as [|n IH]; intros k r En F Hk; inversion F; subst.
  - symmetry. apply skipn_all2. lia.
  - rewrite (IH (S k) l' ltac:(lia) H3 ltac:(lia)). clear -H1. revert l H1. induction k as [|k IH]; intros [|a l] H; try discriminate; [inversion H; reflexivity|].
    cbn in H. apply (IH l H).
Qed.

Section P.
Context {N : Num}.
Implicit Types (f : forest N).

Lemma shows_data f x y v : finv f -> shows f x y v -> exists c p, ice_calculate (f_alg f) c p = Ok (mkice x y v).
Proof.
  intros I H. unfold shows in H. cbn [ice_run_ops ice_step] in H. unfold read_x, read_y, read_v, read_field in H.
  destruct (fi_ice _ I) as [(C1 & C2 & C3)|(d & (C1 & C2 & C3) & c & p & D)].
  - rewrite C1 in H. unfold ice_run in H. destruct (ice_calculate (ic_alg (f_ice f)) (ic_centered (f_ice f)) (ic_predict (f_ice f))) as [d|e] eqn:E; cbn in H.
    + inversion H; subst. do 2 eexists. destruct d; exact E.
    + rewrite C2, E in H. cbn in H. rewrite C3, E in H. cbn in H. discriminate H.
  - rewrite C1, C2, C3 in H. inversion H; subst. exists c, p. destruct d; exact D.
Qed.

Lemma find_leaf_contains (p : dtp N) cfg ids id : find_leaf p ids cfg = Ok (Some id) ->
  exists nd, deref p id = Some nd /\ contains (d_cs p) (n_conds nd) cfg = Ok true.
Proof.
  induction ids as [|i ids IH]; cbn; [discriminate|]. destruct (deref p i) as [nd|] eqn:E; [|discriminate]. intro H. apply bind_ok in H.
  destruct H as (b & Hb & H). destruct b; [inversion H; subst; eauto|auto].
Qed.

Section L.
Variable L : order_laws N.

(** the incumbent itself lies in all incumbent regions *)
Lemma incumbent_lies_in f cfg nds : forest_reaches f -> forest_ok f -> incumbent_regions f cfg nds -> Forall (lies_in (a_cs (f_alg f)) cfg) nds.
Proof.
  intros R FO (ts & Ht & F). pose proof (fi_trees _ (reach_inv L f R) FO ts Ht) as T. clear Ht.
  induction F as [|t nd ts nds (id & Hg & Hd) F IH]; [constructor|]. inversion T; subst. constructor; [|apply IH; assumption].
  unfold get_incumbent_region in Hg. destruct (d_leaves t); [discriminate|]. apply find_leaf_contains in Hg. destruct Hg as (nd' & E & C).
  rewrite Hd in E. inversion E; subst nd'. apply contains_spec in C. destruct H1 as (s & p & d & ids & SO & Ecs & _ & HR & _ & Ep).
  assert (d_cs t = a_cs (f_alg f)) as <-; [|apply C; reflexivity].
  rewrite <- Ecs. assert (HR' : reaches s t) by (pose proof (reaches_partition s p d HR) as Q; rewrite Ep in Q; exact Q).
  destruct (reaches_facts L s t SO HR') as (root & dd & sel & ns & RF). apply (rf_cs _ _ _ _ _ _ RF).
Qed.

Theorem forest_region_thresholds f cfg k r : forest_reaches f -> forest_ok f -> a_samples (f_alg f) <> [] ->
  snd (forest_incumbent_region f cfg k) = Ok r ->
  exists ts nds x y v idxs, f_trees f = Some ts /\ incumbent_regions f cfg nds /\ length nds = length ts /\ shows f x y v /\
    StronglySorted lt idxs /\ is_rows (mkregion x y v) idxs r /\
    (k = None -> forall i, In i idxs <-> exists row c, nth_error (a_samples (f_alg f)) i = Some row /\
                           config_of_vector (a_cs (f_alg f)) row = Ok c /\ Forall (lies_in (a_cs (f_alg f)) c) nds) /\
    (forall z, k = Some z -> (z <= 0)%Z -> r = mkregion x y v) /\
    (forall z, k = Some z -> (Z.of_nat (length ts) < z)%Z -> r = mkregion [] [] []) /\
    (forall i row, match k with None => True | Some z => (z <= Z.of_nat (length ts))%Z end ->
        nth_error (a_samples (f_alg f)) i = Some row -> config_of_vector (a_cs (f_alg f)) row = Ok cfg -> In i idxs).
Proof.
  intros R FO Hne H. destruct (forest_region_is_overlap f cfg k r H Hne) as (nds & x & y & v & idxs & IR & SH & SS & IS & M).
  assert (TS := IR). destruct TS as (ts & Ht & F). pose proof (Forall2_length _ _ _ F) as Len.
  exists ts, nds, x, y, v, idxs. refine (conj Ht (conj IR (conj (eq_sym Len) (conj SH (conj SS (conj IS (conj _ (conj _ (conj _ _))))))))).
  - intros -> i. rewrite M. unfold threshold. rewrite Ht, Len. split; intros (row & c & A & B & C); exists row, c; (refine (conj A (conj B _))); apply overlaps_all; exact C.
  - intros z -> Hz. cbn [threshold] in M.
    pose proof (reach_inv L f R) as I. destruct (shows_data f x y v I SH) as (cc & pp & D).
    assert (RC' : rect (num_features (f_alg f)) (a_samples (f_alg f))) by apply FO.
    destruct (ice_calculate_shapes _ _ _ _ RC' D) as (Lx & Ly & Lv & _). cbn in Lx, Ly, Lv.
    assert (idxs = seq 0 (num_samples (f_alg f))).
    { apply sorted_ext; [exact SS|apply StronglySorted_seq|]. intro i. rewrite M, in_seq. unfold num_samples. split.
      - intros (row & c & A & _). pose proof (nth_error_Some_lt _ _ _ A). lia.
      - intro Hi. destruct (nth_error (a_samples (f_alg f)) i) as [row|] eqn:E; [|apply nth_error_None in E; lia].
        assert (exists c, config_of_vector (a_cs (f_alg f)) row = Ok c) as (c & Hc).
        { unfold forest_incumbent_region in H. rewrite Ht in H. destruct ts as [|t0 ts0]; [discriminate|].
          destruct (bind (mapM _ _) _) as [counts|e] eqn:Ec; [|discriminate H]. apply bind_ok in Ec. destruct Ec as (regs & _ & Hc).
          destruct (mapM_nth _ _ _ _ _ Hc E) as (n & _ & Hn). apply bind_ok in Hn. destruct Hn as (c & Hn & _). eauto. }
        exists row, c. refine (conj eq_refl (conj Hc _)). apply overlaps_zero. exact Hz. }
    destruct r as [rx ry rv]. destruct IS as (I1 & I2 & I3). cbn in I1, I2, I3. subst idxs.
    f_equal.
    + apply (rows_seq x rx 0); [rewrite Lx, Nat.sub_0_r; exact I1|lia].
    + apply (rows_seq y ry 0); [rewrite Ly, Nat.sub_0_r; exact I2|lia].
    + apply (rows_seq v rv 0); [rewrite Lv, Nat.sub_0_r; exact I3|lia].
  - intros z -> Hz. cbn [threshold] in M. assert (idxs = []).
    { destruct idxs as [|i l]; [reflexivity|]. exfalso. destruct (proj1 (M i) (or_introl eq_refl)) as (row & c & _ & _ & O).
      revert O. apply overlaps_too_many. lia. }
    subst idxs. destruct r as [rx ry rv]. destruct IS as (I1 & I2 & I3). cbn in I1, I2, I3. inversion I1; inversion I2; inversion I3. reflexivity.
  - intros i row Hk Hrow Hc. apply M. exists row, cfg. refine (conj Hrow (conj Hc _)).
    eapply overlaps_mono; [|apply overlaps_all; exact (incumbent_lies_in f cfg nds R FO IR)].
    unfold threshold. rewrite Ht, <- Len. destruct k; lia.
Qed.

(** a larger threshold gives a sub-list of the curves *)
Theorem forest_region_shrinks f cfg k k' r r' : a_samples (f_alg f) <> [] -> (k <= k')%Z ->
  snd (forest_incumbent_region f cfg (Some k)) = Ok r -> snd (forest_incumbent_region f cfg (Some k')) = Ok r' ->
  exists x y v idxs idxs', StronglySorted lt idxs /\ StronglySorted lt idxs' /\ incl idxs' idxs /\
    is_rows (mkregion x y v) idxs r /\ is_rows (mkregion x y v) idxs' r'.
Proof.
  intros Hne Hk H H'. destruct (forest_region_is_overlap f cfg _ r H Hne) as (nds & x & y & v & idxs & IR & SH & SS & IS & M).
  destruct (forest_region_is_overlap f cfg _ r' H' Hne) as (nds' & x' & y' & v' & idxs' & IR' & SH' & SS' & IS' & M').
  assert (nds' = nds).
  { destruct IR as (ts & Ht & F). destruct IR' as (ts' & Ht' & F'). rewrite Ht in Ht'. inversion Ht'; subst ts'. clear -F F'.
    revert nds' F'. induction F as [|t nd ts nds (id & A & B) F IH]; intros nds' F'; inversion F' as [|t' nd' ? ? (id' & A' & B') F'']; subst; [reflexivity|].
    f_equal; [congruence|auto]. }
  subst nds'. unfold shows in SH, SH'. rewrite SH in SH'. inversion SH'; subst x' y' v'.
  exists x, y, v, idxs, idxs'. refine (conj SS (conj SS' (conj _ (conj IS IS')))). intros i Hi. apply M' in Hi. apply M.
  destruct Hi as (row & c & A & B & C). exists row, c. refine (conj A (conj B _)). revert C. cbn [threshold]. apply overlaps_mono. exact Hk.
Qed.
End L.

(** ** C17 *)
Theorem forest_needs_size f n d : (0 < n)%Z -> forest_partition f n d None = (f, Err TypeError).
Proof. intro H. unfold forest_partition. rewrite (proj2 (Z.ltb_lt _ _) H). reflexivity. Qed.

(** ** C20 *)
Definition settings f (ns mp : nat) : forest N := mkforest (f_ice f) (f_possible f) ns mp (f_rng f) (f_pos f) (f_trees f).
Lemma settings_grow f ns mp depth size n : forall pos acc, grow_trees (settings f ns mp) depth size n pos acc = grow_trees f depth size n pos acc.
Proof.
  induction n as [|n IH]; intros pos acc; [reflexivity|]. cbn [grow_trees].
  change (grow_tree (settings f ns mp) depth size pos) with (grow_tree f depth size pos). destruct (grow_tree f depth size pos) as [p [t|e]]; [apply IH|reflexivity].
Qed.
Lemma settings_step f ns mp op : forest_step (settings f ns mp) op = (settings (fst (forest_step f op)) ns mp, snd (forest_step f op)).
Proof.
  destruct op as [n d s|c k|op]; cbn [forest_step].
  - unfold forest_partition. destruct (negb _); [reflexivity|]. destruct s; [|reflexivity]. do 2 (destruct (negb _); [reflexivity|]).
    rewrite settings_grow. change (f_pos (settings f ns mp)) with (f_pos f). destruct (grow_trees _ _ _ _ _ _) as [[pos ts] r]. reflexivity.
  - unfold forest_incumbent_region, settings. cbn [f_trees f_ice f_alg f_possible f_nsplits f_minpts f_rng f_pos]. unfold f_alg. cbn [f_ice].
    destruct (f_trees f) as [[|t ts]|] eqn:Et; try (cbn; rewrite ?Et; reflexivity).
    destruct (bind (mapM (tree_region c) (t :: ts)) _) as [counts|e]; [|cbn; rewrite ?Et; reflexivity].
    destruct (read_x (f_ice f)) as [i1 x]. destruct (read_y i1) as [i2 y]. destruct (read_v i2) as [i3 v]. cbn; rewrite ?Et; reflexivity.
  - cbn. destruct (ice_step (f_ice f) op). reflexivity.
Qed.
Theorem forest_ignores_settings f ns mp ops :
  forest_run (settings f ns mp) ops = (settings (fst (forest_run f ops)) ns mp, snd (forest_run f ops)).
Proof.
  revert f. induction ops as [|op ops IH]; intro f; [reflexivity|]. cbn [forest_run]. rewrite settings_step.
  destruct (forest_step f op) as [f1 r]. cbn [fst snd]. rewrite IH. destruct (forest_run f1 ops). reflexivity.
Qed.
Theorem forest_constructor_settings cs predict sel samples gpa ns mp ns' mp' rng ops f f' :
  forest_new cs predict sel samples gpa ns mp rng = Ok f -> forest_new (N:=N) cs predict sel samples gpa ns' mp' rng = Ok f' ->
  snd (forest_run f ops) = snd (forest_run f' ops) /\ f_trees (fst (forest_run f ops)) = f_trees (fst (forest_run f' ops)).
Proof.
  unfold forest_new. intros H H'. apply bind_ok in H. destruct H as (a & Ha & H). rewrite Ha in H'. cbn in H'. inversion H; subst f. inversion H'; subst f'.
  set (g := mkforest _ _ ns mp _ _ _). change (mkforest _ _ ns' mp' _ _ _) with (settings g ns' mp').
  rewrite forest_ignores_settings. cbn. auto.
Qed.

End P.
