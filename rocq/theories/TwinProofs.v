(** TwinProofs.v - names, kinds, ranges and scales of the hyperparameters do not enter curves and trees (C101). *)
From Verif Require Import Base Num NumpyModel ConfigSpaceModel UtilsModel IceModel PartitionModel ForestModel ListLemmas IceProofs TwinSpec.
Local Open Scope nat_scope.
Local Open Scope list_scope.

Lemma both_bind {A B C D} (R : A -> B -> Prop) (S : C -> D -> Prop) m m' k k' :
  both R m m' -> (forall a b, R a b -> both S (k a) (k' b)) -> both S (bind m k) (bind m' k').
Proof. destruct m, m'; cbn; auto; contradiction. Qed.
Lemma both_eq {A} (m : res A) : both eq m m.
Proof. destruct m; reflexivity. Qed.
Lemma both_eq_inv {A} (m m' : res A) : both eq m m' -> m = m'.
Proof. destruct m, m'; cbn; try contradiction; congruence. Qed.
Lemma both_mapM {A B C D} (R : A -> B -> Prop) (S : C -> D -> Prop) f f' l l' :
  (forall a b, R a b -> both S (f a) (f' b)) -> Forall2 R l l' -> both (Forall2 S) (mapM f l) (mapM f' l').
Proof.
  intros H F. induction F as [|a b l l' Rab F IH]; cbn; [constructor|].
  apply (both_bind S); [auto|]. intros c d Scd. apply (both_bind (Forall2 S)); [exact IH|]. intros cs ds F'. constructor; assumption.
Qed.
Lemma both_foldM {A B C D} (R : A -> B -> Prop) (S : C -> D -> Prop) f f' l l' s s' :
  (forall s s' a b, S s s' -> R a b -> both S (f s a) (f' s' b)) -> Forall2 R l l' -> S s s' -> both S (foldM f l s) (foldM f' l' s').
Proof. intros H F. revert s s'. induction F as [|a b l l' Rab F IH]; intros s s' HS; cbn; [exact HS|]. apply (both_bind S); auto. Qed.
Lemma Forall2_mask_select {A B} (R : A -> B -> Prop) mask l l' : Forall2 R l l' -> Forall2 R (mask_select mask l) (mask_select mask l').
Proof. intro F. revert mask. induction F as [|a b l l' Rab F IH]; intros [|[|] mask]; cbn; try constructor; auto. Qed.
Lemma Forall2_set_nth {A B} (R : A -> B -> Prop) i a b l l' : R a b -> Forall2 R l l' -> Forall2 R (set_nth i a l) (set_nth i b l').
Proof. intros Rab F. revert i. induction F as [|x y l l' Rxy F IH]; intros [|i]; cbn; constructor; auto. Qed.
Lemma Forall2_nth_error {A B} (R : A -> B -> Prop) l l' i : Forall2 R l l' ->
  match nth_error l i, nth_error l' i with Some a, Some b => R a b | None, None => True | _, _ => False end.
Proof. intro F. revert i. induction F as [|a b l l' Rab F IH]; intros [|i]; cbn; auto. apply IH. Qed.

Section Twin.
Context {N : Num}.
Variables cs cs' : cspace N.
Hypothesis SZ : same_size cs cs'.
Notation tw := (twin cs cs').

Lemma twin_idx h h' : tw h h' -> cs_idx cs (hp_name h) = cs_idx cs' (hp_name h') /\ exists i, cs_idx cs (hp_name h) = Ok i.
Proof. destruct SZ as (_ & ND & ND'). intros (i & H & H'). rewrite (cs_idx_nodup cs i h ND H), (cs_idx_nodup cs' i h' ND' H'). eauto. Qed.
Lemma twin_names h h' k k' : tw h h' -> tw k k' -> (hp_name h = hp_name k <-> hp_name h' = hp_name k').
Proof.
  destruct SZ as (_ & ND & ND'). intros (i & H & H') (j & K & K'). split; intro E.
  - pose proof (cs_idx_nodup cs i h ND H) as A. pose proof (cs_idx_nodup cs j k ND K) as B. assert (i = j) by congruence. subst j. congruence.
  - pose proof (cs_idx_nodup cs' i h' ND' H') as A. pose proof (cs_idx_nodup cs' j k' ND' K') as B. assert (i = j) by congruence. subst j. congruence.
Qed.
Lemma twin_all : Forall2 tw cs cs'.
Proof.
  assert (G : forall l l' : cspace N, length l = length l' -> Forall2 (fun h h' => exists i, nth_error l i = Some h /\ nth_error l' i = Some h') l l').
  { induction l as [|h l IH]; intros [|h' l'] E; try discriminate; constructor; [exists 0; auto|].
    specialize (IH l' ltac:(cbn in E; lia)). eapply Forall2_impl'; [|exact IH]. intros a b (i & A & B). exists (S i); auto. }
  destruct SZ as (L & _). exact (G cs cs' L).
Qed.
Lemma twin_get h h' : tw h h' -> both tw (cs_get cs (hp_name h)) (cs_get cs' (hp_name h')).
Proof.
  destruct SZ as (_ & ND & ND'). intros (i & H & H'). rewrite (cs_get_nodup cs h ND (nth_error_In _ _ H)), (cs_get_nodup cs' h' ND' (nth_error_In _ _ H')). exists i. auto.
Qed.
Lemma twin_sel_item i i' : twin_item cs cs' i i' -> both tw (sel_item cs i) (sel_item cs' i').
Proof. intros [h h' T|h h' T|]; cbn; [apply twin_get; exact T|exact T|reflexivity]. Qed.
Lemma twin_convert s s' : twin_selection cs cs' s s' -> both (Forall2 tw) (convert_hyperparameters s cs) (convert_hyperparameters s' cs').
Proof.
  intros [|i i' T|l l' F].
  - reflexivity.
  - assert (M : both (Forall2 tw) (mapM (sel_item cs) [i]) (mapM (sel_item cs') [i'])).
    { apply (both_mapM (twin_item cs cs')); [exact twin_sel_item|]. repeat constructor; exact T. }
    destruct T; exact M || reflexivity.
  - apply (both_mapM (twin_item cs cs')); [exact twin_sel_item|exact F].
Qed.
Lemma twin_get_hps s s' : twin_selection cs cs' s s' -> both (Forall2 tw) (get_hyperparameters s cs) (get_hyperparameters s' cs').
Proof.
  intros [|i i' T|l l' F].
  - exact twin_all.
  - destruct T as [h h' T|h h' T|]; cbn.
    + apply (both_bind tw); [apply twin_get; exact T|]. intros a b Tab. repeat constructor; exact Tab.
    + repeat constructor; exact T.
    + reflexivity.
  - apply (both_mapM (twin_item cs cs')); [exact twin_sel_item|exact F].
Qed.
Lemma twin_selected_idx l l' : Forall2 tw l l' -> get_selected_idx l cs = get_selected_idx l' cs'.
Proof.
  intro F. unfold get_selected_idx. induction F as [|h h' l l' T F IH]; [reflexivity|]. cbn. rewrite (proj1 (twin_idx _ _ T)). rewrite IH. reflexivity.
Qed.

(** curves *)
Theorem twin_curves sel sel' samples gpa c (p : predictor N) : Forall2 tw sel sel' ->
  ice_calculate (mkalg cs sel samples gpa) c p = ice_calculate (mkalg cs' sel' samples gpa) c p.
Proof.
  intro F. assert (L : length sel = length sel') by exact (Forall2_length _ _ _ F). destruct SZ as (Lc & _ & _).
  unfold ice_calculate, ice_x, grid_points, num_grid_points, num_samples, num_features, n_selected. cbn [a_cs a_sel a_samples a_gpa].
  rewrite (twin_selected_idx _ _ F), L, Lc. reflexivity.
Qed.

(** trees *)
Notation tnode := (twin_node cs cs').
Notation tcond := (twin_cond cs cs').
Lemma twin_mem h h' l l' : tw h h' -> Forall2 tw l l' -> mem_string (hp_name h) (map hp_name l) = mem_string (hp_name h') (map hp_name l').
Proof.
  intros T F. unfold mem_string. induction F as [|k k' l l' Tk F IH]; [reflexivity|]. cbn. rewrite IH. f_equal.
  pose proof (twin_names _ _ _ _ T Tk) as E. destruct (String.eqb_spec (hp_name h) (hp_name k)), (String.eqb_spec (hp_name h') (hp_name k')); tauto || reflexivity.
Qed.
Lemma twin_difference l l' k k' : Forall2 tw l l' -> Forall2 tw k k' -> Forall2 tw (hp_difference l k) (hp_difference l' k').
Proof.
  intros F K. unfold hp_difference. induction F as [|h h' l l' T F IH]; cbn; [constructor|].
  rewrite (twin_mem h h' _ _ T K). destruct (mem_string (hp_name h') (map hp_name k')); cbn; [exact IH|constructor; assumption].
Qed.
Lemma twin_split_parameters sel sel' ns ns' : Forall2 tw sel sel' -> Forall2 tw ns ns' -> Forall2 tw (split_parameters cs sel ns) (split_parameters cs' sel' ns').
Proof.
  intros F K. unfold split_parameters. rewrite <- !map_app. apply (twin_difference cs cs' (sel ++ ns) (sel' ++ ns')); [exact twin_all|apply Forall2_app; assumption].
Qed.
Lemma twin_filter nd nd' c c' : tnode nd nd' -> tcond c c' -> both tnode (filter_by_condition cs nd c) (filter_by_condition cs' nd' c').
Proof.
  intros (Ed & Er & Fc) (T & Ev & El). unfold filter_by_condition. destruct (twin_idx _ _ T) as (Ei & _). rewrite Ei, Er.
  assert (Em : forall x, cond_mask c x = cond_mask c' x) by (intro x; unfold cond_mask; rewrite Ev, El; reflexivity).
  apply (both_bind eq); [apply both_eq|]. intros idx _ <-. apply (both_bind eq); [apply both_eq|]. intros vals _ <-.
  rewrite (map_ext _ _ Em). apply (both_bind eq); [apply both_eq|]. intros r _ <-. cbn.
  refine (conj _ (conj eq_refl _)); cbn; [congruence|]. apply Forall2_app; [exact Fc|]. constructor; [|constructor]. exact (conj T (conj Ev El)).
Qed.
Definition pair_rel {A B} (R : A -> B -> Prop) (x : A * A) (y : B * B) : Prop := R (fst x) (fst y) /\ R (snd x) (snd y).
Lemma twin_split nd nd' h h' v : tnode nd nd' -> tw h h' -> both (pair_rel tnode) (split_at_value cs nd h v) (split_at_value cs' nd' h' v).
Proof.
  intros T Th. unfold split_at_value.
  apply (both_bind tnode); [apply twin_filter; [exact T|exact (conj Th (conj eq_refl eq_refl))]|]. intros l l' Tl.
  apply (both_bind tnode); [apply twin_filter; [exact T|exact (conj Th (conj eq_refl eq_refl))]|]. intros r r' Tr. exact (conj Tl Tr).
Qed.
Definition best_rel (b b' : best N) : Prop :=
  match b, b' with None, None => True | Some (x, lr), Some (x', lr') => x = x' /\ pair_rel tnode lr lr' | _, _ => False end.
Definition cand_rel (a b : hp N * N) : Prop := tw (fst a) (fst b) /\ snd a = snd b.
Lemma twin_step mp nd nd' b b' a a' : tnode nd nd' -> best_rel b b' -> cand_rel a a' -> both best_rel (split_step cs mp nd b a) (split_step cs' mp nd' b' a').
Proof.
  intros T B (Th & Ev). unfold split_step. rewrite <- Ev. apply (both_bind (pair_rel tnode)); [apply twin_split; assumption|].
  intros (l, r) (l', r') (Tl & Tr). cbn [fst snd] in Tl, Tr. destruct Tl as (Dl & Rl & Cl), Tr as (Dr & Rr & Cr). rewrite <- Rl, <- Rr.
  destruct (Nat.ltb _ mp || Nat.ltb _ mp)%bool; [exact B|].
  destruct b as [(x, lr)|], b' as [(x', lr')|]; cbn in B; try contradiction.
  - destruct B as (<- & B). destruct (nlt _ x); cbn; [|exact (conj eq_refl B)].
    refine (conj eq_refl (conj _ _)); cbn; [exact (conj Dl (conj Rl Cl))|exact (conj Dr (conj Rr Cr))].
  - destruct (nltinf _); cbn; [|exact Logic.I].
    refine (conj eq_refl (conj _ _)); cbn; [exact (conj Dl (conj Rl Cl))|exact (conj Dr (conj Rr Cr))].
Qed.
Lemma twin_candidates l l' n : Forall2 tw l l' -> Forall2 cand_rel (candidates l n) (candidates l' n).
Proof.
  intro F. unfold candidates. induction F as [|h h' l l' T F IH]; cbn; [constructor|]. apply Forall2_app; [|exact IH].
  clear IH F. induction (possible_split_vals n) as [|v vs IHv]; cbn; constructor; [exact (conj T eq_refl)|exact IHv].
Qed.
Lemma twin_best_split hps hps' ns mp nd nd' : Forall2 tw hps hps' -> tnode nd nd' ->
  both (opt_rel (pair_rel tnode)) (calc_best_split cs hps ns mp nd) (calc_best_split cs' hps' ns mp nd').
Proof.
  intros F T. unfold calc_best_split. assert (Es : is_splittable nd = is_splittable nd') by (unfold is_splittable; destruct T as (_ & -> & _); reflexivity).
  rewrite Es. apply (both_bind eq); [apply both_eq|]. intros _ _ _.
  apply (both_bind best_rel).
  - apply (both_foldM cand_rel); [|apply twin_candidates; exact F|exact Logic.I]. intros s s' a b B C. apply twin_step; assumption.
  - intros [(x, lr)|] [(x', lr')|] B; cbn in *; try contradiction; tauto.
Qed.
Definition tcell (c c' : cell N) : Prop := tnode (n_node c) (n_node c') /\ n_parent c = n_parent c' /\ n_left c = n_left c' /\ n_right c = n_right c'.
Definition tmachine (m m' : machine N) : Prop :=
  Forall2 tcell (m_heap m) (m_heap m') /\ m_leaves m = m_leaves m' /\ m_stack m = m_stack m' /\ m_err m = m_err m'.
(** the two objects: everything but the spaces corresponds *)
Definition tdtp (p p' : dtp N) : Prop :=
  d_cs p = cs /\ d_cs p' = cs' /\ Forall2 tw (d_sel p) (d_sel p') /\ Forall2 tw (d_possible p) (d_possible p') /\
  d_nsplits p = d_nsplits p' /\ d_minpts p = d_minpts p' /\ Forall2 tcell (d_heap p) (d_heap p') /\ d_leaves p = d_leaves p'.
Lemma twin_part_step p p' d m m' : tdtp p p' -> tmachine m m' -> tmachine (part_step p d m) (part_step p' d m').
Proof.
  intros (Ec & Ec' & _ & Fp & Es & Em & _) (Fh & El & Eq & Ee). unfold part_step. rewrite Ec, Ec', <- Es, <- Em, <- Ee, <- Eq.
  destruct (m_err m) eqn:Hm; [refine (conj Fh (conj El (conj Eq _))); congruence|].
  destruct (m_stack m) as [|id q] eqn:Hq; [refine (conj Fh (conj El (conj _ _))); congruence|].
  pose proof (Forall2_nth_error _ _ _ id Fh) as Hc.
  destruct (nth_error (m_heap m) id) as [c|], (nth_error (m_heap m') id) as [c'|]; try contradiction.
  2: { refine (conj Fh (conj El (conj eq_refl eq_refl))). }
  destruct Hc as (Tn & Ep & Hl & Hr). pose proof Tn as (Ed & Er & Cc).
  assert (Es' : is_splittable (n_node c) = is_splittable (n_node c')) by (unfold is_splittable; rewrite Er; reflexivity).
  rewrite <- Es', <- Ed. destruct (negb (is_splittable (n_node c)) || Nat.leb d (n_depth (n_node c)))%bool.
  - refine (conj Fh (conj _ (conj eq_refl eq_refl))). cbn. congruence.
  - pose proof (twin_best_split (d_possible p) (d_possible p') (d_nsplits p) (d_minpts p) _ _ Fp Tn) as B.
    destruct (calc_best_split cs (d_possible p) (d_nsplits p) (d_minpts p) (n_node c)) as [b|e], (calc_best_split cs' (d_possible p') (d_nsplits p) (d_minpts p) (n_node c')) as [b'|e']; cbn in B; try contradiction.
    + destruct b as [(l, r)|], b' as [(l', r')|]; cbn in B; try contradiction.
      * destruct B as (Bl & Br). cbn in Bl, Br. rewrite (Forall2_length _ _ _ Fh) , <- El.
        refine (conj _ (conj eq_refl (conj eq_refl eq_refl))). cbn. apply Forall2_app.
        -- apply Forall2_set_nth; [|exact Fh]. exact (conj Tn (conj Ep (conj eq_refl eq_refl))).
        -- repeat (apply Forall2_cons; [refine (conj _ (conj eq_refl (conj eq_refl eq_refl))); assumption|]). constructor.
      * refine (conj Fh (conj _ (conj eq_refl eq_refl))). cbn. congruence.
    + subst e'. refine (conj Fh (conj El (conj eq_refl eq_refl))).
Qed.
Lemma twin_loop p p' d k m m' : tdtp p p' -> tmachine m m' -> tmachine (loop_pow p d k m) (loop_pow p' d k m').
Proof. intro T. revert m m'. induction k as [|k IH]; intros m m' M; cbn; [apply twin_part_step; assumption|]. auto. Qed.
Lemma twin_partition p p' d : tdtp p p' -> tdtp (fst (partition p d)) (fst (partition p' d)) /\ snd (partition p d) = snd (partition p' d).
Proof.
  intro T. unfold partition. destruct (Nat.eqb d 0); [exact (conj T eq_refl)|].
  assert (M : tmachine (mkmachine (d_heap p) [] [0] None) (mkmachine (d_heap p') [] [0] None)) by (refine (conj _ (conj eq_refl (conj eq_refl eq_refl))); apply T).
  pose proof (twin_loop p p' d (S d) _ _ T M) as (Fh & El & Eq & Ee). cbn [fst snd].
  set (m := loop_pow p d (S d) _) in *. set (m' := loop_pow p' d (S d) _) in *.
  destruct T as (T1 & T2 & T3 & T4 & T5 & T6 & T7 & T8).
  split; [exact (conj T1 (conj T2 (conj T3 (conj T4 (conj T5 (conj T6 (conj Fh El)))))))|]. rewrite Ee, Eq, El. reflexivity.
Qed.
Lemma twin_history p p' ds : tdtp p p' -> tdtp (run_history p ds) (run_history p' ds).
Proof. revert p p'. induction ds as [|d ds IH]; intros p p' T; [exact T|]. cbn. apply IH. apply (twin_partition p p' d T). Qed.
Lemma tdtp_tree p p' : tdtp p p' -> twin_tree cs cs' p p'.
Proof. intros (_ & _ & _ & _ & _ & _ & Fh & El). exact (conj El Fh). Qed.

Lemma twin_new (pr : predictor N) sel sel' samples gpa ns mp nots nots' : twin_selection cs cs' sel sel' -> twin_nots cs cs' nots nots' ->
  both tdtp (dt_new cs pr sel samples gpa ns mp nots) (dt_new cs' pr sel' samples gpa ns mp nots').
Proof.
  intros Ts Tn. unfold dt_new, algorithm_new.
  apply (both_bind (fun a a' : algorithm N => exists l l', a = mkalg cs l samples gpa /\ a' = mkalg cs' l' samples gpa /\ Forall2 tw l l')).
  - apply (both_bind (Forall2 tw)); [apply twin_convert; exact Ts|]. intros l l' F. cbn. eauto.
  - intros a a' (l & l' & -> & -> & F).
    apply (both_bind (Forall2 tw)).
    { destruct nots as [n|], nots' as [n'|]; cbn in Tn; try contradiction; [apply twin_get_hps; exact Tn|constructor]. }
    intros k k' K. rewrite (twin_curves l l' samples gpa false pr F). apply (both_bind eq); [apply both_eq|]. intros dd _ <-.
    apply (both_bind eq); [apply both_eq|]. intros root _ <-. cbn.
    refine (conj eq_refl (conj eq_refl (conj F (conj _ (conj eq_refl (conj eq_refl (conj _ eq_refl))))))).
    + cbn [d_possible a_sel]. apply twin_split_parameters; assumption.
    + cbn. repeat constructor.
Qed.
Theorem twin_trees (pr : predictor N) sel sel' samples gpa ns mp nots nots' : twin_selection cs cs' sel sel' -> twin_nots cs cs' nots nots' ->
  both (fun p p' => forall ds d, twin_tree cs cs' (fst (partition (run_history p ds) d)) (fst (partition (run_history p' ds) d)) /\
                                 snd (partition (run_history p ds) d) = snd (partition (run_history p' ds) d))
    (dt_new cs pr sel samples gpa ns mp nots) (dt_new cs' pr sel' samples gpa ns mp nots').
Proof.
  intros Ts Tn. pose proof (twin_new pr sel sel' samples gpa ns mp nots nots' Ts Tn) as H.
  destruct (dt_new cs pr sel samples gpa ns mp nots), (dt_new cs' pr sel' samples gpa ns mp nots'); cbn in *; auto.
  intros ds d. pose proof (twin_partition _ _ d (twin_history _ _ ds H)) as (A & B). split; [apply tdtp_tree; exact A|exact B].
Qed.

(** forests *)
Definition tforest (f f' : forest N) : Prop :=
  (exists sel sel' samples gpa, ic_alg (f_ice f) = mkalg cs sel samples gpa /\ ic_alg (f_ice f') = mkalg cs' sel' samples gpa /\ Forall2 tw sel sel') /\
  ic_predict (f_ice f) = ic_predict (f_ice f') /\ Forall2 tw (f_possible f) (f_possible f') /\ f_rng f = f_rng f' /\ f_pos f = f_pos f' /\
  opt_rel (Forall2 tdtp) (f_trees f) (f_trees f').
Lemma twin_features f f' pos : tforest f f' -> fst (feature_subset f pos) = fst (feature_subset f' pos) /\
  both (Forall2 tw) (snd (feature_subset f pos)) (snd (feature_subset f' pos)).
Proof.
  intros (_ & _ & F & Er & _). unfold feature_subset. rewrite <- Er, <- (Forall2_length _ _ _ F).
  set (n := length (f_possible f)). set (dr := draws (f_rng f)).
  assert (C : Forall2 tw (compress (f_possible f) (dr pos n 2)) (compress (f_possible f') (dr pos n 2))) by (apply Forall2_mask_select; exact F).
  destruct C as [|x y l l' T C].
  - destruct F as [|h h' l l' T F]; [split; reflexivity|]. split; [reflexivity|].
    cbn [snd both]. induction (dr (pos + n) 1 n) as [|i is IH]; cbn [map]; constructor; [|exact IH].
    pose proof (Forall2_nth_error _ _ _ i (Forall2_cons _ _ T F)) as Hi.
    destruct (nth_error (h :: l) i) as [a|] eqn:Ea, (nth_error (h' :: l') i) as [b|] eqn:Eb; try contradiction.
    + rewrite (nth_error_nth _ _ h Ea), (nth_error_nth _ _ h' Eb). exact Hi.
    + apply nth_error_None in Ea, Eb. rewrite (nth_overflow _ _ Ea), (nth_overflow _ _ Eb). exact T.
  - split; [reflexivity|]. cbn. constructor; assumption.
Qed.
Lemma twin_shp l l' : Forall2 tw l l' -> twin_selection cs cs' (SelList (map SHp l)) (SelList (map SHp l')).
Proof. intro F. constructor. induction F; cbn; constructor; [constructor; assumption|assumption]. Qed.
Lemma twin_grow f f' d k pos : tforest f f' -> fst (grow_tree f d k pos) = fst (grow_tree f' d k pos) /\ both tdtp (snd (grow_tree f d k pos)) (snd (grow_tree f' d k pos)).
Proof.
  intros T. pose proof T as ((sel & sel' & samples & gpa & Ea & Ea' & F) & Ep & Fp & Er & _). unfold grow_tree, f_alg. rewrite Ea, Ea'. cbn [a_samples a_cs a_sel a_gpa].
  destruct samples as [|row rows]; [split; reflexivity|].
  destruct (twin_features f f' (pos + k) T) as (E1 & E2).
  destruct (feature_subset f (pos + k)) as [pos1 hps], (feature_subset f' (pos + k)) as [pos1' hps']. cbn [fst snd] in *. subst pos1'.
  split; [reflexivity|]. apply (both_bind (Forall2 tw)); [exact E2|]. intros l l' Fl.
  apply (both_bind tdtp).
  - unfold dt_from_ice. cbn [ic_alg ic_predict ice_new a_cs a_sel a_samples a_gpa]. rewrite Ep, Er. unfold num_samples. cbn [a_samples].
    apply twin_new; [apply twin_shp; exact F|]. cbn. apply twin_shp. apply twin_difference; assumption.
  - intros p p' Tp. destruct (twin_partition p p' d Tp) as (A & B). destruct (partition p d) as [q r], (partition p' d) as [q' r']. cbn [fst snd] in *. subst r'.
    apply (both_bind eq); [apply both_eq|]. intros _ _ _. exact A.
Qed.
Lemma twin_grows f f' d k n : tforest f f' -> forall pos ts ts', Forall2 tdtp ts ts' ->
  let r := grow_trees f d k n pos ts in let r' := grow_trees f' d k n pos ts' in
  fst (fst r) = fst (fst r') /\ Forall2 tdtp (snd (fst r)) (snd (fst r')) /\ snd r = snd r'.
Proof.
  intro T. induction n as [|n IH]; intros pos ts ts' Ft; cbn; [auto|].
  destruct (twin_grow f f' d k pos T) as (A & B). destruct (grow_tree f d k pos) as [p1 r1], (grow_tree f' d k pos) as [p1' r1']. cbn [fst snd] in *. subst p1'.
  destruct r1 as [t|e], r1' as [t'|e']; cbn in B; try contradiction.
  - apply IH. apply Forall2_app; [exact Ft|]. apply Forall2_cons; [exact B|apply Forall2_nil].
  - subst e'. cbn. auto.
Qed.
Lemma twin_forest_partition f f' n d k : tforest f f' -> tforest (fst (forest_partition f n d k)) (fst (forest_partition f' n d k)) /\ snd (forest_partition f n d k) = snd (forest_partition f' n d k).
Proof.
  intro T. unfold forest_partition. destruct (negb (0 <? n)%Z); [auto|]. destruct k as [k|]; [|auto]. destruct (negb (0 <? k)%Z); [auto|]. destruct (negb (0 <? d)%Z); [auto|].
  pose proof T as (Ta & Tp & Tf & Tr & To & _). rewrite <- To.
  pose proof (twin_grows f f' (Z.to_nat d) (Z.to_nat k) (Z.to_nat n) T (f_pos f) [] [] (Forall2_nil _)) as (A & B & C).
  destruct (grow_trees f _ _ _ _ _) as [[p1 t1] r1], (grow_trees f' _ _ _ _ _) as [[p1' t1'] r1']. cbn [fst snd] in *. subst p1' r1'.
  split; [|reflexivity]. exact (conj Ta (conj Tp (conj Tf (conj Tr (conj eq_refl B))))).
Qed.
Theorem twin_forests (pr : predictor N) sel sel' samples gpa ns mp rng : twin_selection cs cs' sel sel' ->
  both (fun f f' => forall calls n d k, let run f := fold_left (fun f c => fst (forest_partition f (fst (fst c)) (snd (fst c)) (snd c))) calls f in
          snd (forest_partition (run f) n d k) = snd (forest_partition (run f') n d k) /\
          opt_rel (Forall2 (twin_tree cs cs')) (f_trees (fst (forest_partition (run f) n d k))) (f_trees (fst (forest_partition (run f') n d k))))
    (forest_new cs pr sel samples gpa ns mp rng) (forest_new cs' pr sel' samples gpa ns mp rng).
Proof.
  intro Ts. unfold forest_new, algorithm_new.
  pose proof (twin_convert sel sel' Ts) as C. destruct (convert_hyperparameters sel cs) as [l|], (convert_hyperparameters sel' cs') as [l'|]; cbn in *; try contradiction; auto.
  intros calls n d k.
  match goal with |- context [fold_left _ calls ?a] => set (f := a) end.
  set (f' := mkforest (ice_new (mkalg cs' l' samples gpa) pr) (split_parameters cs' l' []) ns mp rng 0 None).
  assert (T : tforest f f').
  { refine (conj _ (conj eq_refl (conj _ (conj eq_refl (conj eq_refl Logic.I))))); [cbn; eauto 10|cbn; apply twin_split_parameters; [exact C|constructor]]. }
  assert (Tr : forall calls g g', tforest g g' ->
    tforest (fold_left (fun f c => fst (forest_partition f (fst (fst c)) (snd (fst c)) (snd c))) calls g) (fold_left (fun f c => fst (forest_partition f (fst (fst c)) (snd (fst c)) (snd c))) calls g')).
  { clear -SZ. induction calls as [|c calls IH]; intros g g' T; [exact T|]. cbn. apply IH. apply (twin_forest_partition g g' _ _ _ T). }
  destruct (twin_forest_partition _ _ n d k (Tr calls f f' T)) as (A & B). split; [exact B|].
  destruct A as (_ & _ & _ & _ & _ & A). unfold opt_rel in *. destruct (f_trees _), (f_trees _); try contradiction; auto.
  eapply Forall2_impl'; [|exact A]. intros a b. apply tdtp_tree.
Qed.
End Twin.
