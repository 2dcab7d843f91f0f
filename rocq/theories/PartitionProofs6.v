(** PartitionProofs6.v - the root region, the constructor, and optimality of
    every split of the tree in terms of the constructor's arguments (C05, C07, C61, C62). *)
From Verif Require Import Base Num NumpyModel ConfigSpaceModel UtilsModel IceModel PartitionModel PartitionSpec
  ListLemmas IceProofs IceProofs2 PartitionProofs PartitionProofs2 PartitionProofs3 PartitionProofs4.
From Coq Require Import Sorted.

Lemma sorted_lt_unique (l1 : list nat) : forall l2, StronglySorted lt l1 -> StronglySorted lt l2 ->
  (forall i, In i l1 <-> In i l2) -> l1 = l2.
Proof.
  induction l1 as [|a l1 IH]; intros [|b l2] S1 S2 E; [reflexivity| | |].
  - destruct (proj2 (E b)); left; reflexivity.
  - destruct (proj1 (E a)); left; reflexivity.
  - inversion S1 as [|? ? S1' F1]; inversion S2 as [|? ? S2' F2]; subst. rewrite Forall_forall in F1, F2.
    assert (a = b).
    { destruct (proj1 (E a) (or_introl eq_refl)) as [->|X]; [reflexivity|].
      destruct (proj2 (E b) (or_introl eq_refl)) as [->|Y]; [reflexivity|]. specialize (F1 _ Y). specialize (F2 _ X). lia. }
    subst b. f_equal. apply IH; auto. intro i. specialize (E i). cbn in E. split; intro Hi.
    + destruct (proj1 E (or_intror Hi)) as [->|X]; [|exact X]. specialize (F1 _ Hi). lia.
    + destruct (proj2 E (or_intror Hi)) as [->|X]; [|exact X]. specialize (F2 _ Hi). lia.
Qed.
Lemma rows_unique {A} (l : list A) idxs : forall a b,
  Forall2 (fun i m => nth_error l i = Some m) idxs a -> Forall2 (fun i m => nth_error l i = Some m) idxs b -> a = b.
Proof.
  induction idxs; intros a0 b0 H1 H2; inversion H1; inversion H2; subst; [reflexivity|]. f_equal; [congruence|auto].
Qed.

Section P.
Context {N : Num}.
Variable L : order_laws N.
Implicit Types (p : dtp N) (nd l r : dnode N) (cs : cspace N) (s : setup N).

Lemma side_unique cs nd c a b : side cs nd c a -> side cs nd c b -> a = b.
Proof.
  intros (D1 & C1 & i1 & S1 & (X1 & Y1 & V1) & K1) (D2 & C2 & i2 & S2 & (X2 & Y2 & V2) & K2).
  assert (i1 = i2) by (apply sorted_lt_unique; auto; intro i; rewrite K1, K2; tauto). subst i2.
  destruct a as [da [xa ya va] ca], b as [db [xb yb vb] cb]. cbn in *. subst.
  f_equal. f_equal; eapply rows_unique; eassumption.
Qed.

Lemma child_side cs nd c : wf_region (length cs) (n_region nd) -> NoDup (map hp_name cs) -> In (c_hp c) cs ->
  side cs nd c (child cs nd c).
Proof.
  intros W ND Hc. refine (conj eq_refl (conj eq_refl _)).
  exists (filter (fun i => cond_sat cs c (nth i (r_x (n_region nd)) [])) (seq 0 (length (r_x (n_region nd))))).
  refine (conj _ (conj _ _)).
  - apply StronglySorted_filter, StronglySorted_seq.
  - apply sel_region_rows; apply W.
  - assert (Q : forall curve, In curve (r_x (n_region nd)) -> (cond_sat cs c curve = true <-> curve_satisfies cs c curve)).
    { intros curve Hin. destruct (wf_curve _ _ _ W Hin) as (row & Hr & Hl). destruct (cs_idx_in cs (c_hp c) Hc) as (i & Hi).
      eapply cond_sat_spec; eauto. exists row. split; [exact Hr|]. rewrite Hl. eapply cs_idx_lt; eassumption. }
    intro i. rewrite filter_In, in_seq. split.
    + intros [Hi Hs]. assert (Hlt : i < length (r_x (n_region nd))) by lia.
      exists (nth i (r_x (n_region nd)) []). split; [apply nth_error_nth'; exact Hlt|]. apply Q; [apply nth_In; exact Hlt|exact Hs].
    + intros (curve & Hcv & Hs). pose proof (nth_error_Some_lt _ _ _ Hcv) as Hlt. split; [lia|].
      rewrite (nth_error_nth _ _ [] Hcv). apply Q; [eapply nth_error_In; eassumption|exact Hs].
Qed.

(** split_at_value computes exactly the two sides *)
Theorem split_is_sides cs nd h v l r :
  wf_region (length cs) (n_region nd) -> NoDup (map hp_name cs) -> In h cs ->
  (split_at_value cs nd h v = Ok (l, r) <-> side cs nd (mkcond h v true) l /\ side cs nd (mkcond h v false) r).
Proof.
  intros W ND Hh. rewrite split_ok; [|exact W|apply cs_idx_in; exact Hh].
  pose proof (child_side cs nd (mkcond h v true) W ND Hh) as S1. pose proof (child_side cs nd (mkcond h v false) W ND Hh) as S2.
  unfold split_pair. cbn [fst snd]. split.
  - intro E. inversion E; subst. split; assumption.
  - intros [E1 E2]. rewrite (side_unique _ _ _ _ _ E1 S1), (side_unique _ _ _ _ _ E2 S2). reflexivity.
Qed.

(** ** the constructor *)
Lemma ice_calculate_wf (a : algorithm N) c pr d : rect (num_features a) (a_samples a) -> 1 <= a_gpa a ->
  ice_calculate a c pr = Ok d -> wf_region (num_features a) (mkregion (i_x d) (i_y d) (i_v d)).
Proof.
  intros RR G E. destruct (ice_calculate_shapes _ _ _ _ RR E) as (Lx & Ly & Lv & Fx & Fy & Fv & Ff).
  constructor; cbn [r_x r_y r_v]; [congruence|congruence| |exact Ff].
  exists (num_grid_points a). refine (conj _ (conj Fx (conj Fy Fv))). apply Nat.neq_0_lt_0, Nat.pow_nonzero. lia.
Qed.

Theorem root_is_ice s p : setup_ok s -> reaches s p ->
  exists sel d, convert_hyperparameters (su_sel s) (su_cs s) = Ok sel /\
    ice_calculate (mkalg (su_cs s) sel (su_samples s) (su_gpa s)) false (su_predict s) = Ok d /\
    deref p 0 = Some (mkdnode 0 (mkregion (i_x d) (i_y d) (i_v d)) []).
Proof.
  intros SO R. destruct (reaches_facts L s p SO R) as (root & d & sel & ns & F).
  exists sel, d. refine (conj (rf_sel _ _ _ _ _ _ F) (conj (rf_ice _ _ _ _ _ _ F) _)).
  rewrite (rf_deref _ _ _ _ _ _ F), (rf_root _ _ _ _ _ _ F). reflexivity.
Qed.

Theorem construct_total s sel :
  setup_ok s -> convert_hyperparameters (su_sel s) (su_cs s) = Ok sel -> sel <> [] -> sel_known (su_cs s) sel ->
  (forall q, su_nots s = Some q -> exists ns, get_hyperparameters q (su_cs s) = Ok ns) ->
  batch_predictor (su_predict s) -> exists p0, construct s = Ok p0.
Proof.
  intros (ND & RC & G) Hsel Hne Hk Hn Hp.
  destruct (ice_calculate_total (alg_of s sel) false (su_predict s)) as (d & Hd); auto.
  assert (NS : exists ns, (match su_nots s with None => Ok [] | Some q => get_hyperparameters q (su_cs s) end) = Ok ns).
  { destruct (su_nots s) as [q|]; [apply (Hn q eq_refl)|eauto]. }
  destruct NS as (ns & Hns).
  assert (Hx : rect (num_features (alg_of s sel)) (a_samples (alg_of s sel))) by exact RC.
  pose proof (ice_calculate_wf (alg_of s sel) false (su_predict s) d Hx G Hd) as W.
  pose proof (region_new_ok _ _ W) as RN. cbn [r_x r_y r_v] in RN.
  eexists. unfold construct, dt_new, algorithm_new. rewrite Hsel. cbn [bind]. rewrite Hns. cbn [bind]. 
  unfold alg_of in Hd. rewrite Hd. cbn [bind]. rewrite RN. cbn [bind]. reflexivity.
Qed.

(** ** every split of the tree is the best one *)
Definition links_best p (heap : list (cell N)) : Prop :=
  forall id c, nth_error heap id = Some c ->
    (n_left c = None <-> n_right c = None) /\
    forall a b, n_left c = Some a -> n_right c = Some b ->
    exists ca cb, nth_error heap a = Some ca /\ nth_error heap b = Some cb /\ is_splittable (n_node c) = true /\
      calc_best_split (d_cs p) (d_possible p) (d_nsplits p) (d_minpts p) (n_node c) = Ok (Some (n_node ca, n_node cb)).

Lemma links_best_loop p d k m : links_best p (m_heap m) -> links_best p (m_heap (loop_pow p d k m)).
Proof.
  intro Hm. apply (loop_invariant p d (fun m => links_best p (m_heap m))); [|exact Hm].
  clear m Hm. intros m Hm. unfold part_step.
  destruct (m_err m); [exact Hm|]. destruct (m_stack m) as [|id q]; [exact Hm|].
  destruct (nth_error (m_heap m) id) as [c|] eqn:Hc; [|exact Hm].
  destruct (is_splittable (n_node c)) eqn:Sp; [|exact Hm].
  destruct (Nat.leb d (n_depth (n_node c))) eqn:Dp; [exact Hm|]. cbn [negb orb].
  destruct (calc_best_split _ _ _ _ _) as [[[l r]|]|e] eqn:Cb; try exact Hm. cbn [m_heap].
  set (hp := m_heap m) in *. set (k0 := length hp).
  assert (Lid : id < k0) by (apply nth_error_Some_lt in Hc; exact Hc).
  match goal with |- links_best p ?H => set (h' := H) end.
  assert (Old : forall j cj, nth_error hp j = Some cj -> exists cj', nth_error h' j = Some cj' /\ n_node cj' = n_node cj).
  { intros j cj Hj. pose proof (nth_error_Some_lt _ _ _ Hj) as Lj. unfold h'. rewrite nth_error_app1 by (rewrite set_nth_length; exact Lj).
    destruct (Nat.eq_dec j id) as [->|Hne].
    - rewrite nth_error_set_nth_eq by exact Lj. eexists; split; [reflexivity|]. cbn. congruence.
    - rewrite nth_error_set_nth_neq by congruence. eauto. }
  assert (N0 : nth_error h' k0 = Some (mkcell l (Some id) None None)).
  { unfold h'. rewrite nth_error_app2 by (rewrite set_nth_length; unfold k0; lia). rewrite set_nth_length. unfold k0. rewrite Nat.sub_diag. reflexivity. }
  assert (N1 : nth_error h' (S k0) = Some (mkcell r (Some id) None None)).
  { unfold h'. rewrite nth_error_app2 by (rewrite set_nth_length; unfold k0; lia). rewrite set_nth_length. unfold k0.
    replace (S (length hp) - length hp) with 1 by lia. reflexivity. }
  intros j cj Hj. destruct (Nat.lt_ge_cases j k0) as [Hl|Hl].
  - unfold h' in Hj. rewrite nth_error_app1 in Hj by (rewrite set_nth_length; exact Hl).
    destruct (Nat.eq_dec j id) as [->|Hne].
    + rewrite nth_error_set_nth_eq in Hj by exact Hl. inversion Hj; subst cj. cbn [n_left n_right n_node]. split; [split; discriminate|].
      intros a b Ea Eb. inversion Ea; inversion Eb; subst a b. do 2 eexists. refine (conj N0 (conj N1 (conj Sp _))). exact Cb.
    + rewrite nth_error_set_nth_neq in Hj by congruence. destruct (Hm j cj Hj) as [Q1 Q2]. split; [exact Q1|]. intros a b Ea Eb.
      destruct (Q2 a b Ea Eb) as (ca & cb & Ha & Hb & Hs & E). destruct (Old _ _ Ha) as (ca' & Ha' & Ea'). destruct (Old _ _ Hb) as (cb' & Hb' & Eb').
      exists ca', cb'. refine (conj Ha' (conj Hb' (conj Hs _))). rewrite Ea', Eb'. exact E.
  - assert (cj = mkcell l (Some id) None None \/ cj = mkcell r (Some id) None None) as [-> | ->].
    { unfold h' in Hj. rewrite nth_error_app2 in Hj by (rewrite set_nth_length; exact Hl).
      destruct (j - length (set_nth id (mkcell (n_node c) (n_parent c) (Some k0) (Some (S k0))) hp)) as [|[|z]]; cbn in Hj.
      - left; congruence. - right; congruence. - destruct z; discriminate. }
    + cbn. split; [tauto|discriminate].
    + cbn. split; [tauto|discriminate].
Qed.

Lemma links_best_history p root ds : inv p root -> links_best p (d_heap p) -> links_best p (d_heap (run_history p ds)).
Proof.
  revert p; induction ds as [|d ds IH]; intros p I H; [exact H|].
  change (run_history p (d :: ds)) with (run_history (fst (partition p d)) ds).
  destruct (history_inv L p root [d] I) as [I' SS]. cbn in I', SS.
  assert (Tr : forall h, links_best (fst (partition p d)) h <-> links_best p h).
  { destruct SS as (A & B & C & D & E). unfold links_best. rewrite A, C, D, E. tauto. }
  apply Tr, IH; [exact I'|]. apply Tr. unfold partition. destruct (Nat.eqb d 0); [exact H|]. cbn [fst with_tree d_heap].
  apply links_best_loop. exact H.
Qed.

Lemma offered_admissible s p root dd sel ns nd l r :
  setup_ok s -> reach_facts s p root dd sel ns -> wf_region (length (su_cs s)) (n_region nd) ->
  (offered s nd l r <-> exists a b, admissible (su_cs s) (d_possible p) (su_splits s) (su_minpts s) nd a b l r).
Proof.
  intros (ND & _) F W. pose proof (rf_poss _ _ _ _ _ _ F) as EP.
  assert (SP : forall h, splittable s h <-> In h (d_possible p)).
  { intro h. rewrite EP, split_parameters_spec. pose proof (rf_sel _ _ _ _ _ _ F) as E1. pose proof (rf_nots _ _ _ _ _ _ F) as E2. split.
    - intros (H1 & H2 & H3). refine (conj H1 (conj (H2 _ E1) _)). destruct (su_nots s) as [q|]; [apply (H3 q ns eq_refl E2)|]. inversion E2; subst. intros [].
    - intros (H1 & H2 & H3). refine (conj H1 (conj _ _)).
      + intros sel' E. rewrite E1 in E. inversion E; subst; exact H2.
      + intros q nots Eq E. rewrite Eq, E in E2. inversion E2; subst; exact H3. }
  assert (HC : forall h, In h (d_possible p) -> In h (su_cs s)) by (intros h Hh; apply SP in Hh; apply Hh).
  split.
  - intros (h & v & Hs & Hv & Sl & Sr & M1 & M2). apply SP in Hs.
    destruct (In_nth_error _ _ Hs) as (a & Ha). destruct (In_nth_error _ _ Hv) as (b & Hb).
    exists a, b, h, v. refine (conj Ha (conj Hb (conj _ (conj M1 M2)))). apply split_is_sides; auto.
  - intros (a & b & h & v & Ha & Hb & E & M1 & M2). apply nth_error_In in Ha, Hb.
    apply split_is_sides in E; auto. destruct E as [E1 E2]. exists h, v. refine (conj (proj2 (SP h) Ha) (conj Hb (conj E1 (conj E2 (conj M1 M2))))).
Qed.

Theorem tree_splits_optimal s p : setup_ok s -> reaches s p ->
  forall id c, nth_error (d_heap p) id = Some c ->
    (n_left c = None /\ n_right c = None) \/
    exists a b l r, n_left c = Some a /\ n_right c = Some b /\ deref p a = Some l /\ deref p b = Some r /\
      offered s (n_node c) l r /\ nltinf (split_total (l, r)) = true /\
      forall l' r', offered s (n_node c) l' r' -> nlt (split_total (l', r')) (split_total (l, r)) = false.
Proof.
  intros SO R. pose proof R as R0. destruct (reaches_facts L s p SO R) as (root & dd & sel & ns & F).
  assert (LB : links_best p (d_heap p)).
  { destruct R0 as (p0 & ds & Hc & ->). destruct (construct_spec s p0 SO Hc) as (sel' & ns' & d' & root' & _ & _ & _ & _ & E0 & I0 & _).
    assert (X : links_best p0 (d_heap (run_history p0 ds))).
    { eapply links_best_history; [exact I0|]. rewrite E0. cbn [d_heap]. intros [|[|id]] c Hid; cbn in Hid; try discriminate.
      inversion Hid; subst c. cbn. split; [tauto|discriminate]. }
    destruct (history_inv L p0 _ ds I0) as [_ (A & B & C & D & E)]. unfold links_best in *. rewrite <- A, <- C, <- D, <- E. exact X. }
  intros id c Hc. destruct (LB id c Hc) as [Q1 Q2].
  destruct (n_left c) as [a|] eqn:Ea; [|left; tauto]. destruct (n_right c) as [b|] eqn:Eb; [|exfalso; destruct Q1 as [_ Q1]; discriminate (Q1 eq_refl)].
  right. destruct (Q2 a b eq_refl eq_refl) as (ca & cb & Ha & Hb & Hs & E). exists a, b, (n_node ca), (n_node cb).
  assert (W : wf_region (length (su_cs s)) (n_region (n_node c))).
  { rewrite <- (rf_cs _ _ _ _ _ _ F). apply (derived_wf p root); [apply (inv_wf _ _ (rf_inv _ _ _ _ _ _ F))|]. exact (rf_derived _ _ _ _ _ _ F id c Hc). }
  assert (HI : incl (d_possible p) (su_cs s)).
  { intros h Hh. rewrite (rf_poss _ _ _ _ _ _ F), split_parameters_spec in Hh. tauto. }
  rewrite (rf_cs _ _ _ _ _ _ F), (rf_ns _ _ _ _ _ _ F), (rf_mp _ _ _ _ _ _ F) in E.
  destruct (best_split_optimal L (su_cs s) (d_possible p) (su_splits s) (su_minpts s) (n_node c) W HI) as [[E' _]|(a' & b' & l & r & E' & Ad & Hi & Opt)].
  { apply Nat.ltb_lt. exact Hs. } { congruence. }
  rewrite E' in E. inversion E; subst l r.
  refine (conj eq_refl (conj eq_refl (conj _ (conj _ (conj _ (conj Hi _)))))).
  - unfold deref. rewrite Ha. reflexivity.
  - unfold deref. rewrite Hb. reflexivity.
  - apply (offered_admissible s p root dd sel ns); eauto.
  - intros l' r' Ho. apply (offered_admissible s p root dd sel ns) in Ho; auto. destruct Ho as (x & y & Ho). exact (proj1 (Opt _ _ _ _ Ho)).
Qed.

Theorem leaf_stop_reason_offered s p d : setup_ok s -> reaches s p -> 0 < d ->
  exists p' ids leaves, partition p d = (p', Ok ids) /\
    Forall2 (fun id nd => deref p' id = Some nd) ids leaves /\
    Forall (fun nd => n_depth nd = d \/ region_len (n_region nd) <= 1 \/
      forall l r, offered s nd l r -> nltinf (split_total (l, r)) = false) leaves.
Proof.
  intros SO R Hd. destruct (leaf_stop_reason L s p d SO R Hd) as (p' & ids & leaves & E & F2 & Fl).
  exists p', ids, leaves. refine (conj E (conj F2 _)).
  destruct (reaches_facts L s p SO R) as (root & dd & sel & ns & F).
  pose proof (reach_facts_partition L _ _ _ _ _ _ _ _ _ F Hd E) as F'.
  apply Forall_forall. intros nd Hin. destruct (proj1 (Forall_forall _ _) Fl nd Hin) as [H|[H|H]]; [auto|auto|].
  right; right. intros l r Ho.
  assert (Dn : derived p' root nd).
  { clear - F2 Hin F'. induction F2 as [|i x ids leaves Hi _ IH]; [destruct Hin|]. destruct Hin as [->|Hin]; [|auto].
    eapply deref_derived; eauto. }
  assert (W : wf_region (length (su_cs s)) (n_region nd)).
  { rewrite <- (rf_cs _ _ _ _ _ _ F'). apply (derived_wf p' root); [apply (inv_wf _ _ (rf_inv _ _ _ _ _ _ F'))|]. exact Dn. }
  apply (offered_admissible s p root dd sel ns) in Ho; auto. destruct Ho as (a & b & Ho).
  rewrite (rf_cs _ _ _ _ _ _ F), (rf_ns _ _ _ _ _ _ F), (rf_mp _ _ _ _ _ _ F) in H. exact (H _ _ _ _ Ho).
Qed.
End P.
