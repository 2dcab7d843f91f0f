(** PartitionProofs3.v - the property theorems of the decision tree partitioner (lemma form). *)
From Verif Require Import Base Num NumpyModel ConfigSpaceModel UtilsModel IceModel PartitionModel PartitionSpec
  ListLemmas IceProofs PartitionProofs PartitionProofs2.
From Coq Require Import Sorted.

Section P.
Context {N : Num}.
Variable L : order_laws N.
Implicit Types (p : dtp N) (nd : dnode N).

(** ** Every region of the heap descends from the root by admissible splits *)
Inductive derived p (root : dnode N) : dnode N -> Prop :=
| der_root : derived p root root
| der_left nd hv : derived p root nd -> is_splittable nd = true ->
    In (fst hv) (d_possible p) -> In (snd hv) (possible_split_vals (N:=N) (d_nsplits p)) ->
    enough (d_minpts p) (split_pair (d_cs p) nd hv) -> derived p root (fst (split_pair (d_cs p) nd hv))
| der_right nd hv : derived p root nd -> is_splittable nd = true ->
    In (fst hv) (d_possible p) -> In (snd hv) (possible_split_vals (N:=N) (d_nsplits p)) ->
    enough (d_minpts p) (split_pair (d_cs p) nd hv) -> derived p root (snd (split_pair (d_cs p) nd hv)).

Lemma derived_wf p root nd : wf_region (length (d_cs p)) (n_region root) -> derived p root nd ->
  wf_region (length (d_cs p)) (n_region nd).
Proof. intros W H. induction H; auto; apply sel_region_wf; assumption. Qed.

Lemma derived_static p p' root nd : same_static p p' -> derived p root nd -> derived p' root nd.
Proof.
  intros (E1 & E2 & E3 & E4 & E5) D. induction D as [|nd hv D IH S H1 H2 H3|nd hv D IH S H1 H2 H3]; [constructor| |].
  - rewrite E1 in *. apply der_left; congruence.
  - rewrite E1 in *. apply der_right; congruence.
Qed.

(** facts about one derived node *)
Lemma derived_facts p root nd :
  length (r_y (n_region root)) = length (r_x (n_region root)) ->
  length (r_v (n_region root)) = length (r_x (n_region root)) ->
  derived p root nd -> exists suf,
  n_conds nd = n_conds root ++ suf /\ n_depth nd = n_depth root + length suf /\
  n_region nd = sel_region (conds_sat (d_cs p) suf) (n_region root) /\
  Forall (fun c => In (c_hp c) (d_possible p) /\ In (c_val c) (possible_split_vals (N:=N) (d_nsplits p))) suf /\
  (suf = [] \/ d_minpts p <= region_len (n_region nd)).
Proof.
  intros Hy Hv D. induction D as [|nd hv D IH Sp H1 H2 [En1 En2]|nd hv D IH Sp H1 H2 [En1 En2]].
  - exists []. cbn. rewrite app_nil_r. refine (conj eq_refl (conj _ (conj _ (conj _ _)))); auto.
    symmetry. apply sel_region_true; assumption.
  - destruct IH as (suf & I1 & I2 & I3 & I4 & _). exists (suf ++ [mkcond (fst hv) (snd hv) true]). cbn in *.
    refine (conj _ (conj _ (conj _ (conj _ _)))).
    + rewrite I1, app_assoc. reflexivity.
    + rewrite app_length, I2. cbn. lia.
    + rewrite I3, sel_region_sel by auto. apply sel_region_ext. intros m _. unfold conds_sat.
      rewrite forallb_app. cbn. rewrite andb_true_r. reflexivity.
    + apply Forall_app. split; [exact I4|]. constructor; [cbn; auto|constructor].
    + right. exact En1.
  - destruct IH as (suf & I1 & I2 & I3 & I4 & _). exists (suf ++ [mkcond (fst hv) (snd hv) false]). cbn in *.
    refine (conj _ (conj _ (conj _ (conj _ _)))).
    + rewrite I1, app_assoc. reflexivity.
    + rewrite app_length, I2. cbn. lia.
    + rewrite I3, sel_region_sel by auto. apply sel_region_ext. intros m _. unfold conds_sat.
      rewrite forallb_app. cbn. rewrite andb_true_r. reflexivity.
    + apply Forall_app. split; [exact I4|]. constructor; [cbn; auto|constructor].
    + right. exact En2.
Qed.

(** ** Invariants of the loop *)
Lemma loop_invariant p d (P : machine N -> Prop) k m :
  (forall m, P m -> P (part_step p d m)) -> P m -> P (loop_pow p d k m).
Proof. intro H. revert m; induction k as [|k IH]; intros m Hm; cbn; auto. Qed.

Lemma calc_child p nd lr :
  wf_static p -> wf_region (length (d_cs p)) (n_region nd) -> is_splittable nd = true ->
  calc_best_split (d_cs p) (d_possible p) (d_nsplits p) (d_minpts p) nd = Ok (Some lr) ->
  exists hv, In (fst hv) (d_possible p) /\ In (snd hv) (possible_split_vals (N:=N) (d_nsplits p)) /\
    lr = split_pair (d_cs p) nd hv /\ enough (d_minpts p) lr.
Proof.
  intros WS W S E.
  destruct (calc_best_split_ok L (d_cs p) (d_possible p) (d_nsplits p) (d_minpts p) nd W WS S) as (b & B & E').
  rewrite E' in E. destruct b as [[t lr']|]; [|discriminate]. inversion E; subst lr'.
  destruct B as (k & hv & Hk & Hlr & _ & En & _). exists hv. apply nth_error_In, candidates_in in Hk. tauto.
Qed.

Definition heap_derived p root (heap : list (cell N)) : Prop :=
  forall id c, nth_error heap id = Some c -> derived p root (n_node c).

Lemma heap_derived_loop p root d k :
  wf_static p -> wf_region (length (d_cs p)) (n_region root) ->
  forall m, heap_derived p root (m_heap m) -> heap_derived p root (m_heap (loop_pow p d k m)).
Proof.
  intros WS W m Hm. apply (loop_invariant p d (fun m => heap_derived p root (m_heap m))); [|exact Hm].
  clear m Hm. intros m Hm. unfold part_step.
  destruct (m_err m); [exact Hm|]. destruct (m_stack m) as [|id q]; [exact Hm|].
  destruct (nth_error (m_heap m) id) as [c|] eqn:Hc; [|exact Hm].
  destruct (is_splittable (n_node c)) eqn:Sp; [|exact Hm].
  destruct (Nat.leb d (n_depth (n_node c))) eqn:Dp; [exact Hm|]. cbn [negb orb].
  destruct (calc_best_split _ _ _ _ _) as [[[l r]|]|e] eqn:Cb; try exact Hm. cbn [m_heap].
  pose proof (Hm _ _ Hc) as Dc.
  destruct (calc_child p (n_node c) (l, r) WS (derived_wf p root _ W Dc) Sp Cb) as (hv & H1 & H2 & Hlr & En).
  intros j cj Hj.
  destruct (Nat.lt_ge_cases j (length (m_heap m))) as [Hl|Hl].
  - rewrite nth_error_app1 in Hj by (rewrite set_nth_length; exact Hl).
    destruct (Nat.eq_dec j id) as [->|Hne].
    + rewrite nth_error_set_nth_eq in Hj by exact Hl. inversion Hj; subst cj. exact Dc.
    + rewrite nth_error_set_nth_neq in Hj by congruence. eapply Hm; eassumption.
  - rewrite nth_error_app2 in Hj by (rewrite set_nth_length; exact Hl). rewrite set_nth_length in Hj.
    rewrite Hlr in En.
    destruct (j - length (m_heap m)) as [|[|q']]; cbn in Hj.
    + inversion Hj; subst cj. cbn. replace l with (fst (split_pair (d_cs p) (n_node c) hv)) by (rewrite <- Hlr; reflexivity).
      apply der_left; assumption.
    + inversion Hj; subst cj. cbn. replace r with (snd (split_pair (d_cs p) (n_node c) hv)) by (rewrite <- Hlr; reflexivity).
      apply der_right; assumption.
    + destruct q'; discriminate.
Qed.

Lemma heap_derived_partition p root d :
  inv p root -> heap_derived p root (d_heap p) -> heap_derived p root (d_heap (fst (partition p d))).
Proof.
  intros I H. unfold partition. destruct (Nat.eqb d 0); [exact H|]. cbn [fst with_tree d_heap].
  apply heap_derived_loop; [apply I|apply I|exact H].
Qed.

Lemma heap_derived_static p p' root h : same_static p p' -> heap_derived p root h -> heap_derived p' root h.
Proof. intros S H id c Hc. eapply derived_static; eauto. Qed.

Lemma heap_derived_history p root ds :
  inv p root -> heap_derived p root (d_heap p) -> heap_derived p root (d_heap (run_history p ds)).
Proof.
  revert p; induction ds as [|d ds IH]; intros p I H; [exact H|].
  change (run_history p (d :: ds)) with (run_history (fst (partition p d)) ds).
  destruct (history_inv L p root [d] I) as [I' SS]. cbn in I', SS.
  eapply heap_derived_static; [|apply IH; [exact I'|]].
  - destruct SS as (A & B & C & D & E); repeat split; congruence.
  - eapply heap_derived_static; [exact SS|]. apply heap_derived_partition; assumption.
Qed.

Lemma reaches_derived s p root d sel ns p0 :
  setup_ok s -> construct s = Ok p0 -> reaches s p -> inv p root -> deref p 0 = Some root -> same_static p0 p ->
  root = mkdnode 0 (mkregion (i_x d) (i_y d) (i_v d)) [] ->
  ice_calculate (alg_of s sel) false (su_predict s) = Ok d ->
  d_possible p = split_parameters (su_cs s) sel ns ->
  heap_derived p root (d_heap p).
Proof.
  intros SO Hc (p0' & ds & Hc' & ->) I Hr SS Hroot Hd Hposs. rewrite Hc in Hc'; inversion Hc'; subst p0'.
  destruct (construct_spec s p0 SO Hc) as (sel' & ns' & d' & root' & Hsel & Hns & Hd' & Hroot' & Hp0 & I0 & Hl & _).
  destruct (history_inv L p0 _ ds I0) as [I' SS'].
  assert (R : root = mkdnode 0 root' []).
  { destruct (inv_root _ _ I') as (l & r & Hn & _). unfold deref in Hr. rewrite Hn in Hr. cbn in Hr. congruence. }
  eapply heap_derived_static; [exact SS|]. rewrite R. apply heap_derived_history; [exact I0|].
  rewrite Hp0; cbn. intros [|[|id]] c Hc0; cbn in Hc0; try discriminate. inversion Hc0; subst c. constructor.
Qed.

(** everything known about a reachable object, in one place *)
Record reach_facts (s : setup N) p (root : dnode N) (d : icedata N) (sel ns : list (hp N)) : Prop := {
  rf_inv : inv p root;
  rf_root : root = mkdnode 0 (mkregion (i_x d) (i_y d) (i_v d)) [];
  rf_ice : ice_calculate (alg_of s sel) false (su_predict s) = Ok d;
  rf_sel : convert_hyperparameters (su_sel s) (su_cs s) = Ok sel;
  rf_nots : (match su_nots s with None => Ok [] | Some q => get_hyperparameters q (su_cs s) end) = Ok ns;
  rf_cs : d_cs p = su_cs s;
  rf_poss : d_possible p = split_parameters (su_cs s) sel ns;
  rf_ns : d_nsplits p = su_splits s;
  rf_mp : d_minpts p = su_minpts s;
  rf_deref : deref p 0 = Some root;
  rf_len : length (i_x d) = length (su_samples s);
  rf_coord : forall h i m row, In h (d_possible p) -> cs_idx (su_cs s) (hp_name h) = Ok i ->
       forall n, nth_error (i_x d) n = Some m -> nth_error (su_samples s) n = Some row ->
       forall g grow, nth_error m g = Some grow -> nth i grow n0 = nth i row n0;
  rf_derived : heap_derived p root (d_heap p)
}.

Lemma reaches_facts s p : setup_ok s -> reaches s p ->
  exists root d sel ns, reach_facts s p root d sel ns.
Proof.
  intros SO R.
  destruct (reaches_inv L s p SO R) as (root & d & sel & ns & p0 & Hc & I & SS & Hroot & Hd & Hsel & Hns & E1 & E2 & E3 & E4 & Hder & Hl & Hco).
  exists root, d, sel, ns. constructor; auto.
  eapply reaches_derived; eauto.
Qed.

Lemma reaches_partition s p d : reaches s p -> reaches s (fst (partition p d)).
Proof.
  intros (p0 & ds & Hc & ->). exists p0, (ds ++ [d]). split; [exact Hc|].
  unfold run_history. rewrite fold_left_app. reflexivity.
Qed.

(** deref through the tree *)
Lemma stored_deref p lo t ids : stored_ge (d_heap p) lo None 0 t ids ->
  Forall2 (fun i nd => deref p i = Some nd) ids (tleaves t).
Proof. apply stored_leaves. Qed.

(** the main description of one partition call *)
Record run_facts (s : setup N) p (d : nat) p' ids t root : Prop := {
  ru_eq : partition p d = (p', Ok ids);
  ru_leaves : Forall2 (fun i nd => deref p' i = Some nd) ids (tleaves t);
  ru_grown : grown p d t;
  ru_troot : troot t = root;
  ru_build : build p d root = Ok t;
  ru_stored : stored_ge (d_heap p') (length (d_heap p)) None 0 t ids;
  ru_frame : forall j, j <> 0 -> j < length (d_heap p) -> nth_error (d_heap p') j = nth_error (d_heap p) j;
  ru_len : length (d_heap p) <= length (d_heap p');
  ru_dleaves : d_leaves p' = ids;
  ru_static : same_static p p'
}.

Lemma partition_facts s p root dd sel ns d : reach_facts s p root dd sel ns -> 0 < d ->
  exists p' ids t, run_facts s p d p' ids t root.
Proof.
  intros F Hd. destruct (partition_run L p root d (rf_inv _ _ _ _ _ _ F) Hd) as
    (t & ids & p' & G & R & E & SS & I & Hl & Hlen & St & Bd & Fr).
  exists p', ids, t. constructor; auto. eapply stored_deref; eassumption.
Qed.

(** ** Conditions on curves *)
Lemma cond_sat_spec cs c curve idx :
  cs_idx cs (hp_name (c_hp c)) = Ok idx ->
  (exists row, nth_error curve 0 = Some row /\ idx < length row) ->
  NoDup (map hp_name cs) ->
  (cond_sat (N:=N) cs c curve = true <-> curve_satisfies cs c curve).
Proof.
  intros Hi (row & Hr & Hl) ND. unfold cond_sat, curve_satisfies. rewrite Hi. unfold coord.
  destruct curve as [|row' curve]; [discriminate|]. cbn in Hr. inversion Hr; subst row'. cbn [nth].
  destruct (cs_idx_spec _ _ _ Hi) as (h & Hh & Hn & _).
  assert (Hx : nth_error row idx = Some (nth idx row n0)) by (apply nth_error_nth'; exact Hl).
  unfold cond_mask. split.
  - intro H. exists idx, h, row, (nth idx row n0). repeat split; auto. destruct (c_le c); exact H.
  - intros (j & h' & row' & x & Hj & Hn' & Hr' & Hx' & H). cbn in Hr'. inversion Hr'; subst row'.
    assert (j = idx).
    { pose proof (cs_idx_nodup cs j h' ND Hj) as K. rewrite Hn', Hi in K. congruence. }
    subst j. rewrite Hx in Hx'. inversion Hx'; subst x. destruct (c_le c); exact H.
Qed.

Lemma wf_curve nf (r : region N) curve : wf_region nf r -> In curve (r_x r) ->
  exists row, nth_error curve 0 = Some row /\ length row = nf.
Proof.
  intros [_ _ (G & HG & Hx & _) Hf] Hin. rewrite Forall_forall in Hx, Hf.
  specialize (Hx _ Hin). specialize (Hf _ Hin). destruct curve as [|row curve]; cbn in *; [lia|].
  exists row. inversion Hf; auto.
Qed.

Lemma conds_sat_spec cs conds curve nf (r : region N) :
  wf_region nf r -> nf = length cs -> In curve (r_x r) -> NoDup (map hp_name cs) ->
  Forall (fun c => In (c_hp c) cs) conds ->
  (conds_sat cs conds curve = true <-> Forall (fun c => curve_satisfies cs c curve) conds).
Proof.
  intros W -> Hin ND Hc. unfold conds_sat. rewrite forallb_forall, Forall_forall.
  assert (K : forall c, In c conds -> (cond_sat cs c curve = true <-> curve_satisfies cs c curve)).
  { intros c Hcin. rewrite Forall_forall in Hc. destruct (cs_idx_in cs _ (Hc c Hcin)) as (i & Hi).
    apply (cond_sat_spec cs c curve i Hi); [|exact ND].
    destruct (wf_curve _ _ _ W Hin) as (row & Hr & Hl). exists row. split; [exact Hr|]. rewrite Hl. eapply cs_idx_lt; eassumption. }
  split; intros H c Hcin; apply K; auto.
Qed.

(** rows of a selection *)
Lemma mask_rows {A} (f : nat -> bool) (mask : list bool) (l : list A) :
  (forall i, i < length mask -> nth i mask false = f i) -> length mask = length l ->
  Forall2 (fun i m => nth_error l i = Some m) (filter f (seq 0 (length l))) (mask_select mask l).
Proof.
  intros Hf Hlen.
  destruct l as [|a l'] eqn:El.
  { destruct mask; [constructor|discriminate]. }
  rewrite <- El in *. rewrite (mask_select_nth mask l a Hlen).
  rewrite (filter_ext_in' (fun i => nth i mask false) f).
  2:{ intros i Hi. apply in_seq in Hi. apply Hf. lia. }
  rewrite Hlen.
  assert (K : forall is, (forall i, In i is -> i < length l) ->
    Forall2 (fun i m => nth_error l i = Some m) is (map (fun i => nth i l a) is)).
  { induction is as [|i is IH]; intro H; cbn; constructor.
    - apply nth_error_nth'. apply H. left; reflexivity.
    - apply IH. intros j Hj. apply H. right; exact Hj. }
  apply K. intros i Hi. apply filter_In in Hi. destruct Hi as [Hi _]. apply in_seq in Hi. lia.
Qed.

Lemma sel_region_rows f (r : region N) :
  length (r_y r) = length (r_x r) -> length (r_v r) = length (r_x r) ->
  is_rows r (filter (fun i => f (nth i (r_x r) [])) (seq 0 (length (r_x r)))) (sel_region f r).
Proof.
  intros Hy Hv. unfold is_rows, sel_region; cbn.
  set (g := fun i => f (nth i (r_x r) [])).
  assert (E : forall i, i < length (map f (r_x r)) -> nth i (map f (r_x r)) false = g i).
  { intros i Hi. rewrite map_length in Hi. unfold g.
    rewrite nth_indep with (d' := f []) by (rewrite map_length; exact Hi). apply map_nth. }
  refine (conj _ (conj _ _)).
  - apply mask_rows; [exact E|apply map_length].
  - rewrite <- Hy. apply mask_rows; [exact E|rewrite map_length; congruence].
  - rewrite <- Hv. apply mask_rows; [exact E|rewrite map_length; congruence].
Qed.

(** ** C04 *)
Lemma derived_is_leaf_of_conditions s p root dd sel ns nd :
  setup_ok s -> reach_facts s p root dd sel ns -> derived p root nd ->
  n_depth nd = length (n_conds nd) /\
  exists idxs, StronglySorted lt idxs /\ is_rows (n_region root) idxs (n_region nd) /\
    forall i, In i idxs <-> exists curve, nth_error (r_x (n_region root)) i = Some curve /\
                           Forall (fun c => curve_satisfies (d_cs p) c curve) (n_conds nd).
Proof.
  intros (ND & Rc & Hg) F D.
  pose proof (rf_inv _ _ _ _ _ _ F) as I.
  destruct I as [WS W D0 C0 _].
  destruct (derived_facts p root nd (wf_y _ _ W) (wf_v _ _ W) D) as (suf & F1 & F2 & F3 & F4 & _).
  rewrite C0 in F1. cbn in F1. rewrite D0 in F2. cbn in F2. subst suf.
  split; [exact F2|].
  exists (filter (fun i => conds_sat (d_cs p) (n_conds nd) (nth i (r_x (n_region root)) [])) (seq 0 (length (r_x (n_region root))))).
  refine (conj _ (conj _ _)).
  - apply StronglySorted_filter, StronglySorted_seq.
  - rewrite F3. apply sel_region_rows; apply W.
  - assert (HC : Forall (fun c => In (c_hp c) (d_cs p)) (n_conds nd)).
    { eapply Forall_impl; [|exact F4]. intros c [Hc _]. rewrite (rf_poss _ _ _ _ _ _ F) in Hc.
      apply split_parameters_spec in Hc. rewrite (rf_cs _ _ _ _ _ _ F). tauto. }
    intro i. rewrite filter_In, in_seq. split.
    + intros [Hi Hs]. exists (nth i (r_x (n_region root)) []).
      assert (Hlt : i < length (r_x (n_region root))) by lia.
      split; [apply nth_error_nth'; exact Hlt|].
      eapply conds_sat_spec; try exact Hs; eauto.
      * apply nth_In; exact Hlt.
      * rewrite (rf_cs _ _ _ _ _ _ F). exact ND.
    + intros (curve & Hcv & Hs). pose proof (nth_error_Some_lt _ _ _ Hcv) as Hlt. split; [lia|].
      rewrite (nth_error_nth _ _ [] Hcv). eapply conds_sat_spec; eauto.
      * eapply nth_error_In; eassumption.
      * rewrite (rf_cs _ _ _ _ _ _ F). exact ND.
Qed.

Lemma deref_derived s p root dd sel ns id nd : reach_facts s p root dd sel ns -> deref p id = Some nd -> derived p root nd.
Proof.
  intros F H. unfold deref in H. destruct (nth_error (d_heap p) id) as [c|] eqn:E; [|discriminate].
  cbn in H. inversion H; subst nd. eapply (rf_derived _ _ _ _ _ _ F); eassumption.
Qed.

Theorem regions_are_selections s p : setup_ok s -> reaches s p ->
  exists root, deref p 0 = Some root /\ length (r_x (n_region root)) = length (su_samples s) /\
  forall id nd, deref p id = Some nd ->
  n_depth nd = length (n_conds nd) /\
  exists idxs, StronglySorted lt idxs /\ is_rows (n_region root) idxs (n_region nd) /\
    forall i, In i idxs <-> exists curve, nth_error (r_x (n_region root)) i = Some curve /\
                           Forall (fun c => curve_satisfies (su_cs s) c curve) (n_conds nd).
Proof.
  intros SO R. destruct (reaches_facts s p SO R) as (root & d & sel & ns & F).
  exists root. split; [apply F|]. split.
  { rewrite (rf_root _ _ _ _ _ _ F). cbn. apply F. }
  intros id nd H. rewrite <- (rf_cs _ _ _ _ _ _ F). eapply derived_is_leaf_of_conditions; eauto. eapply deref_derived; eauto.
Qed.

(** ** C01 *)
Lemma curve_complement s p root dd sel ns :
  setup_ok s -> no_nan s -> splits_ordinary s -> reach_facts s p root dd sel ns ->
  forall h v i, In h (d_possible p) -> In v (possible_split_vals (N:=N) (d_nsplits p)) ->
   In i (seq 0 (length (r_x (n_region root)))) ->
   cond_sat (d_cs p) (mkcond h v false) (nth i (r_x (n_region root)) []) =
   negb (cond_sat (d_cs p) (mkcond h v true) (nth i (r_x (n_region root)) [])).
Proof.
  intros (ND & Rc & Hg) NN SO F h v i Hh Hv Hi. apply in_seq in Hi.
  unfold cond_sat. cbn [c_hp]. rewrite (rf_cs _ _ _ _ _ _ F).
  assert (Hcs : In h (su_cs s)).
  { rewrite (rf_poss _ _ _ _ _ _ F) in Hh. apply split_parameters_spec in Hh. tauto. }
  destruct (cs_idx_in (su_cs s) h Hcs) as (idx & Hidx). rewrite Hidx.
  unfold cond_mask; cbn [c_le c_val].
  assert (Ov : ordinary v).
  { unfold splits_ordinary in SO. rewrite Forall_forall in SO. apply SO. rewrite <- (rf_ns _ _ _ _ _ _ F). exact Hv. }
  assert (Hlt : i < length (r_x (n_region root))) by lia.
  assert (Hm : nth_error (r_x (n_region root)) i = Some (nth i (r_x (n_region root)) [])) by (apply nth_error_nth'; exact Hlt).
  assert (Ox : ordinary (coord idx (nth i (r_x (n_region root)) []))).
  { pose proof (rf_root _ _ _ _ _ _ F) as Hroot. rewrite Hroot in Hlt, Hm |- *. cbn in Hlt, Hm |- *.
    assert (Hs : i < length (su_samples s)) by (rewrite <- (rf_len _ _ _ _ _ _ F); exact Hlt).
    pose proof (nth_error_nth' (su_samples s) [] Hs) as Hrow.
    set (m := nth i (i_x dd) []) in *.
    assert (Hin : In m (i_x dd)) by (eapply nth_error_In; eassumption).
    pose proof (inv_wf _ _ (rf_inv _ _ _ _ _ _ F)) as W. rewrite Hroot in W. 
    destruct (wf_curve _ _ m W Hin) as (grow & Hgr & Hgl).
    unfold coord. rewrite (nth_error_nth _ _ [] Hgr).
    rewrite (rf_coord _ _ _ _ _ _ F h idx m _ Hh Hidx i Hm Hrow 0 grow Hgr).
    unfold no_nan in NN. rewrite Forall_forall in NN.
    assert (Hrin : In (nth i (su_samples s) []) (su_samples s)) by (apply nth_In; exact Hs).
    specialize (NN _ Hrin). rewrite Forall_forall in NN, Rc. apply NN. apply nth_In.
    rewrite (Rc _ Hrin). eapply cs_idx_lt; eassumption. }
  rewrite (ol_le N L _ _ Ox Ov). rewrite negb_involutive. reflexivity.
Qed.

Lemma is_rows_leaf s p root dd sel ns nd :
  reach_facts s p root dd sel ns -> derived p root nd ->
  is_rows (n_region root) (filter (fun i => forallb (fun c => cond_sat (d_cs p) c (nth i (r_x (n_region root)) [])) (n_conds nd))
                             (seq 0 (length (r_x (n_region root))))) (n_region nd).
Proof.
  intros F D. destruct (rf_inv _ _ _ _ _ _ F) as [WS W D0 C0 _].
  destruct (derived_facts p root nd (wf_y _ _ W) (wf_v _ _ W) D) as (suf & F1 & F2 & F3 & F4 & _).
  rewrite C0 in F1. cbn in F1. subst suf. rewrite F3.
  apply (sel_region_rows (conds_sat (d_cs p) (n_conds nd))); apply W.
Qed.

Lemma reach_facts_partition s p root dd sel ns d p' r :
  reach_facts s p root dd sel ns -> 0 < d -> partition p d = (p', r) -> reach_facts s p' root dd sel ns.
Proof.
  intros F Hd E. destruct F as [I R1 R2 R3 R4 R5 R6 R7 R8 R9 R10 R11 R12].
  destruct (partition_run L p root d I Hd) as (t & ids & p'' & G & R & E' & SS & I' & _ & _ & _).
  rewrite E in E'. inversion E'; subst p''. destruct SS as (S1 & S2 & S3 & S4 & S5).
  constructor; auto; try congruence.
  - destruct (inv_root _ _ I') as (l & rr & Hn & _). unfold deref. rewrite Hn. reflexivity.
  - rewrite <- S3. exact R11.
  - apply (heap_derived_static p p'); [repeat split; assumption|].
    pose proof (heap_derived_partition p root d I R12) as K. rewrite E in K. exact K.
Qed.

Lemma leaves_derived s p root dd sel ns p' d ids t nd :
  reach_facts s p' root dd sel ns -> run_facts s p d p' ids t root -> In nd (tleaves t) -> derived p' root nd.
Proof.
  intros F R Hin. destruct (Forall2_in_r _ _ _ _ (ru_leaves _ _ _ _ _ _ _ R) Hin) as (id & _ & Hid).
  eapply deref_derived; eauto.
Qed.

Theorem leaves_partition_curves s p d :
  setup_ok s -> no_nan s -> splits_ordinary s -> reaches s p -> 0 < d ->
  exists p' ids leaves root parts,
    partition p d = (p', Ok ids) /\
    Forall2 (fun id nd => deref p' id = Some nd) ids leaves /\
    deref p 0 = Some root /\ deref p' 0 = Some root /\
    length (r_x (n_region root)) = length (su_samples s) /\
    Permutation (concat parts) (seq 0 (length (su_samples s))) /\
    Forall (StronglySorted lt) parts /\
    Forall2 (fun idxs nd => is_rows (n_region root) idxs (n_region nd)) parts leaves.
Proof.
  intros SO NN OO R Hd. destruct (reaches_facts s p SO R) as (root & dd & sel & ns & F).
  destruct (partition_facts s p root dd sel ns d F Hd) as (p' & ids & t & U).
  pose proof (reach_facts_partition _ _ _ _ _ _ _ _ _ F Hd (ru_eq _ _ _ _ _ _ _ U)) as F'.
  set (n := length (r_x (n_region root))).
  assert (Hn : n = length (su_samples s)).
  { unfold n. rewrite (rf_root _ _ _ _ _ _ F). cbn. apply F. }
  exists p', ids, (tleaves t), root,
    (map (fun nd => filter (fun i => forallb (fun c => cond_sat (d_cs p) c (nth i (r_x (n_region root)) [])) (n_conds nd)) (seq 0 n)) (tleaves t)).
  refine (conj (ru_eq _ _ _ _ _ _ _ U) (conj (ru_leaves _ _ _ _ _ _ _ U) (conj (rf_deref _ _ _ _ _ _ F) (conj (rf_deref _ _ _ _ _ _ F') (conj Hn (conj _ (conj _ _))))))).
  - pose proof (tree_partition p d t (fun c i => cond_sat (d_cs p) c (nth i (r_x (n_region root)) [])) (seq 0 n)
       (ru_grown _ _ _ _ _ _ _ U) (curve_complement s p root dd sel ns SO NN OO F)) as P.
    rewrite P, (ru_troot _ _ _ _ _ _ _ U), (inv_conds _ _ (rf_inv _ _ _ _ _ _ F)), <- Hn. cbn.
    rewrite filter_all by auto. apply Permutation_refl.
  - apply Forall_forall. intros l Hl. apply in_map_iff in Hl. destruct Hl as (nd & <- & _).
    apply StronglySorted_filter, StronglySorted_seq.
  - apply Forall2_map_l.
    assert (K : forall l, (forall nd, In nd l -> In nd (tleaves t)) ->
      Forall2 (fun b c => is_rows (n_region root) (filter (fun i => forallb (fun c0 => cond_sat (d_cs p) c0 (nth i (r_x (n_region root)) [])) (n_conds b)) (seq 0 n)) (n_region c)) l l).
    { induction l as [|nd l IH]; intro H; constructor; [|apply IH; intros; apply H; right; assumption].
      replace (d_cs p) with (d_cs p') by (rewrite (rf_cs _ _ _ _ _ _ F), (rf_cs _ _ _ _ _ _ F'); reflexivity).
      eapply is_rows_leaf; [exact F'|]. eapply leaves_derived; eauto. apply H. left; reflexivity. }
    apply K. auto.
Qed.

End P.
