(** PartitionProofs2.v - reachable states of the partitioner and properties of grown trees. *)
From Verif Require Import Base Num NumpyModel ConfigSpaceModel UtilsModel IceModel PartitionModel PartitionSpec
  ListLemmas IceProofs PartitionProofs.
From Coq Require Import Sorted.

Section P.
Context {N : Num}.
Variable L : order_laws N.
Implicit Types (p : dtp N) (nd : dnode N).

(** ** Trees *)
Fixpoint tnodes (t : tree (N:=N)) : list (dnode N) :=
  match t with TLeaf nd => [nd] | TNode nd l r => nd :: tnodes l ++ tnodes r end.

Lemma tleaves_tnodes t nd : In nd (tleaves t) -> In nd (tnodes t).
Proof.
  induction t as [x|x l IHl r IHr]; cbn; [auto|]. rewrite !in_app_iff. tauto.
Qed.
Lemma troot_tnodes (t : tree (N:=N)) : In (troot t) (tnodes t).
Proof. destruct t; cbn; auto. Qed.

Lemma grown_child p k nd l r :
  grown p (S k) (TNode nd l r) ->
  exists h v, In h (d_possible p) /\ In v (possible_split_vals (N:=N) (d_nsplits p)) /\
    troot l = child (d_cs p) nd (mkcond h v true) /\ troot r = child (d_cs p) nd (mkcond h v false) /\
    d_minpts p <= region_len (n_region (troot l)) /\ d_minpts p <= region_len (n_region (troot r)) /\
    grown p k l /\ grown p k r /\ is_splittable nd = true.
Proof.
  intro G. inversion G as [| | |k' nd' tt lr l' r' Sp B Rl Rr Gl Gr]; subst. destruct B as (i & hv & Hi & -> & _ & En & _).
  exists (fst hv), (snd hv). pose proof (nth_error_In _ _ Hi) as Hin. apply candidates_in in Hin.
  rewrite Rl, Rr. destruct En. repeat split; try tauto; auto.
Qed.

(** every node is the selection of the root's curves by its conditions *)
Lemma tree_nodes p k t :
  grown p k t ->
  length (r_y (n_region (troot t))) = length (r_x (n_region (troot t))) ->
  length (r_v (n_region (troot t))) = length (r_x (n_region (troot t))) ->
  forall nd, In nd (tnodes t) -> exists suf,
    n_conds nd = n_conds (troot t) ++ suf /\ n_depth nd = n_depth (troot t) + length suf /\ length suf <= k /\
    n_region nd = sel_region (conds_sat (d_cs p) suf) (n_region (troot t)) /\
    Forall (fun c => In (c_hp c) (d_possible p) /\ In (c_val c) (possible_split_vals (N:=N) (d_nsplits p))) suf.
Proof.
  intro G. revert k G. induction t as [x|x l IHl r IHr]; intros k G Hy Hv nd Hin.
  - cbn in Hin. destruct Hin as [<-|[]]. exists []. cbn. rewrite app_nil_r. repeat split; auto; try lia.
    symmetry. apply sel_region_true; assumption.
  - cbn [troot] in *. assert (R : exists q, k = S q) by (inversion G; eauto). destruct R as [q ->].
    destruct (grown_child p q x l r G) as (h & v & Hh & Hvv & Rl & Rr & _ & _ & Gl & Gr & _).
    cbn [tnodes] in Hin. destruct Hin as [<-|Hin].
    { exists []. cbn. rewrite app_nil_r. repeat split; auto; try lia. symmetry. apply sel_region_true; assumption. }
    apply in_app_or in Hin.
    assert (K : forall t0 b, (t0 = l \/ t0 = r) -> troot t0 = child (d_cs p) x (mkcond h v b) -> In nd (tnodes t0) ->
      (forall nd0, In nd0 (tnodes t0) -> exists suf, n_conds nd0 = n_conds (troot t0) ++ suf /\
        n_depth nd0 = n_depth (troot t0) + length suf /\ length suf <= q /\
        n_region nd0 = sel_region (conds_sat (d_cs p) suf) (n_region (troot t0)) /\
        Forall (fun c => In (c_hp c) (d_possible p) /\ In (c_val c) (possible_split_vals (N:=N) (d_nsplits p))) suf) ->
      exists suf, n_conds nd = n_conds x ++ suf /\ n_depth nd = n_depth x + length suf /\ length suf <= S q /\
        n_region nd = sel_region (conds_sat (d_cs p) suf) (n_region x) /\
        Forall (fun c => In (c_hp c) (d_possible p) /\ In (c_val c) (possible_split_vals (N:=N) (d_nsplits p))) suf).
    { intros t0 b _ R In0 IH0. destruct (IH0 nd In0) as (suf & Hc & Hd & Hl & Hr & Hf). rewrite R in *. cbn in *.
      exists (mkcond h v b :: suf). repeat split.
      - rewrite Hc, <- app_assoc. reflexivity.
      - cbn. lia.
      - cbn. lia.
      - rewrite Hr, sel_region_sel by auto. reflexivity.
      - constructor; [cbn; auto|exact Hf]. }
    destruct Hin as [Hin|Hin].
    + apply (K l true); auto. apply (IHl q Gl); rewrite Rl; cbn; apply mask_select_length; assumption.
    + apply (K r false); auto. apply (IHr q Gr); rewrite Rr; cbn; apply mask_select_length; assumption.
Qed.

(** complementary evaluations are true on exactly one leaf *)
Lemma tree_exactly_one p k t (ev : cond N -> bool) :
  grown p k t ->
  (forall h v, In h (d_possible p) -> In v (possible_split_vals (N:=N) (d_nsplits p)) ->
     ev (mkcond h v false) = negb (ev (mkcond h v true))) ->
  length (filter (fun nd => forallb ev (n_conds nd)) (tleaves t)) =
  if forallb ev (n_conds (troot t)) then 1 else 0.
Proof.
  intros G C. revert k G. induction t as [x|x l IHl r IHr]; intros k G.
  - cbn. destruct (forallb ev (n_conds x)); reflexivity.
  - assert (R : exists q, k = S q) by (inversion G; eauto). destruct R as [q ->].
    destruct (grown_child p q x l r G) as (h & v & Hh & Hv & Rl & Rr & _ & _ & Gl & Gr & _).
    cbn [tleaves troot]. rewrite filter_app, app_length, (IHl q Gl), (IHr q Gr), Rl, Rr. cbn.
    rewrite !forallb_app. cbn. rewrite (C h v Hh Hv).
    destruct (forallb ev (n_conds x)), (ev (mkcond h v true)); reflexivity.
Qed.

(** the same for curves: the index sets of the leaves partition those of the root *)
Lemma tree_partition {A} p k t (sat : cond N -> A -> bool) (s : list A) :
  grown p k t ->
  (forall h v i, In h (d_possible p) -> In v (possible_split_vals (N:=N) (d_nsplits p)) -> In i s ->
     sat (mkcond h v false) i = negb (sat (mkcond h v true) i)) ->
  Permutation (concat (map (fun nd => filter (fun i => forallb (fun c => sat c i) (n_conds nd)) s) (tleaves t)))
              (filter (fun i => forallb (fun c => sat c i) (n_conds (troot t))) s).
Proof.
  intros G C. revert k G. induction t as [x|x l IHl r IHr]; intros k G.
  - cbn. rewrite app_nil_r. apply Permutation_refl.
  - assert (R : exists q, k = S q) by (inversion G; eauto). destruct R as [q ->].
    destruct (grown_child p q x l r G) as (h & v & Hh & Hv & Rl & Rr & _ & _ & Gl & Gr & _).
    cbn [tleaves troot]. rewrite map_app, concat_app, (IHl q Gl), (IHr q Gr), Rl, Rr. cbn.
    rewrite Permutation_app_comm.
    set (P := fun i => forallb (fun c => sat c i) (n_conds x)).
    assert (E : forall b, filter (fun i => forallb (fun c => sat c i) (n_conds x ++ [mkcond h v b])) s
                = filter (fun i => sat (mkcond h v b) i) (filter P s)).
    { intro b. rewrite filter_filter. apply filter_ext. intro i. rewrite forallb_app. cbn. rewrite andb_true_r. reflexivity. }
    rewrite !E.
    rewrite (filter_ext_in' (fun i => sat (mkcond h v false) i) (fun i => negb (sat (mkcond h v true) i))).
    + apply filter_partition.
    + intros i Hi. apply filter_In in Hi. apply C; tauto.
Qed.

Lemma tree_leaf_count p k (t : tree (N:=N)) : grown p k t -> 1 <= length (tleaves t) <= 2 ^ k.
Proof.
  induction 1; cbn -[Nat.pow].
  - pose proof (Nat.pow_nonzero 2 k). lia.
  - cbn. lia.
  - pose proof (Nat.pow_nonzero 2 (S k)). lia.
  - rewrite app_length, Nat.pow_succ_r'. lia.
Qed.

Lemma tree_leaf_reason p k t : grown p k t -> forall nd, In nd (tleaves t) ->
  is_splittable nd = false \/ n_depth nd = n_depth (troot t) + k \/
  (is_splittable nd = true /\ best_of (d_cs p) (d_minpts p) nd (candidates (d_possible p) (d_nsplits p)) None).
Proof.
  intro G. induction G as [nd' S k|nd'|k nd' S B|k nd' tt lr l r S B Rl Rr Gl IHl Gr IHr]; intros nd Hin; cbn [tleaves troot] in *.
  - destruct Hin as [<-|[]]. auto.
  - destruct Hin as [<-|[]]. right; left. lia.
  - destruct Hin as [<-|[]]. auto.
  - destruct (best_of_pair _ _ _ _ _ _ B) as (hv & _ & ->).
    apply in_app_or in Hin. destruct Hin as [Hin|Hin].
    + destruct (IHr nd Hin) as [H|[H|H]]; auto. right; left. rewrite H, Rr. cbn. lia.
    + destruct (IHl nd Hin) as [H|[H|H]]; auto. right; left. rewrite H, Rl. cbn. lia.
Qed.

Lemma tree_min_points p k t : grown p k t -> forall nd, In nd (tnodes t) ->
  nd = troot t \/ d_minpts p <= region_len (n_region nd).
Proof.
  intro G. revert k G. induction t as [x|x l IHl r IHr]; intros k G nd Hin.
  - cbn in Hin. destruct Hin as [<-|[]]. auto.
  - assert (R : exists q, k = S q) by (inversion G; eauto). destruct R as [q ->].
    destruct (grown_child p q x l r G) as (h & v & Hh & Hv & Rl & Rr & Ml & Mr & Gl & Gr & _).
    cbn [tnodes troot] in *. destruct Hin as [<-|Hin]; [auto|]. right.
    apply in_app_or in Hin. destruct Hin as [Hin|Hin].
    + destruct (IHl q Gl nd Hin) as [->|H]; auto.
    + destruct (IHr q Gr nd Hin) as [->|H]; auto.
Qed.

(** ** Reachable states *)
Definition same_static (p q : dtp N) : Prop :=
  d_cs p = d_cs q /\ d_sel p = d_sel q /\ d_possible p = d_possible q /\ d_nsplits p = d_nsplits q /\ d_minpts p = d_minpts q.

Definition has_split (p : dtp N) (nd : dnode N) : Prop :=
  is_splittable nd = true /\ exists t lr, best_of (d_cs p) (d_minpts p) nd (candidates (d_possible p) (d_nsplits p)) (Some (t, lr)).

(** invariant of the object: [root] is the root node *)
Record inv (p : dtp N) (root : dnode N) : Prop := {
  inv_static : wf_static p;
  inv_wf : wf_region (length (d_cs p)) (n_region root);
  inv_depth : n_depth root = 0;
  inv_conds : n_conds root = [];
  inv_root : exists l r, nth_error (d_heap p) 0 = Some (mkcell root None l r) /\
             ((l = None /\ r = None) \/ has_split p root)
}.

Lemma same_static_refl p : same_static p p.
Proof. repeat split. Qed.

Lemma best_of_static p q nd b : same_static p q ->
  best_of (d_cs p) (d_minpts p) nd (candidates (d_possible p) (d_nsplits p)) b ->
  best_of (d_cs q) (d_minpts q) nd (candidates (d_possible q) (d_nsplits q)) b.
Proof. intros (-> & _ & -> & -> & ->). auto. Qed.

Lemma best_none_some p nd t lr :
  best_of (d_cs p) (d_minpts p) nd (candidates (d_possible p) (d_nsplits p)) None ->
  best_of (d_cs p) (d_minpts p) nd (candidates (d_possible p) (d_nsplits p)) (Some (t, lr)) -> False.
Proof.
  intros B (k & hv & Hk & -> & -> & En & Hi & _). cbn in B.
  rewrite (B hv (nth_error_In _ _ Hk) En) in Hi. discriminate.
Qed.

Lemma stored_leaves heap lo par id t ids :
  stored_ge heap lo par id t ids ->
  Forall2 (fun i nd => option_map n_node (nth_error heap i) = Some nd) ids (tleaves (N:=N) t).
Proof.
  induction 1 as [lo par id nd Hn|lo par id nd a b l r il ir Hn Ha Ha' Hb Hb' Hl IHl Hr IHr]; cbn.
  - constructor; [|constructor]. rewrite Hn. reflexivity.
  - apply Forall2_app; assumption.
Qed.

Theorem partition_run p root d :
  inv p root -> 0 < d ->
  exists t ids p', grown p d t /\ troot t = root /\ partition p d = (p', Ok ids) /\
    same_static p p' /\ inv p' root /\ d_leaves p' = ids /\
    length (d_heap p) <= length (d_heap p') /\
    stored_ge (d_heap p') (length (d_heap p)) None 0 t ids /\
    build p d root = Ok t /\
    (forall j, j <> 0 -> j < length (d_heap p) -> nth_error (d_heap p') j = nth_error (d_heap p) j).
Proof.
  intros I Hd. destruct I as [WS W D C (l & r & Hn & HL)].
  destruct (build_ok L p d root WS W) as (t & Bd & G & R).
  destruct (part_step_run L p d WS d t G (d_heap p) [] 0 [] None l r) as
    (h' & ids & l' & r' & E & Len & Fr & N0 & Cs & Lf & St1 & St2).
  { left. rewrite R, D. reflexivity. }
  { rewrite R. exact W. }
  { rewrite R. exact Hn. }
  assert (P : partition p d = (with_tree p h' ids, Ok ids)).
  { unfold partition. destruct (Nat.eqb_spec d 0); [lia|].
    rewrite loop_pow_iter. pose proof (grown_size p d t G) as HS.
    replace (2 ^ S d) with (tsize t + (2 ^ S d - tsize t)) by lia.
    rewrite iter_add, E, iter_stopped. reflexivity. }
  exists t, ids, (with_tree p h' ids).
  assert (St : stored_ge h' (length (d_heap p)) None 0 t ids).
  { destruct t as [x|x tl tr].
    - destruct HL as [[-> ->]|[Sp (tt & lr & B)]]; [apply St1; reflexivity|]. exfalso.
      cbn in R. subst x. inversion G; subst; try lia; try congruence.
      eapply best_none_some; eassumption.
    - apply St2. eauto. }
  refine (conj G (conj R (conj P (conj (same_static_refl p) (conj _ (conj eq_refl (conj Len (conj St (conj Bd Fr))))))))).
  constructor; auto. exists l', r'. rewrite R in N0. split; [exact N0|].
  destruct Cs as [(-> & -> & _)|(nd & tl & tr & ->)]; [exact HL|].
  right. cbn in R. subst nd. inversion G; subst. split; [assumption|]. eauto.
Qed.

Lemma history_inv p root ds : inv p root ->
  inv (run_history p ds) root /\ same_static p (run_history p ds).
Proof.
  revert p; induction ds as [|d ds IH]; intros p I; cbn [run_history fold_left].
  - split; [exact I|apply same_static_refl].
  - destruct d as [|d].
    + unfold partition; cbn. apply IH; exact I.
    + destruct (partition_run p root (S d) I) as (t & ids & p' & _ & _ & E & SS & I' & _); [lia|].
      rewrite E. cbn [fst]. destruct (IH p' I') as [A B]. split; [exact A|].
      change (same_static p (run_history p' ds)).
      destruct SS as (A1 & A2 & A3 & A4 & A5), B as (B1 & B2 & B3 & B4 & B5). repeat split; congruence.
Qed.

(** ** Construction *)
Lemma split_parameters_spec cs sel nots h :
  In h (split_parameters (N:=N) cs sel nots) <->
  In h cs /\ ~ In (hp_name h) (map hp_name sel) /\ ~ In (hp_name h) (map hp_name nots).
Proof.
  unfold split_parameters. rewrite filter_In, negb_true_iff.
  assert (M : forall s l, mem_string s l = false <-> ~ In s l).
  { intros s l. unfold mem_string. rewrite <- not_true_iff_false, existsb_exists. split.
    - intros H I. apply H. exists s. split; [exact I|apply String.eqb_refl].
    - intros H (x & I & E). apply String.eqb_eq in E. subst. contradiction. }
  rewrite M, in_app_iff. tauto.
Qed.

Definition alg_of (s : setup N) (sel : list (hp N)) : algorithm N := mkalg (su_cs s) sel (su_samples s) (su_gpa s).

Lemma construct_spec s p0 :
  setup_ok s -> construct s = Ok p0 ->
  exists sel ns d root,
    convert_hyperparameters (su_sel s) (su_cs s) = Ok sel /\
    (match su_nots s with None => Ok [] | Some q => get_hyperparameters q (su_cs s) end) = Ok ns /\
    ice_calculate (alg_of s sel) false (su_predict s) = Ok d /\
    root = mkregion (i_x d) (i_y d) (i_v d) /\
    p0 = mkdtp (su_cs s) sel (split_parameters (su_cs s) sel ns) (su_splits s) (su_minpts s)
               [mkcell (mkdnode 0 root []) None None None] [] /\
    inv p0 (mkdnode 0 root []) /\
    length (i_x d) = length (su_samples s) /\
    (forall h i m row, In h (d_possible p0) -> cs_idx (su_cs s) (hp_name h) = Ok i ->
       forall n, nth_error (r_x root) n = Some m -> nth_error (su_samples s) n = Some row ->
       forall g grow, nth_error m g = Some grow -> nth i grow n0 = nth i row n0).
Proof.
  intros (ND & R & Hg) H. unfold construct, dt_new in H.
  inv_bind H. unfold algorithm_new in E. inv_bind E. inversion E; subst x. clear E. rename x0 into sel.
  inv_bind H. rename x into ns. inv_bind H. rename x into d. inv_bind H. rename x into rr. inversion H; subst p0. clear H.
  cbn [a_sel] in *. change (mkalg (su_cs s) sel (su_samples s) (su_gpa s)) with (alg_of s sel) in *.
  assert (RR : rect (num_features (alg_of s sel)) (a_samples (alg_of s sel))) by exact R.
  destruct (ice_calculate_shapes _ _ _ _ RR E1) as (Lx & Ly & Lv & Fx & Fy & Fv & Ff).
  assert (Erootv : rr = mkregion (i_x d) (i_y d) (i_v d)).
  { unfold region_new in E2. inv_bind E2. inv_bind E2. inversion E2. reflexivity. }
  exists sel, ns, d, (mkregion (i_x d) (i_y d) (i_v d)). subst rr.
  repeat split; auto.
  - cbn. apply Forall_forall. intros h Hh. apply split_parameters_spec in Hh. destruct Hh as [Hh _].
    apply cs_idx_in in Hh. exact Hh.
  - cbn. rewrite Ly, Lx. reflexivity.
  - cbn. rewrite Lv, Lx. reflexivity.
  - exists (num_grid_points (alg_of s sel)). repeat split; auto.
    cbn. apply Nat.neq_0_lt_0. apply Nat.pow_nonzero. lia.
  - exists None, None. split; [reflexivity|]. left; auto.
  - intros h i m row Hh Hi n Hm Hrow g grow Hg'. cbn in Hh, Hm.
    apply split_parameters_spec in Hh. destruct Hh as (Hcs & Hns & _).
    apply ice_calculate_ok in E1. destruct E1 as (means & stds & Hx & _).
    apply (ice_x_closed _ _ RR) in Hx. destruct Hx as (idx & grid & Hidx & Hgrid & Hx).
    rewrite Hx, nth_error_map in Hm. cbn [a_samples alg_of] in Hm. rewrite Hrow in Hm. cbn in Hm. inversion Hm; subst m.
    rewrite nth_error_map in Hg'. destruct (nth_error grid g) as [gr|]; [|discriminate]. cbn in Hg'. inversion Hg'; subst grow.
    apply assign_row_other. intro K.
    unfold get_selected_idx in Hidx. destruct (mapM_in _ _ _ _ Hidx K) as (h' & Hh' & Hi').
    apply Hns. rewrite (cs_idx_inj _ _ _ _ Hi Hi'). apply in_map. exact Hh'.
Qed.

Lemma reaches_inv s p : setup_ok s -> reaches s p ->
  exists root d sel ns p0, construct s = Ok p0 /\ inv p root /\ same_static p0 p /\ root = mkdnode 0 (mkregion (i_x d) (i_y d) (i_v d)) [] /\
    ice_calculate (alg_of s sel) false (su_predict s) = Ok d /\
    convert_hyperparameters (su_sel s) (su_cs s) = Ok sel /\
    (match su_nots s with None => Ok [] | Some q => get_hyperparameters q (su_cs s) end) = Ok ns /\
    d_cs p = su_cs s /\ d_possible p = split_parameters (su_cs s) sel ns /\ d_nsplits p = su_splits s /\ d_minpts p = su_minpts s /\
    deref p 0 = Some root /\ length (i_x d) = length (su_samples s) /\
    (forall h i m row, In h (d_possible p) -> cs_idx (su_cs s) (hp_name h) = Ok i ->
       forall n, nth_error (i_x d) n = Some m -> nth_error (su_samples s) n = Some row ->
       forall g grow, nth_error m g = Some grow -> nth i grow n0 = nth i row n0).
Proof.
  intros SO (p0 & ds & Hc & ->).
  destruct (construct_spec s p0 SO Hc) as (sel & ns & d & root & Hsel & Hns & Hd & Hroot & Hp0 & I & Hl & Hcoord).
  destruct (history_inv p0 _ ds I) as [I' SS].
  exists (mkdnode 0 root []), d, sel, ns, p0.
  destruct SS as (S1 & S2 & S3 & S4 & S5). rewrite <- S1, <- S3, <- S4, <- S5.
  destruct (inv_root _ _ I') as (l & r & Hn & _).
  refine (conj Hc (conj I' (conj _ (conj _ (conj Hd (conj Hsel (conj Hns (conj _ (conj _ (conj _ (conj _ (conj _ (conj Hl _)))))))))))));
    try (rewrite Hp0; reflexivity).
  - repeat split; assumption.
  - rewrite Hroot; reflexivity.
  - unfold deref. rewrite Hn. reflexivity.
  - intros h i m row Hh Hi n Hm Hrow. eapply Hcoord; eauto. rewrite Hroot. exact Hm.
Qed.

End P.
