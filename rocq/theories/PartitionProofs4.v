(** PartitionProofs4.v - the property theorems of the decision tree partitioner, continued. *)
From Verif Require Import Base Num NumpyModel ConfigSpaceModel UtilsModel IceModel PartitionModel PartitionSpec
  ListLemmas IceProofs PartitionProofs PartitionProofs2 PartitionProofs3.
From Coq Require Import Sorted.

Section P.
Context {N : Num}.
Variable L : order_laws N.
Implicit Types (p : dtp N) (nd : dnode N) (cs : cspace N) (cfg : config N) (s : setup N).

(** ** C02 *)
Lemma unscale_numerical cs h v : In h cs -> all_numerical cs -> exists u, unscale_float (N:=N) v cs h = Ok u.
Proof.
  intros Hin Hn. unfold unscale_float.
  destruct (cs_idx_in cs h Hin) as (i & Hi). destruct (cs_idx_spec _ _ _ Hi) as (h' & Hnth & _).
  assert (Hg : cs_get cs (hp_name h) = Ok h') by (apply cs_get_idx; eauto).
  rewrite Hg. cbn [bind].
  unfold all_numerical in Hn. rewrite Forall_forall in Hn. specialize (Hn h' (nth_error_In _ _ Hnth)).
  unfold is_numerical in Hn. unfold hp_log, hp_lower, hp_upper.
  destruct (hp_kind h'); try discriminate; cbn; eauto.
Qed.

Definition sat_b (cs : cspace N) (cfg : config N) (c : cond N) : bool :=
  match is_satisfied cs c cfg with Ok b => b | Err _ => false end.

Lemma is_satisfied_total cs cfg c :
  all_numerical cs -> total_config cs cfg -> In (c_hp c) cs ->
  exists b, is_satisfied cs c cfg = Ok b /\ (b = true <-> config_satisfies cs c cfg).
Proof.
  intros Hn Ht Hin. unfold is_satisfied, cond_value, config_satisfies.
  destruct (unscale_numerical cs (c_hp c) (c_val c) Hin Hn) as (u & Hu). rewrite Hu. cbn [bind].
  destruct (Ht _ Hin) as (x & Hx & Ox). rewrite Hx. eexists. split; [reflexivity|].
  split.
  - intro H. exists x, u. repeat split. destruct (c_le c); exact H.
  - intros (x' & u' & E1 & E2 & H). inversion E1; inversion E2; subst. destruct (c_le c); exact H.
Qed.

Lemma contains_total cs cfg conds :
  all_numerical cs -> total_config cs cfg -> Forall (fun c => In (c_hp c) cs) conds ->
  contains cs conds cfg = Ok (forallb (sat_b cs cfg) conds) /\
  (forallb (sat_b cs cfg) conds = true <-> Forall (fun c => config_satisfies cs c cfg) conds).
Proof.
  intros Hn Ht F. induction F as [|c conds Hc F [IH1 IH2]]; cbn.
  - split; [reflexivity|]. split; auto.
  - destruct (is_satisfied_total cs cfg c Hn Ht Hc) as (b & Hb & Hs).
    unfold sat_b at 1. unfold sat_b at 2. rewrite Hb. cbn [bind]. split.
    + destruct b; [exact IH1|reflexivity].
    + rewrite andb_true_iff, Hs, IH2. split; [intros [A B]; constructor; assumption|intro H; inversion H; auto].
Qed.

Lemma config_complement cs cfg h v :
  all_numerical cs -> total_config cs cfg -> In h cs ->
  (forall u, unscale_float v cs h = Ok u -> ordinary u) ->
  sat_b cs cfg (mkcond h v false) = negb (sat_b cs cfg (mkcond h v true)).
Proof.
  intros Hn Ht Hin Hu. unfold sat_b, is_satisfied, cond_value; cbn [c_hp c_val c_le].
  destruct (unscale_numerical cs h v Hin Hn) as (u & E). rewrite E. cbn [bind].
  destruct (Ht _ Hin) as (x & Hx & Ox). rewrite Hx.
  rewrite (ol_le N L x u Ox (Hu u E)), negb_involutive. reflexivity.
Qed.

(** exactly one element of a list satisfies a predicate: it has a position *)
Lemma filter_one {A} (f : A -> bool) l :
  length (filter f l) = 1 -> exists k, k < length l /\ forall j a, nth_error l j = Some a -> f a = Nat.eqb j k.
Proof.
  induction l as [|a l IH]; cbn; [discriminate|].
  destruct (f a) eqn:E; cbn; intro H.
  - exists 0. split; [lia|]. intros [|j] b Hb; cbn in *; [congruence|].
    assert (F : filter f l = []) by (destruct (filter f l); [reflexivity|discriminate]).
    destruct (f b) eqn:Fb; [|reflexivity]. exfalso.
    assert (In b (filter f l)) by (apply filter_In; split; [eapply nth_error_In; eassumption|exact Fb]).
    rewrite F in H0. contradiction.
  - destruct (IH H) as (k & Hk & K). exists (S k). split; [lia|].
    intros [|j] b Hb; cbn in *; [congruence|]. apply K; assumption.
Qed.

Lemma find_leaf_spec p cfg ids nds (ev : cond N -> bool) k :
  Forall2 (fun id nd => deref p id = Some nd) ids nds ->
  (forall nd, In nd nds -> contains (d_cs p) (n_conds nd) cfg = Ok (forallb ev (n_conds nd))) ->
  k < length nds ->
  (forall j nd, nth_error nds j = Some nd -> forallb ev (n_conds nd) = Nat.eqb j k) ->
  find_leaf p ids cfg = Ok (nth_error ids k).
Proof.
  intro F. revert k. induction F as [|id nd ids nds E F IH]; intros k Hc Hk H; cbn in Hk; [lia|].
  cbn [find_leaf]. rewrite E, (Hc nd (or_introl eq_refl)). cbn [bind].
  rewrite (H 0 nd eq_refl). destruct k as [|k]; [reflexivity|]. cbn [Nat.eqb nth_error].
  apply IH; [|lia|].
  - intros nd' Hn. apply Hc. right; exact Hn.
  - intros j nd' Hj. apply (H (S j) nd' Hj).
Qed.

Lemma leaf_conds_in_cs s p root dd sel ns nd :
  reach_facts s p root dd sel ns -> derived p root nd -> Forall (fun c => In (c_hp c) (su_cs s) /\
    ~ In (hp_name (c_hp c)) (map hp_name sel) /\ ~ In (hp_name (c_hp c)) (map hp_name ns) /\
    In (c_val c) (possible_split_vals (N:=N) (su_splits s))) (n_conds nd).
Proof.
  intros F D. destruct (rf_inv _ _ _ _ _ _ F) as [WS W D0 C0 _].
  destruct (derived_facts p root nd (wf_y _ _ W) (wf_v _ _ W) D) as (suf & F1 & F2 & F3 & F4 & _).
  rewrite C0 in F1. cbn in F1. subst suf.
  eapply Forall_impl; [|exact F4]. intros c [Hc Hv]. rewrite (rf_poss _ _ _ _ _ _ F) in Hc.
  apply split_parameters_spec in Hc. rewrite (rf_ns _ _ _ _ _ _ F) in Hv. tauto.
Qed.

Theorem config_in_exactly_one_leaf s p d cfg :
  setup_ok s -> all_numerical (su_cs s) -> unscaled_ordinary s -> total_config (su_cs s) cfg ->
  reaches s p -> 0 < d ->
  exists p' ids leaves k,
    partition p d = (p', Ok ids) /\
    Forall2 (fun id nd => deref p' id = Some nd) ids leaves /\
    k < length leaves /\
    (forall j nd, nth_error leaves j = Some nd ->
       contains (su_cs s) (n_conds nd) cfg = Ok (Nat.eqb j k) /\
       (Forall (fun c => config_satisfies (su_cs s) c cfg) (n_conds nd) <-> j = k)) /\
    get_incumbent_region p' cfg = Ok (nth_error ids k).
Proof.
  intros SO HN HU HT R Hd. destruct (reaches_facts L s p SO R) as (root & dd & sel & ns & F).
  destruct (partition_facts L s p root dd sel ns d F Hd) as (p' & ids & t & U).
  pose proof (reach_facts_partition L _ _ _ _ _ _ _ _ _ F Hd (ru_eq _ _ _ _ _ _ _ U)) as F'.
  assert (HC : forall nd, In nd (tleaves t) -> Forall (fun c => In (c_hp c) (su_cs s)) (n_conds nd)).
  { intros nd Hin. eapply Forall_impl; [|eapply leaf_conds_in_cs; [exact F'|eapply leaves_derived; eauto]].
    intros c (Hc & _); exact Hc. }
  assert (One : length (filter (fun nd => forallb (sat_b (su_cs s) cfg) (n_conds nd)) (tleaves t)) = 1).
  { rewrite (tree_exactly_one p d t (sat_b (su_cs s) cfg) (ru_grown _ _ _ _ _ _ _ U)).
    - rewrite (ru_troot _ _ _ _ _ _ _ U), (inv_conds _ _ (rf_inv _ _ _ _ _ _ F)). reflexivity.
    - intros h v Hh Hv. rewrite (rf_poss _ _ _ _ _ _ F) in Hh. apply split_parameters_spec in Hh.
      rewrite (rf_ns _ _ _ _ _ _ F) in Hv. destruct Hh as [Hh _].
      apply config_complement; auto. intros u Eu. eapply HU; eauto. }
  destruct (filter_one _ _ One) as (k & Hk & K).
  exists p', ids, (tleaves t), k.
  refine (conj (ru_eq _ _ _ _ _ _ _ U) (conj (ru_leaves _ _ _ _ _ _ _ U) (conj Hk (conj _ _)))).
  - intros j nd Hj. pose proof (nth_error_In _ _ Hj) as Hin.
    destruct (contains_total (su_cs s) cfg (n_conds nd) HN HT (HC nd Hin)) as [C1 C2].
    rewrite (K j nd Hj) in C1, C2. split; [exact C1|]. rewrite <- C2. apply Nat.eqb_eq.
  - unfold get_incumbent_region. rewrite (ru_dleaves _ _ _ _ _ _ _ U).
    assert (Hne : ids <> []).
    { pose proof (Forall2_length _ _ _ (ru_leaves _ _ _ _ _ _ _ U)). destruct ids; [cbn in *; lia|discriminate]. }
    destruct ids as [|i0 ids0] eqn:Eids; [congruence|]. rewrite <- Eids in *.
    replace (match ids with [] => Err AssertionError | _ :: _ => find_leaf p' ids cfg end) with (find_leaf p' ids cfg)
      by (destruct ids; [congruence|reflexivity]).
    apply (find_leaf_spec p' cfg ids (tleaves t) (sat_b (su_cs s) cfg)); [apply U| |exact Hk|exact K].
    intros nd Hin. rewrite (rf_cs _ _ _ _ _ _ F'). apply contains_total; auto.
Qed.

(** ** C05 *)
Lemma nth_error_candidates hps ns a b (h : hp N) v :
  nth_error hps a = Some h -> nth_error (possible_split_vals (N:=N) ns) b = Some v ->
  nth_error (candidates hps ns) (a * length (possible_split_vals (N:=N) ns) + b) = Some (h, v).
Proof.
  unfold candidates. set (vals := possible_split_vals ns). revert a; induction hps as [|h0 hps IH]; intros a Ha Hb; [destruct a; discriminate|].
  cbn. destruct a as [|a]; cbn in Ha.
  - inversion Ha; subst h0. pose proof (nth_error_Some_lt _ _ _ Hb). rewrite nth_error_app1 by (rewrite map_length; exact H).
    cbn. rewrite nth_error_map, Hb. reflexivity.
  - rewrite nth_error_app2 by (rewrite map_length; cbn; lia). rewrite map_length. cbn.
    replace (length vals + a * length vals + b - length vals) with (a * length vals + b) by lia.
    apply IH; assumption.
Qed.

Lemma candidates_nth_inv hps ns k (h : hp N) v :
  nth_error (candidates hps ns) k = Some (h, v) ->
  exists a b, k = a * length (possible_split_vals (N:=N) ns) + b /\
    nth_error hps a = Some h /\ nth_error (possible_split_vals (N:=N) ns) b = Some v.
Proof.
  unfold candidates. set (vals := possible_split_vals ns). revert k; induction hps as [|h0 hps IH]; intros k Hk; cbn in Hk; [destruct k; discriminate|].
  destruct (Nat.lt_ge_cases k (length vals)) as [Hl|Hl].
  - rewrite nth_error_app1 in Hk by (rewrite map_length; exact Hl). rewrite nth_error_map in Hk.
    destruct (nth_error vals k) as [x|] eqn:E; cbn in Hk; [|discriminate]. inversion Hk; subst.
    exists 0, k. auto.
  - rewrite nth_error_app2 in Hk by (rewrite map_length; exact Hl). rewrite map_length in Hk.
    destruct (IH _ Hk) as (a & b & E & Ha & Hb). exists (S a), b. cbn. repeat split; auto. lia.
Qed.

Theorem best_split_optimal cs hps ns mp nd :
  wf_region (length cs) (n_region nd) -> incl hps cs -> 1 < region_len (n_region nd) ->
  (calc_best_split cs hps ns mp nd = Ok None /\
   forall a b l r, admissible cs hps ns mp nd a b l r -> nltinf (split_total (l, r)) = false) \/
  (exists a b l r, calc_best_split cs hps ns mp nd = Ok (Some (l, r)) /\
   admissible cs hps ns mp nd a b l r /\ nltinf (split_total (l, r)) = true /\
   forall a' b' l' r', admissible cs hps ns mp nd a' b' l' r' ->
     nlt (split_total (l', r')) (split_total (l, r)) = false /\
     (a' < a \/ a' = a /\ b' < b -> nltinf (split_total (l', r')) = true ->
      nlt (split_total (l, r)) (split_total (l', r')) = true)).
Proof.
  intros W Hincl Hs.
  assert (K : Forall (known cs) hps).
  { apply Forall_forall. intros h Hh. apply cs_idx_in. apply Hincl; exact Hh. }
  assert (S : is_splittable nd = true) by (apply Nat.ltb_lt; exact Hs).
  assert (Adm : forall a b l r, admissible cs hps ns mp nd a b l r -> exists h v,
     nth_error hps a = Some h /\ nth_error (possible_split_vals ns) b = Some v /\
     (l, r) = split_pair cs nd (h, v) /\ enough mp (split_pair cs nd (h, v))).
  { intros a b l r (h & v & Ha & Hb & E & M1 & M2). exists h, v. repeat split; auto.
    - rewrite split_ok in E; [inversion E; reflexivity|exact W|]. rewrite Forall_forall in K. apply K. eapply nth_error_In; eassumption.
    - rewrite split_ok in E; [inversion E; subst; exact M1|exact W|]. rewrite Forall_forall in K. apply K. eapply nth_error_In; eassumption.
    - rewrite split_ok in E; [inversion E; subst; exact M2|exact W|]. rewrite Forall_forall in K. apply K. eapply nth_error_In; eassumption. }
  destruct (calc_best_split_ok L cs hps ns mp nd W K S) as (b & B & E). destruct b as [[t lr]|].
  - right. destruct B as (k & [h v] & Hk & Hlr & Ht & En & Hi & Hmin & Hfst).
    destruct (candidates_nth_inv _ _ _ _ _ Hk) as (a & b & Ek & Ha & Hb).
    destruct lr as [l r]. exists a, b, l, r. rewrite Ht in *.
    refine (conj E (conj _ (conj Hi _))).
    + exists h, v. repeat split; auto; try apply En. rewrite split_ok; [rewrite Hlr; reflexivity|exact W|].
      rewrite Forall_forall in K. apply K. eapply nth_error_In; eassumption.
    + intros a' b' l' r' A. destruct (Adm _ _ _ _ A) as (h' & v' & Ha' & Hb' & E' & En').
      pose proof (nth_error_candidates hps ns a' b' h' v' Ha' Hb') as Hk'. rewrite E'. split.
      * eapply Hmin; eassumption.
      * intros Hlex Hi'. eapply (Hfst (a' * length (possible_split_vals (N:=N) ns) + b')); eauto.
        pose proof (nth_error_Some_lt _ _ _ Hb'). pose proof (nth_error_Some_lt _ _ _ Hb). subst k.
        destruct Hlex as [X|[-> X]]; [|lia].
        assert ((Datatypes.S a') * length (possible_split_vals (N:=N) ns) <= a * length (possible_split_vals (N:=N) ns)) by (apply Nat.mul_le_mono_r; lia).
        cbn in H1. lia.
  - left. split; [exact E|]. intros a b l r A. destruct (Adm _ _ _ _ A) as (h & v & Ha & Hb & -> & En).
    apply B; [|exact En]. eapply nth_error_In. eapply nth_error_candidates; eassumption.
Qed.

(** ** C06, C07, C08 *)
Theorem partition_terminates s p d : setup_ok s -> reaches s p ->
  (d = 0 -> partition p d = (p, Err AssertionError)) /\
  (0 < d -> exists p' ids leaves, partition p d = (p', Ok ids) /\
     Forall2 (fun id nd => deref p' id = Some nd) ids leaves /\ d_leaves p' = ids /\
     1 <= length ids <= 2 ^ d /\ Forall (fun nd => n_depth nd <= d) leaves).
Proof.
  intros SO R. split; [intros ->; reflexivity|]. intro Hd.
  destruct (reaches_facts L s p SO R) as (root & dd & sel & ns & F).
  destruct (partition_facts L s p root dd sel ns d F Hd) as (p' & ids & t & U).
  exists p', ids, (tleaves t).
  refine (conj (ru_eq _ _ _ _ _ _ _ U) (conj (ru_leaves _ _ _ _ _ _ _ U) (conj (ru_dleaves _ _ _ _ _ _ _ U) (conj _ _)))).
  - rewrite (Forall2_length _ _ _ (ru_leaves _ _ _ _ _ _ _ U)). eapply tree_leaf_count. apply U.
  - apply Forall_forall. intros nd Hin.
    destruct (inv_wf _ _ (rf_inv _ _ _ _ _ _ F)) as [Hy Hv _ _].
    rewrite <- (ru_troot _ _ _ _ _ _ _ U) in Hy, Hv.
    destruct (tree_nodes p d t (ru_grown _ _ _ _ _ _ _ U) Hy Hv nd (tleaves_tnodes _ _ Hin)) as (suf & _ & Hdep & Hl & _).
    rewrite (ru_troot _ _ _ _ _ _ _ U), (inv_depth _ _ (rf_inv _ _ _ _ _ _ F)) in Hdep. lia.
Qed.

Theorem leaf_stop_reason s p d : setup_ok s -> reaches s p -> 0 < d ->
  exists p' ids leaves, partition p d = (p', Ok ids) /\
    Forall2 (fun id nd => deref p' id = Some nd) ids leaves /\
    Forall (fun nd => n_depth nd = d \/ region_len (n_region nd) <= 1 \/
      forall a b l r, admissible (d_cs p) (d_possible p) (d_nsplits p) (d_minpts p) nd a b l r ->
                      nltinf (split_total (l, r)) = false) leaves.
Proof.
  intros SO R Hd. destruct (reaches_facts L s p SO R) as (root & dd & sel & ns & F).
  destruct (partition_facts L s p root dd sel ns d F Hd) as (p' & ids & t & U).
  pose proof (reach_facts_partition L _ _ _ _ _ _ _ _ _ F Hd (ru_eq _ _ _ _ _ _ _ U)) as F'.
  exists p', ids, (tleaves t). refine (conj (ru_eq _ _ _ _ _ _ _ U) (conj (ru_leaves _ _ _ _ _ _ _ U) _)).
  apply Forall_forall. intros nd Hin.
  destruct (tree_leaf_reason p d t (ru_grown _ _ _ _ _ _ _ U) nd Hin) as [H|[H|[Sp H]]].
  - right; left. unfold is_splittable in H. apply Nat.ltb_ge in H. exact H.
  - left. rewrite (ru_troot _ _ _ _ _ _ _ U), (inv_depth _ _ (rf_inv _ _ _ _ _ _ F)) in H. exact H.
  - right; right. intros a b l r (h & v & Ha & Hb & E & M1 & M2).
    assert (Dn : derived p' root nd) by (eapply leaves_derived; eauto).
    pose proof (derived_wf p' root nd (inv_wf _ _ (rf_inv _ _ _ _ _ _ F')) Dn) as W.
    assert (Ecs : d_cs p' = d_cs p) by (rewrite (rf_cs _ _ _ _ _ _ F), (rf_cs _ _ _ _ _ _ F'); reflexivity).
    rewrite Ecs in W.
    rewrite split_ok in E; [|exact W|].
    + inversion E; subst l r.
      apply (H (h, v)); [|split; assumption]. eapply nth_error_In. eapply nth_error_candidates; eassumption.
    + pose proof (inv_static _ _ (rf_inv _ _ _ _ _ _ F)) as WS. unfold wf_static in WS. rewrite Forall_forall in WS.
      apply WS. eapply nth_error_In; eassumption.
Qed.

Theorem min_points_respected s p : setup_ok s -> reaches s p ->
  forall id nd, deref p id = Some nd -> n_depth nd = 0 \/ su_minpts s <= region_len (n_region nd).
Proof.
  intros SO R id nd H. destruct (reaches_facts L s p SO R) as (root & dd & sel & ns & F).
  destruct (rf_inv _ _ _ _ _ _ F) as [WS W D0 C0 _].
  destruct (derived_facts p root nd (wf_y _ _ W) (wf_v _ _ W) (deref_derived s p root dd sel ns id nd F H)) as (suf & F1 & F2 & F3 & F4 & F5).
  destruct F5 as [->|F5]; [left; cbn in F2; lia|right]. rewrite <- (rf_mp _ _ _ _ _ _ F). exact F5.
Qed.

(** ** C09 *)
Theorem never_split_selected s p : setup_ok s -> reaches s p ->
  exists sel nots, convert_hyperparameters (su_sel s) (su_cs s) = Ok sel /\
    (match su_nots s with None => nots = [] | Some q => get_hyperparameters q (su_cs s) = Ok nots end) /\
    forall id nd, deref p id = Some nd ->
      Forall (fun c => In (c_hp c) (su_cs s) /\ ~ In (hp_name (c_hp c)) (map hp_name sel) /\
                       ~ In (hp_name (c_hp c)) (map hp_name nots) /\
                       In (c_val c) (possible_split_vals (N:=N) (su_splits s))) (n_conds nd).
Proof.
  intros SO R. destruct (reaches_facts L s p SO R) as (root & dd & sel & ns & F).
  exists sel, ns. refine (conj (rf_sel _ _ _ _ _ _ F) (conj _ _)).
  - pose proof (rf_nots _ _ _ _ _ _ F) as H. destruct (su_nots s); [exact H|]. inversion H; reflexivity.
  - intros id nd H. eapply leaf_conds_in_cs; eauto. eapply deref_derived; eauto.
Qed.

(** ** C12 *)
Lemma build_static p p' k : same_static p p' -> forall nd, build p k nd = build p' k nd.
Proof.
  intros (E1 & _ & E3 & E4 & E5). induction k as [|k IH]; intro nd; cbn [build]; [reflexivity|].
  rewrite E1, E3, E4, E5. destruct (is_splittable nd); [|reflexivity].
  destruct (calc_best_split _ _ _ _ _) as [[[l r]|]|]; cbn [bind]; try reflexivity. rewrite !IH. reflexivity.
Qed.

Theorem partition_history_independent s p p0 d :
  setup_ok s -> construct s = Ok p0 -> reaches s p -> 0 < d ->
  exists p1 ids1 p2 ids2 leaves,
    partition p d = (p1, Ok ids1) /\ partition p0 d = (p2, Ok ids2) /\
    Forall2 (fun id nd => deref p1 id = Some nd) ids1 leaves /\
    Forall2 (fun id nd => deref p2 id = Some nd) ids2 leaves /\
    (forall id nd, deref p id = Some nd -> deref p1 id = Some nd).
Proof.
  intros SO Hc R Hd.
  assert (R0 : reaches s p0) by (exists p0, []; split; [exact Hc|reflexivity]).
  destruct (reaches_facts L s p SO R) as (root & dd & sel & ns & F).
  destruct (reaches_facts L s p0 SO R0) as (root0 & dd0 & sel0 & ns0 & F0).
  destruct (partition_facts L s p root dd sel ns d F Hd) as (p1 & ids1 & t1 & U1).
  destruct (partition_facts L s p0 root0 dd0 sel0 ns0 d F0 Hd) as (p2 & ids2 & t2 & U2).
  assert (Esel : sel = sel0) by (pose proof (rf_sel _ _ _ _ _ _ F); pose proof (rf_sel _ _ _ _ _ _ F0); congruence). subst sel0.
  assert (Edd : dd = dd0) by (pose proof (rf_ice _ _ _ _ _ _ F); pose proof (rf_ice _ _ _ _ _ _ F0); congruence). subst dd0.
  assert (Er : root = root0) by (pose proof (rf_root _ _ _ _ _ _ F); pose proof (rf_root _ _ _ _ _ _ F0); congruence). subst root0.
  assert (Ens : ns = ns0) by (pose proof (rf_nots _ _ _ _ _ _ F); pose proof (rf_nots _ _ _ _ _ _ F0); congruence). subst ns0.
  assert (Et : t1 = t2).
  { pose proof (ru_build _ _ _ _ _ _ _ U1) as B1. pose proof (ru_build _ _ _ _ _ _ _ U2) as B2.
    assert (SS : build p d root = build p0 d root).
    { revert B1 B2. intros _ _.
      assert (X1 : d_cs p = d_cs p0) by (rewrite (rf_cs _ _ _ _ _ _ F), (rf_cs _ _ _ _ _ _ F0); reflexivity).
      assert (X3 : d_possible p = d_possible p0) by (rewrite (rf_poss _ _ _ _ _ _ F), (rf_poss _ _ _ _ _ _ F0); reflexivity).
      assert (X4 : d_nsplits p = d_nsplits p0) by (rewrite (rf_ns _ _ _ _ _ _ F), (rf_ns _ _ _ _ _ _ F0); reflexivity).
      assert (X5 : d_minpts p = d_minpts p0) by (rewrite (rf_mp _ _ _ _ _ _ F), (rf_mp _ _ _ _ _ _ F0); reflexivity).
      set (q := mkdtp (d_cs p0) (d_sel p) (d_possible p0) (d_nsplits p0) (d_minpts p0) (d_heap p0) (d_leaves p0)).
      rewrite (build_static p q); [|repeat split; assumption].
      clear. revert root. induction d as [|k IH]; intro nd; cbn [build]; [reflexivity|].
      destruct (is_splittable nd); [|reflexivity]. cbn [q d_cs d_possible d_nsplits d_minpts].
      destruct (calc_best_split _ _ _ _ _) as [[[l r]|]|]; cbn [bind]; try reflexivity. rewrite !IH. reflexivity. }
    rewrite SS in B1. congruence. }
  subst t2.
  exists p1, ids1, p2, ids2, (tleaves t1).
  refine (conj (ru_eq _ _ _ _ _ _ _ U1) (conj (ru_eq _ _ _ _ _ _ _ U2) (conj (ru_leaves _ _ _ _ _ _ _ U1) (conj (ru_leaves _ _ _ _ _ _ _ U2) _)))).
  intros id nd H. destruct (Nat.eq_dec id 0) as [->|Hne].
  - rewrite (rf_deref _ _ _ _ _ _ F) in H. inversion H; subst nd.
    pose proof (reach_facts_partition L _ _ _ _ _ _ _ _ _ F Hd (ru_eq _ _ _ _ _ _ _ U1)) as F1. apply F1.
  - unfold deref in *. rewrite (ru_frame _ _ _ _ _ _ _ U1); auto.
    destruct (nth_error (d_heap p) id) eqn:E; [|discriminate]. eapply nth_error_Some_lt; eassumption.
Qed.

(** ** C14 *)
Theorem constant_never_split s p j h x :
  setup_ok s -> reaches s p -> 1 <= su_minpts s -> nth_error (su_cs s) j = Some h ->
  (forall row, In row (su_samples s) -> nth_error row j = Some x) ->
  forall id nd, deref p id = Some nd -> Forall (fun c => hp_name (c_hp c) <> hp_name h) (n_conds nd).
Proof.
  intros SO R Hmp Hj Hconst id nd H.
  destruct (reaches_facts L s p SO R) as (root & dd & sel & ns & F).
  pose proof (deref_derived s p root dd sel ns id nd F H) as D. clear H id.
  destruct (rf_inv _ _ _ _ _ _ F) as [WS W D0 C0 _].
  destruct SO as (ND & Rc & Hg).
  assert (Hidx : cs_idx (d_cs p) (hp_name h) = Ok j) by (rewrite (rf_cs _ _ _ _ _ _ F); apply cs_idx_nodup; assumption).
  assert (Key : forall nd hv, derived p root nd -> In (fst hv) (d_possible p) ->
     enough (d_minpts p) (split_pair (d_cs p) nd hv) -> hp_name (fst hv) <> hp_name h).
  { clear nd D. intros nd [h' v] D Hh [E1 E2] Hname. cbn [fst snd] in *.
    destruct (derived_facts p root nd (wf_y _ _ W) (wf_v _ _ W) D) as (suf & F1 & F2 & F3 & F4 & _).
    assert (Hco : forall m, In m (r_x (n_region nd)) -> coord j m = x).
    { intros m Hm. rewrite F3 in Hm. cbn in Hm. apply mask_select_in in Hm.
      destruct (In_nth_error _ _ Hm) as (i & Hi).
      pose proof (rf_root _ _ _ _ _ _ F) as Hroot.
      assert (Hix : nth_error (i_x dd) i = Some m) by (rewrite Hroot in Hi; exact Hi).
      assert (Hs : i < length (su_samples s)).
      { rewrite <- (rf_len _ _ _ _ _ _ F). eapply nth_error_Some_lt; eassumption. }
      pose proof (nth_error_nth' (su_samples s) [] Hs) as Hrow.
      destruct (wf_curve _ _ m W Hm) as (grow & Hgr & Hgl).
      unfold coord. rewrite (nth_error_nth _ _ [] Hgr).
      assert (Hidx' : cs_idx (su_cs s) (hp_name h') = Ok j) by (rewrite Hname, <- (rf_cs _ _ _ _ _ _ F); exact Hidx).
      rewrite (rf_coord _ _ _ _ _ _ F h' j m _ Hh Hidx' i Hix Hrow 0 grow Hgr).
      apply nth_error_nth. apply Hconst. apply nth_In; exact Hs. }
    rewrite (rf_mp _ _ _ _ _ _ F) in E1, E2.
    cbn in E1, E2. unfold region_len in E1, E2. cbn in E1, E2. rewrite !mask_select_filter in E1, E2.
    assert (K : forall b, su_minpts s <= length (filter (cond_sat (d_cs p) (mkcond h' v b)) (r_x (n_region nd))) ->
       (if b then nle x v else nlt v x) = true).
    { intros b Hb. destruct (filter (cond_sat (d_cs p) (mkcond h' v b)) (r_x (n_region nd))) as [|m ms] eqn:Ef; [cbn in Hb; lia|].
      assert (Hm : In m (filter (cond_sat (d_cs p) (mkcond h' v b)) (r_x (n_region nd)))) by (rewrite Ef; left; reflexivity).
      apply filter_In in Hm. destruct Hm as [Hm1 Hm2]. unfold cond_sat in Hm2. cbn [c_hp] in Hm2. rewrite Hname, Hidx in Hm2.
      rewrite (Hco m Hm1) in Hm2. unfold cond_mask in Hm2. cbn in Hm2. destruct b; exact Hm2. }
    pose proof (K true E1) as K1. pose proof (K false E2) as K2. cbn in K1, K2.
    destruct (ol_lt_ordinary N L _ _ K2) as [Ov Ox].
    rewrite (ol_le N L _ _ Ox Ov), K2 in K1. discriminate. }
  induction D as [|nd hv D IH Sp H1 H2 En|nd hv D IH Sp H1 H2 En].
  - rewrite C0. constructor.
  - cbn. apply Forall_app. split; [exact IH|]. constructor; [|constructor]. cbn. apply (Key nd hv D H1 En).
  - cbn. apply Forall_app. split; [exact IH|]. constructor; [|constructor]. cbn. apply (Key nd hv D H1 En).
Qed.

End P.
