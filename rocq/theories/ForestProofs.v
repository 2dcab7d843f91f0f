(** ForestProofs.v - the random forest partitioner (C17-C20, C62). *)
From Verif Require Import Base Num NumLaws NumpyModel ConfigSpaceModel UtilsModel IceModel PartitionModel PartitionSpec
  ListLemmas IceProofs IceProofs2 PartitionProofs PartitionProofs2 PartitionProofs3 PartitionProofs4 PartitionProofs5 PartitionProofs6
  ForestModel ForestSpec.
From Coq Require Import Sorted.
Local Open Scope nat_scope.
Local Open Scope list_scope.

Section P.
Context {N : Num}.
Implicit Types (f : forest N) (cs : cspace N).

(** ** membership *)
Lemma is_satisfied_spec cs c (cfg : config N) b : is_satisfied cs c cfg = Ok b -> (b = true <-> config_satisfies cs c cfg).
Proof.
  unfold is_satisfied, cond_value, config_satisfies. intro H. apply bind_ok in H. destruct H as (u & Hu & H).
  destruct (config_get cfg (hp_name (c_hp c))) as [[x|]|] eqn:E; try discriminate. inversion H. split.
  - intro Hb. exists x, u. repeat split; auto. destruct (c_le c); exact Hb.
  - intros (x' & u' & E1 & E2 & E3). rewrite Hu in E2. inversion E1; inversion E2; subst. destruct (c_le c); exact E3.
Qed.
Lemma contains_spec cs conds (cfg : config N) b : contains cs conds cfg = Ok b ->
  (b = true <-> Forall (fun c => config_satisfies cs c cfg) conds).
Proof.
  revert b. induction conds as [|c conds IH]; intros b H; cbn in H.
  - inversion H. split; auto.
  - apply bind_ok in H. destruct H as (b1 & H1 & H). pose proof (is_satisfied_spec _ _ _ _ H1) as S1. destruct b1.
    + rewrite (IH b H). split; [intro; constructor; tauto|intro F; inversion F; auto].
    + inversion H. split; [discriminate|]. intro F. inversion F; subst. apply S1; auto.
Qed.

Definition count_true (bs : list bool) : nat := length (filter (fun b => b) bs).
Lemma count_regions_spec cs regions (c : config N) n : count_regions cs regions c = Ok n ->
  exists nds bs, regions = map Some nds /\ Forall2 (fun nd b => contains cs (n_conds nd) c = Ok b) nds bs /\ n = count_true bs.
Proof.
  unfold count_regions. assert (K : forall k, foldM (fun k r => match r with
                    | None => Err TypeError
                    | Some nd => b <- contains cs (n_conds nd) c ;; Ok (if (b : bool) then S k else k)
                    end) regions k = Ok n ->
    exists nds bs, regions = map Some nds /\ Forall2 (fun nd b => contains cs (n_conds nd) c = Ok b) nds bs /\ n = k + count_true bs).
  { induction regions as [|r regions IH]; intros k H; cbn in H.
    - inversion H. exists [], []. refine (conj eq_refl (conj (Forall2_nil _) _)). unfold count_true; cbn; lia.
    - destruct r as [nd|]; [|discriminate]. apply bind_ok in H. destruct H as (k' & H1 & H). apply bind_ok in H1. destruct H1 as (b & Hb & H1).
      destruct (IH _ H) as (nds & bs & -> & F & ->). exists (nd :: nds), (b :: bs). refine (conj eq_refl (conj _ _)); [constructor; auto|].
      inversion H1. unfold count_true. cbn. destruct b; cbn; lia. }
  intro H. apply (K 0 H).
Qed.
Lemma filter_map_length {A B} (g : B -> bool) (h : A -> B) l : length (filter g (map h l)) = length (filter (fun a => g (h a)) l).
Proof. induction l as [|a l IH]; cbn; [reflexivity|]. destruct (g (h a)); cbn; lia. Qed.
Lemma count_true_seq bs : count_true bs = length (filter (fun i => nth i bs false) (seq 0 (length bs))).
Proof.
  unfold count_true. rewrite <- (map_nth_seq bs false (length bs) eq_refl) at 1. apply filter_map_length.
Qed.
Lemma overlap_count cs (c : config N) nds bs k : Forall2 (fun nd b => contains cs (n_conds nd) c = Ok b) nds bs ->
  ((k <=? Z.of_nat (count_true bs))%Z = true <-> overlaps cs c nds k).
Proof.
  intro F. rewrite Z.leb_le.
  assert (K : forall t nd, nth_error nds t = Some nd -> (nth t bs false = true <-> lies_in cs c nd)).
  { clear k. induction F as [|nd b nds bs H F IH]; intros [|t] nd' E; try discriminate; cbn in *.
    - inversion E; subst. apply (contains_spec _ _ _ _ H).
    - apply IH. exact E. }
  pose proof (Forall2_length _ _ _ F) as Len. rewrite count_true_seq.
  set (good := filter (fun i => nth i bs false) (seq 0 (length bs))). split.
  - intro H. exists good. refine (conj _ (conj H _)).
    + apply NoDup_filter, seq_NoDup.
    + apply Forall_forall. intros t Ht. apply filter_In in Ht. destruct Ht as [Ht Hb]. apply in_seq in Ht.
      destruct (nth_error nds t) as [nd|] eqn:E; [|apply nth_error_None in E; lia]. exists nd. split; [reflexivity|]. apply (K t nd E). exact Hb.
  - intros (ts & ND & Hk & FT). assert (incl ts good).
    { intros t Ht. rewrite Forall_forall in FT. destruct (FT t Ht) as (nd & E & Hl). apply filter_In. split.
      - apply in_seq. pose proof (nth_error_Some_lt _ _ _ E). lia.
      - apply (K t nd E). exact Hl. }
    pose proof (NoDup_incl_length ND H). lia.
Qed.

(** ** the generator *)
Lemma draws_length rng pos k hi : length (draws rng pos k hi) = k.
Proof. unfold draws. rewrite map_length, seq_length. reflexivity. Qed.
Lemma draws_lt rng pos k hi : 0 < hi -> Forall (fun i => i < hi) (draws rng pos k hi).
Proof.
  intro H. apply Forall_forall. intros i Hi. apply in_map_iff in Hi. destruct Hi as (j & <- & _). apply Nat.mod_upper_bound. lia.
Qed.
Lemma in_compress {A} (l : list A) mask a : In a (compress l mask) -> In a l.
Proof. apply mask_select_in. Qed.

Lemma subset_ok f pos pos' hps : feature_subset f pos = (pos', Ok hps) -> hps <> [] /\ incl hps (f_possible f).
Proof.
  unfold feature_subset. destruct (compress _ _) as [|h t] eqn:E.
  - clear E. generalize (eq_refl (f_possible f)). generalize (f_possible f) at 2 3. intros [|h l] Ep; [discriminate|]. intro H.
    apply pair_equal_spec in H. destruct H as [_ H]. injection H as <-.
    split; [discriminate|]. intros x [<-|[]]. apply nth_In, Nat.mod_upper_bound. rewrite Ep. discriminate.
  - intro H. inversion H. subst. split; [discriminate|]. intros x Hx. rewrite <- E in Hx. apply in_compress in Hx. exact Hx.
Qed.
Lemma subset_total f pos : f_possible f <> [] -> exists pos' hps, feature_subset f pos = (pos', Ok hps).
Proof.
  intro H. unfold feature_subset. destruct (compress _ _); [|eauto]. destruct (f_possible f); [congruence|eauto].
Qed.

(** ** states of a forest *)
Definition tree_from f (t : dtp N) : Prop :=
  exists s p d ids, setup_ok s /\ su_cs s = a_cs (f_alg f) /\ (su_splits s = 100 /\ su_sel s = SelList (map SHp (a_sel (f_alg f)))) /\ reaches s p /\ 0 < d /\ partition p d = (t, Ok ids).
Definition data_of (a : algorithm N) (d : icedata N) : Prop := exists c p, ice_calculate a c p = Ok d.
Definition ice_inv (o : ice N) : Prop := clean o \/ exists d, holds o d /\ data_of (ic_alg o) d.

Record finv f : Prop := {
  fi_poss : f_possible f = split_parameters (a_cs (f_alg f)) (a_sel (f_alg f)) [];
  fi_ice : ice_inv (f_ice f);
  fi_trees : forest_ok f -> forall ts, f_trees f = Some ts -> Forall (tree_from f) ts
}.

Lemma ice_inv_read {A} (g : ice N -> option A) o : ice_inv o -> ice_inv (fst (read_field g o)) /\ ic_alg (fst (read_field g o)) = ic_alg o /\
  ic_predict (fst (read_field g o)) = ic_predict o.
Proof.
  intro H. unfold read_field. destruct (g o); [auto|]. unfold ice_run.
  destruct (ice_calculate _ _ _) as [d|e] eqn:E; cbn; [|auto]. split; [|auto]. right. exists d. split; [repeat split|]. do 2 eexists. exact E.
Qed.
Lemma ice_inv_step o op : ice_inv o -> ice_inv (fst (ice_step o op)) /\ ic_alg (fst (ice_step o op)) = ic_alg o.
Proof.
  intro H. destruct op; cbn.
  - pose proof (ice_inv_read ic_x o H). unfold read_x. destruct (read_field ic_x o); tauto.
  - pose proof (ice_inv_read ic_y o H). unfold read_y. destruct (read_field ic_y o); tauto.
  - pose proof (ice_inv_read ic_v o H). unfold read_v. destruct (read_field ic_v o); tauto.
  - split; [left; repeat split|auto].
  - split; [exact H|auto].
  - split; [exact H|auto].
Qed.
Lemma ice_inv_run ops : forall o, ice_inv o -> ice_inv (fst (ice_run_ops o ops)) /\ ic_alg (fst (ice_run_ops o ops)) = ic_alg o.
Proof.
  induction ops as [|op ops IH]; intros o H; [cbn; auto|]. cbn [ice_run_ops]. pose proof (ice_inv_step o op H) as [K1 K2].
  destruct (ice_step o op) as [o1 r]. cbn in *. destruct (IH o1 K1) as [I1 I2]. destruct (ice_run_ops o1 ops). cbn in *. split; congruence.
Qed.

Lemma start_inv f : forest_start f -> finv f /\ f_trees f = None.
Proof.
  intros [cs predict sel samples gpa ns mp rng f' H|a p ops rng f' H].
  - unfold forest_new in H. apply bind_ok in H. destruct H as (a & Ha & H). inversion H. split; [|reflexivity].
    unfold algorithm_new in Ha. apply bind_ok in Ha. destruct Ha as (sel' & Hs & Ha). inversion Ha.
    constructor; cbn; [reflexivity|left; repeat split|discriminate].
  - unfold forest_from_ice in H. apply bind_ok in H. destruct H as (f1 & H1 & H). inversion H. unfold forest_new, algorithm_new in H1.
    rewrite convert_hps in H1. cbn [bind] in H1. inversion H1. cbn. split; [|reflexivity].
    constructor; cbn; [reflexivity| |discriminate]. apply ice_inv_run. left. repeat split.
Qed.

(** ** growing trees *)
Lemma possible_spec f h : finv f -> (In h (f_possible f) <-> may_split f h).
Proof. intro I. rewrite (fi_poss _ I), split_parameters_spec. unfold may_split. cbn. tauto. Qed.

Definition tsetup f rows nots : setup N :=
  mksetup (a_cs (f_alg f)) (ic_predict (f_ice f)) (SelList (map SHp (a_sel (f_alg f)))) rows (a_gpa (f_alg f)) 100 1
          (Some (SelList (map SHp nots))).
Lemma get_hps cs (l : list (hp N)) : get_hyperparameters (SelList (map SHp l)) cs = Ok l.
Proof. cbn. induction l as [|h l IH]; cbn; [reflexivity|]. rewrite IH. reflexivity. Qed.

Lemma difference_spec (l l' : list (hp N)) h : In h (hp_difference l l') <-> In h l /\ ~ In (hp_name h) (map hp_name l').
Proof.
  unfold hp_difference, mem_string. rewrite filter_In, negb_true_iff.
  assert (M : existsb (String.eqb (hp_name h)) (map hp_name l') = false <-> ~ In (hp_name h) (map hp_name l')).
  { split.
    - intros E Hin. enough (existsb (String.eqb (hp_name h)) (map hp_name l') = true) by congruence.
      apply existsb_exists. exists (hp_name h). split; [exact Hin|apply String.eqb_refl].
    - intro Hn. apply not_true_iff_false. intro E. apply existsb_exists in E. destruct E as (s & Hs & Es). apply String.eqb_eq in Es. subst s. auto. }
  rewrite M. tauto.
Qed.
Lemma nodup_name_inj cs (h h' : hp N) : NoDup (map hp_name cs) -> In h cs -> In h' cs -> hp_name h = hp_name h' -> h = h'.
Proof.
  intros ND H H' E. induction cs as [|x cs IH]; [destruct H|]. cbn in ND. inversion ND; subst.
  destruct H as [->|H], H' as [->|H']; auto.
  - exfalso. apply H2. rewrite E. apply in_map; exact H'.
  - exfalso. apply H2. rewrite <- E. apply in_map; exact H.
Qed.

Section L.
Variable L : order_laws N.

Lemma grow_tree_ok f depth size pos pos' t : finv f -> forest_ok f -> 0 < depth ->
  grow_tree f depth size pos = (pos', Ok t) ->
  tree_from f t /\ exists rows hps, bootstrap f size rows /\ hps <> [] /\ Forall (may_split f) hps /\ tree_of f depth rows hps t.
Proof.
  intros I (ND & RC & HG) Hd H. unfold grow_tree in H. destruct (a_samples (f_alg f)) as [|r0 rs] eqn:Es; [inversion H|]. rewrite <- Es in *.
  set (rows := map (fun i => nth i (a_samples (f_alg f)) []) (draws (f_rng f) pos size (num_samples (f_alg f)))) in *.
  destruct (feature_subset f (pos + size)) as [p1 hr] eqn:Ef. inversion H as [[E0 H1]]. clear H. subst p1.
  apply bind_ok in H1. destruct H1 as (hps & -> & H). apply bind_ok in H. destruct H as (dt & Hdt & H).
  destruct (partition dt depth) as [t' lv] eqn:Ep. apply bind_ok in H. destruct H as (ids & -> & H). inversion H; subst t'. clear H.
  destruct (subset_ok f _ _ _ Ef) as [Hne Hincl].
  assert (HB : bootstrap f size rows).
  { split; [unfold rows; rewrite map_length; apply draws_length|]. apply Forall_forall. intros r Hr. unfold rows in Hr.
    apply in_map_iff in Hr. destruct Hr as (i & <- & Hi). apply nth_In. apply (proj1 (Forall_forall _ _) (draws_lt (f_rng f) pos size (num_samples (f_alg f)) ltac:(unfold num_samples; rewrite Es; cbn; lia))). exact Hi. }
  set (nots := hp_difference (f_possible f) hps) in *.
  assert (HC : construct (tsetup f rows nots) = Ok dt) by exact Hdt.
  assert (SO : setup_ok (tsetup f rows nots)).
  { refine (conj ND (conj _ HG)). cbn. apply Forall_forall. intros r Hr. apply (proj1 (Forall_forall _ _) RC).
    apply (proj1 (Forall_forall _ _) (proj2 HB)). exact Hr. }
  assert (HR : reaches (tsetup f rows nots) dt) by (exists dt, []; split; [exact HC|reflexivity]).
  split.
  - exists (tsetup f rows nots), dt, depth, ids. repeat split; auto; apply SO.
  - exists rows, hps. refine (conj HB (conj Hne (conj _ _))).
    + apply Forall_forall. intros h Hh. apply (possible_spec f h I), Hincl, Hh.
    + assert (HX : forall h, may_split f h -> (In h hps <-> ~ In (hp_name h) (map hp_name nots))).
      { intros h Hm. pose proof (proj2 (possible_spec f h I) Hm) as Hp. split.
        - intros Hh Hc. apply in_map_iff in Hc. destruct Hc as (h' & En & Hc). apply difference_spec in Hc. apply (proj2 Hc). rewrite En. apply in_map, Hh.
        - intro Hn. destruct (in_dec string_dec (hp_name h) (map hp_name hps)) as [Hi|Hi].
          + apply in_map_iff in Hi. destruct Hi as (h' & En & Hi).
            rewrite (nodup_name_inj _ h h' ND); [exact Hi|apply Hm| |auto].
            apply (possible_spec f h' I). apply Hincl, Hi.
          + exfalso. apply Hn. apply in_map. apply difference_spec. auto. }
      exists nots, dt, ids. refine (conj HX (conj HC (conj Ep _))).
      intros id nd Hnd.
      assert (HR' : reaches (tsetup f rows nots) t) by (pose proof (reaches_partition (tsetup f rows nots) dt depth HR) as Q; rewrite Ep in Q; exact Q).
      destruct (never_split_selected L _ _ SO HR') as (sel & ns & Hsel & Hns & Hall). cbn [su_nots tsetup] in Hns.
      rewrite get_hps in Hns. inversion Hns; subst ns. cbn [su_sel su_cs tsetup] in Hsel. rewrite convert_hps in Hsel. inversion Hsel; subst sel.
      eapply Forall_impl; [|exact (Hall id nd Hnd)]. cbv beta. intros c (C1 & C2 & C3 & _).
      apply HX; [split; assumption|exact C3].
Qed.

Lemma grow_tree_total f depth size pos : finv f -> forest_ok f -> 0 < depth -> a_samples (f_alg f) <> [] ->
  (exists h, may_split f h) -> sel_known (a_cs (f_alg f)) (a_sel (f_alg f)) -> a_sel (f_alg f) <> [] -> batch_predictor (ic_predict (f_ice f)) ->
  exists pos' t, grow_tree f depth size pos = (pos', Ok t).
Proof.
  intros I (ND & RC & HG) Hd Hs (h & Hh) Hk Hne Hp. unfold grow_tree. destruct (a_samples (f_alg f)) as [|r0 rs] eqn:Es; [congruence|]. rewrite <- Es in *.
  set (rows := map _ _). assert (Hp' : f_possible f <> []).
  { apply (possible_spec f h I) in Hh. intro E. rewrite E in Hh. destruct Hh. }
  destruct (subset_total f (pos + size) Hp') as (pos' & hps & E). rewrite E. cbn [bind].
  set (nots := hp_difference (f_possible f) hps).
  assert (RB : Forall (fun r => length r = length (a_cs (f_alg f))) rows).
  { apply Forall_forall. intros r Hr. unfold rows in Hr. apply in_map_iff in Hr. destruct Hr as (i & <- & Hi).
    apply (proj1 (Forall_forall _ _) RC). apply nth_In.
    apply (proj1 (Forall_forall _ _) (draws_lt (f_rng f) pos size (num_samples (f_alg f)) ltac:(unfold num_samples; rewrite Es; cbn; lia))). exact Hi. }
  assert (SO : setup_ok (tsetup f rows nots)) by (refine (conj ND (conj RB HG))).
  destruct (construct_total (tsetup f rows nots) (a_sel (f_alg f)) SO) as (p0 & Hc); auto.
  { cbn [su_sel su_cs tsetup]. apply convert_hps. }
  { intros q Hq. cbn in Hq. inversion Hq. exists nots. apply get_hps. }
  unfold construct in Hc. cbn [su_cs su_predict su_sel su_samples su_gpa su_splits su_minpts su_nots tsetup] in Hc.
  unfold dt_from_ice. cbn [ic_alg ic_predict ice_new a_cs a_sel a_samples a_gpa]. rewrite Hc. cbn [bind].
  assert (HR : reaches (tsetup f rows nots) p0) by (exists p0, []; split; [exact Hc|reflexivity]).
  destruct (proj2 (partition_terminates L _ _ depth SO HR) Hd) as (p' & ids & lv & Ep & _). rewrite Ep. cbn [bind]. eauto.
Qed.

Lemma grow_trees_spec f depth size : finv f -> forest_ok f -> 0 < depth -> forall n pos acc pos' ts r,
  grow_trees f depth size n pos acc = (pos', ts, r) ->
  exists new, ts = acc ++ new /\ (r = Ok tt -> length new = n) /\ length new <= n /\
    Forall (fun t => tree_from f t /\ exists rows hps, bootstrap f size rows /\ hps <> [] /\ Forall (may_split f) hps /\ tree_of f depth rows hps t) new.
Proof.
  intros I FO Hd. induction n as [|n IH]; intros pos acc pos' ts r H; cbn in H.
  - inversion H. exists []. rewrite app_nil_r. repeat split; auto.
  - destruct (grow_tree f depth size pos) as [p1 [t|e]] eqn:E.
    + destruct (IH _ _ _ _ _ H) as (new & -> & H1 & H2 & H3). exists (t :: new). rewrite <- app_assoc. cbn.
      refine (conj eq_refl (conj _ (conj _ _))); [intro Hr; rewrite (H1 Hr); reflexivity|lia|]. constructor; [|exact H3].
      eapply grow_tree_ok; eauto.
    + inversion H. exists []. rewrite app_nil_r. repeat split; auto; [discriminate|cbn; lia].
Qed.
Lemma grow_trees_total f depth size : (forall pos, exists pos' t, grow_tree f depth size pos = (pos', Ok t)) -> forall n pos acc,
  exists pos' ts, grow_trees f depth size n pos acc = (pos', ts, Ok tt).
Proof.
  intro H. induction n as [|n IH]; intros pos acc; cbn; [eauto|]. destruct (H pos) as (p1 & t & E). rewrite E. apply IH.
Qed.

(** steps keep the invariant *)
Lemma forest_ok_alg f f' : f_alg f' = f_alg f -> forest_ok f' -> forest_ok f.
Proof. unfold forest_ok. intros ->. auto. Qed.
Lemma tree_from_alg f f' t : f_alg f' = f_alg f -> tree_from f t -> tree_from f' t.
Proof. unfold tree_from. intros ->. auto. Qed.

Lemma partition_alg f n d s : f_ice (fst (forest_partition f n d s)) = f_ice f /\ f_possible (fst (forest_partition f n d s)) = f_possible f.
Proof.
  unfold forest_partition. destruct (negb _); [auto|]. destruct s as [k|]; [|auto]. do 2 (destruct (negb _); [auto|]).
  destruct (grow_trees _ _ _ _ _ _) as [[pos ts] r]. auto.
Qed.
Lemma partition_inv f n d s : finv f -> finv (fst (forest_partition f n d s)).
Proof.
  intro I. destruct (partition_alg f n d s) as [A1 A2]. constructor.
  - rewrite A2. unfold f_alg. rewrite A1. apply I.
  - rewrite A1. apply I.
  - unfold forest_partition. destruct (negb _) eqn:E1; [apply I|]. destruct s as [k|]; [|apply I]. destruct (negb (0 <? k)%Z); [apply I|].
    destruct (negb (0 <? d)%Z) eqn:E2; [apply I|].
    destruct (grow_trees _ _ _ _ _ _) as [[pos ts] r] eqn:E. cbn. intros FO ts' H. inversion H; subst ts'.
    apply negb_false_iff, Z.ltb_lt in E2.
    destruct (grow_trees_spec f (Z.to_nat d) (Z.to_nat k) I FO ltac:(lia) _ _ _ _ _ _ E) as (new & -> & _ & _ & F). cbn.
    eapply Forall_impl; [|exact F]. cbv beta. intros t (T & _). exact T.
Qed.
Lemma incumbent_inv f c k : finv f -> finv (fst (forest_incumbent_region f c k)) /\
  f_trees (fst (forest_incumbent_region f c k)) = f_trees f /\ f_alg (fst (forest_incumbent_region f c k)) = f_alg f.
Proof.
  intro I. unfold forest_incumbent_region. destruct (f_trees f) as [[|t ts]|] eqn:Et; auto.
  destruct (bind _ _) as [counts|e]; [|cbn; auto].
  unfold read_x, read_y, read_v.
  destruct (ice_inv_read ic_x (f_ice f) (fi_ice _ I)) as (X1 & X2 & X3). destruct (read_field ic_x (f_ice f)) as [i1 x].
  destruct (ice_inv_read ic_y i1 X1) as (Y1 & Y2 & Y3). destruct (read_field ic_y i1) as [i2 y].
  destruct (ice_inv_read ic_v i2 Y1) as (V1 & V2 & V3). destruct (read_field ic_v i2) as [i3 v]. cbn in *.
  assert (E : ic_alg i3 = ic_alg (f_ice f)) by congruence.
  refine (conj _ (conj eq_refl E)). constructor; cbn.
  - unfold f_alg. cbn. rewrite E. apply I.
  - exact V1.
  - intros FO ts' H. eapply Forall_impl; [|apply (fi_trees _ I); [|rewrite Et; exact H]].
    + intros q. apply tree_from_alg. exact E.
    + revert FO. apply forest_ok_alg. exact E.
Qed.
Lemma step_inv f op : finv f -> finv (fst (forest_step f op)).
Proof.
  intro I. destruct op as [n d s|c k|op]; cbn.
  - pose proof (partition_inv f n d s I). destruct (forest_partition f n d s). exact H.
  - pose proof (incumbent_inv f c k I). destruct (forest_incumbent_region f c k). apply H.
  - destruct (ice_inv_step (f_ice f) op (fi_ice _ I)) as [H1 H2]. destruct (ice_step (f_ice f) op) as [i r]. cbn in *.
    constructor; cbn.
    + unfold f_alg. cbn. rewrite H2. apply I.
    + exact H1.
    + intros FO ts H. eapply Forall_impl; [|apply (fi_trees _ I); [|exact H]].
      * intros q. apply tree_from_alg. exact H2.
      * revert FO. apply forest_ok_alg. exact H2.
Qed.
Lemma reach_inv f : forest_reaches f -> finv f.
Proof.
  intros (f0 & ops & H & ->). apply start_inv in H. destruct H as [H _]. revert f0 H. induction ops as [|op ops IH]; intros f0 H; [exact H|].
  cbn [forest_run]. pose proof (step_inv f0 op H) as K. destruct (forest_step f0 op) as [f1 r]. cbn in K. specialize (IH f1 K).
  destruct (forest_run f1 ops). exact IH.
Qed.

(** ** C19 *)
Theorem forest_trees f n d k : forest_reaches f -> forest_ok f -> (0 < n)%Z -> (0 < d)%Z -> (0 < k)%Z ->
  a_samples (f_alg f) <> [] -> (exists h, may_split f h) ->
  sel_known (a_cs (f_alg f)) (a_sel (f_alg f)) -> a_sel (f_alg f) <> [] -> batch_predictor (ic_predict (f_ice f)) ->
  exists f' ts, forest_partition f n d (Some k) = (f', Ok tt) /\ f_trees f' = Some ts /\ length ts = Z.to_nat n /\ f_ice f' = f_ice f /\
    Forall (fun t => exists rows hps, bootstrap f (Z.to_nat k) rows /\ hps <> [] /\ Forall (may_split f) hps /\
                                      tree_of f (Z.to_nat d) rows hps t) ts.
Proof.
  intros R FO Hn Hd Hk Hs Hh H1 H2 H3. pose proof (reach_inv f R) as I. unfold forest_partition.
  rewrite !(proj2 (Z.ltb_lt _ _)) by assumption. cbn [negb].
  destruct (grow_trees_total f (Z.to_nat d) (Z.to_nat k)) with (n := Z.to_nat n) (pos := f_pos f) (acc := @nil (dtp N)) as (pos' & ts & E).
  { intro pos. apply grow_tree_total; auto. lia. }
  rewrite E. destruct (grow_trees_spec f (Z.to_nat d) (Z.to_nat k) I FO ltac:(lia) _ _ _ _ _ _ E) as (new & -> & L1 & _ & F). cbn [app].
  do 2 eexists. refine (conj eq_refl (conj eq_refl (conj (L1 eq_refl) (conj eq_refl _)))).
  eapply Forall_impl; [|exact F]. cbv beta. intros t (_ & T). exact T.
Qed.

(** whatever partition does, the trees kept are from this call: even when it raises *)
Theorem forest_trees_if_raised f n d k e f' : forest_reaches f -> forest_ok f -> (0 < n)%Z -> (0 < d)%Z -> (0 < k)%Z ->
  forest_partition f n d (Some k) = (f', Err e) ->
  exists ts, f_trees f' = Some ts /\ length ts <= Z.to_nat n /\
    Forall (fun t => exists rows hps, bootstrap f (Z.to_nat k) rows /\ hps <> [] /\ Forall (may_split f) hps /\
                                      tree_of f (Z.to_nat d) rows hps t) ts.
Proof.
  intros R FO Hn Hd Hk H. pose proof (reach_inv f R) as I. unfold forest_partition in H.
  rewrite !(proj2 (Z.ltb_lt _ _)) in H by assumption. cbn [negb] in H.
  destruct (grow_trees _ _ _ _ _ _) as [[pos ts] r] eqn:E. inversion H; subst.
  destruct (grow_trees_spec f (Z.to_nat d) (Z.to_nat k) I FO ltac:(lia) _ _ _ _ _ _ E) as (new & -> & _ & L1 & F). cbn.
  eexists. refine (conj eq_refl (conj L1 _)). eapply Forall_impl; [|exact F]. cbv beta. intros t (_ & T). exact T.
Qed.

(** ** C62: nothing to split on, or no samples *)
Theorem forest_nothing_to_split f n d k : forest_reaches f -> (0 < n)%Z -> (0 < d)%Z -> (0 < k)%Z ->
  (a_samples (f_alg f) = [] \/ forall h, ~ may_split f h) ->
  exists f', forest_partition f n d (Some k) = (f', Err ValueError) /\ f_trees f' = Some [].
Proof.
  intros R Hn Hd Hk H. pose proof (reach_inv f R) as I. unfold forest_partition.
  rewrite !(proj2 (Z.ltb_lt _ _)) by assumption. cbn [negb].
  destruct (Z.to_nat n) as [|m] eqn:En; [lia|]. cbn [grow_trees].
  assert (E : exists pos', grow_tree f (Z.to_nat d) (Z.to_nat k) (f_pos f) = (pos', Err ValueError)).
  { unfold grow_tree. destruct (a_samples (f_alg f)) as [|r0 rs]; [eauto|]. destruct H as [H|H]; [discriminate|].
    assert (Ep : f_possible f = []).
    { destruct (f_possible f) as [|h l] eqn:Ep; [reflexivity|]. exfalso. apply (H h). apply (possible_spec f h I). rewrite Ep. left; reflexivity. }
    unfold feature_subset. rewrite Ep. cbn. eauto. }
  destruct E as (pos' & ->). eexists. split; reflexivity.
Qed.

(** ** C18 *)
Lemma pick_rows {A} (idxs : list nat) (l r : list A) : pick idxs l = Ok r <-> Forall2 (fun i m => nth_error l i = Some m) idxs r.
Proof.
  unfold pick. revert r. induction idxs as [|i idxs IH]; intro r; cbn.
  - split; [intro H; inversion H; constructor|intro H; inversion H; reflexivity].
  - split.
    + intro H. apply bind_ok in H. destruct H as (x & Hx & H). apply bind_ok in H. destruct H as (xs & Hxs & H). inversion H.
      constructor; [apply py_nth_ok; exact Hx|apply IH; exact Hxs].
    + intro H. inversion H; subst. apply py_nth_ok in H2. rewrite H2. cbn. apply IH in H4. rewrite H4. reflexivity.
Qed.

(** what the forest's ICE shows: x, y and variances read one after the other *)
Definition shows f (x : list (list (list N))) (y v : list (list N)) : Prop :=
  snd (ice_run_ops (f_ice f) [OReadX; OReadY; OReadV]) = [ROutX (Ok x); ROutY (Ok y); ROutV (Ok v)].

Definition incumbent_regions f (cfg : config N) (nds : list (dnode N)) : Prop :=
  exists ts, f_trees f = Some ts /\
    Forall2 (fun t nd => exists id, get_incumbent_region t cfg = Ok (Some id) /\ deref t id = Some nd) ts nds.

Lemma tree_regions_some (ts : list (dtp N)) cfg nds : mapM (tree_region cfg) ts = Ok (map Some nds) ->
  Forall2 (fun t nd => exists id, get_incumbent_region t cfg = Ok (Some id) /\ deref t id = Some nd) ts nds.
Proof.
  revert nds. induction ts as [|t ts IH]; intros nds H; cbn in H.
  - destruct nds; [constructor|discriminate].
  - apply bind_ok in H. destruct H as (r & Hr & H). apply bind_ok in H. destruct H as (rs & Hrs & H). destruct nds as [|nd nds]; inversion H; subst.
    constructor; [|apply IH; exact Hrs]. unfold tree_region in Hr. apply bind_ok in Hr. destruct Hr as (o & Ho & Hr). destruct o as [id|]; [|discriminate].
    exists id. destruct (deref t id) eqn:E; [|discriminate]. inversion Hr; subst. auto.
Qed.

Definition threshold f (k : option Z) : Z :=
  match k with Some z => z | None => Z.of_nat (match f_trees f with Some ts => length ts | None => 0 end) end.

Theorem forest_region_is_overlap f cfg k r :
  snd (forest_incumbent_region f cfg k) = Ok r -> a_samples (f_alg f) <> [] ->
  exists nds x y v idxs, incumbent_regions f cfg nds /\ shows f x y v /\
    StronglySorted lt idxs /\ is_rows (mkregion x y v) idxs r /\
    forall i, In i idxs <-> exists row c, nth_error (a_samples (f_alg f)) i = Some row /\ config_of_vector (a_cs (f_alg f)) row = Ok c /\
                                overlaps (a_cs (f_alg f)) c nds (threshold f k).
Proof.
  intros H Hne. unfold forest_incumbent_region in H.
  destruct (f_trees f) as [[|t0 ts0]|] eqn:Et; try discriminate H. set (ts := t0 :: ts0) in *.
  set (th := match k with None => Z.of_nat (length ts) | Some z => z end) in *.
  assert (Hth : threshold f k = th) by (unfold threshold, th; rewrite Et; destruct k; reflexivity).
  destruct (bind (mapM (tree_region cfg) ts) _) as [counts|e] eqn:Ec; [|discriminate H].
  apply bind_ok in Ec. destruct Ec as (regs & Hregs & Hc).
  unfold shows. cbn [ice_run_ops ice_step].
  destruct (read_x (f_ice f)) as [i1 xr]. destruct (read_y i1) as [i2 yr]. destruct (read_v i2) as [i3 vr]. cbn [snd] in H.
  apply bind_ok in H. destruct H as (x & -> & H). apply bind_ok in H. destruct H as (px & Hpx & H).
  apply bind_ok in H. destruct H as (y & -> & H). apply bind_ok in H. destruct H as (py & Hpy & H).
  apply bind_ok in H. destruct H as (v & -> & H). apply bind_ok in H. destruct H as (pv & Hpv & H).
  unfold region_new in H. apply bind_ok in H. destruct H as (u1 & _ & H). apply bind_ok in H. destruct H as (u2 & _ & H). inversion H; subst r. clear H u1 u2.
  set (idxs := filter (fun i => Z.leb th (Z.of_nat (nth i counts 0))) (seq 0 (length counts))) in *.
  (* the regions *)
  assert (HR : exists nds, regs = map Some nds).
  { destruct (a_samples (f_alg f)) as [|row rows] eqn:Es; [congruence|]. cbn in Hc. apply bind_ok in Hc. destruct Hc as (n1 & Hn1 & _).
    apply bind_ok in Hn1. destruct Hn1 as (c & _ & Hn1). destruct (count_regions_spec _ _ _ _ Hn1) as (nds & bs & E & _). eauto. }
  destruct HR as (nds & ->).
  exists nds, x, y, v, idxs. refine (conj _ (conj eq_refl (conj _ (conj _ _)))).
  - exists ts. split; [exact Et|]. apply tree_regions_some; exact Hregs.
  - apply StronglySorted_filter, StronglySorted_seq.
  - refine (conj _ (conj _ _)); cbn [r_x r_y r_v]; apply pick_rows; assumption.
  - intro i. rewrite Hth. unfold idxs. rewrite filter_In, in_seq.
    assert (K : forall i row, nth_error (a_samples (f_alg f)) i = Some row ->
       exists c n, config_of_vector (a_cs (f_alg f)) row = Ok c /\ nth_error counts i = Some n /\
                   ((th <=? Z.of_nat n)%Z = true <-> overlaps (a_cs (f_alg f)) c nds th)).
    { intros j row Hj. destruct (mapM_nth _ _ _ _ _ Hc Hj) as (n & Hn & Hcn). apply bind_ok in Hcn. destruct Hcn as (c & Hv & Hcn).
      destruct (count_regions_spec _ _ _ _ Hcn) as (nds' & bs & E & F & ->).
      assert (nds' = nds) by (clear -E; revert nds' E; induction nds as [|a l IH]; intros [|b l'] E; try discriminate; [reflexivity|]; cbn in E; inversion E; f_equal; auto).
      subst nds'. exists c, (count_true bs). refine (conj Hv (conj Hn _)). apply overlap_count; exact F. }
    pose proof (mapM_length _ _ _ Hc) as Len. split.
    + intros [Hi Hb]. destruct (nth_error (a_samples (f_alg f)) i) as [row|] eqn:Er; [|apply nth_error_None in Er; lia].
      destruct (K i row Er) as (c & n & Hv & Hn & Hb'). exists row, c. refine (conj eq_refl (conj Hv _)). apply Hb'.
      rewrite (nth_error_nth _ _ _ Hn) in Hb. exact Hb.
    + intros (row & c & Er & Hv & Ho). destruct (K i row Er) as (c' & n & Hv' & Hn & Hb').
      rewrite Hv in Hv'. inversion Hv'; subst c'. pose proof (nth_error_Some_lt _ _ _ Hn). split; [lia|].
      rewrite (nth_error_nth _ _ _ Hn). apply Hb'. exact Ho.
Qed.

(** consequences for the threshold *)
Lemma overlaps_mono cs (c : config N) nds k k' : (k <= k')%Z -> overlaps cs c nds k' -> overlaps cs c nds k.
Proof. intros Hk (ts & A & B & C). exists ts. repeat split; auto. lia. Qed.
Lemma overlaps_zero cs (c : config N) nds k : (k <= 0)%Z -> overlaps cs c nds k.
Proof. intro Hk. exists []. repeat split; [constructor|cbn; lia|constructor]. Qed.
Lemma overlaps_all cs (c : config N) nds : overlaps cs c nds (Z.of_nat (length nds)) <-> Forall (lies_in cs c) nds.
Proof.
  split.
  - intros (ts & A & B & C). apply Forall_forall. intros nd Hnd. destruct (In_nth_error _ _ Hnd) as (t & Ht).
    assert (incl ts (seq 0 (length nds))).
    { intros j Hj. rewrite Forall_forall in C. destruct (C j Hj) as (nd' & E & _). apply in_seq. pose proof (nth_error_Some_lt _ _ _ E). lia. }
    assert (incl (seq 0 (length nds)) ts) by (apply NoDup_length_incl; [exact A|rewrite seq_length; lia|exact H]).
    rewrite Forall_forall in C. destruct (C t) as (nd' & E & Hl); [apply H0, in_seq; pose proof (nth_error_Some_lt _ _ _ Ht); lia|]. congruence.
  - intro F. exists (seq 0 (length nds)). refine (conj (seq_NoDup _ _) (conj _ _)); [rewrite seq_length; lia|].
    apply Forall_forall. intros t Ht. apply in_seq in Ht. destruct (nth_error nds t) as [nd|] eqn:E; [|apply nth_error_None in E; lia].
    exists nd. split; [reflexivity|]. apply (proj1 (Forall_forall _ _) F). eapply nth_error_In; exact E.
Qed.
Lemma overlaps_too_many cs (c : config N) nds k : (Z.of_nat (length nds) < k)%Z -> ~ overlaps cs c nds k.
Proof.
  intros Hk (ts & A & B & C). assert (incl ts (seq 0 (length nds))).
  { intros j Hj. rewrite Forall_forall in C. destruct (C j Hj) as (nd' & E & _). apply in_seq. pose proof (nth_error_Some_lt _ _ _ E). lia. }
  pose proof (NoDup_incl_length A H). rewrite seq_length in H0. lia.
Qed.

(** the call succeeds *)
Lemma reads_ok f : finv f -> forest_ok f -> sel_known (a_cs (f_alg f)) (a_sel (f_alg f)) -> a_sel (f_alg f) <> [] ->
  batch_predictor (ic_predict (f_ice f)) ->
  exists d i3, data_of (f_alg f) d /\
    (let (i1, x) := read_x (f_ice f) in let (i2, y) := read_y i1 in let (i3, v) := read_v i2 in (i3, x, y, v)) =
    (i3, Ok (i_x d), Ok (i_y d), Ok (i_v d)).
Proof.
  intros I (ND & RC & HG) Hk Hne Hp. unfold read_x, read_y, read_v, read_field.
  destruct (fi_ice _ I) as [(C1 & C2 & C3)|(d & (C1 & C2 & C3) & D)].
  - rewrite C1. unfold ice_run. destruct (ice_calculate_total (f_alg f) (ic_centered (f_ice f)) (ic_predict (f_ice f)) RC Hk Hne HG Hp) as (d & Hd).
    unfold f_alg in *. rewrite Hd. cbn. exists d. eexists. split; [do 2 eexists; exact Hd|reflexivity].
  - rewrite C1, C2, C3. exists d. eexists. split; [exact D|reflexivity].
Qed.

Theorem forest_region_total f ts cfg k : forest_reaches f -> forest_ok f -> all_numerical (a_cs (f_alg f)) ->
  (forall h v u, In h (a_cs (f_alg f)) -> In v (possible_split_vals (N:=N) 100) -> unscale_float v (a_cs (f_alg f)) h = Ok u -> ordinary u) ->
  f_trees f = Some ts -> ts <> [] -> total_config (a_cs (f_alg f)) cfg ->
  Forall (fun row => exists c, config_of_vector (a_cs (f_alg f)) row = Ok c /\ total_config (a_cs (f_alg f)) c) (a_samples (f_alg f)) ->
  sel_known (a_cs (f_alg f)) (a_sel (f_alg f)) -> a_sel (f_alg f) <> [] -> batch_predictor (ic_predict (f_ice f)) ->
  exists r, snd (forest_incumbent_region f cfg k) = Ok r.
Proof.
  intros R FO AN HU Ht Hne HT HS Hk Hsel Hp. pose proof (reach_inv f R) as I.
  assert (TR : exists nds, mapM (tree_region cfg) ts = Ok (map Some nds) /\
     Forall (fun nd => forall c, total_config (a_cs (f_alg f)) c -> exists b, contains (a_cs (f_alg f)) (n_conds nd) c = Ok b) nds).
  { pose proof (fi_trees _ I FO ts Ht) as F. clear Ht Hne. induction F as [|t ts T F IH]; [exists []; split; [reflexivity|constructor]|].
    destruct IH as (nds & E & Fn).
    destruct T as (s & p & d & ids & SO & Ecs & (Esp & _) & HR & Hd & Ep).
    assert (U : unscaled_ordinary s) by (unfold unscaled_ordinary; rewrite Ecs, Esp; exact HU).
    destruct (config_in_exactly_one_leaf L s p d cfg SO) as (p' & ids' & lv & kk & Ep' & FL & Hlt & HL & HI); auto; try (rewrite Ecs; assumption).
    rewrite Ep in Ep'. inversion Ep'; subst p' ids'.
    destruct (nth_error lv kk) as [nd|] eqn:End; [|apply nth_error_None in End; lia].
    destruct (nth_error ids kk) as [id|] eqn:Eid; [|apply nth_error_None in Eid; pose proof (Forall2_length _ _ _ FL); lia].
    assert (Hder : deref t id = Some nd).
    { clear -FL End Eid. revert kk End Eid. induction FL; intros [|j] E1 E2; cbn in *; try discriminate; [congruence|eauto]. }
    exists (nd :: nds). cbn [mapM map]. unfold tree_region at 1. rewrite HI. cbn [bind]. rewrite Hder. cbn [bind]. rewrite E. cbn [bind].
    split; [reflexivity|]. constructor; [|exact Fn]. intros c Hc.
    destruct (config_in_exactly_one_leaf L s p d c SO) as (p' & ids' & lv' & kk' & Ep2 & FL' & _ & HL' & _); auto; try (rewrite Ecs; assumption).
    rewrite Ep in Ep2. inversion Ep2; subst p' ids'.
    assert (lv' = lv).
    { clear -FL FL'. revert lv' FL'. induction FL; intros lv' FL'; inversion FL'; subst; [reflexivity|]. f_equal; [congruence|auto]. }
    subst lv'. destruct (HL' kk nd End) as [C _]. rewrite Ecs in C. eauto. }
  destruct TR as (nds & E & Fn).
  assert (CT : exists counts, mapM (fun row => c <- config_of_vector (a_cs (f_alg f)) row ;; count_regions (a_cs (f_alg f)) (map Some nds) c) (a_samples (f_alg f)) = Ok counts /\
     length counts = num_samples (f_alg f)).
  { assert (K : forall l, Forall (fun row => exists c, config_of_vector (a_cs (f_alg f)) row = Ok c /\ total_config (a_cs (f_alg f)) c) l ->
       exists counts, mapM (fun row => c <- config_of_vector (a_cs (f_alg f)) row ;; count_regions (a_cs (f_alg f)) (map Some nds) c) l = Ok counts).
    { clear -Fn. induction 1 as [|row rows (c & Hc & HT) F IH]; cbn; [eauto|]. rewrite Hc. cbn [bind].
      assert (exists n, count_regions (a_cs (f_alg f)) (map Some nds) c = Ok n) as (n & ->).
      { unfold count_regions. generalize 0. clear -Fn HT. induction Fn as [|nd nds H F IH]; intro k; cbn; [eauto|].
        destruct (H c HT) as (b & ->). cbn. apply IH. }
      cbn [bind]. destruct IH as (counts & ->). cbn. eauto. }
    destruct (K _ HS) as (counts & Hc). exists counts. split; [exact Hc|]. rewrite (mapM_length _ _ _ Hc). reflexivity. }
  destruct CT as (counts & Hc & Len).
  unfold forest_incumbent_region. rewrite Ht. destruct ts as [|t0 ts0]; [congruence|]. rewrite E. cbn [bind]. rewrite Hc.
  destruct (reads_ok f I FO Hk Hsel Hp) as (d & i3 & (cc & pp & D) & ER).
  destruct (read_x (f_ice f)) as [i1 xr]. destruct (read_y i1) as [i2 yr]. destruct (read_v i2) as [i3' vr]. inversion ER; subst. cbn [snd bind].
  set (th := match k with None => _ | Some z => z end). set (idxs := filter _ _).
  assert (RC' : rect (num_features (f_alg f)) (a_samples (f_alg f))) by apply FO.
  pose proof (ice_calculate_wf (f_alg f) cc pp d RC' (proj2 (proj2 FO)) D) as W.
  destruct (ice_calculate_shapes _ _ _ _ RC' D) as (Lx & Ly & Lv & Fx & Fy & Fv & _).
  assert (PK : forall A (l : list A), length l = num_samples (f_alg f) -> exists r, pick idxs l = Ok r /\ length r = length idxs /\ incl r l).
  { intros A l Hl. assert (Hb : forall i, In i idxs -> i < length l).
    { intros i Hi. apply filter_In in Hi. destruct Hi as [Hi _]. apply in_seq in Hi. lia. }
    clear -Hb. unfold pick. induction idxs as [|i idxs' IH]; cbn [mapM]; [exists []; repeat split; intros ? []|].
    destruct IH as (r & Hr & Lr & Ir); [intros; apply Hb; right; auto|].
    destruct (nth_error l i) as [m|] eqn:Em; [|apply nth_error_None in Em; specialize (Hb i (or_introl eq_refl)); lia].
    pose proof (proj2 (py_nth_ok _ _ _) Em) as ->. cbn [bind]. rewrite Hr. cbn [bind]. exists (m :: r). refine (conj eq_refl (conj _ _)); [cbn; lia|].
    intros z [<-|Hz]; [eapply nth_error_In; exact Em|apply Ir, Hz]. }
  destruct (PK _ (i_x d) Lx) as (px & -> & Lpx & Ix). destruct (PK _ (i_y d) Ly) as (py & -> & Lpy & Iy). destruct (PK _ (i_v d) Lv) as (pv & -> & Lpv & Iv). cbn [bind].
  exists (mkregion px py pv). apply (region_new_ok (num_features (f_alg f)) (mkregion px py pv)).
  destruct W as [_ _ (G & HG & Wx & Wy & Wv) Wf]. cbn in Wx, Wy, Wv, Wf. constructor; cbn.
  - congruence.
  - congruence.
  - exists G. refine (conj HG (conj _ (conj _ _))); eapply incl_Forall; eauto.
  - eapply incl_Forall; eauto.
Qed.
End L.
End P.
