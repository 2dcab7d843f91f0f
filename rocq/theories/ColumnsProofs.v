(** ColumnsProofs.v - what the order of the hyperparameters in the space decides (C109). *)
From Coq Require Import Reals Lra Permutation.
From Verif Require Import Base Num NumLaws NumpyModel ConfigSpaceModel UtilsModel IceModel PartitionModel PartitionSpec
  ListLemmas IceProofs IceProofs2 PartitionProofs PartitionProofs2 PartitionProofs3 PartitionProofs4 PartitionProofs5 PartitionProofs6
  RealProofs RealSums PartitionReal PartitionReal2 GainReal FinerProofs TwinSpec TwinProofs ColumnsSpec.
Local Open Scope nat_scope.
Local Open Scope list_scope.

Section Pick.
Context {N : Num}.
Implicit Types (row : list N) (ord : list nat).
Lemma pick_length ord row : length (pick ord row) = length ord.
Proof. apply map_length. Qed.
Lemma pick_nth ord row i i' : nth_error ord i' = Some i -> nth i' (pick ord row) n0 = nth i row n0.
Proof.
  intro E. unfold pick. rewrite (nth_error_nth _ _ _ (map_nth_error (fun i => nth i row n0) i' ord E)). reflexivity.
Qed.
Lemma pick_set ord row i i' v : NoDup ord -> nth_error ord i' = Some i -> i < length row ->
  pick ord (set_nth i v row) = set_nth i' v (pick ord row).
Proof.
  intros ND E Hi. apply list_eq_nth with (d := n0).
  - rewrite set_nth_length, !pick_length. reflexivity.
  - rewrite pick_length. intros k Hk. destruct (nth_error ord k) as [j|] eqn:Ek; [|apply nth_error_None in Ek; lia].
    rewrite (pick_nth _ _ _ _ Ek). destruct (Nat.eq_dec k i') as [->|Hne].
    + rewrite E in Ek. injection Ek as <-. rewrite !nth_set_nth_eq; auto. rewrite pick_length. exact Hk.
    + rewrite (nth_set_nth_neq i'); [|intro; apply Hne; auto]. rewrite (pick_nth _ _ _ _ Ek). apply nth_set_nth_neq.
      intros <-. apply Hne. rewrite NoDup_nth_error in ND. apply ND; [exact Hk|congruence].
Qed.
Lemma pick_assign ord idx idx' vals row : NoDup ord -> Forall2 (fun i i' => nth_error ord i' = Some i) idx idx' ->
  Forall (fun i => i < length row) idx -> pick ord (assign_row idx vals row) = assign_row idx' vals (pick ord row).
Proof.
  intros ND F. unfold assign_row. revert vals row. induction F as [|i i' idx idx' E F IH]; intros vals row B; [reflexivity|].
  destruct vals as [|v vals]; [reflexivity|]. cbn. inversion B; subst. rewrite IH.
  - rewrite (pick_set _ _ _ _ _ ND E); auto.
  - rewrite set_nth_length. assumption.
Qed.
End Pick.

Section P.
Context {N : Num}.
Variables (cs cs' : cspace N) (ord : list nat).
Hypothesis RO : reorders cs cs' ord.

Lemma ord_nodup : NoDup ord.
Proof. destruct RO as (_ & P & _). apply (Permutation_NoDup (Permutation_sym P)), seq_NoDup. Qed.
Lemma ord_in i : In i ord <-> i < length cs.
Proof. destruct RO as (_ & P & _). rewrite (Permutation_in' eq_refl P), in_seq. lia. Qed.
Lemma ord_length : length ord = length cs.
Proof. destruct RO as (_ & P & _). rewrite (Permutation_length P). apply seq_length. Qed.
Lemma space_length : length cs' = length cs.
Proof. destruct RO as (_ & _ & F). rewrite <- (Forall2_length _ _ _ F). apply ord_length. Qed.
Lemma ord_at i' h : nth_error cs' i' = Some h <-> exists i, nth_error ord i' = Some i /\ nth_error cs i = Some h.
Proof.
  destruct RO as (_ & _ & F). clear RO. revert i'. induction F as [|i h' o c E F IH]; intros [|i']; cbn.
  - split; [discriminate|intros (? & ? & _); discriminate].
  - split; [discriminate|intros (? & ? & _); discriminate].
  - split; [intro X; injection X as <-; eauto|intros (i0 & X & Y); congruence].
  - apply IH.
Qed.
Lemma space_in h : In h cs' <-> In h cs.
Proof.
  split; intro H.
  - apply In_nth_error in H. destruct H as (i' & H). apply ord_at in H. destruct H as (i & _ & H). eapply nth_error_In; eassumption.
  - apply In_nth_error in H. destruct H as (i & H). assert (In i ord) as I. { apply ord_in. apply nth_error_Some. congruence. }
    apply In_nth_error in I. destruct I as (i' & I). apply (nth_error_In _ i'). apply ord_at. eauto.
Qed.
Lemma space_names : NoDup (map hp_name cs').
Proof.
  pose proof RO as (ND & _ & _). apply NoDup_nth_error. intros a b Ha E. rewrite map_length in Ha.
  rewrite !nth_error_map in E. destruct (nth_error cs' a) as [h|] eqn:Ea; [|apply nth_error_None in Ea; lia].
  destruct (nth_error cs' b) as [k|] eqn:Eb; cbn in E; [|discriminate]. injection E as E.
  apply ord_at in Ea, Eb. destruct Ea as (i & Oi & Ci), Eb as (j & Oj & Cj).
  assert (i = j). { rewrite NoDup_nth_error in ND. apply ND; [rewrite map_length; apply nth_error_Some; congruence|]. rewrite !nth_error_map, Ci, Cj. cbn. congruence. }
  subst j. pose proof ord_nodup as NO. rewrite NoDup_nth_error in NO. apply NO; [apply nth_error_Some; congruence|congruence].
Qed.
Lemma idx_reordered name : match cs_idx cs name with
  | Ok i => exists i', cs_idx cs' name = Ok i' /\ nth_error ord i' = Some i
  | Err e => cs_idx cs' name = Err e end.
Proof.
  destruct (cs_idx cs name) as [i|e] eqn:E.
  - apply cs_idx_spec in E. destruct E as (h & Hh & Hn & _).
    assert (In i ord) as I. { apply ord_in. apply nth_error_Some. congruence. }
    apply In_nth_error in I. destruct I as (i' & I). exists i'. refine (conj _ I). subst name.
    apply cs_idx_nodup; [apply space_names|]. apply ord_at. eauto.
  - assert (K : forall (c : cspace N) e, cs_idx c name = Err e -> e = KeyError).
    { clear. induction c as [|h c IH]; cbn; intros e H; [congruence|]. destruct (String.eqb _ _); [discriminate|].
      destruct (cs_idx c name); cbn in H; [discriminate|]. apply IH. congruence. }
    destruct (cs_idx cs' name) as [i'|e'] eqn:E'; [|rewrite (K _ _ E), (K _ _ E'); reflexivity].
    exfalso. apply cs_idx_spec in E'. destruct E' as (h & Hh & Hn & _). apply nth_error_In, space_in in Hh.
    apply cs_idx_in in Hh. destruct Hh as (i & Hi). congruence.
Qed.
Lemma get_reordered name : cs_get cs' name = cs_get cs name.
Proof.
  assert (K : forall (c : cspace N) e, cs_get c name = Err e -> e = KeyError).
  { clear. induction c as [|h c IH]; cbn; intros e H; [congruence|]. destruct (String.eqb _ _); [discriminate|]. apply IH. exact H. }
  pose proof RO as (ND & _ & _). destruct (cs_get cs name) as [h|e] eqn:E.
  - apply cs_get_spec in E. destruct E as [Hi <-]. apply cs_get_nodup; [apply space_names|]. apply space_in. exact Hi.
  - destruct (cs_get cs' name) as [h|e'] eqn:E'; [|rewrite (K _ _ E), (K _ _ E'); reflexivity].
    exfalso. apply cs_get_spec in E'. destruct E' as [Hi <-]. apply space_in in Hi. rewrite (cs_get_nodup cs h ND Hi) in E. discriminate.
Qed.
Lemma sel_item_reordered i : sel_item cs' i = sel_item cs i.
Proof. destruct i; cbn; [apply get_reordered|reflexivity|reflexivity]. Qed.
Lemma mapM_ext_all {A B} (f g : A -> res B) l : (forall x, f x = g x) -> mapM f l = mapM g l.
Proof. intro H. induction l as [|x l IH]; cbn; [reflexivity|]. rewrite H, IH. reflexivity. Qed.
Lemma convert_reordered s : convert_hyperparameters s cs' = convert_hyperparameters s cs.
Proof.
  destruct s as [|[n|h|]|l]; cbn -[mapM]; try reflexivity; apply mapM_ext_all; exact sel_item_reordered.
Qed.
Lemma hps_reordered s : both (fun l l' => forall n, In n (map hp_name l) <-> In n (map hp_name l')) (get_hyperparameters s cs) (get_hyperparameters s cs').
Proof.
  destruct s as [|[n|h|]|l]; cbn -[mapM].
  - intro n. rewrite !in_map_iff. split; intros (h & E & H); exists h; (split; [exact E|apply space_in; exact H]).
  - rewrite get_reordered. destruct (cs_get cs n); cbn; tauto.
  - tauto.
  - reflexivity.
  - rewrite (mapM_ext_all _ _ l sel_item_reordered). destruct (mapM (sel_item cs) l); cbn; tauto.
Qed.
Lemma selected_reordered sel : both (fun idx idx' => Forall2 (fun i i' => nth_error ord i' = Some i) idx idx') (get_selected_idx sel cs) (get_selected_idx sel cs').
Proof.
  unfold get_selected_idx. apply (both_mapM eq).
  - intros h h' <-. pose proof (idx_reordered (hp_name h)) as K. destruct (cs_idx cs (hp_name h)).
    + destruct K as (i' & -> & K). exact K.
    + rewrite K. reflexivity.
  - induction sel; constructor; auto.
Qed.
Lemma rect_picked (rows : list (list N)) : rect (length cs') (map (pick ord) rows).
Proof. apply Forall_map, Forall_forall. intros r _. rewrite pick_length, ord_length, space_length. reflexivity. Qed.

(** the x values *)
Lemma x_reordered sel samples gpa : rect (length cs) samples ->
  both (same_points ord) (ice_x (mkalg cs sel samples gpa)) (ice_x (mkalg cs' sel (map (pick ord) samples) gpa)).
Proof.
  intro RC. pose proof (selected_reordered sel) as K.
  pose proof (ice_x_closed (mkalg cs sel samples gpa)) as C. pose proof (ice_x_closed (mkalg cs' sel (map (pick ord) samples) gpa)) as C'.
  cbn [a_cs a_sel a_samples num_features] in C, C'. unfold num_features in C, C'. cbn [a_cs] in C, C'.
  assert (G : grid_points (mkalg cs' sel (map (pick ord) samples) gpa) = grid_points (mkalg cs sel samples gpa)) by reflexivity.
  destruct (get_selected_idx sel cs) as [idx|e] eqn:E, (get_selected_idx sel cs') as [idx'|e'] eqn:E'; cbn in K; try contradiction.
  - destruct (grid_points (mkalg cs sel samples gpa)) as [grid|e] eqn:Eg.
    + rewrite (proj2 (C _ RC) (ex_intro _ idx (ex_intro _ grid (conj eq_refl (conj eq_refl eq_refl))))).
      rewrite (proj2 (C' _ (rect_picked samples)) (ex_intro _ idx' (ex_intro _ grid (conj eq_refl (conj G eq_refl))))).
      cbn. unfold same_points. rewrite !map_map. apply map_ext_in. intros row Hrow. rewrite map_map. apply map_ext. intro g.
      symmetry. apply pick_assign; [apply ord_nodup|exact K|].
      rewrite (proj1 (Forall_forall _ _) RC row Hrow). apply Forall_forall. intros i Hi.
      assert (In i ord) as I; [|apply ord_in; exact I].
      clear - K Hi. induction K as [|a b l l' H K IH]; [destruct Hi|]. destruct Hi as [->|Hi]; [eapply nth_error_In; eassumption|auto].
    + unfold ice_x. cbn [a_cs a_sel]. rewrite E, E', G, Eg. cbn. reflexivity.
  - subst e'. unfold ice_x. cbn [a_cs a_sel]. rewrite E, E'. cbn. reflexivity.
Qed.
Definition same_data (d d' : icedata N) : Prop := same_points ord (i_x d) (i_x d') /\ i_y d' = i_y d /\ i_v d' = i_v d.
Lemma concat_picked (x : list (list (list N))) : concat (map (map (pick ord)) x) = map (pick ord) (concat x).
Proof. induction x as [|m x IH]; cbn; [reflexivity|]. rewrite map_app, IH. reflexivity. Qed.
Lemma ice_reordered sel samples gpa c (p p' : predictor N) : rect (length cs) samples -> same_model cs ord p p' ->
  both same_data (ice_calculate (mkalg cs sel samples gpa) c p) (ice_calculate (mkalg cs' sel (map (pick ord) samples) gpa) c p').
Proof.
  intros RC SM. pose proof (x_reordered sel samples gpa RC) as K. unfold ice_calculate.
  destruct (ice_x (mkalg cs sel samples gpa)) as [x|e] eqn:E, (ice_x (mkalg cs' sel (map (pick ord) samples) gpa)) as [x'|e'] eqn:E'; cbn in K; try contradiction; [|exact K].
  unfold same_points in K. subst x'. cbn [bind]. rewrite concat_picked, SM.
  - unfold num_samples, num_grid_points, n_selected. cbn [a_cs a_sel a_samples a_gpa]. rewrite map_length.
    destruct (p (concat x)) as [ms|e]; cbn [bind]; [|reflexivity].
    destruct (reshape2 n0 (fst ms) _ _) as [y|e]; cbn [bind]; [|reflexivity].
    destruct (reshape2 n0 (snd ms) _ _) as [st|e]; cbn [bind]; [|reflexivity].
    destruct (if c then _ else _) as [y'|e]; cbn [bind]; [|reflexivity].
    destruct (guard _ _) as [u|e]; cbn [bind]; [|reflexivity].
    cbn. refine (conj _ (conj eq_refl eq_refl)). reflexivity.
  - apply (ice_x_closed (mkalg cs sel samples gpa) _ RC) in E. destruct E as (idx & grid & _ & _ & ->). cbn [a_samples].
    apply Forall_forall. intros r Hr. apply in_concat in Hr. destruct Hr as (m & Hm & Hr). apply in_map_iff in Hm. destruct Hm as (row & <- & Hrow).
    apply in_map_iff in Hr. destruct Hr as (g & <- & _). rewrite assign_row_length. exact (proj1 (Forall_forall _ _) RC row Hrow).
Qed.
Theorem curves_reordered sel samples gpa c (p p' : predictor N) : rect (length cs) samples -> same_model cs ord p p' ->
  both (fun d d' => same_points ord (i_x d) (i_x d') /\ i_y d' = i_y d /\ i_v d' = i_v d)
    (a <- algorithm_new cs sel samples gpa ;; ice_calculate a c p)
    (a <- algorithm_new cs' sel (map (pick ord) samples) gpa ;; ice_calculate a c p').
Proof.
  intros RC SM. unfold algorithm_new. rewrite convert_reordered. destruct (convert_hyperparameters sel cs) as [s|e]; cbn [bind]; [|reflexivity].
  apply ice_reordered; assumption.
Qed.
Theorem pdp_reordered sel samples gpa c (p p' : predictor N) d d' : rect (length cs) samples -> same_model cs ord p p' ->
  ice_calculate (mkalg cs sel samples gpa) c p = Ok d -> ice_calculate (mkalg cs' sel (map (pick ord) samples) gpa) c p' = Ok d' ->
  x_pdp (mkalg cs' sel (map (pick ord) samples) gpa) d' = map (pick ord) (x_pdp (mkalg cs sel samples gpa) d) /\
  y_pdp (mkalg cs' sel (map (pick ord) samples) gpa) d' = y_pdp (mkalg cs sel samples gpa) d /\
  v_pdp (mkalg cs' sel (map (pick ord) samples) gpa) d' = v_pdp (mkalg cs sel samples gpa) d.
Proof.
  intros RC SM E E'. pose proof (ice_reordered sel samples gpa c p p' RC SM) as K. rewrite E, E' in K. destruct K as (Kx & Ky & Kv).
  unfold x_pdp, y_pdp, v_pdp. rewrite Ky, Kv. refine (conj _ (conj eq_refl eq_refl)).
  unfold num_features, num_grid_points, n_selected, mean3_axis0. cbn [a_cs a_sel a_gpa]. rewrite map_map. apply map_ext. intro k.
  rewrite space_length. unfold pick at 1. apply list_eq_nth with (d := n0).
  - rewrite !map_length, seq_length, ord_length. reflexivity.
  - rewrite map_length, seq_length. intros j Hj. rewrite nth_map_seq by exact Hj.
    destruct (nth_error ord j) as [i|] eqn:Ej; [|apply nth_error_None in Ej; rewrite ord_length in Ej; lia].
    assert (Hi : i < length cs) by (apply ord_in; eapply nth_error_In; eassumption).
    rewrite (nth_error_nth _ _ _ (map_nth_error (fun i => nth i _ n0) j ord Ej)). rewrite nth_map_seq by exact Hi.
    f_equal. unfold same_points in Kx. rewrite Kx, map_map. apply map_ext. intro m.
    assert (Z : nth k (map (pick ord) m) [] = pick ord (nth k m []) \/ length m <= k).
    { destruct (Nat.le_gt_cases (length m) k) as [H|H]; [right; exact H|left].
      rewrite (nth_indep _ [] (pick ord [])) by (rewrite map_length; exact H). apply map_nth. }
    destruct Z as [->|H]; [apply pick_nth; exact Ej|].
    rewrite !nth_overflow with (n := k); [|exact H|rewrite map_length; exact H]. destruct j, i; reflexivity.
Qed.

(** regions *)
Notation snode := (same_node ord).
Lemma coord_picked i i' (m : list (list N)) : nth_error ord i' = Some i -> coord i' (map (pick ord) m) = coord i m.
Proof. intro E. unfold coord. destruct m as [|row m]; cbn; [destruct i, i'; reflexivity|]. apply pick_nth. exact E. Qed.
Lemma sat_picked c (m : list (list N)) : cond_sat cs' c (map (pick ord) m) = cond_sat cs c m.
Proof.
  unfold cond_sat. pose proof (idx_reordered (hp_name (c_hp c))) as K. destruct (cs_idx cs (hp_name (c_hp c))) as [i|e].
  - destruct K as (i' & -> & E). rewrite (coord_picked _ _ _ E). reflexivity.
  - rewrite K. reflexivity.
Qed.
Lemma mask_select_map {A B} (f : A -> B) mask l : mask_select mask (map f l) = map f (mask_select mask l).
Proof. revert l. induction mask as [|b mask IH]; intros [|x l]; cbn; try reflexivity. destruct b; cbn; rewrite IH; reflexivity. Qed.
Lemma child_same (nd nd' : dnode N) c : snode nd nd' -> snode (child cs nd c) (child cs' nd' c).
Proof.
  intros (D & C & X & Y & V). unfold same_points in X. unfold child, same_node. cbn [n_depth n_region n_conds].
  unfold sel_region, same_points. cbn [r_x r_y r_v]. rewrite D, C, X, Y, V.
  assert (M : map (cond_sat cs' c) (map (map (pick ord)) (r_x (n_region nd))) = map (cond_sat cs c) (r_x (n_region nd))).
  { rewrite map_map. apply map_ext. intro m. apply sat_picked. }
  rewrite M. refine (conj eq_refl (conj eq_refl (conj _ (conj eq_refl eq_refl)))). apply mask_select_map.
Qed.
Lemma len_same (nd nd' : dnode N) : snode nd nd' -> region_len (n_region nd') = region_len (n_region nd).
Proof. intros (_ & _ & X & _). unfold region_len. rewrite X. apply map_length. Qed.
Lemma loss_same (nd nd' : dnode N) : snode nd nd' -> region_loss (n_region nd') = region_loss (n_region nd).
Proof. intros (_ & _ & _ & _ & V). unfold region_loss. rewrite V. reflexivity. Qed.
Lemma wf_same (nd nd' : dnode N) : snode nd nd' -> wf_region (length cs) (n_region nd) -> wf_region (length cs') (n_region nd').
Proof.
  intros (_ & _ & X & Y & V) [W1 W2 (G & HG & A & B & C) W4]. unfold same_points in X. constructor.
  - rewrite X, Y, map_length. exact W1.
  - rewrite X, V, map_length. exact W2.
  - exists G. rewrite X, Y, V. refine (conj HG (conj _ (conj B C))). apply Forall_map. eapply Forall_impl; [|exact A]. intros m Hm. cbn. rewrite map_length. exact Hm.
  - rewrite X. apply Forall_map, Forall_forall. intros m _. apply rect_picked.
Qed.
Lemma known_same h : known cs h <-> known cs' h.
Proof.
  unfold known. pose proof (idx_reordered (hp_name h)) as K. destruct (cs_idx cs (hp_name h)) as [i|e].
  - destruct K as (i' & E & _). split; eauto.
  - rewrite K. split; intros (? & ?); discriminate.
Qed.
Lemma split_same (nd nd' : dnode N) h v l r : snode nd nd' -> wf_region (length cs) (n_region nd) -> known cs h -> split_at_value cs nd h v = Ok (l, r) ->
  exists l' r', split_at_value cs' nd' h v = Ok (l', r') /\ snode l l' /\ snode r r'.
Proof.
  intros S W K E. rewrite split_ok in E; auto. injection E as <- <-. rewrite split_ok; [|eapply wf_same; eassumption|apply known_same; exact K].
  do 2 eexists. refine (conj eq_refl _). split; apply child_same; exact S.
Qed.
Lemma split_same' (nd nd' : dnode N) h v l' r' : snode nd nd' -> wf_region (length cs) (n_region nd) -> known cs h -> split_at_value cs' nd' h v = Ok (l', r') ->
  exists l r, split_at_value cs nd h v = Ok (l, r) /\ snode l l' /\ snode r r'.
Proof.
  intros S W K E. rewrite split_ok in E; [|eapply wf_same; eassumption|apply known_same; exact K]. injection E as <- <-. rewrite split_ok; auto.
  do 2 eexists. refine (conj eq_refl _). split; apply child_same; exact S.
Qed.
Lemma total_same (l l' r r' : dnode N) : snode l l' -> snode r r' -> split_total (l', r') = split_total (l, r).
Proof. intros A B. unfold split_total. cbn [fst snd]. rewrite (loss_same _ _ A), (loss_same _ _ B). reflexivity. Qed.

Section Best.
Variable L : order_laws N.
Variables (hps hps' : list (hp N)) (ns mp : nat).
Hypothesis HI : incl hps cs.
Hypothesis HP : forall h, In h hps' <-> In h hps.

Lemma HI' : incl hps' cs'.
Proof. intros h H. apply space_in, HI, HP. exact H. Qed.
Lemma adm_fwd (nd nd' : dnode N) a b l r : snode nd nd' -> wf_region (length cs) (n_region nd) -> admissible cs hps ns mp nd a b l r ->
  exists h a' l' r', nth_error hps a = Some h /\ nth_error hps' a' = Some h /\ snode l l' /\ snode r r' /\ admissible cs' hps' ns mp nd' a' b l' r'.
Proof.
  intros S W (h & v & Ha & Hb & E & M1 & M2). pose proof (nth_error_In _ _ Ha) as Hh.
  destruct (split_same nd nd' h v l r S W (cs_idx_in cs h (HI _ Hh)) E) as (l' & r' & E' & Sl & Sr).
  apply HP, In_nth_error in Hh. destruct Hh as (a' & Ha'). exists h, a', l', r'. refine (conj Ha (conj Ha' (conj Sl (conj Sr _)))).
  exists h, v. rewrite (len_same _ _ Sl), (len_same _ _ Sr). auto.
Qed.
Lemma adm_bwd (nd nd' : dnode N) a' b l' r' : snode nd nd' -> wf_region (length cs) (n_region nd) -> admissible cs' hps' ns mp nd' a' b l' r' ->
  exists h a l r, nth_error hps a = Some h /\ nth_error hps' a' = Some h /\ snode l l' /\ snode r r' /\ admissible cs hps ns mp nd a b l r.
Proof.
  intros S W (h & v & Ha & Hb & E & M1 & M2). pose proof (nth_error_In _ _ Ha) as Hh. apply HP in Hh.
  destruct (split_same' nd nd' h v l' r' S W (cs_idx_in cs h (HI _ Hh)) E) as (l & r & E' & Sl & Sr).
  apply In_nth_error in Hh. destruct Hh as (a & Ha'). exists h, a, l, r. refine (conj Ha' (conj Ha (conj Sl (conj Sr _)))).
  exists h, v. rewrite <- (len_same _ _ Sl), <- (len_same _ _ Sr). auto.
Qed.
(** moving a candidate to another position of the same hyperparameter *)
Lemma adm_at cs0 (hps0 : list (hp N)) nd a b l r h a1 : nth_error hps0 a = Some h -> nth_error hps0 a1 = Some h ->
  admissible cs0 hps0 ns mp nd a b l r -> admissible cs0 hps0 ns mp nd a1 b l r.
Proof. intros Ea Ea1 (h0 & v & Ha & K). rewrite Ea in Ha. injection Ha as <-. exists h, v. split; [exact Ea1|exact K]. Qed.

Lemma best_totals (nd nd' : dnode N) : snode nd nd' -> wf_region (length cs) (n_region nd) -> 1 < region_len (n_region nd) ->
  both (opt_rel (fun lr lr' => nlt (split_total lr) (split_total lr') = false /\ nlt (split_total lr') (split_total lr) = false))
    (calc_best_split cs hps ns mp nd) (calc_best_split cs' hps' ns mp nd').
Proof.
  intros S W Hl. pose proof (wf_same _ _ S W) as W'. assert (Hl' : 1 < region_len (n_region nd')) by (rewrite (len_same _ _ S); exact Hl).
  destruct (best_split_optimal L cs hps ns mp nd W HI Hl) as [(E & No)|(a & b & l & r & E & Ad & In1 & Opt)];
  destruct (best_split_optimal L cs' hps' ns mp nd' W' HI' Hl') as [(E' & No')|(a' & b' & l' & r' & E' & Ad' & In1' & Opt')]; rewrite E, E'; cbn.
  - exact I.
  - destruct (adm_bwd _ _ _ _ _ _ S W Ad') as (h & a & l & r & _ & _ & Sl & Sr & Ad). rewrite (total_same _ _ _ _ Sl Sr), (No _ _ _ _ Ad) in In1'. discriminate.
  - destruct (adm_fwd _ _ _ _ _ _ S W Ad) as (h & a' & l' & r' & _ & _ & Sl & Sr & Ad'). rewrite <- (total_same _ _ _ _ Sl Sr), (No' _ _ _ _ Ad') in In1. discriminate.
  - split.
    + destruct (adm_fwd _ _ _ _ _ _ S W Ad) as (h & a1 & l1 & r1 & _ & _ & Sl & Sr & Ad1). rewrite <- (total_same _ _ _ _ Sl Sr). exact (proj1 (Opt' _ _ _ _ Ad1)).
    + destruct (adm_bwd _ _ _ _ _ _ S W Ad') as (h & a1 & l1 & r1 & _ & _ & Sl & Sr & Ad1). rewrite (total_same _ _ _ _ Sl Sr). exact (proj1 (Opt _ _ _ _ Ad1)).
Qed.

Lemma best_same (nd nd' : dnode N) : snode nd nd' -> wf_region (length cs) (n_region nd) -> 1 < region_len (n_region nd) ->
  (forall l r, calc_best_split cs hps ns mp nd = Ok (Some (l, r)) -> forall a b a' b' l' r' h h', nth_error hps a = Some h -> nth_error hps a' = Some h' -> h' <> h ->
    admissible cs hps ns mp nd a b l r -> admissible cs hps ns mp nd a' b' l' r' -> nlt (split_total (l, r)) (split_total (l', r')) = true) ->
  both (opt_rel (fun lr lr' => snode (fst lr) (fst lr') /\ snode (snd lr) (snd lr'))) (calc_best_split cs hps ns mp nd) (calc_best_split cs' hps' ns mp nd').
Proof.
  intros S W Hl De. pose proof (best_totals nd nd' S W Hl) as Tot.
  pose proof (wf_same _ _ S W) as W'. assert (Hl' : 1 < region_len (n_region nd')) by (rewrite (len_same _ _ S); exact Hl).
  destruct (best_split_optimal L cs hps ns mp nd W HI Hl) as [(E & No)|(a & b & l & r & E & Ad & In1 & Opt)];
  destruct (best_split_optimal L cs' hps' ns mp nd' W' HI' Hl') as [(E' & No')|(a' & b' & l' & r' & E' & Ad' & In1' & Opt')]; rewrite E, E' in *; cbn in Tot |- *; try contradiction.
  - exact I.
  - destruct Tot as [T1 T2]. specialize (De l r eq_refl).
    destruct (adm_fwd _ _ _ _ _ _ S W Ad) as (h & a1 & l1 & r1 & Ha & Ha1 & Sl1 & Sr1 & Ad1).
    destruct (adm_bwd _ _ _ _ _ _ S W Ad') as (h' & a2 & l2 & r2 & Ha2 & Ha' & Sl2 & Sr2 & Ad2).
    rewrite (total_same _ _ _ _ Sl2 Sr2) in T1, T2, In1'.
    assert (Dh : h' = h \/ h' <> h).
    { destruct (Nat.eq_dec a2 a) as [->|Hne]; [left; congruence|].
      pose proof RO as (ND & _ & _). pose proof (nth_error_In _ _ Ha) as I1. pose proof (nth_error_In _ _ Ha2) as I2. apply HI in I1, I2.
      destruct (string_dec (hp_name h') (hp_name h)) as [En|En]; [left|right; congruence].
      pose proof (cs_get_nodup cs h ND I1) as G1. rewrite <- En, (cs_get_nodup cs h' ND I2) in G1. congruence. }
    destruct Dh as [->|Dh]; [|rewrite (De _ _ _ _ _ _ _ _ Ha Ha2 Dh Ad Ad2) in T1; discriminate].
    assert (Eb : b' = b).
    { destruct (Nat.lt_trichotomy b' b) as [Hb|[Hb|Hb]]; [|exact Hb|].
      - pose proof (proj2 (Opt _ _ _ _ (adm_at _ _ _ _ _ _ _ _ _ Ha2 Ha Ad2)) (or_intror (conj eq_refl Hb)) In1'). congruence.
      - pose proof (adm_at _ _ _ _ _ _ _ _ _ Ha1 Ha' Ad1) as Ad3. pose proof (proj2 (Opt' _ _ _ _ Ad3) (or_intror (conj eq_refl Hb))) as X.
        rewrite (total_same _ _ _ _ Sl1 Sr1), (total_same _ _ _ _ Sl2 Sr2) in X. specialize (X In1). congruence. }
    subst b'. destruct Ad as (h0 & v & X1 & X2 & X3 & _), Ad2 as (h2 & v2 & Y1 & Y2 & Y3 & _).
    rewrite Ha in X1. rewrite Ha2 in Y1. injection X1 as <-. injection Y1 as <-. rewrite X2 in Y2. injection Y2 as <-. rewrite X3 in Y3. injection Y3 as <- <-.
    split; assumption.
Qed.
End Best.
End P.

Section T.
Context {N : Num}.
Variable L : order_laws N.
Variables (ord : list nat) (s s' : setup N).
Hypothesis SO : setup_ok s.
Hypothesis SS : same_setup ord s s'.
Notation snode := (same_node ord).

Lemma setup_ok_reordered : setup_ok s'.
Proof.
  destruct SO as (A & B & C), SS as (RO & _ & E1 & _ & E2 & _). refine (conj _ (conj _ _)).
  - exact (space_names _ _ _ RO).
  - rewrite E1. exact (rect_picked _ _ _ RO (su_samples s)).
  - rewrite E2. exact C.
Qed.

Lemma possible_reordered p q root dd sel ns root' dd' sel' ns' : reach_facts s p root dd sel ns -> reach_facts s' q root' dd' sel' ns' ->
  sel' = sel /\ forall h, In h (d_possible q) <-> In h (d_possible p).
Proof.
  intros F F'. destruct SS as (RO & _ & _ & E1 & _ & _ & _ & E2).
  pose proof (rf_sel _ _ _ _ _ _ F) as C. pose proof (rf_sel _ _ _ _ _ _ F') as C'. rewrite E1, (convert_reordered _ _ _ RO), C in C'. injection C' as <-.
  split; [reflexivity|]. intro h. rewrite (rf_poss _ _ _ _ _ _ F), (rf_poss _ _ _ _ _ _ F'), !split_parameters_spec, (space_in _ _ _ RO).
  pose proof (rf_nots _ _ _ _ _ _ F) as K. pose proof (rf_nots _ _ _ _ _ _ F') as K'. rewrite E2 in K'.
  destruct (su_nots s) as [z|].
  - pose proof (hps_reordered _ _ _ RO z) as Z. rewrite K, K' in Z. cbn in Z. rewrite (Z (hp_name h)). tauto.
  - injection K as <-. injection K' as <-. tauto.
Qed.

Lemma root_reordered p q root dd sel ns root' dd' sel' ns' : reach_facts s p root dd sel ns -> reach_facts s' q root' dd' sel' ns' -> snode root root'.
Proof.
  intros F F'. destruct (possible_reordered _ _ _ _ _ _ _ _ _ _ F F') as [-> _]. destruct SS as (RO & SM & E1 & _ & E2 & _).
  pose proof (rf_ice _ _ _ _ _ _ F) as I1. pose proof (rf_ice _ _ _ _ _ _ F') as I2. unfold alg_of in I1, I2. rewrite E1, E2 in I2.
  destruct SO as (_ & RC & _). pose proof (ice_reordered _ _ _ RO sel (su_samples s) (su_gpa s) false _ _ RC SM) as K. rewrite I1, I2 in K. destruct K as (K1 & K2 & K3).
  rewrite (rf_root _ _ _ _ _ _ F), (rf_root _ _ _ _ _ _ F'). exact (conj eq_refl (conj eq_refl (conj K1 (conj K2 K3)))).
Qed.

Fixpoint tall (P : dnode N -> dnode N -> dnode N -> Prop) (t : tree) : Prop :=
  match t with TLeaf _ => True | TNode nd l r => P nd (troot l) (troot r) /\ tall P l /\ tall P r end.
Lemma stored_tall p lo par id t ids : stored_ge (d_heap p) lo par id t ids -> no_ties s p -> tall (decisive s) t.
Proof.
  intros St NT. induction St as [lo par id nd Hn|lo par id nd a b l r il ir Hn Ha Ha' Hb Hb' Hl IHl Hr IHr]; [exact I|].
  refine (conj _ (conj IHl IHr)).
  assert (Root : forall lo par id t ids, stored_ge (d_heap p) lo par id t ids -> deref p id = Some (troot t)).
  { intros ? ? ? ? ? St. unfold deref. inversion St; subst; rewrite H; reflexivity. }
  exact (NT id _ a b _ _ Hn eq_refl eq_refl (Root _ _ _ _ _ Hl) (Root _ _ _ _ _ Hr)).
Qed.

Lemma admissible_offered p root dd sel ns nd a b l r h : reach_facts s p root dd sel ns -> wf_region (length (su_cs s)) (n_region nd) ->
  nth_error (d_possible p) a = Some h -> admissible (su_cs s) (d_possible p) (su_splits s) (su_minpts s) nd a b l r -> exists v, offered_by s nd h v l r.
Proof.
  intros F W Ea (h0 & v & Ha & Hb & E & M1 & M2). rewrite Ea in Ha. injection Ha as <-. exists v.
  apply nth_error_In in Ea, Hb.
  assert (Sp : splittable s h).
  { rewrite (rf_poss _ _ _ _ _ _ F), split_parameters_spec in Ea. destruct Ea as (A1 & A2 & A3). pose proof (rf_sel _ _ _ _ _ _ F) as E1. pose proof (rf_nots _ _ _ _ _ _ F) as E2.
    refine (conj A1 (conj _ _)).
    - intros se Es. rewrite E1 in Es. injection Es as <-. exact A2.
    - intros z no Ez En. rewrite Ez, En in E2. injection E2 as <-. exact A3. }
  destruct SO as (ND & _ & _). apply (split_is_sides (su_cs s) nd h v l r W ND (proj1 Sp)) in E. destruct E as [S1 S2].
  exact (conj Sp (conj Hb (conj S1 (conj S2 (conj M1 M2))))).
Qed.

Lemma build_reordered p q root dd sel ns root' dd' sel' ns' : reach_facts s p root dd sel ns -> reach_facts s' q root' dd' sel' ns' ->
  forall k nd nd' t t', snode nd nd' -> wf_region (length (su_cs s)) (n_region nd) -> build p k nd = Ok t -> build q k nd' = Ok t' -> tall (decisive s) t ->
  Forall2 snode (tleaves t) (tleaves t').
Proof.
  intros F F'. destruct (possible_reordered _ _ _ _ _ _ _ _ _ _ F F') as [_ HP]. pose proof SS as (RO & _ & _ & _ & _ & E1 & E2 & _).
  assert (HI : incl (d_possible p) (su_cs s)) by (intros h Hh; rewrite (rf_poss _ _ _ _ _ _ F), split_parameters_spec in Hh; tauto).
  induction k as [|k IH]; intros nd nd' t t' S W B B' D; cbn [build] in B, B'.
  - injection B as <-. injection B' as <-. constructor; [exact S|constructor].
  - assert (IS : is_splittable nd' = is_splittable nd) by (unfold is_splittable; rewrite (len_same _ _ _ S); reflexivity).
    rewrite IS in B'. destruct (is_splittable nd) eqn:Spl; [|injection B as <-; injection B' as <-; constructor; [exact S|constructor]].
    rewrite (rf_cs _ _ _ _ _ _ F), (rf_ns _ _ _ _ _ _ F), (rf_mp _ _ _ _ _ _ F) in B.
    rewrite (rf_cs _ _ _ _ _ _ F'), (rf_ns _ _ _ _ _ _ F'), (rf_mp _ _ _ _ _ _ F'), E1, E2 in B'.
    apply Nat.ltb_lt in Spl.
    pose proof (best_same (su_cs s) (su_cs s') ord RO L (d_possible p) (d_possible q) (su_splits s) (su_minpts s) HI HP nd nd' S W Spl) as K.
    assert (Both : both (opt_rel (fun lr lr' => snode (fst lr) (fst lr') /\ snode (snd lr) (snd lr')))
      (calc_best_split (su_cs s) (d_possible p) (su_splits s) (su_minpts s) nd) (calc_best_split (su_cs s') (d_possible q) (su_splits s) (su_minpts s) nd')).
    { apply K. clear K B'. intros l r E a b a' b' l' r' h h' Ha Ha' Hne Ad Ad'. rewrite E in B. cbn [bind] in B. inv_bind B. inv_bind B. injection B as <-.
      cbn [tall] in D. destruct D as (D & _). rewrite (build_root _ _ _ _ E0), (build_root _ _ _ _ E3) in D.
      destruct (admissible_offered _ _ _ _ _ _ _ _ _ _ _ F W Ha Ad) as (v & O1). destruct (admissible_offered _ _ _ _ _ _ _ _ _ _ _ F W Ha' Ad') as (v' & O2).
      exact (D _ _ _ _ _ _ O1 O2 Hne). }
    clear K. destruct (calc_best_split (su_cs s) (d_possible p) (su_splits s) (su_minpts s) nd) as [o|e] eqn:Eb; cbn [bind] in B; [|discriminate].
    destruct (calc_best_split (su_cs s') (d_possible q) (su_splits s) (su_minpts s) nd') as [o'|e] eqn:Eb'; cbn [bind] in B'; [|discriminate].
    cbn in Both. destruct o as [[l r]|], o' as [[l' r']|]; cbn in Both; try contradiction.
    + destruct Both as [Sl Sr]. inv_bind B. inv_bind B. injection B as <-. inv_bind B'. inv_bind B'. injection B' as <-.
      cbn [tall] in D. destruct D as (_ & Dl & Dr).
      assert (Wc : wf_region (length (su_cs s)) (n_region l) /\ wf_region (length (su_cs s)) (n_region r)).
      { destruct (best_split_optimal L (su_cs s) (d_possible p) (su_splits s) (su_minpts s) nd W HI Spl) as [(Z & _)|(a & b & l0 & r0 & Z & (h & v & Ha & _ & X & _) & _)]; [congruence|].
        rewrite Eb in Z. injection Z as <- <-. rewrite split_ok in X; [|exact W|apply cs_idx_in, HI; eapply nth_error_In; eassumption]. injection X as <- <-.
        split; apply sel_region_wf; exact W. }
      cbn [tleaves]. apply Forall2_app; [eapply IH with (nd := r) (nd' := r'); eauto; apply Wc|eapply IH with (nd := l) (nd' := l'); eauto; apply Wc].
    + injection B as <-. injection B' as <-. constructor; [exact S|constructor].
Qed.

Theorem trees_reordered p q d : reaches s p -> reaches s' q -> 0 < d -> no_ties s (fst (partition p d)) ->
  exists p' ids leaves q' ids' leaves',
    partition p d = (p', Ok ids) /\ Forall2 (fun id nd => deref p' id = Some nd) ids leaves /\
    partition q d = (q', Ok ids') /\ Forall2 (fun id nd => deref q' id = Some nd) ids' leaves' /\
    Forall2 snode leaves leaves'.
Proof.
  intros RE RE' Hd NT.
  destruct (reaches_facts L s p SO RE) as (root & dd & sel & ns & F).
  destruct (reaches_facts L s' q setup_ok_reordered RE') as (root' & dd' & sel' & ns' & F').
  destruct (partition_facts L s p root dd sel ns d F Hd) as (p' & ids & t & U).
  destruct (partition_facts L s' q root' dd' sel' ns' d F' Hd) as (q' & ids' & t' & U').
  exists p', ids, (tleaves t), q', ids', (tleaves t').
  refine (conj (ru_eq _ _ _ _ _ _ _ U) (conj (ru_leaves _ _ _ _ _ _ _ U) (conj (ru_eq _ _ _ _ _ _ _ U') (conj (ru_leaves _ _ _ _ _ _ _ U') _)))).
  rewrite (ru_eq _ _ _ _ _ _ _ U) in NT. cbn [fst] in NT.
  apply (build_reordered _ _ _ _ _ _ _ _ _ _ F F' d root root'); [exact (root_reordered _ _ _ _ _ _ _ _ _ _ F F')| |exact (ru_build _ _ _ _ _ _ _ U)|exact (ru_build _ _ _ _ _ _ _ U')|].
  - rewrite <- (rf_cs _ _ _ _ _ _ F). apply (inv_wf _ _ (rf_inv _ _ _ _ _ _ F)).
  - eapply stored_tall; [exact (ru_stored _ _ _ _ _ _ _ U)|exact NT].
Qed.

Lemma contains_reordered conds cfg : contains (su_cs s') conds cfg = contains (su_cs s) conds cfg.
Proof.
  destruct SS as (RO & _). induction conds as [|c conds IH]; [reflexivity|]. cbn [contains].
  assert (E : is_satisfied (su_cs s') c cfg = is_satisfied (su_cs s) c cfg).
  { unfold is_satisfied, cond_value, unscale_float. rewrite (get_reordered _ _ _ RO). reflexivity. }
  rewrite E. destruct (is_satisfied (su_cs s) c cfg) as [[|]|]; cbn [bind]; auto.
Qed.

Theorem incumbent_reordered p q d cfg : reaches s p -> reaches s' q -> 0 < d -> no_ties s (fst (partition p d)) ->
  both (opt_rel (fun id id' => exists nd nd', deref (fst (partition p d)) id = Some nd /\ deref (fst (partition q d)) id' = Some nd' /\ snode nd nd'))
    (get_incumbent_region (fst (partition p d)) cfg) (get_incumbent_region (fst (partition q d)) cfg).
Proof.
  intros RE RE' Hd NT.
  destruct (reaches_facts L s p SO RE) as (root & dd & sel & ns & F).
  destruct (reaches_facts L s' q setup_ok_reordered RE') as (root' & dd' & sel' & ns' & F').
  destruct (partition_facts L s p root dd sel ns d F Hd) as (p' & ids & t & U).
  destruct (partition_facts L s' q root' dd' sel' ns' d F' Hd) as (q' & ids' & t' & U').
  destruct (trees_reordered p q d RE RE' Hd NT) as (p2 & ids2 & lv & q2 & ids2' & lv' & E1 & F1 & E2 & F2 & SL).
  rewrite (ru_eq _ _ _ _ _ _ _ U) in E1. rewrite (ru_eq _ _ _ _ _ _ _ U') in E2. injection E1 as <- <-. injection E2 as <- <-.
  rewrite (ru_eq _ _ _ _ _ _ _ U), (ru_eq _ _ _ _ _ _ _ U'). cbn [fst].
  pose proof (ru_dleaves _ _ _ _ _ _ _ U) as D1. pose proof (ru_dleaves _ _ _ _ _ _ _ U') as D2.
  pose proof (ru_static _ _ _ _ _ _ _ U) as (C1 & _). pose proof (ru_static _ _ _ _ _ _ _ U') as (C2 & _).
  rewrite (rf_cs _ _ _ _ _ _ F) in C1. rewrite (rf_cs _ _ _ _ _ _ F') in C2.
  assert (K : both (opt_rel (fun id id' => exists nd nd', deref p' id = Some nd /\ deref q' id' = Some nd' /\ snode nd nd')) (find_leaf p' ids cfg) (find_leaf q' ids' cfg)).
  { clear D1 D2 U U' NT. revert ids ids' F1 F2. induction SL as [|nd nd' lv lv' S SL IH]; intros ids ids' F1 F2; inversion F1 as [|i x li lx X1 X2]; inversion F2 as [|i2 x2 li2 lx2 Y1 Y2]; subst; [reflexivity|].
    cbn [find_leaf]. rewrite X1, Y1. rewrite <- C1, <- C2, contains_reordered. pose proof S as (_ & -> & _).
    destruct (contains (su_cs s) (n_conds nd) cfg) as [[|]|]; cbn [bind]; [|auto|reflexivity]. cbn. eauto 10. }
  unfold get_incumbent_region. rewrite D1, D2. destruct ids as [|i ids], ids' as [|i' ids'].
  - reflexivity.
  - exfalso. inversion F1; subst. inversion SL; subst. inversion F2.
  - exfalso. inversion F2; subst. inversion SL; subst. inversion F1.
  - exact K.
Qed.
End T.

(** one level, ties or not *)
Lemma totals_eq (a b c d : R) : nlt (n:=RNum) (a + b)%R (c + d)%R = false -> nlt (n:=RNum) (c + d)%R (a + b)%R = false -> Rsum [b; a] = Rsum [d; c].
Proof. cbn. unfold Rltb. destruct (Rlt_dec (a + b) (c + d)), (Rlt_dec (c + d) (a + b)); intros; try discriminate. lra. Qed.

Theorem one_level_reordered ord (s s' : setup RNum) p q : setup_ok s -> same_setup ord s s' -> reaches s p -> reaches s' q ->
  exists p' ids leaves q' ids' leaves',
    partition p 1 = (p', Ok ids) /\ Forall2 (fun id nd => deref p' id = Some nd) ids leaves /\
    partition q 1 = (q', Ok ids') /\ Forall2 (fun id nd => deref q' id = Some nd) ids' leaves' /\
    length leaves' = length leaves /\
    Rsum (map (fun nd : dnode RNum => region_loss (n_region nd)) leaves') = Rsum (map (fun nd : dnode RNum => region_loss (n_region nd)) leaves).
Proof.
  intros SO SS RE RE'. pose proof (setup_ok_reordered ord s s' SO SS) as SO'.
  destruct (reaches_facts R_order_laws s p SO RE) as (root & dd & sel & ns & F).
  destruct (reaches_facts R_order_laws s' q SO' RE') as (root' & dd' & sel' & ns' & F').
  pose proof (root_reordered ord s s' SO SS _ _ _ _ _ _ _ _ _ _ F F') as S. destruct (possible_reordered ord s s' SS _ _ _ _ _ _ _ _ _ _ F F') as [_ HP].
  destruct (one_level s p root dd sel ns SO F) as (p' & ids & leaves & E & F2 & K).
  destruct (one_level s' q root' dd' sel' ns' SO' F') as (q' & ids' & leaves' & E' & F2' & K').
  exists p', ids, leaves, q', ids', leaves'. refine (conj E (conj F2 (conj E' (conj F2' _)))).
  assert (W : wf_region (length (su_cs s)) (n_region root)).
  { rewrite <- (rf_cs _ _ _ _ _ _ F). apply (inv_wf _ _ (rf_inv _ _ _ _ _ _ F)). }
  assert (HI : incl (d_possible p) (su_cs s)) by (intros h Hh; rewrite (rf_poss _ _ _ _ _ _ F), split_parameters_spec in Hh; tauto).
  pose proof SS as (RO & _ & _ & _ & _ & E1 & E2 & _). rewrite E1, E2 in K'.
  pose proof (best_totals (su_cs s) (su_cs s') ord RO R_order_laws (d_possible p) (d_possible q) (su_splits s) (su_minpts s) HI HP root root' S W) as T.
  pose proof (len_same ord _ _ S) as El. rewrite El in K'.
  destruct K as [(-> & No)|(l & r & -> & Hl & Eb)], K' as [(-> & No')|(l' & r' & -> & Hl' & Eb')].
  - split; [reflexivity|]. cbn [map]. rewrite (loss_same ord _ _ S). reflexivity.
  - exfalso. specialize (T Hl'). rewrite Eb' in T. destruct (calc_best_split (su_cs s) (d_possible p) (su_splits s) (su_minpts s) root) as [[[l r]|]|]; cbn in T; try contradiction.
    destruct (No l r) as [X|X]; [lia|]. apply X. reflexivity.
  - exfalso. specialize (T Hl). rewrite Eb in T. destruct (calc_best_split (su_cs s') (d_possible q) (su_splits s) (su_minpts s) root') as [[[l' r']|]|]; cbn in T; try contradiction.
    destruct (No' l' r') as [X|X]; [lia|]. apply X. reflexivity.
  - split; [reflexivity|]. specialize (T Hl). rewrite Eb, Eb' in T. cbn in T. destruct T as [T1 T2]. cbn [map]. symmetry. apply totals_eq; [exact T1|exact T2].
Qed.
