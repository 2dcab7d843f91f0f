(** ConfidenceProofs.v - Region.mean_confidence in exact arithmetic (C102). *)
From Coq Require Import Reals Lra Lia Sorted.
From Verif Require Import Base Num NumLaws NumpyModel ConfigSpaceModel UtilsModel IceModel PartitionModel PartitionSpec
  ListLemmas IceProofs IceProofs2 UtilsProofs PartitionProofs PartitionProofs2 PartitionProofs3 PartitionProofs4 PartitionProofs6
  RealProofs RealSums PartitionReal IceReal.
Local Open Scope R_scope.

Lemma mean_confidence_R (r : region RNum) : mean_confidence r = Rmean (map sqrt (concat (r_v r))).
Proof. unfold mean_confidence. apply nmean_R. Qed.

Lemma concat_map_sqrt_sq (s : list (list R)) : map sqrt (concat (map (map (fun x => x * x)) s)) = concat (map (map Rabs) s).
Proof.
  rewrite concat_map, map_map. f_equal. apply map_ext. intro l. rewrite map_map. apply map_ext. intro x. exact (sqrt_Rsqr_abs x).
Qed.

Lemma rows_of_map {A B} (f : A -> B) (whole : list A) idxs part :
  Forall2 (fun i m => nth_error (map f whole) i = Some m) idxs part ->
  exists src, part = map f src /\ Forall2 (fun i m => nth_error whole i = Some m) idxs src.
Proof.
  induction 1 as [|i m idxs part H F (src & -> & K)]; [exists []; split; [reflexivity|constructor]|].
  rewrite nth_error_map in H. destruct (nth_error whole i) as [a|] eqn:E; [|discriminate]. inversion H; subst.
  exists (a :: src). split; [reflexivity|constructor; auto].
Qed.

(** the mean of the predicted standard deviations *)
Theorem confidence_value (s : setup RNum) p id nd : setup_ok s -> reaches s p -> deref p id = Some nd ->
  exists root idxs (means stds : list R) G, deref p 0 = Some root /\ su_predict s (concat (r_x (n_region root))) = Ok (means, stds) /\
    length stds = (length (su_samples s) * G)%nat /\ is_rows (n_region root) idxs (n_region nd) /\
    mean_confidence (n_region nd) = Rmean (concat (map (fun i => map (fun j => Rabs (nth (i * G + j) stds 0)) (seq 0 G)) idxs)).
Proof.
  intros SO RE D. destruct (regions_are_selections R_order_laws s p SO RE) as (root & D0 & _ & K).
  destruct (K id nd D) as (_ & idxs & _ & IR & _). clear K.
  destruct (root_is_ice R_order_laws s p SO RE) as (sel & d & _ & HI & D0').
  assert (root = mkdnode 0 (mkregion (i_x d) (i_y d) (i_v d)) []) by congruence. subst root.
  destruct (ice_calculate_ok _ _ _ _ HI) as (means & stds & _ & HP & y & st & _ & RS & EV & _).
  destruct (reshape2_ok _ _ _ _ _ RS) as (L1 & L2 & L3 & NTH & _).
  set (G := num_grid_points _) in *.
  exists (mkdnode 0 (mkregion (i_x d) (i_y d) (i_v d)) []), idxs, means, stds, G.
  refine (conj D0 (conj HP (conj L1 (conj IR _)))).
  rewrite mean_confidence_R. f_equal. destruct IR as (_ & _ & IV). cbn [n_region r_v] in IV. rewrite EV in IV.
  destruct (rows_of_map _ _ _ _ IV) as (src & E & F). rewrite E.
  etransitivity; [exact (concat_map_sqrt_sq src)|]. f_equal. clear E IV.
  induction F as [|i m idxs src H F IH]; [reflexivity|]. cbn [map]. f_equal; [|exact IH].
  assert (Hi : (i < length st)%nat) by (apply nth_error_Some; congruence).
  assert (Hm : length m = G) by (apply (proj1 (Forall_forall _ _) L3); exact (nth_error_In _ _ H)).
  rewrite <- (map_nth_seq m 0 G Hm) at 1. rewrite map_map. apply map_ext_in. intros j Hj. apply in_seq in Hj.
  assert (Hi' : (i < num_samples (mkalg (su_cs s) sel (su_samples s) (su_gpa s)))%nat) by (unfold num_samples in *; cbn in *; lia).
  apply f_equal. pose proof (NTH i j Hi' ltac:(lia)) as Q. rewrite (nth_error_nth_some _ _ _ [] H) in Q. exact Q.
Qed.

Lemma rows_confidence (whole : list (list R)) G idxs part : Forall (fun r => length r = G) whole -> (0 < G)%nat ->
  Forall2 (fun i m => nth_error whole i = Some m) idxs part -> idxs <> [] ->
  INR (length part) * Rmean (map sqrt (concat part)) = Rsum (map (fun i => Rsum (map sqrt (nth i whole []))) idxs) / INR G.
Proof.
  intros Gv G0 FF NN.
  assert (FG : Forall (fun r => length r = G) part).
  { apply Forall_forall. intros r Hr. destruct (Forall2_in_r _ _ _ _ FF Hr) as (i & _ & Hi).
    apply (proj1 (Forall_forall _ _) Gv). exact (nth_error_In _ _ Hi). }
  assert (ES : Rsum (map sqrt (concat part)) = Rsum (map (fun i => Rsum (map sqrt (nth i whole []))) idxs)).
  { clear -FF. induction FF as [|i m idxs part E FF IH]; [reflexivity|]. cbn [concat map]. rewrite map_app, Rsum_app, IH. cbn [Rsum].
    rewrite (nth_error_nth_some _ _ _ [] E). reflexivity. }
  unfold Rmean. rewrite ES, map_length, (concat_length_const _ G FG), mult_INR.
  assert (0 < length part)%nat by (rewrite <- (Forall2_length _ _ _ FF); destruct idxs; [congruence|cbn; lia]).
  field. split; apply not_0_INR; lia.
Qed.

Lemma weighted_mean_between {A} (w f : A -> R) mc l : l <> [] -> Forall (fun x => 0 < w x) l ->
  Rsum (map (fun x => w x * f x) l) = Rsum (map w l) * mc ->
  (exists x, In x l /\ f x <= mc) /\ (exists x, In x l /\ mc <= f x).
Proof.
  intros NEL POS SUM.
  assert (GT : forall l, Forall (fun x => 0 < w x) l -> l <> [] -> (forall x, In x l -> mc < f x) ->
     Rsum (map w l) * mc < Rsum (map (fun x => w x * f x) l)).
  { clear. induction l as [|a l IH]; intros P NN H; [congruence|]. inversion P; subst. cbn [map Rsum]. pose proof (H a (or_introl eq_refl)) as HA.
    destruct l as [|b l]; [cbn; nra|]. specialize (IH ltac:(assumption) ltac:(discriminate) (fun nd Hn => H nd (or_intror Hn))). nra. }
  assert (LT : forall l, Forall (fun x => 0 < w x) l -> l <> [] -> (forall x, In x l -> f x < mc) ->
     Rsum (map (fun x => w x * f x) l) < Rsum (map w l) * mc).
  { clear. induction l as [|a l IH]; intros P NN H; [congruence|]. inversion P; subst. cbn [map Rsum]. pose proof (H a (or_introl eq_refl)) as HA.
    destruct l as [|b l]; [cbn; nra|]. specialize (IH ltac:(assumption) ltac:(discriminate) (fun nd Hn => H nd (or_intror Hn))). nra. }
  assert (DEC : forall P : A -> Prop, (forall x, P x \/ ~ P x) -> forall l, (exists x, In x l /\ P x) \/ (forall x, In x l -> ~ P x)).
  { clear. intros P PD l. induction l as [|a l [(nd & I & H)|H]]; [right; intros ? []|left; exists nd; cbn; auto|].
    destruct (PD a) as [Ha|Ha]; [left; exists a; cbn; auto|right; intros nd [->|I]; auto]. }
  split.
  - destruct (DEC (fun x => f x <= mc) (fun x => match Rle_dec (f x) mc with left a => or_introl a | right b => or_intror b end) l) as [E|E]; [exact E|exfalso].
    specialize (GT l POS NEL (fun nd I => Rnot_le_lt _ _ (E nd I))). lra.
  - destruct (DEC (fun x => mc <= f x) (fun x => match Rle_dec mc (f x) with left a => or_introl a | right b => or_intror b end) l) as [E|E]; [exact E|exfalso].
    specialize (LT l POS NEL (fun nd I => Rnot_le_lt _ _ (E nd I))). lra.
Qed.

(** the root's is the mean of the leaves', weighted by their sizes *)
Theorem confidence_weighted (s : setup RNum) p d :
  setup_ok s -> (1 <= su_minpts s)%nat -> su_samples s <> [] -> reaches s p -> (0 < d)%nat ->
  exists p' ids leaves root,
    partition p d = (p', Ok ids) /\ Forall2 (fun id nd => deref p' id = Some nd) ids leaves /\ deref p' 0 = Some root /\
    Forall (fun nd => (0 < region_len (n_region nd))%nat) leaves /\ region_len (n_region root) = length (su_samples s) /\
    Rsum (map (fun nd : dnode RNum => INR (region_len (n_region nd)) * mean_confidence (n_region nd)) leaves) =
      INR (region_len (n_region root)) * mean_confidence (n_region root) /\
    (exists nd, In nd leaves /\ mean_confidence (n_region nd) <= mean_confidence (n_region root)) /\
    (exists nd, In nd leaves /\ mean_confidence (n_region root) <= mean_confidence (n_region nd)).
Proof.
  intros SO MP NE RE Hd.
  destruct (pdp_is_weighted_mean s p d SO MP NE RE Hd) as (p1 & ids1 & leaves1 & root1 & G1 & A1 & A2 & A3 & A4 & A5 & _).
  destruct (leaves_partition_curves R_order_laws s p d SO (R_no_nan s) (R_splits_ordinary s) RE Hd)
    as (p' & ids & leaves & root & parts & H1 & H2 & H3 & H4 & H5 & H6 & H7 & H8).
  assert (p1 = p' /\ ids1 = ids) as [-> ->] by (split; congruence).
  assert (root1 = root) by congruence. subst root1.
  assert (leaves1 = leaves).
  { clear - A2 H2. revert leaves1 A2. induction H2 as [|i n ids leaves E F IH]; intros l A; inversion A; subst; [reflexivity|].
    f_equal; [congruence|]. apply IH. assumption. }
  subst leaves1.
  destruct (reaches_facts R_order_laws s p SO RE) as (root' & dd & sel & ns & F).
  assert (root' = root) by (pose proof (rf_deref _ _ _ _ _ _ F); congruence). subst root'.
  pose proof (inv_wf _ _ (rf_inv _ _ _ _ _ _ F)) as W. destruct (wf_G _ _ W) as (G & G0 & _ & _ & Gv). pose proof (wf_v _ _ W) as LV.
  assert (POS : Forall (fun nd => (0 < region_len (n_region nd))%nat) leaves).
  { inversion A5; subst. eapply Forall_impl; [|eassumption]. intros a (X & _). exact X. }
  assert (ROOT : (0 < region_len (n_region root))%nat) by (inversion A5; subst; tauto).
  set (rowsum := fun i => Rsum (map sqrt (nth i (r_v (n_region root) : list (list R)) []))).
  pose proof (fun idxs part => rows_confidence (r_v (n_region root)) G idxs part Gv G0) as EQ. fold rowsum in EQ.
  assert (SUM : Rsum (map (fun nd : dnode RNum => INR (region_len (n_region nd)) * mean_confidence (n_region nd)) leaves) =
      INR (region_len (n_region root)) * mean_confidence (n_region root)).
  { assert (EL : map (fun nd : dnode RNum => INR (region_len (n_region nd)) * mean_confidence (n_region nd)) leaves =
               map (fun idxs => / INR G * Rsum (map rowsum idxs)) parts).
    { clear - H8 EQ POS. induction H8 as [|idxs nd parts leaves (IX & IY & IV) H8 IH]; [reflexivity|]. inversion POS; subst. cbn [map]. f_equal; [|apply IH; assumption].
      rewrite mean_confidence_R. unfold region_len in *.
      rewrite <- (Forall2_length _ _ _ IX), (Forall2_length _ _ _ IV). etransitivity; [refine (EQ idxs _ IV _)|unfold Rdiv; apply Rmult_comm].
      intros ->. inversion IX as [E0 E1|]. rewrite <- E1 in *. cbn in *. lia. }
    rewrite EL, Rsum_map_scal. rewrite <- (map_map (map rowsum) Rsum), <- Rsum_concat, <- concat_map, (Rsum_perm _ _ (Permutation_map _ H6)).
    rewrite mean_confidence_R. unfold region_len in *.
    replace (length (r_x (n_region root))) with (length (r_v (n_region root))) by exact LV.
    symmetry. etransitivity; [refine (EQ (seq 0 (length (su_samples s))) (r_v (n_region root)) _ _)|unfold Rdiv; apply Rmult_comm]; [|destruct (su_samples s); [congruence|discriminate]].
    replace (length (su_samples s)) with (length (r_v (n_region root))) by lia. clear.
    generalize (r_v (n_region root)) as l. intro l. assert (K : forall pre l : list (list R), Forall2 (fun i m => nth_error (pre ++ l) i = Some m) (seq (length pre) (length l)) l).
    { intros pre m. revert pre. induction m as [|a m IH]; intro pre; cbn [length seq]; [constructor|]. constructor.
      - rewrite nth_error_app2, Nat.sub_diag by lia. reflexivity.
      - specialize (IH (pre ++ [a])). rewrite app_length, <- app_assoc in IH. cbn in IH. rewrite Nat.add_1_r in IH. exact IH. }
    exact (K [] l). }
  assert (CNT : Rsum (map (fun nd : dnode RNum => INR (region_len (n_region nd))) leaves) = INR (region_len (n_region root))).
  { transitivity (INR (length (concat parts))).
    - clear - H8. induction H8 as [|idxs nd parts leaves (IX & _) H8 IH]; [reflexivity|]. cbn [map concat Rsum]. rewrite app_length, plus_INR. unfold region_len at 1.
      rewrite <- (Forall2_length _ _ _ IX), IH. reflexivity.
    - rewrite (Permutation_length H6), seq_length, <- H5. reflexivity. }
  assert (NEL : leaves <> []).
  { intros ->. cbn in CNT. assert (0 < INR (region_len (n_region root))) by (apply lt_0_INR; exact ROOT). lra. }
  exists p', ids, leaves, root. refine (conj H1 (conj H2 (conj H4 (conj POS (conj H5 (conj SUM _)))))).
  rewrite <- CNT in SUM.
  exact (weighted_mean_between (fun nd : dnode RNum => INR (region_len (n_region nd))) (fun nd : dnode RNum => mean_confidence (n_region nd)) _ leaves NEL
    (Forall_impl _ (fun nd H => lt_0_INR _ H) POS) SUM).
Qed.

(** ** size *)
Lemma sqrt_mean (l : list R) : l <> [] -> Forall (fun v => 0 <= v) l ->
  0 <= Rmean (map sqrt l) /\ Rmean (map sqrt l) * Rmean (map sqrt l) <= Rmean l /\
  (Rmean (map sqrt l) = 0 <-> Forall (fun v => v = 0) l) /\
  (Rmean (map sqrt l) * Rmean (map sqrt l) = Rmean l <-> forall v w, In v l -> In w l -> v = w).
Proof.
  intros NE F.
  assert (LP : 0 < INR (length l)) by (apply lt_0_INR; destruct l; [congruence|cbn; lia]).
  set (m := Rmean (map sqrt l)).
  assert (EM : INR (length l) * m = Rsum (map sqrt l)).
  { unfold m. rewrite <- (map_length sqrt l). apply Rmean_mult. destruct l; [congruence|discriminate]. }
  assert (SQ : Rsum (map (fun x => sqrt x * sqrt x) l) = Rsum l).
  { clear - F. induction F as [|x l H F IH]; [reflexivity|]. cbn [map Rsum]. rewrite IH, (sqrt_sqrt x H). reflexivity. }
  assert (VAR : ssd m (map sqrt l) = INR (length l) * (Rmean l - m * m)).
  { unfold ssd. rewrite map_map.
    rewrite (map_ext _ (fun x => (sqrt x * sqrt x - (2 * m) * sqrt x) + m * m)) by (intro; ring).
    rewrite Rsum_map_plus, Rsum_map_minus, Rsum_map_scal, Rsum_map_const, SQ, <- EM.
    pose proof (Rmean_mult l NE). lra. }
  pose proof (ssd_nonneg m (map sqrt l)) as NN.
  assert (SP : Forall (fun x => 0 <= x) (map sqrt l)) by (apply Forall_map, Forall_forall; intros; apply sqrt_pos).
  refine (conj _ (conj _ (conj _ _))).
  - pose proof (Rsum_nonneg _ SP). nra.
  - nra.
  - assert (m = 0 <-> Rsum (map sqrt l) = 0) as -> by (split; intro; nra).
    rewrite (Rsum_zero _ SP), Forall_map. split; intro H; (eapply Forall_impl; [|exact (Forall_and F H)]); cbn; intros x [X0 X].
    + apply sqrt_eq_0; assumption.
    + rewrite X. apply sqrt_0.
  - assert (m * m = Rmean l <-> ssd (Rmean (map sqrt l)) (map sqrt l) = 0) as -> by (fold m; split; intro; nra).
    rewrite ssd_zero. split.
    + intros H v w Hv Hw. rewrite Forall_forall in F. apply sqrt_inj; auto. apply H; apply in_map; assumption.
    + intros H x y Hx Hy. apply in_map_iff in Hx, Hy. destruct Hx as (v & <- & Hv), Hy as (w & <- & Hw). rewrite (H v w Hv Hw). reflexivity.
Qed.

Theorem confidence_jensen (r : region RNum) : concat (r_v r) <> [] -> Forall (Forall (fun v : R => 0 <= v)) (r_v r) ->
  0 <= mean_confidence r /\ (mean_confidence r : R) * mean_confidence r <= Rmean (concat (r_v r)) /\
  ((mean_confidence r : R) = 0 <-> Forall (Forall (fun v : R => v = 0)) (r_v r)) /\
  ((mean_confidence r : R) * mean_confidence r = Rmean (concat (r_v r)) <-> forall v w : R, In v (concat (r_v r)) -> In w (concat (r_v r)) -> v = w).
Proof.
  intros NE F. apply Forall_concat in F. destruct (sqrt_mean (concat (r_v r)) NE F) as (A & B & C & D).
  pose proof (Forall_concat (fun v : R => v = 0) (r_v r)) as FZ. rewrite mean_confidence_R.
  exact (conj A (conj B (conj (iff_trans C FZ) D))).
Qed.
