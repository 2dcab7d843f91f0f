(** PartitionReal2.v - loss (C10) and implied configuration space (C11) in exact arithmetic. *)
From Coq Require Import Reals Lra Sorted.
From Verif Require Import Base Num NumLaws NumpyModel ConfigSpaceModel UtilsModel IceModel PartitionModel PartitionSpec
  ListLemmas IceProofs PartitionProofs PartitionProofs2 PartitionProofs3 PartitionProofs4 PartitionProofs5
  RealProofs RealSums PartitionReal.
Local Open Scope R_scope.

(** ** C10 *)
(** the variances of all curves at grid point k *)
Definition at_grid (k : nat) (v : list (list R)) : list R := map (fun row => nth k row 0) v.
(** sum over grid points and curves of the squared deviation from the mean at that grid point *)
Definition within_variance (G : nat) (v : list (list R)) : R :=
  Rsum (map (fun k => Rsum (map (fun x => (x - Rmean (at_grid k v)) ^ 2) (at_grid k v))) (seq 0 G)).

Lemma within_ssd G v : within_variance G v = Rsum (map (fun k => ssd (Rmean (at_grid k v)) (at_grid k v)) (seq 0 G)).
Proof.
  unfold within_variance. f_equal. apply map_ext. intro k. unfold ssd. f_equal. apply map_ext. intro x. ring.
Qed.

Lemma combine_nth_map (row : list R) (f : nat -> R) G : length row = G ->
  combine row (map f (seq 0 G)) = map (fun k => (nth k row 0, f k)) (seq 0 G).
Proof.
  intro H. rewrite <- (map_nth_seq row 0 G H) at 1. clear H.
  generalize (seq 0 G). intro l. induction l as [|a l IHl]; cbn; [reflexivity|]. rewrite IHl. reflexivity.
Qed.

Lemma region_loss_R (r : region RNum) G : Forall (fun row => length row = G) (r_v r) ->
  region_loss r = within_variance G (r_v r).
Proof.
  intro H. rewrite within_ssd. unfold region_loss. rewrite nsum_R.
  destruct (r_v r) as [|row0 rows] eqn:E.
  - cbn. symmetry. transitivity (Rsum (map (fun _ : nat => 0) (seq 0 G))); [reflexivity|]. rewrite Rsum_map_const. ring.
  - assert (W : width (row0 :: rows) = G) by (cbn; inversion H; assumption). rewrite W.
    set (v := row0 :: rows) in *. clearbody v. clear E W row0 rows.
    assert (E : forall row, In row v -> map (fun vm : RNum * RNum => let e := nsub (fst vm) (snd vm) in nmul e e)
                 (combine row (mean_axis0 G v)) =
               map (fun k => (nth k row 0 - Rmean (at_grid k v)) * (nth k row 0 - Rmean (at_grid k v))) (seq 0 G)).
    { intros row Hin. rewrite Forall_forall in H. unfold mean_axis0.
      rewrite (map_ext (fun k => nmean (column n0 k v)) (fun k => Rmean (at_grid k v))).
      2:{ intro k. rewrite nmean_R. reflexivity. }
      rewrite (combine_nth_map row _ G (H row Hin)). rewrite map_map. reflexivity. }
    rewrite Rsum_concat, map_map.
    rewrite (map_ext_in _ (fun row => Rsum (map (fun k => (nth k row 0 - Rmean (at_grid k v)) * (nth k row 0 - Rmean (at_grid k v))) (seq 0 G)))).
    2:{ intros row Hin. exact (f_equal Rsum (E row Hin)). }
    rewrite (Rsum_swap (fun row k => (nth k row 0 - Rmean (at_grid k v)) * (nth k row 0 - Rmean (at_grid k v)))).
    f_equal. apply map_ext. intro k. unfold ssd. f_equal. symmetry. exact (map_map (fun row : list R => nth k row 0) (fun x => (x - Rmean (at_grid k v)) * (x - Rmean (at_grid k v))) v).
Qed.

Lemma within_nonneg G v : 0 <= within_variance G v.
Proof.
  rewrite within_ssd. apply Rsum_nonneg. apply Forall_forall. intros x Hx. apply in_map_iff in Hx.
  destruct Hx as (k & <- & _). apply ssd_nonneg.
Qed.

Lemma within_zero G v : Forall (fun row => length row = G) v ->
  (within_variance G v = 0 <-> forall row row', In row v -> In row' v -> row = row').
Proof.
  intro H. rewrite within_ssd, Rsum_zero.
  2:{ apply Forall_forall. intros x Hx. apply in_map_iff in Hx. destruct Hx as (k & <- & _). apply ssd_nonneg. }
  rewrite Forall_map, Forall_forall. rewrite Forall_forall in H. split.
  - intros Z row row' H1 H2. apply (list_eq_nth row row' 0); [rewrite (H _ H1), (H _ H2); reflexivity|].
    intros k Hk. rewrite (H _ H1) in Hk. specialize (Z k (proj2 (in_seq _ _ _) (conj (Nat.le_0_l _) Hk))).
    apply (proj1 (ssd_zero _) Z).
    + unfold at_grid. apply (in_map (fun row => nth k row 0)). exact H1.
    + unfold at_grid. apply (in_map (fun row => nth k row 0)). exact H2.
  - intros E k _. apply ssd_zero. intros x y Hx Hy. apply in_map_iff in Hx, Hy.
    destruct Hx as (r1 & <- & H1), Hy as (r2 & <- & H2). rewrite (E r1 r2 H1 H2). reflexivity.
Qed.

Lemma rows_at_grid (V part : list (list R)) idxs k :
  Forall2 (fun i m => nth_error V i = Some m) idxs part -> at_grid k part = map (fun i => nth k (nth i V []) 0) idxs.
Proof.
  unfold at_grid. induction 1 as [|i m idxs part E F IH]; cbn [map]; [reflexivity|]. rewrite IH, (nth_error_nth_some _ _ _ [] E). reflexivity.
Qed.

Lemma parts_loss (whole : region RNum) parts (regs : list (region RNum)) G :
  Forall (fun row => length row = G) (r_v whole) ->
  Forall2 (fun idxs r => Forall2 (fun i m => nth_error (r_v whole) i = Some m) idxs (r_v r)) parts regs ->
  Permutation (concat parts) (seq 0 (length (r_v whole))) ->
  Rsum (map (fun r => region_loss r) regs) <= region_loss whole.
Proof.
  intros HG F P. rewrite (region_loss_R whole G HG).
  assert (HGr : forall r, In r regs -> Forall (fun row => length row = G) (r_v r)).
  { intros r Hr. destruct (Forall2_in_r _ _ _ _ F Hr) as (idxs & _ & Fr). apply Forall_forall. intros row Hrow.
    destruct (Forall2_in_r _ _ _ _ Fr Hrow) as (i & _ & E). rewrite Forall_forall in HG. apply HG. eapply nth_error_In; exact E. }
  rewrite (map_ext_in (fun r : region RNum => region_loss r) (fun r : region RNum => Rsum (map (fun k => ssd (Rmean (at_grid k (r_v r))) (at_grid k (r_v r))) (seq 0 G)))).
  2:{ intros r Hr. rewrite <- within_ssd. apply region_loss_R. auto. }
  rewrite within_ssd.
  rewrite (Rsum_swap (fun (r : region RNum) k => ssd (Rmean (at_grid k (r_v r))) (at_grid k (r_v r)))).
  apply Rsum_map_le. intros k _.
  set (V := r_v whole) in *. set (c := Rmean (at_grid k V)).
  apply Rle_trans with (Rsum (map (fun r : region RNum => ssd c (at_grid k (r_v r))) regs)).
  { apply Rsum_map_le. intros r _. apply ssd_mean_least. }
  right. set (f := fun i => nth k (nth i V []) 0).
  assert (E : at_grid k V = map f (seq 0 (length V))).
  { symmetry. exact (map_seq_nth (fun row : list R => nth k row 0) V [] (length V) eq_refl). }
  rewrite E. rewrite <- (ssd_perm c _ _ (Permutation_map f P)), concat_map, ssd_concat, map_map.
  clear - F. induction F as [|idxs r parts regs E F IH]; cbn; [reflexivity|].
  rewrite IH, (rows_at_grid V _ idxs k E). reflexivity.
Qed.

Theorem loss_is_within_variance nf (r : region RNum) : wf_region nf r ->
  exists G, Forall (fun row => length row = G) (r_v r) /\
    region_loss r = within_variance G (r_v r) /\ 0 <= region_loss r /\
    (region_loss r = 0 <-> forall row row', In row (r_v r) -> In row' (r_v r) -> row = row').
Proof.
  intro W. destruct (wf_G _ _ W) as (G & _ & _ & _ & HG). exists G. rewrite (region_loss_R r G HG).
  refine (conj HG (conj eq_refl (conj (within_nonneg G _) _))). apply within_zero. exact HG.
Qed.

Theorem split_never_increases_loss cs (nd : dnode RNum) h v :
  wf_region (length cs) (n_region nd) -> In h cs ->
  exists l r, split_at_value cs nd h v = Ok (l, r) /\
    region_loss (n_region l) + region_loss (n_region r) <= region_loss (n_region nd).
Proof.
  intros W Hin. destruct (cs_idx_in cs h Hin) as (i & Hi).
  assert (K : known cs h) by (exists i; exact Hi).
  rewrite (split_ok cs nd h v W K). eexists _, _. split; [reflexivity|]. cbn [n_region child].
  destruct (wf_G _ _ W) as (G & _ & _ & _ & HG).
  set (whole := n_region nd) in *.
  set (cl := mkcond (N:=RNum) h v true). set (cr := mkcond (N:=RNum) h v false).
  pose proof (sel_region_rows (cond_sat cs cl) whole (wf_y _ _ W) (wf_v _ _ W)) as (_ & _ & Rl).
  pose proof (sel_region_rows (cond_sat cs cr) whole (wf_y _ _ W) (wf_v _ _ W)) as (_ & _ & Rr).
  set (il := filter (fun i : nat => cond_sat cs cl (nth i (r_x whole) [])) (seq 0 (length (r_x whole)))) in *.
  set (ir := filter (fun i : nat => cond_sat cs cr (nth i (r_x whole) [])) (seq 0 (length (r_x whole)))) in *.
  eapply Rle_trans; [|apply (parts_loss whole [il; ir] [sel_region (cond_sat cs cl) whole; sel_region (cond_sat cs cr) whole] G HG)].
  - cbn. lra.
  - constructor; [exact Rl|]. constructor; [exact Rr|constructor].
  - cbn [concat]. rewrite app_nil_r. rewrite (wf_v _ _ W). unfold il, ir.
    rewrite (filter_ext_in' (fun i0 => cond_sat cs cr (nth i0 (r_x whole) [])) (fun i0 => negb (cond_sat cs cl (nth i0 (r_x whole) [])))).
    + apply filter_partition.
    + intros i0 _. unfold cond_sat. cbn [c_hp cl cr]. rewrite Hi. unfold cond_mask. cbn [c_le c_val cl cr].
      rewrite (ol_le _ R_order_laws); [|apply R_ordinary|apply R_ordinary]. rewrite negb_involutive. reflexivity.
Qed.

Theorem leaves_loss_at_most_root (s : setup RNum) p d :
  setup_ok s -> reaches s p -> (0 < d)%nat ->
  exists p' ids leaves root,
    partition p d = (p', Ok ids) /\ Forall2 (fun id nd => deref p' id = Some nd) ids leaves /\
    deref p' 0 = Some root /\
    Rsum (map (fun nd => region_loss (n_region nd)) leaves) <= region_loss (n_region root).
Proof.
  intros SO R Hd.
  destruct (leaves_partition_curves R_order_laws s p d SO (R_no_nan s) (R_splits_ordinary s) R Hd)
    as (p' & ids & leaves & root & parts & H1 & H2 & H3 & H4 & H5 & H6 & H7 & H8).
  exists p', ids, leaves, root. repeat (split; [assumption|]).
  destruct (reaches_facts R_order_laws s p SO R) as (root' & dd & sel & ns & F).
  assert (root' = root) by (pose proof (rf_deref _ _ _ _ _ _ F); congruence). subst root'.
  pose proof (inv_wf _ _ (rf_inv _ _ _ _ _ _ F)) as W.
  destruct (wf_G _ _ W) as (G & _ & _ & _ & HG).
  rewrite <- (map_map (fun nd => n_region nd) (fun r => region_loss r)).
  apply (parts_loss (n_region root) parts (map (fun nd => n_region nd) leaves) G HG).
  - clear - H8. induction H8 as [|i nd parts leaves (_ & _ & E) F IH]; cbn; constructor; auto.
  - rewrite (wf_v _ _ W), H5. exact H6.
Qed.

(** ** C11 *)
(** bounds and scale of every hyperparameter *)
Definition numeric_space (cs : cspace RNum) : Prop :=
  Forall (fun h => exists lo up lg, hp_is h lo up lg /\ good_bounds lo up lg) cs.

Definition U (lo up : R) (lg : bool) (v : R) : R := clamp lo up (raw_unscale lo up lg v).
Lemma U_inside lo up lg v : good_bounds lo up lg -> 0 < v < 1 -> lo < U lo up lg v < up.
Proof.
  intros G Hv. pose proof (raw_unscale_0 lo up lg G). pose proof (raw_unscale_1 lo up lg G).
  pose proof (raw_unscale_strict lo up lg 0 v G (proj1 Hv)). pose proof (raw_unscale_strict lo up lg v 1 G (proj2 Hv)).
  unfold U. rewrite clamp_id; lra.
Qed.
Lemma U_strict lo up lg v w : good_bounds lo up lg -> 0 < v < 1 -> 0 < w < 1 -> v < w -> U lo up lg v < U lo up lg w.
Proof.
  intros G Hv Hw H. pose proof (raw_unscale_range lo up lg v G). pose proof (raw_unscale_range lo up lg w G).
  unfold U. rewrite !clamp_id by lra. apply raw_unscale_strict; assumption.
Qed.

Definition about (h : hp RNum) (c : cond RNum) : Prop := hp_name (c_hp c) = hp_name h.
Record boxinv (P : list (cond RNum)) (h : hp RNum) (b : fbox RNum) : Prop := {
  bi_name : b_name b = hp_name h;
  bi : forall lo up lg, hp_is h lo up lg -> good_bounds lo up lg ->
    b_log b = lg /\ lo <= b_lower b /\ b_upper b <= up /\
    ((b_lower b = lo) \/ exists c, In c P /\ about h c /\ c_le c = false /\ b_lower b = U lo up lg (c_val c)) /\
    ((b_upper b = up) \/ exists c, In c P /\ about h c /\ c_le c = true /\ b_upper b = U lo up lg (c_val c)) /\
    (forall c, In c P -> about h c -> c_le c = false -> U lo up lg (c_val c) <= b_lower b) /\
    (forall c, In c P -> about h c -> c_le c = true -> b_upper b <= U lo up lg (c_val c))
}.

Lemma box_init_inv cs : numeric_space cs -> exists bs, mapM box_init cs = Ok bs /\ Forall2 (boxinv []) cs bs.
Proof.
  induction 1 as [|h cs (lo & up & lg & Hi & G) F (bs & E & IH)]; [exists []; split; [reflexivity|constructor]|].
  destruct (hp_is_fields h lo up lg Hi) as (E1 & E2 & E3).
  exists (mkfbox (N:=RNum) (hp_name h) lo up lg :: bs). cbn [mapM]. unfold box_init at 1.
  assert (Num : is_numerical h = true).
  { unfold is_numerical. destruct Hi as [K|(l & u & K & _)]; rewrite K; reflexivity. }
  rewrite Num, E1, E2, E3. cbn [bind]. rewrite E. cbn [bind]. split; [reflexivity|]. constructor; [|exact IH].
  constructor; [reflexivity|]. intros lo' up' lg' Hi' _. destruct (hp_is_fields h lo' up' lg' Hi') as (E1' & E2' & E3').
  assert (lo' = lo) by congruence. assert (up' = up) by congruence. assert (lg' = lg) by congruence. subst.
  cbn. repeat split; try lra; auto; intros c [].
Qed.

Lemma boxinv_other P c h b : ~ about h c -> boxinv P h b -> boxinv (P ++ [c]) h b.
Proof.
  intros Ha [Hn Hb]. constructor; [exact Hn|]. intros lo up lg Hi G.
  destruct (Hb lo up lg Hi G) as (H1 & H2 & H3 & H4 & H5 & H6 & H7).
  repeat split; auto.
  - destruct H4 as [H4|(c0 & I & R)]; [left; exact H4|right; exists c0; split; [apply in_or_app; auto|exact R]].
  - destruct H5 as [H5|(c0 & I & R)]; [left; exact H5|right; exists c0; split; [apply in_or_app; auto|exact R]].
  - intros c0 I A. apply in_app_or in I. destruct I as [I|[<-|[]]]; [apply H6; assumption|contradiction].
  - intros c0 I A. apply in_app_or in I. destruct I as [I|[<-|[]]]; [apply H7; assumption|contradiction].
Qed.

Lemma boxinv_tighten P c h b lo up lg : about h c -> hp_is h lo up lg -> good_bounds lo up lg -> 0 < c_val c < 1 ->
  boxinv P h b -> boxinv (P ++ [c]) h (tighten c (U lo up lg (c_val c)) b).
Proof.
  intros A Hi G Hv [Hn Hb].
  assert (Ec : forall lo' up' lg', hp_is h lo' up' lg' -> lo' = lo /\ up' = up /\ lg' = lg).
  { intros lo' up' lg' Hi'. destruct (hp_is_fields h lo' up' lg' Hi') as (E1' & E2' & E3').
    destruct (hp_is_fields h lo up lg Hi) as (E1 & E2 & E3). repeat split; congruence. }
  pose proof (U_inside lo up lg (c_val c) G Hv) as Hin.
  constructor.
  { unfold tighten. destruct (c_le c); [destruct (nlt _ _)|destruct (nlt _ _)]; exact Hn. }
  intros lo' up' lg' Hi' _. destruct (Ec _ _ _ Hi') as (-> & -> & ->).
  destruct (Hb lo up lg Hi G) as (H1 & H2 & H3 & H4 & H5 & H6 & H7).
  assert (H4' : b_lower b = lo \/ exists c0, In c0 (P ++ [c]) /\ about h c0 /\ c_le c0 = false /\ b_lower b = U lo up lg (c_val c0)).
  { destruct H4 as [H4|(c0 & I & R)]; [left; exact H4|right; exists c0; split; [apply in_or_app; auto|exact R]]. }
  assert (H5' : b_upper b = up \/ exists c0, In c0 (P ++ [c]) /\ about h c0 /\ c_le c0 = true /\ b_upper b = U lo up lg (c_val c0)).
  { destruct H5 as [H5|(c0 & I & R)]; [left; exact H5|right; exists c0; split; [apply in_or_app; auto|exact R]]. }
  assert (Inc : In c (P ++ [c])) by (apply in_or_app; right; left; reflexivity).
  unfold tighten. destruct (c_le c) eqn:Le.
  - destruct (nlt (n:=RNum) (U lo up lg (c_val c)) (b_upper b)) eqn:T.
    + apply R_lt_true in T. cbn [b_log b_lower b_upper]. repeat split; auto; try lra.
      * right. exists c. auto.
      * intros c0 I A0 F0. apply in_app_or in I. destruct I as [I|[<-|[]]]; [apply H6; assumption|congruence].
      * intros c0 I A0 F0. apply in_app_or in I. destruct I as [I|[<-|[]]]; [|lra].
        specialize (H7 c0 I A0 F0). lra.
    + apply R_lt_false in T. repeat split; auto.
      * intros c0 I A0 F0. apply in_app_or in I. destruct I as [I|[<-|[]]]; [apply H6; assumption|congruence].
      * intros c0 I A0 F0. apply in_app_or in I. destruct I as [I|[<-|[]]]; [apply H7; assumption|exact T].
  - destruct (nlt (n:=RNum) (b_lower b) (U lo up lg (c_val c))) eqn:T.
    + apply R_lt_true in T. cbn [b_log b_lower b_upper]. repeat split; auto; try lra.
      * right. exists c. auto.
      * intros c0 I A0 F0. apply in_app_or in I. destruct I as [I|[<-|[]]]; [|lra].
        specialize (H6 c0 I A0 F0). lra.
      * intros c0 I A0 F0. apply in_app_or in I. destruct I as [I|[<-|[]]]; [apply H7; assumption|congruence].
    + apply R_lt_false in T. repeat split; auto.
      * intros c0 I A0 F0. apply in_app_or in I. destruct I as [I|[<-|[]]]; [apply H6; assumption|exact T].
      * intros c0 I A0 F0. apply in_app_or in I. destruct I as [I|[<-|[]]]; [apply H7; assumption|congruence].
Qed.

Lemma boxinv_others P c cs bs : Forall2 (boxinv P) cs bs -> (forall h, In h cs -> ~ about h c) -> Forall2 (boxinv (P ++ [c])) cs bs.
Proof.
  induction 1 as [|h b cs bs Hb F IH]; intro H; constructor.
  - apply boxinv_other; [|exact Hb]. apply H. left. reflexivity.
  - apply IH. intros h' Hin. apply H. right. exact Hin.
Qed.

Lemma box_update_inv P c cs bs lo up lg :
  Forall2 (boxinv P) cs bs -> NoDup (map hp_name cs) -> (exists h, In h cs /\ about h c /\ hp_is h lo up lg) ->
  good_bounds lo up lg -> 0 < c_val c < 1 ->
  exists bs', box_update (hp_name (c_hp c)) (tighten c (U lo up lg (c_val c))) bs = Ok bs' /\ Forall2 (boxinv (P ++ [c])) cs bs'.
Proof.
  intros F ND Hex G Hv. revert ND Hex. induction F as [|h b cs bs Hb F IH]; intros ND Hex.
  - destruct Hex as (h & [] & _).
  - inversion ND as [|? ? Hnin ND']; subst. cbn [box_update]. rewrite (bi_name _ _ _ Hb).
    destruct (String.eqb_spec (hp_name h) (hp_name (c_hp c))) as [E|E].
    + eexists. split; [reflexivity|]. destruct Hex as (h' & Hin' & Ha & Hi). constructor.
      * apply boxinv_tighten; auto; [congruence|]. destruct Hin' as [->|Hin']; [exact Hi|].
        exfalso. apply Hnin. rewrite E, Ha. apply in_map. exact Hin'.
      * apply boxinv_others; [exact F|]. intros h2 Hin2 A2. apply Hnin. rewrite E, A2. apply in_map. exact Hin2.
    + destruct (IH ND') as (bs' & E' & F').
      { destruct Hex as (h' & [->|Hin'] & Ha & Hi); [exfalso; apply E; symmetry; exact Ha|]. exists h'. auto. }
      rewrite E'. cbn [bind]. eexists. split; [reflexivity|]. constructor; [|exact F'].
      apply boxinv_other; [|exact Hb]. intro A. apply E. symmetry. exact A.
Qed.

Lemma implied_inv cs conds : NoDup (map hp_name cs) -> numeric_space cs ->
  Forall (fun c => In (c_hp c) cs /\ 0 < c_val c < 1) conds ->
  exists bs, implied_config_space cs conds = Ok bs /\ Forall2 (boxinv conds) cs bs.
Proof.
  intros ND NS HC. unfold implied_config_space. destruct (box_init_inv cs NS) as (bs0 & -> & F0). cbn [bind].
  change conds with ([] ++ conds) at 2. generalize (@nil (cond RNum)) as P, F0. clear F0. intros P F0. revert P bs0 F0.
  induction HC as [|c conds (Hin & Hv) HC IH]; intros P bs0 F0.
  - exists bs0. rewrite app_nil_r. split; [reflexivity|exact F0].
  - cbn [foldM]. unfold box_step at 1, cond_value.
    pose proof (proj1 (Forall_forall _ _) NS _ Hin) as (lo & up & lg & Hi & G).
    rewrite (unscale_float_R cs (c_hp c) (c_hp c) lo up lg (c_val c)); [|apply cs_get_nodup; assumption|exact Hi].
    cbn [bind]. fold (U lo up lg (c_val c)).
    destruct (box_update_inv P c cs bs0 lo up lg F0 ND) as (bs1 & E1 & F1); auto.
    { exists (c_hp c). repeat split; auto. }
    rewrite E1. cbn [bind]. destruct (IH (P ++ [c]) bs1 F1) as (bs & E & Fb). exists bs. split; [exact E|].
    rewrite <- app_assoc in Fb. exact Fb.
Qed.

Lemma numeric_space_numerical cs : numeric_space cs -> all_numerical cs.
Proof.
  intro F. eapply Forall_impl; [|exact F]. intros h (lo & up & lg & [K|(l & u & K & _)] & _); unfold is_numerical; rewrite K; reflexivity.
Qed.

(** [x] is in the implied interval of a box: at most the upper bound and above the lower
    bound, or at the lower bound when no split raised it above [lo] *)
Definition in_box (lo : R) (b : fbox RNum) (x : R) : Prop :=
  x <= b_upper b /\ (b_lower b < x \/ (b_lower b = lo /\ x = lo)).

Theorem implied_space_describes_region (s : setup RNum) p :
  setup_ok s -> numeric_space (su_cs s) -> reaches s p ->
  forall id nd, deref p id = Some nd ->
  exists boxes, implied_config_space (su_cs s) (n_conds nd) = Ok boxes /\
    map b_name boxes = map hp_name (su_cs s) /\
    (forall j h b lo up lg, nth_error (su_cs s) j = Some h -> nth_error boxes j = Some b -> hp_is h lo up lg ->
       b_log b = lg /\ lo <= b_lower b /\ b_upper b <= up /\
       ((0 < region_len (n_region nd))%nat -> b_lower b < b_upper b)) /\
    (forall cfg, 
       (forall h lo up lg, In h (su_cs s) -> hp_is h lo up lg ->
          exists x, config_get cfg (hp_name h) = Some (VNum (N:=RNum) x) /\ lo <= x <= up) ->
       exists b, contains (su_cs s) (n_conds nd) cfg = Ok b /\
       (b = true <->
        forall j h b lo up lg x, nth_error (su_cs s) j = Some h -> nth_error boxes j = Some b -> hp_is h lo up lg ->
          config_get cfg (hp_name h) = Some (VNum (N:=RNum) x) -> in_box lo b x)).
Proof.
  intros SO NS R id nd Hd. destruct (reaches_facts R_order_laws s p SO R) as (root & dd & sel & ns & RF).
  pose proof (deref_derived s p root dd sel ns id nd RF Hd) as D.
  pose proof (leaf_conds_in_cs s p root dd sel ns nd RF D) as HC.
  assert (HC' : Forall (fun c => In (c_hp c) (su_cs s) /\ 0 < c_val c < 1) (n_conds nd)).
  { eapply Forall_impl; [|exact HC]. cbn. intros c (A & _ & _ & B). split; [exact A|]. apply (split_vals_open _ _ B). }
  pose proof (proj1 SO) as ND.
  destruct (implied_inv (su_cs s) (n_conds nd) ND NS HC') as (boxes & E & F).
  assert (NG : forall h lo up lg, In h (su_cs s) -> hp_is h lo up lg -> good_bounds lo up lg).
  { intros h lo up lg Hin Hi. pose proof (proj1 (Forall_forall _ _) NS h Hin) as (lo' & up' & lg' & Hi' & G).
    destruct (hp_is_fields _ _ _ _ Hi) as (A1 & A2 & A3). destruct (hp_is_fields _ _ _ _ Hi') as (B1 & B2 & B3).
    assert (lo' = lo) by congruence. assert (up' = up) by congruence. assert (lg' = lg) by congruence. subst. exact G. }
  assert (Uabout : forall h c, In h (su_cs s) -> In c (n_conds nd) -> about h c -> c_hp c = h).
  { intros h c Hin Hc Ha. rewrite Forall_forall in HC'. destruct (HC' c Hc) as [Hin' _].
    pose proof (cs_get_nodup (su_cs s) h ND Hin) as A. pose proof (cs_get_nodup (su_cs s) (c_hp c) ND Hin') as B.
    rewrite Ha in B. congruence. }
  exists boxes. split; [exact E|].
  refine (conj _ (conj _ _)).
  - clear - F. induction F as [|h b cs bs Hb F IH]; cbn; [reflexivity|]. rewrite IH, (bi_name _ _ _ Hb). reflexivity.
  - intros j h b lo up lg Hj Hb Hi. pose proof (nth_error_In _ _ Hj) as Hin.
    assert (BI : boxinv (n_conds nd) h b).
    { clear - F Hj Hb. revert j Hj Hb. induction F as [|h0 b0 cs bs Hb0 F IH]; intros [|j] Hj Hb; try discriminate.
      - cbn in *. congruence.
      - cbn in *. eapply IH; eassumption. }
    pose proof (NG h lo up lg Hin Hi) as G.
    destruct (bi _ _ _ BI lo up lg Hi G) as (H1 & H2 & H3 & H4 & H5 & H6 & H7).
    repeat split; auto. intro Hlen.
    destruct (derived_is_leaf_of_conditions s p root dd sel ns nd SO RF D) as (_ & idxs & S1 & S2 & S3).
    destruct (r_x (n_region nd)) as [|cv rest] eqn:Ex; [unfold region_len in Hlen; rewrite Ex in Hlen; cbn in Hlen; lia|].
    destruct S2 as (S2 & _). rewrite Ex in S2. inversion S2 as [|i0 ? idxs' ? Ei Erest]; subst.
    destruct (proj1 (S3 i0) (or_introl eq_refl)) as (curve & Hcur & HF).
    rewrite (rf_cs _ _ _ _ _ _ RF) in HF. rewrite Forall_forall in HF.
    assert (Coord : forall c, In c (n_conds nd) -> about h c -> exists z, (forall row, nth_error curve 0 = Some row -> nth_error row j = Some z) /\
               if c_le c then z <= c_val c else c_val c < z).
    { intros c Hc Ha. destruct (HF c Hc) as (j' & h' & row & x & A1 & A2 & A3 & A4 & A5).
      assert (j' = j).
      { pose proof (cs_idx_nodup (su_cs s) j' h' ND A1) as X1. pose proof (cs_idx_nodup (su_cs s) j h ND Hj) as X2.
        rewrite A2, Ha in X1. congruence. }
      subst j'. exists x. split; [intros row' Hrow'; congruence|]. destruct (c_le c); [apply R_le_true|apply R_lt_true]; exact A5. }
    rewrite Forall_forall in HC'.
    destruct H4 as [->|(c1 & I1 & A1 & L1 & E1)]; destruct H5 as [->|(c2 & I2 & A2 & L2 & E2)].
    + apply G.
    + rewrite E2. apply U_inside; [exact G|]. apply HC'; exact I2.
    + rewrite E1. apply U_inside; [exact G|]. apply HC'; exact I1.
    + rewrite E1, E2. apply U_strict; auto; [apply HC'; exact I1|apply HC'; exact I2|].
      destruct (Coord c1 I1 A1) as (z1 & Z1 & B1). destruct (Coord c2 I2 A2) as (z2 & Z2 & B2). rewrite L1 in B1. rewrite L2 in B2.
      destruct (HF c1 I1) as (_ & _ & row & _ & _ & _ & Hrow & _).
      assert (z1 = z2) by (pose proof (Z1 row Hrow); pose proof (Z2 row Hrow); congruence). lra.
  - intros cfg Hcfg.
    assert (TC : total_config (su_cs s) cfg).
    { intros h Hin. pose proof (proj1 (Forall_forall _ _) NS h Hin) as (lo & up & lg & Hi & _).
      destruct (Hcfg h lo up lg Hin Hi) as (x & Hx & _). exists x. split; [exact Hx|apply R_ordinary]. }
    destruct (contains_total (su_cs s) cfg (n_conds nd) (numeric_space_numerical _ NS) TC) as (Ec & Iff).
    { eapply Forall_impl; [|exact HC]. cbn. tauto. }
    eexists. split; [exact Ec|]. rewrite Iff. rewrite Forall_forall. rewrite Forall_forall in HC'. split.
    + intros HS j h b lo up lg x Hj Hb Hi Hx. pose proof (nth_error_In _ _ Hj) as Hin.
      assert (BI : boxinv (n_conds nd) h b).
      { clear - F Hj Hb. revert j Hj Hb. induction F as [|h0 b0 cs bs Hb0 F IH]; intros [|j] Hj Hb; try discriminate.
        - cbn in *. congruence.
        - cbn in *. eapply IH; eassumption. }
      pose proof (NG h lo up lg Hin Hi) as G.
      destruct (bi _ _ _ BI lo up lg Hi G) as (H1 & H2 & H3 & H4 & H5 & H6 & H7).
      destruct (Hcfg h lo up lg Hin Hi) as (x' & Hx' & Hr). assert (x' = x) by congruence. subst x'.
      assert (Sat : forall c, In c (n_conds nd) -> about h c -> if c_le c then x <= U lo up lg (c_val c) else U lo up lg (c_val c) < x).
      { intros c Hc Ha. destruct (HS c Hc) as (y & u & Hy & Hu & Hcmp). rewrite Ha in Hy. rewrite Hx in Hy. inversion Hy; subst y.
        rewrite (unscale_float_R (su_cs s) (c_hp c) h lo up lg) in Hu; [|rewrite Ha; apply cs_get_nodup; assumption|exact Hi].
        inversion Hu; subst u. destruct (c_le c); [apply R_le_true|apply R_lt_true]; exact Hcmp. }
      split.
      * destruct H5 as [->|(c & I & A & L & ->)]; [apply Hr|]. specialize (Sat c I A). rewrite L in Sat. exact Sat.
      * destruct H4 as [E4|(c & I & A & L & ->)].
        -- rewrite E4. destruct (Rle_lt_or_eq_dec lo x (proj1 Hr)) as [|<-]; [left; assumption|right; auto].
        -- left. specialize (Sat c I A). rewrite L in Sat. exact Sat.
    + intros HB c Hc. destruct (HC' c Hc) as [Hin Hv].
      pose proof (proj1 (Forall_forall _ _) NS _ Hin) as (lo & up & lg & Hi & G).
      destruct (Hcfg _ lo up lg Hin Hi) as (x & Hx & Hr).
      destruct (In_nth_error _ _ Hin) as (j & Hj).
      destruct (nth_error boxes j) as [b|] eqn:Hb.
      2:{ exfalso. apply nth_error_None in Hb. rewrite <- (Forall2_length _ _ _ F) in Hb. apply nth_error_Some_lt in Hj. lia. }
      specialize (HB j _ b lo up lg x Hj Hb Hi Hx). destruct HB as [B1 B2].
      assert (BI : boxinv (n_conds nd) (c_hp c) b).
      { clear - F Hj Hb. revert j Hj Hb. induction F as [|h0 b0 cs bs Hb0 F IH]; intros [|j] Hj Hb; try discriminate.
        - cbn in *. congruence.
        - cbn in *. eapply IH; eassumption. }
      destruct (bi _ _ _ BI lo up lg Hi G) as (H1 & H2 & H3 & H4 & H5 & H6 & H7).
      exists x, (U lo up lg (c_val c)). split; [exact Hx|].
      split; [apply (unscale_float_R (su_cs s) (c_hp c) (c_hp c)); [apply cs_get_nodup; assumption|exact Hi]|].
      pose proof (U_inside lo up lg (c_val c) G Hv).
      destruct (c_le c) eqn:L.
      * apply R_le_true. specialize (H7 c Hc eq_refl L). lra.
      * apply R_lt_true. specialize (H6 c Hc eq_refl L). destruct B2 as [B2|[B2 B3]]; lra.
Qed.
