(** PartitionMeta.v - how the tree changes, or does not, when the arguments of the partitioner change (C86-C89). *)
From Coq Require Import Reals Lra.
From Verif Require Import Base Num NumLaws NumpyModel ConfigSpaceModel UtilsModel IceModel PartitionModel PartitionSpec
  ListLemmas IceProofs IceProofs2 PartitionProofs PartitionProofs2 PartitionProofs3 PartitionProofs4 PartitionProofs5
  RealProofs RealSums PartitionReal PartitionReal2.
Local Open Scope nat_scope.

(** ** Two partitioners whose regions are related grow the same tree *)
Section Sim.
Context {N : Num}.
Variable Rl : region N -> region N -> Prop.
Variable cs : cspace N.
Hypothesis Hsel : forall r r' c, Rl r r' -> Rl (sel_region (cond_sat cs c) r) (sel_region (cond_sat cs c) r').
Hypothesis Hlen : forall r r', Rl r r' -> region_len r = region_len r'.
Hypothesis Hlt : forall a a' b b' c c' d d', Rl a a' -> Rl b b' -> Rl c c' -> Rl d d' ->
  nlt (nadd (region_loss a) (region_loss b)) (nadd (region_loss c) (region_loss d)) =
  nlt (nadd (region_loss a') (region_loss b')) (nadd (region_loss c') (region_loss d')).
Hypothesis Hinf : forall a a' b b', Rl a a' -> Rl b b' ->
  nltinf (nadd (region_loss a) (region_loss b)) = nltinf (nadd (region_loss a') (region_loss b')).

Definition nrel (nd nd' : dnode N) : Prop :=
  n_depth nd = n_depth nd' /\ n_conds nd = n_conds nd' /\ Rl (n_region nd) (n_region nd') /\
  wf_region (length cs) (n_region nd) /\ wf_region (length cs) (n_region nd').
Definition brel (b b' : best N) : Prop :=
  match b, b' with
  | None, None => True
  | Some (t, lr), Some (t', lr') => t = split_total lr /\ t' = split_total lr' /\ nrel (fst lr) (fst lr') /\ nrel (snd lr) (snd lr')
  | _, _ => False
  end.

Lemma nrel_child nd nd' c : nrel nd nd' -> nrel (child cs nd c) (child cs nd' c).
Proof.
  intros (A & B & C & D & E). unfold nrel. cbn. rewrite A, B. repeat split; auto using sel_region_wf.
  all: try (apply (sel_region_wf _ _ _ D)); try (apply (sel_region_wf _ _ _ E)).
Qed.

Lemma step_sim mp nd nd' b b' hv : nrel nd nd' -> known cs (fst hv) -> brel b b' ->
  exists c c', split_step cs mp nd b hv = Ok c /\ split_step cs mp nd' b' hv = Ok c' /\ brel c c'.
Proof.
  intros R K B. pose proof R as (_ & _ & _ & W & W'). unfold split_step. rewrite (split_ok cs nd (fst hv) (snd hv) W K), (split_ok cs nd' (fst hv) (snd hv) W' K). cbn [bind].
  pose proof (nrel_child nd nd' (mkcond (fst hv) (snd hv) true) R) as Rl1.
  pose proof (nrel_child nd nd' (mkcond (fst hv) (snd hv) false) R) as Rr1.
  set (l := child cs nd (mkcond (fst hv) (snd hv) true)) in *. set (r := child cs nd (mkcond (fst hv) (snd hv) false)) in *.
  set (l' := child cs nd' (mkcond (fst hv) (snd hv) true)) in *. set (r' := child cs nd' (mkcond (fst hv) (snd hv) false)) in *.
  pose proof Rl1 as (_ & _ & R1 & _). pose proof Rr1 as (_ & _ & R2 & _).
  rewrite <- (Hlen _ _ R1), <- (Hlen _ _ R2).
  destruct (_ || _); [exists b, b'; auto|].
  destruct b as [[t lr]|], b' as [[t' lr']|]; cbn in B; try contradiction.
  - destruct B as (-> & -> & (B1 & B1' & B1r & B1w) & (B2 & B2' & B2r & B2w)). unfold split_total at 1 3. cbv zeta.
    rewrite (Hlt _ _ _ _ _ _ _ _ R1 R2 B1r B2r).
    match goal with |- context [nlt ?a ?b] => destruct (nlt a b) end; eexists _, _; repeat split; eauto.
    all: cbn; repeat split; auto; try apply Rl1; try apply Rr1; try apply B1w; try apply B2w.
  - cbv zeta. rewrite (Hinf _ _ _ _ R1 R2).
    match goal with |- context [nltinf ?a] => destruct (nltinf a) end; eexists _, _; repeat split; eauto.
    all: cbn; repeat split; auto; try apply Rl1; try apply Rr1.
Qed.

Lemma fold_sim mp nd nd' cands : nrel nd nd' -> Forall (fun hv => known cs (fst hv)) cands ->
  forall b b', brel b b' -> exists c c', foldM (split_step cs mp nd) cands b = Ok c /\ foldM (split_step cs mp nd') cands b' = Ok c' /\ brel c c'.
Proof.
  intros R F. induction F as [|hv cands K F IH]; intros b b' B; cbn [foldM].
  - exists b, b'. auto.
  - destruct (step_sim mp nd nd' b b' hv R K B) as (c & c' & E & E' & C). rewrite E, E'. cbn [bind]. apply IH. exact C.
Qed.

Inductive trel : tree (N:=N) -> tree (N:=N) -> Prop :=
| trel_leaf nd nd' : nrel nd nd' -> trel (TLeaf nd) (TLeaf nd')
| trel_node nd nd' l l' r r' : nrel nd nd' -> trel l l' -> trel r r' -> trel (TNode nd l r) (TNode nd' l' r').

Lemma trel_leaves t t' : trel t t' -> Forall2 nrel (tleaves t) (tleaves t').
Proof. induction 1; cbn; [constructor; [assumption|constructor]|]. apply Forall2_app; assumption. Qed.

Lemma build_sim (p p' : dtp N) k : d_cs p = cs -> d_cs p' = cs -> d_possible p' = d_possible p -> d_nsplits p' = d_nsplits p -> d_minpts p' = d_minpts p ->
  wf_static p -> forall nd nd' t t', nrel nd nd' -> build p k nd = Ok t -> build p' k nd' = Ok t' -> trel t t'.
Proof.
  intros C C' P S M WS. induction k as [|k IH]; intros nd nd' t t' R B B'; cbn [build] in *.
  - inversion B. inversion B'. constructor. exact R.
  - assert (E : is_splittable nd' = is_splittable nd).
    { unfold is_splittable. pose proof R as (_ & _ & R1 & _). apply Hlen in R1. rewrite R1. reflexivity. }
    rewrite E in B'. destruct (is_splittable nd) eqn:Sp; [|inversion B; inversion B'; constructor; exact R].
    unfold calc_best_split in B, B'. rewrite E, Sp in *. cbn [guard bind] in *. rewrite P, S, M, C' in B'. rewrite C in B.
    assert (F : Forall (fun hv => known cs (fst hv)) (candidates (d_possible p) (d_nsplits p))).
    { apply Forall_forall. intros hv Hhv. apply candidates_in in Hhv. unfold wf_static in WS. rewrite C in WS. rewrite Forall_forall in WS. apply WS. apply Hhv. }
    destruct (fold_sim (d_minpts p) nd nd' _ R F None None I) as (c & c' & Ec & Ec' & BR).
    rewrite Ec in B. rewrite Ec' in B'. cbn [bind] in B, B'.
    destruct c as [[q [l r]]|], c' as [[q' [l' r']]|]; cbn in BR; try contradiction.
    + destruct BR as (_ & _ & R1 & R2). inv_bind B. inv_bind B. inv_bind B'. inv_bind B'. inversion B. inversion B'.
      constructor; eauto.
    + inversion B. inversion B'. constructor. exact R.
Qed.
End Sim.

(** ** The arguments with another surrogate, or other samples *)
Section Args.
Context {N : Num}.
Definition with_surrogate (s : setup N) (f : predictor N) : setup N :=
  mksetup (su_cs s) f (su_sel s) (su_samples s) (su_gpa s) (su_splits s) (su_minpts s) (su_nots s).
Definition with_samples (s : setup N) (samples : list (list N)) : setup N :=
  mksetup (su_cs s) (su_predict s) (su_sel s) samples (su_gpa s) (su_splits s) (su_minpts s) (su_nots s).

Lemma wf_root_region (p : dtp N) root : inv p root -> wf_region (length (d_cs p)) (n_region root).
Proof. apply inv_wf. Qed.
Variable L : order_laws N.

(** one relation on the curves of the two roots is enough *)
Lemma partition_sim (Rl : region N -> region N -> Prop) (s s' : setup N) p p' d :
  su_cs s' = su_cs s -> su_sel s' = su_sel s -> su_splits s' = su_splits s -> su_minpts s' = su_minpts s -> su_nots s' = su_nots s ->
  (forall r r' c, Rl r r' -> Rl (sel_region (cond_sat (su_cs s) c) r) (sel_region (cond_sat (su_cs s) c) r')) ->
  (forall r r', Rl r r' -> region_len r = region_len r') ->
  (forall a a' b b' c c' d d', Rl a a' -> Rl b b' -> Rl c c' -> Rl d d' ->
     nlt (nadd (region_loss a) (region_loss b)) (nadd (region_loss c) (region_loss d)) =
     nlt (nadd (region_loss a') (region_loss b')) (nadd (region_loss c') (region_loss d'))) ->
  (forall a a' b b', Rl a a' -> Rl b b' ->
     nltinf (nadd (region_loss a) (region_loss b)) = nltinf (nadd (region_loss a') (region_loss b'))) ->
  (forall sel d d', ice_calculate (alg_of s sel) false (su_predict s) = Ok d -> ice_calculate (alg_of s' sel) false (su_predict s') = Ok d' ->
     Rl (mkregion (i_x d) (i_y d) (i_v d)) (mkregion (i_x d') (i_y d') (i_v d'))) ->
  setup_ok s -> setup_ok s' -> reaches s p -> reaches s' p' -> 0 < d ->
  exists q q' ids ids' leaves leaves', partition p d = (q, Ok ids) /\ partition p' d = (q', Ok ids') /\
    Forall2 (fun id nd => deref q id = Some nd) ids leaves /\ Forall2 (fun id nd => deref q' id = Some nd) ids' leaves' /\
    Forall2 (fun nd nd' => n_depth nd = n_depth nd' /\ n_conds nd = n_conds nd' /\ Rl (n_region nd) (n_region nd') /\
      wf_region (length (su_cs s)) (n_region nd) /\ wf_region (length (su_cs s)) (n_region nd')) leaves leaves'.
Proof.
  intros E1 E2 E3 E4 E5 Hsel Hlen Hlt Hinf Hroot SO SO' R R' Hd.
  destruct (reaches_facts L s p SO R) as (root & dd & sel & ns & F).
  destruct (reaches_facts L s' p' SO' R') as (root' & dd' & sel' & ns' & F').
  destruct (partition_facts L s p root dd sel ns d F Hd) as (q & ids & t & U).
  destruct (partition_facts L s' p' root' dd' sel' ns' d F' Hd) as (q' & ids' & t' & U').
  assert (sel' = sel).
  { pose proof (rf_sel _ _ _ _ _ _ F) as A. pose proof (rf_sel _ _ _ _ _ _ F') as B. rewrite E1, E2 in B. congruence. }
  assert (ns' = ns).
  { pose proof (rf_nots _ _ _ _ _ _ F) as A. pose proof (rf_nots _ _ _ _ _ _ F') as B. rewrite E1, E5 in B. congruence. }
  subst sel' ns'.
  exists q, q', ids, ids', (tleaves t), (tleaves t').
  split; [exact (ru_eq _ _ _ _ _ _ _ U)|]. split; [exact (ru_eq _ _ _ _ _ _ _ U')|].
  split; [exact (ru_leaves _ _ _ _ _ _ _ U)|]. split; [exact (ru_leaves _ _ _ _ _ _ _ U')|].
  apply (trel_leaves Rl (su_cs s)).
  apply (build_sim Rl (su_cs s) Hsel Hlen Hlt Hinf p p' d) with (nd := root) (nd' := root').
  - exact (rf_cs _ _ _ _ _ _ F).
  - rewrite (rf_cs _ _ _ _ _ _ F'). exact E1.
  - rewrite (rf_poss _ _ _ _ _ _ F), (rf_poss _ _ _ _ _ _ F'), E1. reflexivity.
  - rewrite (rf_ns _ _ _ _ _ _ F), (rf_ns _ _ _ _ _ _ F'), E3. reflexivity.
  - rewrite (rf_mp _ _ _ _ _ _ F), (rf_mp _ _ _ _ _ _ F'), E4. reflexivity.
  - apply (inv_static _ _ (rf_inv _ _ _ _ _ _ F)).
  - pose proof (inv_wf _ _ (rf_inv _ _ _ _ _ _ F)) as W. pose proof (inv_wf _ _ (rf_inv _ _ _ _ _ _ F')) as W'.
    rewrite (rf_cs _ _ _ _ _ _ F) in W. rewrite (rf_cs _ _ _ _ _ _ F'), E1 in W'.
    pose proof (rf_root _ _ _ _ _ _ F) as Q. pose proof (rf_root _ _ _ _ _ _ F') as Q'.
    split; [rewrite Q, Q'; reflexivity|]. split; [rewrite Q, Q'; reflexivity|]. split; [|split; assumption].
    rewrite Q, Q'. cbn [n_region]. apply (Hroot sel); [exact (rf_ice _ _ _ _ _ _ F)|exact (rf_ice _ _ _ _ _ _ F')].
  - exact (ru_build _ _ _ _ _ _ _ U).
  - exact (ru_build _ _ _ _ _ _ _ U').
Qed.

(** ** C86: only the standard deviations matter *)
Definition same_curves (r r' : region N) : Prop := r_x r = r_x r' /\ r_v r = r_v r'.

Theorem means_do_not_matter (s : setup N) f p p' d :
  (forall rows ms sd ms' sd', su_predict s rows = Ok (ms, sd) -> f rows = Ok (ms', sd') -> sd = sd') ->
  setup_ok s -> reaches s p -> reaches (with_surrogate s f) p' -> 0 < d ->
  exists q q' ids ids' leaves leaves', partition p d = (q, Ok ids) /\ partition p' d = (q', Ok ids') /\
    Forall2 (fun id nd => deref q id = Some nd) ids leaves /\ Forall2 (fun id nd => deref q' id = Some nd) ids' leaves' /\
    Forall2 (fun nd nd' => n_depth nd = n_depth nd' /\ n_conds nd = n_conds nd' /\
      r_x (n_region nd) = r_x (n_region nd') /\ r_v (n_region nd) = r_v (n_region nd') /\
      region_loss (n_region nd) = region_loss (n_region nd')) leaves leaves'.
Proof.
  intros Hsd SO R R' Hd.
  assert (Eloss : forall r r', same_curves r r' -> region_loss r = region_loss r').
  { intros r r' [_ E]. unfold region_loss. rewrite E. reflexivity. }
  destruct (partition_sim same_curves s (with_surrogate s f) p p' d) as (q & q' & ids & ids' & leaves & leaves' & H1 & H2 & H3 & H4 & H5); auto.
  - intros r r' c [E1 E2]. split; cbn; rewrite E1; [reflexivity|]. rewrite E2. reflexivity.
  - intros r r' [E _]. unfold region_len. rewrite E. reflexivity.
  - intros a a' b b' c c' e e' A B C D. rewrite (Eloss _ _ A), (Eloss _ _ B), (Eloss _ _ C), (Eloss _ _ D). reflexivity.
  - intros a a' b b' A B. rewrite (Eloss _ _ A), (Eloss _ _ B). reflexivity.
  - intros sel e e' H H'. apply ice_calculate_ok in H, H'.
    destruct H as (m & sd & Hx & Hp & y & w & _ & Hw & Hv & _), H' as (m' & sd' & Hx' & Hp' & y' & w' & _ & Hw' & Hv' & _).
    change (ice_x (alg_of (with_surrogate s f) sel)) with (ice_x (alg_of s sel)) in Hx'. rewrite Hx in Hx'. injection Hx' as Ex.
    rewrite <- Ex in Hp'. cbn in Hp'. pose proof (Hsd _ _ _ _ _ Hp Hp') as Es. subst sd'.
    change (num_samples (alg_of (with_surrogate s f) sel)) with (num_samples (alg_of s sel)) in Hw'.
    change (num_grid_points (alg_of (with_surrogate s f) sel)) with (num_grid_points (alg_of s sel)) in Hw'.
    split; cbn; [exact Ex|]. rewrite Hv, Hv'. congruence.
  - exists q, q', ids, ids', leaves, leaves'. repeat (split; [assumption|]).
    eapply Forall2_impl'; [|exact H5]. intros nd nd' (A & B & C & _ & _). pose proof (Eloss _ _ C). destruct C. auto.
Qed.
End Args.

(** ** C88: the unit of the variances does not matter *)
Section Real.
Local Open Scope R_scope.
(** the variances of [r'] are [a] times those of [r] plus [b] *)
Definition affine (a b : R) (G : nat) (r r' : region RNum) : Prop :=
  r_x r = r_x r' /\ Forall2 (Forall2 (fun v v' : R => v' = a * v + b)) (r_v r) (r_v r') /\
  Forall (fun row => length row = G) (r_v r).

Lemma Forall2_flip' {A B} (P : A -> B -> Prop) l r : Forall2 (fun y x => P x y) r l -> Forall2 P l r.
Proof. induction 1; constructor; auto. Qed.
Lemma app_eq_len {A} (a b c d : list A) : length c = length a -> a ++ b = c ++ d -> c = a /\ d = b.
Proof.
  revert c. induction a as [|x a IH]; intros [|y c] H E; cbn in *; try discriminate; auto.
  injection E as -> E. destruct (IH c) as [-> ->]; auto.
Qed.
Lemma Forall2_mask {A B} (P : A -> B -> Prop) m la lb : Forall2 P la lb -> Forall2 P (mask_select m la) (mask_select m lb).
Proof.
  intro F. revert m. induction F as [|x y la lb H F IH]; intros [|[|] m]; cbn; auto.
Qed.

Lemma Forall2_nth_R (P : R -> R -> Prop) row row' k : Forall2 P row row' -> (k < length row)%nat -> P (nth k row 0) (nth k row' 0).
Proof.
  intro F. revert k. induction F as [|x y row row' H F IH]; intros [|k] Hk; cbn in *; try lia; auto. apply IH. lia.
Qed.

Lemma affine_grid a b G r r' k : affine a b G r r' -> (k < G)%nat -> at_grid k (r_v r') = map (fun x => a * x + b) (at_grid k (r_v r)).
Proof.
  intros (_ & F & HG) Hk. unfold at_grid. rewrite map_map. induction F as [|row row' v v' H F IH]; cbn; [reflexivity|].
  inversion HG as [|? ? E HG']; subst. rewrite IH by assumption. f_equal. apply (Forall2_nth_R _ _ _ _ H Hk).
Qed.

Lemma ssd_affine a b l : ssd (Rmean (map (fun x => a * x + b) l)) (map (fun x => a * x + b) l) = a * a * ssd (Rmean l) l.
Proof.
  destruct l as [|x0 l0]; [cbn; ring|]. set (l := x0 :: l0).
  assert (M : Rmean (map (fun x => a * x + b) l) = a * Rmean l + b).
  { unfold Rmean. rewrite map_length, Rsum_map_plus, Rsum_map_scal, Rsum_map_const, map_id. field. subst l. cbn [length]. apply not_0_INR. lia. }
  rewrite M. unfold ssd. rewrite map_map, <- Rsum_map_scal. f_equal. apply map_ext. intro x. ring.
Qed.

Lemma affine_len a b G r r' : affine a b G r r' -> Forall (fun row => length row = G) (r_v r').
Proof.
  intros (_ & F & HG). induction F as [|row row' v v' H F IH]; [constructor|]. inversion HG; subst.
  constructor; [symmetry; exact (Forall2_length _ _ _ H)|auto].
Qed.

Lemma affine_loss a b G r r' : affine a b G r r' -> region_loss r' = a * a * region_loss r.
Proof.
  intro A. rewrite (region_loss_R r G) by apply A. rewrite (region_loss_R r' G) by apply (affine_len _ _ _ _ _ A).
  rewrite !within_ssd, <- Rsum_map_scal. f_equal. apply map_ext_in. intros k Hk. apply in_seq in Hk.
  rewrite (affine_grid a b G r r' k A) by lia. apply ssd_affine.
Qed.

Lemma Rlt_scale c x y x' y' : 0 < c -> x' = c * x -> y' = c * y -> @nlt RNum x y = @nlt RNum x' y'.
Proof.
  intros Hc -> ->. cbn. unfold Rltb.
  destruct (Rlt_dec x y) as [H|H], (Rlt_dec (c * x) (c * y)) as [K|K]; auto; exfalso; nra.
Qed.

Lemma Forall2_rows {A B} (P : A -> B -> Prop) m (w : list (list A)) (w' : list (list B)) :
  length w = length w' -> Forall (fun row => length row = m) w -> Forall (fun row => length row = m) w' ->
  Forall2 P (concat w) (concat w') -> Forall2 (Forall2 P) w w'.
Proof.
  revert w'. induction w as [|row w IH]; intros [|row' w'] Hl F F' H; cbn in *; try discriminate; [constructor|].
  inversion F; inversion F'; subst. apply Forall2_app_inv_l in H. destruct H as (l1 & l2 & H1 & H2 & E).
  assert (EL : length l1 = length row') by (rewrite <- (Forall2_length _ _ _ H1); auto).
  apply app_eq_len in E; [|exact EL]. destruct E; subst. constructor; auto.
Qed.

Theorem scaled_variances (s : setup RNum) f a b p p' d : 0 < a ->
  (forall (rows : list (list RNum)) (ms sd ms' sd' : list RNum), su_predict s rows = Ok (ms, sd) -> f rows = Ok (ms', sd') ->
     Forall2 (fun x x' : R => x' * x' = a * (x * x) + b) sd sd') ->
  setup_ok s -> reaches s p -> reaches (with_surrogate s f) p' -> (0 < d)%nat ->
  exists q q' ids ids' leaves leaves', partition p d = (q, Ok ids) /\ partition p' d = (q', Ok ids') /\
    Forall2 (fun id nd => deref q id = Some nd) ids leaves /\ Forall2 (fun id nd => deref q' id = Some nd) ids' leaves' /\
    Forall2 (fun nd nd' : dnode RNum => n_depth nd = n_depth nd' /\ n_conds nd = n_conds nd' /\ r_x (n_region nd) = r_x (n_region nd') /\
      region_loss (n_region nd') = a * a * region_loss (n_region nd)) leaves leaves'.
Proof.
  intros Ha Hsd SO RE RE' Hd.
  destruct (partition_sim R_order_laws (fun r r' => exists G, affine a b G r r') s (with_surrogate s f) p p' d) as (q & q' & ids & ids' & leaves & leaves' & H1 & H2 & H3 & H4 & H5); auto.
  - intros r r' c (G & E1 & F & HG). exists G. repeat split; cbn.
    + rewrite E1. reflexivity.
    + rewrite E1. apply Forall2_mask. exact F.
    + apply Forall_mask. exact HG.
  - intros r r' (G & E & _). unfold region_len. rewrite E. reflexivity.
  - intros x x' y y' z z' w w' (? & A) (? & B) (? & C) (? & D). apply (Rlt_scale (a * a)); [nra| |];
      rewrite ?(affine_loss _ _ _ _ _ A), ?(affine_loss _ _ _ _ _ B), ?(affine_loss _ _ _ _ _ C), ?(affine_loss _ _ _ _ _ D); cbn; ring.
  - intros sel e e' H H'. apply ice_calculate_ok in H, H'.
    destruct H as (m & sd & Hx & Hp & y & w & _ & Hw & Hv & _), H' as (m' & sd' & Hx' & Hp' & y' & w' & _ & Hw' & Hv' & _).
    change (ice_x (alg_of (with_surrogate s f) sel)) with (ice_x (alg_of s sel)) in Hx'. rewrite Hx in Hx'. injection Hx' as Ex.
    rewrite <- Ex in Hp'. cbn in Hp'. pose proof (Hsd _ _ _ _ _ Hp Hp') as Es.
    change (num_samples (alg_of (with_surrogate s f) sel)) with (num_samples (alg_of s sel)) in Hw'.
    change (num_grid_points (alg_of (with_surrogate s f) sel)) with (num_grid_points (alg_of s sel)) in Hw'.
    apply reshape2_ok in Hw, Hw'. destruct Hw as (Hl & Hwl & Hwf & _ & Hc), Hw' as (Hl' & Hwl' & Hwf' & _ & Hc').
    exists (num_grid_points (alg_of s sel)). split; [exact Ex|]. cbn [r_v]. rewrite Hv, Hv'. split.
    + apply Forall2_map_l, Forall2_flip', Forall2_map_l, Forall2_flip'.
      eapply Forall2_impl'; [|apply (Forall2_rows (fun x x' : R => x' * x' = a * (x * x) + b) _ w w' (eq_trans Hwl (eq_sym Hwl')) Hwf Hwf')].
      2:{ rewrite <- Hc, <- Hc' in Es. exact Es. }
      intros row row' Hr. apply Forall2_map_l, Forall2_flip', Forall2_map_l, Forall2_flip'. exact Hr.
    + apply Forall_map. eapply Forall_impl; [|exact Hwf]. intros row E. rewrite map_length. exact E.
  - exists q, q', ids, ids', leaves, leaves'. repeat (split; [assumption|]).
    eapply Forall2_impl'; [|exact H5]. intros nd nd' (A & B & (G & C) & _ & _). repeat split; auto; [apply C|]. eapply affine_loss. exact C.
Qed.

(** ** C87: the order of the samples does not matter *)
Definition curves (r : region RNum) : list (list (list R) * (list R * list R)) := combine (r_x r) (combine (r_y r) (r_v r)).
Definition shuffled (G : nat) (r r' : region RNum) : Prop :=
  Permutation (curves r) (curves r') /\
  (length (r_y r) = length (r_x r) /\ length (r_v r) = length (r_x r)) /\ (length (r_y r') = length (r_x r') /\ length (r_v r') = length (r_x r')) /\
  Forall (fun row => length row = G) (r_v r).

Lemma curves_sel f (r : region RNum) : length (r_y r) = length (r_x r) -> length (r_v r) = length (r_x r) ->
  curves (sel_region f r) = filter (fun c => f (fst c)) (curves r).
Proof.
  unfold curves, sel_region. cbn. generalize (r_x r) (r_y r) (r_v r). intro x. induction x as [|m x IH]; intros [|y ys] [|v vs] H1 H2; cbn in *; try discriminate; [reflexivity|].
  destruct (f m); cbn; rewrite IH by lia; reflexivity.
Qed.
Lemma curves_v (r : region RNum) : length (r_y r) = length (r_x r) -> length (r_v r) = length (r_x r) -> map (fun c => snd (snd c)) (curves r) = r_v r.
Proof.
  unfold curves. generalize (r_x r) (r_y r) (r_v r). intro x. induction x as [|m x IH]; intros [|y ys] [|v vs] H1 H2; cbn in *; try discriminate; [reflexivity|].
  rewrite IH by lia. reflexivity.
Qed.
Lemma curves_x (r : region RNum) : length (r_y r) = length (r_x r) -> length (r_v r) = length (r_x r) -> map fst (curves r) = r_x r.
Proof.
  unfold curves. generalize (r_x r) (r_y r) (r_v r). intro x. induction x as [|m x IH]; intros [|y ys] [|v vs] H1 H2; cbn in *; try discriminate; [reflexivity|].
  rewrite IH by lia. reflexivity.
Qed.
Lemma perm_filter {A} (f : A -> bool) l l' : Permutation l l' -> Permutation (filter f l) (filter f l').
Proof.
  induction 1; cbn; auto.
  - destruct (f x); auto.
  - destruct (f y), (f x); auto using Permutation_refl. apply perm_swap.
  - eapply perm_trans; eassumption.
Qed.

Lemma shuffled_loss G r r' : shuffled G r r' -> region_loss r = region_loss r'.
Proof.
  intros (P & (A & B) & (A' & B') & HG).
  assert (PV : Permutation (r_v r) (r_v r')).
  { rewrite <- (curves_v r A B), <- (curves_v r' A' B'). apply Permutation_map. exact P. }
  rewrite (region_loss_R r G HG). rewrite (region_loss_R r' G).
  2:{ eapply Permutation_Forall; eassumption. }
  rewrite !within_ssd. f_equal. apply map_ext. intro k.
  assert (PK : Permutation (at_grid k (r_v r)) (at_grid k (r_v r'))) by (apply Permutation_map; exact PV).
  rewrite (Rmean_perm _ _ PK). apply ssd_perm. exact PK.
Qed.

Lemma Forall2_eq {A} (l l' : list A) : Forall2 eq l l' -> l = l'.
Proof. induction 1; congruence. Qed.
Lemma eq_Forall2 {A} (l l' : list A) : l = l' -> Forall2 eq l l'.
Proof. intros <-. induction l; auto. Qed.

(** the ICE data of a surrogate that predicts row by row, sample by sample *)
Lemma rowwise_curves (a : algorithm RNum) (mu sd : list R -> R) f d : rect (num_features a) (a_samples a) ->
  (forall rows : list (list RNum), f rows = Ok (map mu rows, map sd rows)) ->
  ice_calculate a false f = Ok d ->
  exists idx grid, get_selected_idx (a_sel a) (a_cs a) = Ok idx /\ grid_points a = Ok grid /\
    i_x d = map (fun row => map (fun g => assign_row idx g row) grid) (a_samples a) /\
    i_y d = map (map mu) (i_x d) /\ i_v d = map (map (fun x => sd x * sd x)) (i_x d).
Proof.
  intros RC Hf H. pose proof (ice_calculate_shapes a false f d RC H) as (S1 & S2 & S3 & S4 & S5 & S6 & _). apply ice_calculate_ok in H.
  destruct H as (m & sd0 & Hx & Hp & y & w & Hy & Hw & Hv & Hc). rewrite Hf in Hp. injection Hp as <- <-.
  apply (ice_x_closed a _ RC) in Hx. destruct Hx as (idx & grid & Hidx & Hg & Hx). exists idx, grid. repeat (split; [assumption|]).
  injection Hc as <-. apply reshape2_ok in Hy, Hw. destruct Hy as (_ & Hyl & Hyf & _ & Hyc), Hw as (_ & Hwl & Hwf & _ & Hwc).
  assert (K : forall (h : list R -> R) (z : list (list R)), length z = num_samples a -> Forall (fun row => length row = num_grid_points a) z ->
    concat z = map h (concat (i_x d)) -> z = map (map h) (i_x d)).
  { intros h z Hl Hz Hzc. apply Forall2_eq. eapply Forall2_impl'; [intros u v; exact (@Forall2_eq R u v)|].
    apply (Forall2_rows eq (num_grid_points a)); [rewrite map_length; exact (eq_trans Hl (eq_sym S1))|exact Hz| |].
    - apply Forall_map. refine (Forall_impl _ _ S4). intros row E. rewrite map_length. exact E.
    - apply eq_Forall2. rewrite Hzc. apply concat_map. }
  split; [apply K; auto|]. rewrite Hv, (K sd w Hwl Hwf Hwc), map_map. apply map_ext. intro row. rewrite map_map. reflexivity.
Qed.

Theorem order_of_samples (s : setup RNum) (mu sd : list R -> R) samples' p p' d :
  (forall rows : list (list RNum), su_predict s rows = Ok (map mu rows, map sd rows)) -> Permutation (su_samples s) samples' ->
  setup_ok s -> reaches s p -> reaches (with_samples s samples') p' -> (0 < d)%nat ->
  exists q q' ids ids' leaves leaves', partition p d = (q, Ok ids) /\ partition p' d = (q', Ok ids') /\
    Forall2 (fun id nd => deref q id = Some nd) ids leaves /\ Forall2 (fun id nd => deref q' id = Some nd) ids' leaves' /\
    Forall2 (fun nd nd' : dnode RNum => n_depth nd = n_depth nd' /\ n_conds nd = n_conds nd' /\
      Permutation (curves (n_region nd)) (curves (n_region nd')) /\ region_loss (n_region nd) = region_loss (n_region nd')) leaves leaves'.
Proof.
  intros Hrow PS SO RE RE' Hd.
  assert (SO' : setup_ok (with_samples s samples')).
  { destruct SO as (A & B & C). split; [exact A|]. split; [|exact C]. cbn. eapply Permutation_Forall; eassumption. }
  destruct (partition_sim R_order_laws (fun r r' => exists G, shuffled G r r') s (with_samples s samples') p p' d) as (q & q' & ids & ids' & leaves & leaves' & H1 & H2 & H3 & H4 & H5); auto.
  - intros r r' c (G & P & (A & B) & (A' & B') & HG). exists G. split; [|split; [|split]].
    + rewrite !curves_sel by assumption. apply perm_filter. exact P.
    + cbn. split; apply mask_select_length; assumption.
    + cbn. split; apply mask_select_length; assumption.
    + cbn. apply Forall_mask. exact HG.
  - intros r r' (G & P & (A & B) & (A' & B') & _). unfold region_len. rewrite <- (curves_x r A B), <- (curves_x r' A' B'), !map_length.
    apply Permutation_length. exact P.
  - intros x x' y y' z z' w w' (? & A) (? & B) (? & C) (? & D).
    rewrite (shuffled_loss _ _ _ A), (shuffled_loss _ _ _ B), (shuffled_loss _ _ _ C), (shuffled_loss _ _ _ D). reflexivity.
  - intros sel e e' H H'.
    assert (RC : rect (num_features (alg_of s sel)) (a_samples (alg_of s sel))) by apply SO.
    assert (RC' : rect (num_features (alg_of (with_samples s samples') sel)) (a_samples (alg_of (with_samples s samples') sel))) by apply SO'.
    pose proof (ice_calculate_shapes _ _ _ _ RC H) as (_ & S2 & S3 & _ & _ & S6 & _).
    destruct (rowwise_curves _ mu sd _ e RC Hrow H) as (idx & grid & Hi & Hg & Ex & Ey & Ev).
    destruct (rowwise_curves _ mu sd _ e' RC' Hrow H') as (idx' & grid' & Hi' & Hg' & Ex' & Ey' & Ev').
    change (get_selected_idx (a_sel (alg_of (with_samples s samples') sel)) (a_cs (alg_of (with_samples s samples') sel)))
      with (get_selected_idx (a_sel (alg_of s sel)) (a_cs (alg_of s sel))) in Hi'.
    change (grid_points (alg_of (with_samples s samples') sel)) with (grid_points (alg_of s sel)) in Hg'.
    rewrite Hi in Hi'. injection Hi' as <-. rewrite Hg in Hg'. injection Hg' as <-.
    exists (num_grid_points (alg_of s sel)). split; [|split; [|split]]; cbn [r_x r_y r_v].
    + unfold curves. cbn [r_x r_y r_v]. rewrite Ey, Ev, Ey', Ev'.
      assert (K : forall x : list (list (list R)), combine x (combine (map (map mu) x) (map (map (fun x => sd x * sd x)) x)) =
        map (fun m => (m, (map mu m, map (fun x => sd x * sd x) m))) x).
      { induction x as [|m x IH]; cbn; [reflexivity|]. rewrite IH. reflexivity. }
      rewrite !K. apply Permutation_map. rewrite Ex, Ex'. apply Permutation_map. exact PS.
    + rewrite Ey, Ev, !map_length. auto.
    + rewrite Ey', Ev', !map_length. auto.
    + exact S6.
  - exists q, q', ids, ids', leaves, leaves'. repeat (split; [assumption|]).
    eapply Forall2_impl'; [|exact H5]. intros nd nd' (A & B & (G & C) & _ & _). repeat split; auto; [apply C|]. eapply shuffled_loss. exact C.
Qed.
End Real.

(** ** C89: a deeper tree refines a shallower one *)
Section Deeper.
Context {N : Num}.
Lemma build_deeper (p : dtp N) k j : forall nd t t', build p k nd = Ok t -> build p (k + j) nd = Ok t' ->
  exists groups, tleaves t' = concat groups /\
    Forall2 (fun leaf g => exists i u, build p i leaf = Ok u /\ g = tleaves u) (tleaves t) groups.
Proof.
  induction k as [|k IH]; intros nd t t' B B'.
  - inversion B; subst. exists [tleaves t']. cbn. rewrite app_nil_r. split; [reflexivity|]. constructor; [|constructor]. eauto.
  - cbn [build Nat.add] in B, B'. destruct (is_splittable nd) eqn:Sp.
    2:{ inversion B; inversion B'; subst. exists [[nd]]. split; [reflexivity|]. constructor; [|constructor]. exists 0%nat, (TLeaf nd). split; reflexivity. }
    inv_bind B. destruct x as [[l r]|].
    + rewrite E in B'. cbn [bind] in B'. inv_bind B. inv_bind B. inv_bind B'. inv_bind B'. inversion B; inversion B'; subst. cbn.
      destruct (IH _ _ _ E0 E2) as (gl & El & Fl). destruct (IH _ _ _ E1 E3) as (gr & Er & Fr).
      exists (gr ++ gl). split; [rewrite concat_app, El, Er; reflexivity|]. apply Forall2_app; assumption.
    + rewrite E in B'. cbn [bind] in B'. inversion B; inversion B'; subst. exists [[nd]]. split; [reflexivity|].
      constructor; [|constructor]. exists 0%nat, (TLeaf nd). split; reflexivity.
Qed.

Variable L : order_laws N.
Lemma deeper_facts (s : setup N) p d d' : setup_ok s -> reaches s p -> 0 < d -> d <= d' ->
  exists q q' ids ids' leaves groups, partition p d = (q, Ok ids) /\ partition p d' = (q', Ok ids') /\
    Forall2 (fun id nd => deref q id = Some nd) ids leaves /\ Forall2 (fun id nd => deref q' id = Some nd) ids' (concat groups) /\
    Forall2 (fun leaf g => wf_region (length (su_cs s)) (n_region leaf) /\ exists i u, build p i leaf = Ok u /\ grown p i u /\ g = tleaves u) leaves groups /\
    d_cs p = su_cs s /\ (forall h, In h (d_possible p) -> In h (su_cs s)).
Proof.
  intros SO RE Hd Hle.
  destruct (reaches_facts L s p SO RE) as (root & dd & sel & ns & F).
  destruct (partition_facts L s p root dd sel ns d F Hd) as (q & ids & t & U).
  destruct (partition_facts L s p root dd sel ns d' F ltac:(lia)) as (q' & ids' & t' & U').
  pose proof (ru_build _ _ _ _ _ _ _ U') as B'. replace d' with (d + (d' - d)) in B' by lia.
  destruct (build_deeper p d (d' - d) root t t' (ru_build _ _ _ _ _ _ _ U) B') as (groups & E & FG).
  exists q, q', ids, ids', (tleaves t), groups. split; [exact (ru_eq _ _ _ _ _ _ _ U)|]. split; [exact (ru_eq _ _ _ _ _ _ _ U')|].
  split; [exact (ru_leaves _ _ _ _ _ _ _ U)|]. rewrite <- E. split; [exact (ru_leaves _ _ _ _ _ _ _ U')|]. split; [|split; [exact (rf_cs _ _ _ _ _ _ F)|]].
  2:{ intros h Hh. rewrite (rf_poss _ _ _ _ _ _ F) in Hh. apply split_parameters_spec in Hh. apply Hh. }
  pose proof (inv_wf _ _ (rf_inv _ _ _ _ _ _ F)) as W. rewrite (rf_cs _ _ _ _ _ _ F) in W.
  assert (WL : forall leaf, In leaf (tleaves t) -> wf_region (length (su_cs s)) (n_region leaf)).
  { intros leaf Hin. apply tleaves_tnodes in Hin. pose proof (ru_troot _ _ _ _ _ _ _ U) as RT.
    destruct (tree_nodes p d t (ru_grown _ _ _ _ _ _ _ U)) with (nd := leaf) as (suf & _ & _ & _ & Er & _); auto; rewrite ?RT; try apply W.
    rewrite Er, RT. apply sel_region_wf. exact W. }
  pose proof (inv_static _ _ (rf_inv _ _ _ _ _ _ F)) as WS.
  clear E U U' B'. induction FG as [|leaf g leaves groups (i & u & B & Eg) FG IH]; constructor.
  - assert (Wl : wf_region (length (su_cs s)) (n_region leaf)) by (apply WL; left; reflexivity). split; [exact Wl|].
    exists i, u. split; [exact B|]. split; [|exact Eg].
    destruct (build_ok L p i leaf WS) as (u' & B2 & G & _); [rewrite (rf_cs _ _ _ _ _ _ F); exact Wl|]. congruence.
  - apply IH. intros leaf' Hin. apply WL. right. exact Hin.
Qed.

Theorem deeper_refines (s : setup N) p d d' : setup_ok s -> reaches s p -> 0 < d -> d <= d' ->
  exists q q' ids ids' leaves groups, partition p d = (q, Ok ids) /\ partition p d' = (q', Ok ids') /\
    Forall2 (fun id nd => deref q id = Some nd) ids leaves /\ Forall2 (fun id nd => deref q' id = Some nd) ids' (concat groups) /\
    Forall2 (fun nd g => g <> [] /\ Forall (fun nd' => exists more idxs, n_conds nd' = n_conds nd ++ more /\ n_depth nd' = n_depth nd + length more /\
      is_rows (n_region nd) idxs (n_region nd')) g) leaves groups.
Proof.
  intros SO RE Hd Hle. destruct (deeper_facts s p d d' SO RE Hd Hle) as (q & q' & ids & ids' & leaves & groups & H1 & H2 & H3 & H4 & H5 & Ecs & Hposs).
  exists q, q', ids, ids', leaves, groups. repeat (split; [assumption|]).
  eapply Forall2_impl'; [|exact H5]. intros nd g (W & i & u & B & G & ->). pose proof (build_root p i nd u B) as RT. split.
  { pose proof (tree_leaf_count p i u G). destruct (tleaves u); cbn in *; [lia|discriminate]. }
  apply Forall_forall. intros nd' Hin. apply tleaves_tnodes in Hin.
  destruct (tree_nodes p i u G) with (nd := nd') as (suf & Ec & Ed & _ & Er & _); auto; rewrite ?RT; try apply W.
  exists suf. rewrite RT in *. rewrite Er. eexists. split; [exact Ec|]. split; [exact Ed|]. apply sel_region_rows; apply W.
Qed.
End Deeper.

Theorem deeper_loss (s : setup RNum) p d d' : setup_ok s -> reaches s p -> 0 < d -> d <= d' ->
  exists q q' ids ids' leaves groups, partition p d = (q, Ok ids) /\ partition p d' = (q', Ok ids') /\
    Forall2 (fun id nd => deref q id = Some nd) ids leaves /\ Forall2 (fun id nd => deref q' id = Some nd) ids' (concat groups) /\
    Forall2 (fun (nd : dnode RNum) g => (Rsum (map (fun nd' : dnode RNum => region_loss (n_region nd')) g) <= region_loss (n_region nd))%R) leaves groups /\
    (Rsum (map (fun nd' : dnode RNum => region_loss (n_region nd')) (concat groups)) <= Rsum (map (fun nd : dnode RNum => region_loss (n_region nd)) leaves))%R.
Proof.
  intros SO RE Hd Hle. destruct (deeper_facts R_order_laws s p d d' SO RE Hd Hle) as (q & q' & ids & ids' & leaves & groups & H1 & H2 & H3 & H4 & H5 & Ecs & Hposs).
  exists q, q', ids, ids', leaves, groups. repeat (split; [assumption|]).
  assert (K : forall i u, grown p i u -> wf_region (length (su_cs s)) (n_region (troot u)) ->
    (Rsum (map (fun nd' : dnode RNum => region_loss (n_region nd')) (tleaves u)) <= region_loss (n_region (troot u)))%R).
  { intros i u. revert i. induction u as [nd|nd l IHl r IHr]; intros i G W; cbn [tleaves troot] in *.
    - cbn. lra.
    - assert (E : exists j, i = S j) by (inversion G; eauto). destruct E as [j ->].
      destruct (grown_child p j nd l r G) as (h & v & Hh & Hv & Rl & Rr & _ & _ & Gl & Gr & _).
      rewrite map_app, Rsum_app. specialize (IHl j Gl). specialize (IHr j Gr). rewrite Rl in IHl. rewrite Rr in IHr. rewrite Ecs in *.
      specialize (IHl (sel_region_wf _ _ _ W)). specialize (IHr (sel_region_wf _ _ _ W)).
      destruct (split_never_increases_loss (su_cs s) nd h v W) as (l' & r' & Esp & Hloss).
      { apply Hposs. exact Hh. }
      destruct (cs_idx_in (su_cs s) h (Hposs h Hh)) as (ix & Hix).
      rewrite (split_ok (su_cs s) nd h v W) in Esp by (exists ix; exact Hix). injection Esp as <- <-.
      cbn [n_region child] in *. lra. }
  assert (F : Forall2 (fun (nd : dnode RNum) g => (Rsum (map (fun nd' : dnode RNum => region_loss (n_region nd')) g) <= region_loss (n_region nd))%R) leaves groups).
  { eapply Forall2_impl'; [|exact H5]. intros nd g (W & i & u & B & G & ->). pose proof (build_root p i nd u B) as RT. rewrite <- RT. rewrite <- RT in W. eauto. }
  split; [exact F|]. clear - F. induction F as [|nd g leaves groups H F IH]; [cbn; lra|]. cbn [concat map Rsum]. rewrite map_app, Rsum_app. apply Rplus_le_compat; [exact H|exact IH].
Qed.
