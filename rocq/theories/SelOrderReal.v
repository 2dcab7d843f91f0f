(** SelOrderReal.v - PDPs, the two orders of two hyperparameters, and trees under another order of the selection (C100). *)
From Coq Require Import Reals Lra Permutation.
From Verif Require Import Base Num NumLaws NumpyModel ConfigSpaceModel UtilsModel IceModel PartitionModel PartitionSpec ListLemmas IceProofs IceProofs2
  UtilsProofs PartitionProofs PartitionProofs2 PartitionProofs3 PartitionProofs4 PartitionProofs5 RealProofs RealSums PartitionReal PartitionReal2 PartitionMeta
  IceShapeSpec IceShapeProofs SelOrderSpec SelOrderProofs.
Local Open Scope nat_scope.
Local Open Scope list_scope.

Section Pdp.
Context {N : Num}.
Lemma reordered_column {A} G sigma (rows rows' : list (list A)) e g : Forall2 (reordered G sigma) rows rows' -> g < G -> column e g rows' = column e (sigma g) rows.
Proof.
  intros F Hg. unfold column. induction F as [|r r' rows rows' (L & L' & E) F IH]; cbn; [reflexivity|]. rewrite IH. f_equal.
  assert (Lt : g < length r') by lia. specialize (E g Hg). rewrite (nth_error_nth' r' e Lt) in E. symmetry in E. symmetry. apply nth_error_nth_some. exact E.
Qed.
Lemma reordered_mean G sigma (rows rows' : list (list N)) : shuffles G sigma -> Forall2 (reordered G sigma) rows rows' -> reordered G sigma (mean_axis0 G rows) (mean_axis0 G rows').
Proof.
  intros [B _] F. unfold mean_axis0. refine (conj _ (conj _ _)); [rewrite map_length, seq_length; reflexivity|rewrite map_length, seq_length; reflexivity|].
  intros g Hg. rewrite !nth_error_map_seq by auto. f_equal. f_equal. apply (reordered_column G); assumption.
Qed.
Lemma reordered_mean3 G nf sigma (x x' : list (list (list N))) : shuffles G sigma -> Forall2 (reordered G sigma) x x' -> reordered G sigma (mean3_axis0 G nf x) (mean3_axis0 G nf x').
Proof.
  intros [B _] F. unfold mean3_axis0. refine (conj _ (conj _ _)); [rewrite map_length, seq_length; reflexivity|rewrite map_length, seq_length; reflexivity|].
  intros g Hg. rewrite !nth_error_map_seq by auto. f_equal. apply map_ext. intro j. f_equal.
  pose proof (reordered_column G sigma x x' [] g F Hg) as E. unfold column in E.
  apply (f_equal (map (fun r => nth j r n0))) in E. rewrite !map_map in E. exact E.
Qed.
Lemma set_nth_comm {A} i j (v w : A) l : i <> j -> set_nth i v (set_nth j w l) = set_nth j w (set_nth i v l).
Proof.
  revert i j. induction l as [|x l IH]; intros i j H; [destruct i, j; reflexivity|]. destruct i as [|i], j as [|j]; cbn; try reflexivity; [congruence|]. f_equal. apply IH. congruence.
Qed.
Theorem selection_order_pdp (a : algorithm N) sel' f s d : NoDup (map hp_name (a_cs a)) -> NoDup (map hp_name (a_sel a)) -> Permutation (a_sel a) sel' ->
  rect (num_features a) (a_samples a) -> ice_calculate a false (rowwise f s) = Ok d ->
  exists d' sigma, ice_calculate (with_selected a sel') false (rowwise f s) = Ok d' /\ shuffles (num_grid_points a) sigma /\
    reordered (num_grid_points a) sigma (x_pdp a d) (x_pdp (with_selected a sel') d') /\
    reordered (num_grid_points a) sigma (y_pdp a d) (y_pdp (with_selected a sel') d') /\
    reordered (num_grid_points a) sigma (v_pdp a d) (v_pdp (with_selected a sel') d').
Proof.
  intros ND NS P RC H. destruct (selection_order a sel' f s d ND NS P RC H) as (d' & sigma & H' & Sh & _ & Fx & Fy & Fv). exists d', sigma.
  assert (NG : num_grid_points (with_selected a sel') = num_grid_points a) by (unfold num_grid_points, n_selected; cbn [a_gpa a_sel with_selected]; rewrite (Permutation_length P); reflexivity).
  refine (conj H' (conj Sh _)). unfold x_pdp, y_pdp, v_pdp. rewrite NG.
  refine (conj _ (conj _ _)).
  - apply reordered_mean3; assumption.
  - apply reordered_mean; assumption.
  - apply reordered_mean; assumption.
Qed.

(** both kinds of curves, entry by entry *)
Lemma reordered_at2 G sigma (y y' : list (list N)) i g : Forall2 (reordered G sigma) y y' -> g < G -> at2 y' i g = at2 y i (sigma g).
Proof.
  intros F Hg. unfold at2. revert i. induction F as [|r r' y y' (_ & _ & E) F IH]; intros [|i]; cbn; auto.
Qed.
Lemma reordered_at3 G sigma (y y' : list (list (list N))) i g : Forall2 (reordered G sigma) y y' -> g < G -> at3 y' i g = at3 y i (sigma g).
Proof.
  intros F Hg. unfold at3. revert i. induction F as [|r r' y y' (_ & _ & E) F IH]; intros [|i]; cbn; auto.
Qed.
Theorem selection_order_curves (a : algorithm N) sel' f s d : NoDup (map hp_name (a_cs a)) -> NoDup (map hp_name (a_sel a)) -> Permutation (a_sel a) sel' ->
  rect (num_features a) (a_samples a) -> 1 <= a_gpa a -> ice_calculate a false (rowwise f s) = Ok d ->
  exists sigma, shuffles (num_grid_points a) sigma /\ forall centered, exists d d',
    ice_calculate a centered (rowwise f s) = Ok d /\ ice_calculate (with_selected a sel') centered (rowwise f s) = Ok d' /\
    forall i g, i < num_samples a -> g < num_grid_points a -> at3 (i_x d') i g = at3 (i_x d) i (sigma g) /\ at2 (i_y d') i g = at2 (i_y d) i (sigma g) /\ at2 (i_v d') i g = at2 (i_v d) i (sigma g).
Proof.
  intros ND NS P RC G1 H. destruct (selection_order a sel' f s d ND NS P RC H) as (d' & sigma & H' & Sh & S0 & Fx & Fy & Fv).
  exists sigma. split; [exact Sh|]. intros [|].
  - destruct (centered_curves a (rowwise f s) d RC G1 H) as (e & He & Ex & Ev & Ec).
    destruct (centered_curves (with_selected a sel') (rowwise f s) d' RC G1 H') as (e' & He' & Ex' & Ev' & Ec').
    exists e, e'. refine (conj He (conj He' _)). intros i g Li Hg. rewrite Ex, Ex', Ev, Ev'.
    assert (G0 : 0 < num_grid_points a) by lia.
    assert (T : forall k, k < num_grid_points a -> exists v, at2 (i_y d) i k = Some v).
    { intros k Hk. destruct (rowwise_closed a f s d RC H) as (idx & grid & _ & _ & Lg & Ed). subst d. cbn [i_y]. rewrite at2_closed.
      destruct (nth_error (a_samples a) i) as [row|] eqn:Er; [|apply nth_error_None in Er; unfold num_samples in Li; lia].
      destruct (nth_error grid k) as [gp|] eqn:Eg; [eauto|apply nth_error_None in Eg; lia]. }
    destruct (T (sigma g) (proj1 Sh g Hg)) as (v & Hv). destruct (T 0 G0) as (v0 & Hv0).
    pose proof (reordered_at2 _ _ _ _ i g Fy Hg) as A. pose proof (reordered_at2 _ _ _ _ i 0 Fy G0) as B. rewrite S0 in B by lia. rewrite Hv in A. rewrite Hv0 in B.
    refine (conj (reordered_at3 _ _ _ _ i g Fx Hg) (conj _ (reordered_at2 _ _ _ _ i g Fv Hg))).
    rewrite (Ec _ _ _ _ Hv Hv0), (Ec' _ _ _ _ A B). reflexivity.
  - exists d, d'. refine (conj H (conj H' _)).
    intros i g _ Hg. refine (conj _ (conj _ _)); [apply (reordered_at3 (num_grid_points a))|apply (reordered_at2 (num_grid_points a))|apply (reordered_at2 (num_grid_points a))]; assumption.
Qed.

(** two hyperparameters: the point with the first at position [k1] and the second at [k2] of the axis *)
Theorem two_orders (a : algorithm N) h1 h2 f s d d' : a_sel a = [h1; h2] -> hp_name h1 <> hp_name h2 -> NoDup (map hp_name (a_cs a)) ->
  rect (num_features a) (a_samples a) -> ice_calculate a false (rowwise f s) = Ok d -> ice_calculate (with_selected a [h2; h1]) false (rowwise f s) = Ok d' ->
  forall i k1 k2, k1 < a_gpa a -> k2 < a_gpa a ->
    at3 (i_x d') i (k1 * a_gpa a + k2) = at3 (i_x d) i (k2 * a_gpa a + k1) /\
    at2 (i_y d') i (k1 * a_gpa a + k2) = at2 (i_y d) i (k2 * a_gpa a + k1) /\
    at2 (i_v d') i (k1 * a_gpa a + k2) = at2 (i_v d) i (k2 * a_gpa a + k1).
Proof.
  intros Es Hne ND RC H H' i k1 k2 L1 L2.
  destruct (rowwise_closed a f s d RC H) as (idx & grid & Hi & Hg & _ & ->).
  destruct (rowwise_closed (with_selected a [h2; h1]) f s d' RC H') as (idx' & grid' & Hi' & Hg' & _ & ->).
  cbn [i_x i_y i_v a_samples with_selected].
  unfold grid_points, n_selected in Hg, Hg'. cbn [a_gpa a_sel with_selected] in Hg'. rewrite Es in Hg, Hi. cbn [a_sel a_cs with_selected length] in *.
  assert (grid' = grid) by congruence. subst grid'. clear Hg'.
  unfold get_selected_idx in Hi, Hi'. cbn [mapM] in Hi, Hi'.
  destruct (cs_idx (a_cs a) (hp_name h1)) as [j1|] eqn:E1; [|discriminate]. destruct (cs_idx (a_cs a) (hp_name h2)) as [j2|] eqn:E2; [|discriminate].
  cbn in Hi, Hi'. injection Hi as <-. injection Hi' as <-.
  destruct (cs_idx_spec _ _ _ E1) as (q1 & Q1 & n1' & _). destruct (cs_idx_spec _ _ _ E2) as (q2 & Q2 & n2' & _).
  assert (Hj : j1 <> j2) by (intros ->; congruence).
  destruct (mesh_rows _ _ _ Hg) as [_ K]. rewrite linspace_length in K.
  assert (P : forall k k', k < a_gpa a -> k' < a_gpa a -> nth_error grid (k' * a_gpa a + k) = Some [nth k (linspace n0 n1 (a_gpa a)) n0; nth k' (linspace n0 n1 (a_gpa a)) n0]).
  { intros k k' Lk Lk'. destruct (K [k'; k]) as (q & _ & Hq & Eq & _); [split; [reflexivity|]; repeat constructor; assumption|].
    cbn [from_digits length Nat.pow] in Eq. rewrite Nat.mul_1_r, Nat.mul_1_r, Nat.add_0_r in Eq. subst q. exact Hq. }
  pose proof (P k1 k2 L1 L2) as PA. pose proof (P k2 k1 L2 L1) as PB.
  assert (A : forall row : list N, assign_row [j2; j1] [nth k2 (linspace n0 n1 (a_gpa a)) n0; nth k1 (linspace n0 n1 (a_gpa a)) n0] row =
                          assign_row [j1; j2] [nth k1 (linspace n0 n1 (a_gpa a)) n0; nth k2 (linspace n0 n1 (a_gpa a)) n0] row).
  { intro row. unfold assign_row. cbn. apply set_nth_comm. congruence. }
  rewrite !at3_closed, !at2_closed, PA, PB.
  destruct (nth_error (a_samples a) i) as [row|]; [|auto]. rewrite A. auto.
Qed.
End Pdp.


(** ** trees *)
Section Sim.
Context {N : Num}.
Variable L : order_laws N.
(** PartitionMeta.partition_sim for partitioners with other selections that leave the same hyperparameters to split on *)
Lemma partition_sim_sel (Rl : region N -> region N -> Prop) (s s' : setup N) p p' d :
  su_cs s' = su_cs s -> su_splits s' = su_splits s -> su_minpts s' = su_minpts s -> su_nots s' = su_nots s ->
  (forall r r' c, Rl r r' -> Rl (sel_region (cond_sat (su_cs s) c) r) (sel_region (cond_sat (su_cs s) c) r')) ->
  (forall r r', Rl r r' -> region_len r = region_len r') ->
  (forall a a' b b' c c' d d', Rl a a' -> Rl b b' -> Rl c c' -> Rl d d' ->
     nlt (nadd (region_loss a) (region_loss b)) (nadd (region_loss c) (region_loss d)) =
     nlt (nadd (region_loss a') (region_loss b')) (nadd (region_loss c') (region_loss d'))) ->
  (forall a a' b b', Rl a a' -> Rl b b' ->
     nltinf (nadd (region_loss a) (region_loss b)) = nltinf (nadd (region_loss a') (region_loss b'))) ->
  (forall sel sel' d d', convert_hyperparameters (su_sel s) (su_cs s) = Ok sel -> convert_hyperparameters (su_sel s') (su_cs s) = Ok sel' ->
     ice_calculate (alg_of s sel) false (su_predict s) = Ok d -> ice_calculate (alg_of s' sel') false (su_predict s') = Ok d' ->
     (forall ns, split_parameters (su_cs s) sel' ns = split_parameters (su_cs s) sel ns) /\
     Rl (mkregion (i_x d) (i_y d) (i_v d)) (mkregion (i_x d') (i_y d') (i_v d'))) ->
  setup_ok s -> setup_ok s' -> reaches s p -> reaches s' p' -> 0 < d ->
  exists q q' ids ids' leaves leaves', partition p d = (q, Ok ids) /\ partition p' d = (q', Ok ids') /\
    Forall2 (fun id nd => deref q id = Some nd) ids leaves /\ Forall2 (fun id nd => deref q' id = Some nd) ids' leaves' /\
    Forall2 (fun nd nd' => n_depth nd = n_depth nd' /\ n_conds nd = n_conds nd' /\ Rl (n_region nd) (n_region nd') /\
      wf_region (length (su_cs s)) (n_region nd) /\ wf_region (length (su_cs s)) (n_region nd')) leaves leaves'.
Proof.
  intros E1 E3 E4 E5 Hsel Hlen Hlt Hinf Hroot SO SO' R R' Hd.
  destruct (reaches_facts L s p SO R) as (root & dd & sel & ns & F).
  destruct (reaches_facts L s' p' SO' R') as (root' & dd' & sel' & ns' & F').
  destruct (partition_facts L s p root dd sel ns d F Hd) as (q & ids & t & U).
  destruct (partition_facts L s' p' root' dd' sel' ns' d F' Hd) as (q' & ids' & t' & U').
  assert (ns' = ns).
  { pose proof (rf_nots _ _ _ _ _ _ F) as A. pose proof (rf_nots _ _ _ _ _ _ F') as B. rewrite E1, E5 in B. congruence. }
  subst ns'.
  pose proof (rf_sel _ _ _ _ _ _ F) as Cs. pose proof (rf_sel _ _ _ _ _ _ F') as Cs'. rewrite E1 in Cs'.
  destruct (Hroot sel sel' dd dd' Cs Cs' (rf_ice _ _ _ _ _ _ F) (rf_ice _ _ _ _ _ _ F')) as [Sp RR].
  exists q, q', ids, ids', (tleaves t), (tleaves t').
  split; [exact (ru_eq _ _ _ _ _ _ _ U)|]. split; [exact (ru_eq _ _ _ _ _ _ _ U')|].
  split; [exact (ru_leaves _ _ _ _ _ _ _ U)|]. split; [exact (ru_leaves _ _ _ _ _ _ _ U')|].
  apply (trel_leaves Rl (su_cs s)).
  apply (build_sim Rl (su_cs s) Hsel Hlen Hlt Hinf p p' d) with (nd := root) (nd' := root').
  - exact (rf_cs _ _ _ _ _ _ F).
  - rewrite (rf_cs _ _ _ _ _ _ F'). exact E1.
  - rewrite (rf_poss _ _ _ _ _ _ F), (rf_poss _ _ _ _ _ _ F'), E1. apply Sp.
  - rewrite (rf_ns _ _ _ _ _ _ F), (rf_ns _ _ _ _ _ _ F'), E3. reflexivity.
  - rewrite (rf_mp _ _ _ _ _ _ F), (rf_mp _ _ _ _ _ _ F'), E4. reflexivity.
  - apply (inv_static _ _ (rf_inv _ _ _ _ _ _ F)).
  - pose proof (inv_wf _ _ (rf_inv _ _ _ _ _ _ F)) as W. pose proof (inv_wf _ _ (rf_inv _ _ _ _ _ _ F')) as W'.
    rewrite (rf_cs _ _ _ _ _ _ F) in W. rewrite (rf_cs _ _ _ _ _ _ F'), E1 in W'.
    pose proof (rf_root _ _ _ _ _ _ F) as Q. pose proof (rf_root _ _ _ _ _ _ F') as Q'.
    split; [rewrite Q, Q'; reflexivity|]. split; [rewrite Q, Q'; reflexivity|]. split; [|split; assumption].
    rewrite Q, Q'. cbn [n_region]. exact RR.
  - exact (ru_build _ _ _ _ _ _ _ U).
  - exact (ru_build _ _ _ _ _ _ _ U').
Qed.
End Sim.

Section Real.
Local Open Scope R_scope.
Definition regrid (G : nat) (sigma : nat -> nat) (r r' : region RNum) : Prop :=
  Forall2 (reordered G sigma) (r_x r) (r_x r') /\ Forall2 (reordered G sigma) (r_y r) (r_y r') /\ Forall2 (reordered G sigma) (r_v r) (r_v r').
Lemma shuffles_perm G sigma : shuffles G sigma -> Permutation (map sigma (seq 0 G)) (seq 0 G).
Proof.
  intros [B I]. apply Permutation_sym, NoDup_Permutation_bis.
  - apply seq_NoDup.
  - rewrite map_length. reflexivity.
  - assert (N : NoDup (map sigma (seq 0 G))).
    { apply NoDup_nth_error. intros i j Hi E. rewrite map_length, seq_length in Hi. rewrite (nth_error_map_seq sigma) in E by exact Hi.
      destruct (Nat.lt_ge_cases j G) as [Hj|Hj].
      - rewrite (nth_error_map_seq sigma) in E by exact Hj. injection E as E. apply I; assumption.
      - rewrite (proj2 (nth_error_None (map sigma (seq 0 G)) j)) in E; [discriminate|]. rewrite map_length, seq_length. exact Hj. }
    apply NoDup_length_incl; [exact N|rewrite map_length; reflexivity|].
    intros x Hx. apply in_map_iff in Hx. destruct Hx as (g & <- & Hg). apply in_seq in Hg. apply in_seq. cbn in *. split; [lia|]. apply B. lia.
Qed.
Lemma regrid_loss G sigma r r' : shuffles G sigma -> regrid G sigma r r' -> region_loss r' = region_loss r.
Proof.
  intros S (_ & _ & F).
  assert (LG : Forall (fun row => length row = G) (r_v r) /\ Forall (fun row => length row = G) (r_v r')).
  { clear S. induction F as [|x x' l l' (A & B & _) F [IH1 IH2]]; split; constructor; assumption. }
  rewrite (region_loss_R r G) by apply LG. rewrite (region_loss_R r' G) by apply LG. rewrite !within_ssd.
  rewrite (Rsum_perm _ _ (Permutation_map (fun k => ssd (Rmean (at_grid k (r_v r))) (at_grid k (r_v r))) (Permutation_sym (shuffles_perm G sigma S)))).
  rewrite map_map. f_equal. apply map_ext_in. intros g Hg. apply in_seq in Hg.
  assert (E : at_grid g (r_v r') = at_grid (sigma g) (r_v r)) by (apply (reordered_column G sigma _ _ 0%R); [exact F|lia]).
  rewrite E. reflexivity.
Qed.
Lemma regrid_sel G sigma (cs : cspace RNum) r r' c : (0 < G)%nat -> sigma 0%nat = 0%nat -> regrid G sigma r r' -> regrid G sigma (sel_region (cond_sat cs c) r) (sel_region (cond_sat cs c) r').
Proof.
  intros HG S0 (Fx & Fy & Fv).
  assert (E : map (cond_sat cs c) (r_x r') = map (cond_sat cs c) (r_x r)).
  { clear Fy Fv. induction Fx as [|m m' l l' (L & L' & K) F IH]; [reflexivity|]. cbn [map]. apply f_equal2; [|exact IH]. unfold cond_sat, coord.
    specialize (K 0%nat HG). rewrite S0 in K. assert (Q : nth 0 m' [] = nth 0 m []).
    { destruct m as [|x m], m' as [|x' m']; cbn in *; try congruence. }
    rewrite Q. reflexivity. }
  unfold regrid, sel_region. cbn [r_x r_y r_v]. rewrite E. refine (conj _ (conj _ _)); apply Forall2_mask; assumption.
Qed.
Lemma mem_string_in n l : mem_string n l = true <-> In n l.
Proof. unfold mem_string. rewrite existsb_exists. split; [intros (x & Hx & E); apply String.eqb_eq in E; congruence|]. intro H. exists n. split; [exact H|apply String.eqb_refl]. Qed.
Lemma mem_string_ext n l l' : (forall x, In x l <-> In x l') -> mem_string n l = mem_string n l'.
Proof.
  intro H. destruct (mem_string n l) eqn:E, (mem_string n l') eqn:E'; auto; exfalso.
  - apply mem_string_in in E. apply H in E. apply mem_string_in in E. congruence.
  - apply mem_string_in in E'. apply H in E'. apply mem_string_in in E'. congruence.
Qed.
Theorem selection_order_tree (s : setup RNum) (mu sd : list R -> R) l l' p p' d :
  (forall rows : list (list RNum), su_predict s rows = Ok (map mu rows, map sd rows)) -> su_sel s = SelList l -> Permutation l l' ->
  (forall sel, convert_hyperparameters (su_sel s) (su_cs s) = Ok sel -> NoDup (map hp_name sel)) ->
  setup_ok s -> reaches s p -> reaches (with_sel s (SelList l')) p' -> (0 < d)%nat ->
  exists G sigma q q' ids ids' leaves leaves', shuffles G sigma /\ partition p d = (q, Ok ids) /\ partition p' d = (q', Ok ids') /\
    Forall2 (fun id nd => deref q id = Some nd) ids leaves /\ Forall2 (fun id nd => deref q' id = Some nd) ids' leaves' /\
    Forall2 (fun nd nd' : dnode RNum => n_depth nd = n_depth nd' /\ n_conds nd = n_conds nd' /\
      Forall2 (reordered G sigma) (r_x (n_region nd)) (r_x (n_region nd')) /\ Forall2 (reordered G sigma) (r_y (n_region nd)) (r_y (n_region nd')) /\
      Forall2 (reordered G sigma) (r_v (n_region nd)) (r_v (n_region nd')) /\ region_loss (n_region nd) = region_loss (n_region nd')) leaves leaves'.
Proof.
  intros Hp El P NS SO R R' Hd. set (s' := with_sel s (SelList l')).
  assert (SO' : setup_ok s') by exact SO.
  destruct (reaches_facts R_order_laws s p SO R) as (root & dd & sel & ns & F).
  destruct (reaches_facts R_order_laws s' p' SO' R') as (root' & dd' & sel' & ns' & F').
  pose proof (rf_sel _ _ _ _ _ _ F) as Cs. pose proof (rf_sel _ _ _ _ _ _ F') as Cs'. cbn [su_cs su_sel with_sel s'] in Cs'.
  pose proof (NS _ Cs) as NDs.
  assert (PS : Permutation sel sel').
  { rewrite El in Cs. cbn [convert_hyperparameters] in Cs, Cs'. destruct (mapM_perm _ _ _ P _ Cs) as (r & Er & Pr). unfold s' in Cs'. cbn in Cs'. congruence. }
  assert (HF : ice_calculate (alg_of s sel) false (rowwise (N:=RNum) mu sd) = Ok dd).
  { pose proof (rf_ice _ _ _ _ _ _ F) as H. unfold ice_calculate in *. destruct (ice_x (alg_of s sel)) as [x|]; [|discriminate]. cbn [bind] in *. rewrite Hp in H. exact H. }
  assert (HF' : ice_calculate (with_selected (alg_of s sel) sel') false (rowwise (N:=RNum) mu sd) = Ok dd').
  { pose proof (rf_ice _ _ _ _ _ _ F') as H. change (alg_of s' sel') with (with_selected (alg_of s sel) sel') in H. change (su_predict s') with (su_predict s) in H.
    unfold ice_calculate in *. destruct (ice_x (with_selected (alg_of s sel) sel')) as [x|]; [|discriminate]. cbn [bind] in *. rewrite Hp in H. exact H. }
  destruct SO as (ND & RC & G1).
  destruct (selection_order (N:=RNum) (alg_of s sel) sel' mu sd dd ND NDs PS RC HF) as (d2 & sigma & Hd2 & Sh & S0 & Fx & Fy & Fv).
  assert (d2 = dd') by congruence. subst d2.
  set (G := num_grid_points (alg_of s sel)) in *.
  assert (HG : (0 < G)%nat) by (apply Nat.neq_0_lt_0; apply Nat.pow_nonzero; cbn; lia).
  assert (S0' : sigma 0%nat = 0%nat) by (apply S0; cbn; lia).
  exists G, sigma.
  destruct (partition_sim_sel R_order_laws (regrid G sigma) s s' p p' d) as (q & q' & ids & ids' & leaves & leaves' & H1 & H2 & H3 & H4 & H5); auto.
  - intros r r' c H. apply regrid_sel; assumption.
  - intros r r' (H & _). unfold region_len. exact (Forall2_length _ _ _ H).
  - intros a a' b b' c c' e e' A B C D. rewrite (regrid_loss _ _ _ _ Sh A), (regrid_loss _ _ _ _ Sh B), (regrid_loss _ _ _ _ Sh C), (regrid_loss _ _ _ _ Sh D). reflexivity.
  - intros sel1 sel2 d1 d2 C1 C2 I1 I2. assert (sel1 = sel) by congruence. assert (sel2 = sel') by (unfold s' in *; cbn in *; congruence). subst sel1 sel2.
    pose proof (rf_ice _ _ _ _ _ _ F) as J1. pose proof (rf_ice _ _ _ _ _ _ F') as J2. assert (d1 = dd) by congruence. assert (d2 = dd') by congruence. subst d1 d2.
    split; [|refine (conj Fx (conj Fy Fv))].
    intro ns1. unfold split_parameters. apply filter_ext. intro h. f_equal. apply mem_string_ext. intro x. rewrite !in_app_iff.
    split; (intros [H|H]; [left|right; exact H]); [apply (Permutation_in _ (Permutation_sym (Permutation_map hp_name PS))); exact H|apply (Permutation_in _ (Permutation_map hp_name PS)); exact H].
  - exists q, q', ids, ids', leaves, leaves'. refine (conj Sh (conj H1 (conj H2 (conj H3 (conj H4 _))))).
    eapply Forall2_impl'; [|exact H5]. intros nd nd' (A & B & C & _ & _). pose proof (regrid_loss _ _ _ _ Sh C) as E. destruct C as (C1 & C2 & C3). repeat (split; [assumption|]). symmetry. exact E.
Qed.
End Real.
