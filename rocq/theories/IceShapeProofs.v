(** IceShapeProofs.v - what the curves and the PDP show of a surrogate, and how they depend on the samples (C98, C99). *)
From Coq Require Import Reals Lra Permutation.
From Verif Require Import Base Num NumLaws NumpyModel ConfigSpaceModel UtilsModel IceModel ListLemmas IceProofs IceProofs2 UtilsProofs
  RealProofs RealSums IceShapeSpec.
Local Open Scope nat_scope.
Local Open Scope list_scope.

Section Closed.
Context {N : Num}.
(** the curve of one sample *)
Definition x_curve (idx : list nat) (grid : list (list N)) (row : list N) : list (list N) := map (fun g => assign_row idx g row) grid.

Lemma rowwise_closed (a : algorithm N) f s d : rect (num_features a) (a_samples a) -> ice_calculate a false (rowwise f s) = Ok d ->
  exists idx grid, get_selected_idx (a_sel a) (a_cs a) = Ok idx /\ grid_points a = Ok grid /\ length grid = num_grid_points a /\
    d = mkice (map (x_curve idx grid) (a_samples a)) (map (fun row => map f (x_curve idx grid row)) (a_samples a))
              (map (fun row => map (fun r => nmul (s r) (s r)) (x_curve idx grid row)) (a_samples a)).
Proof.
  intros RC H. apply ice_calculate_ok in H. destruct H as (means & stds & Hx & Hp & y & sd & Hy & Hs & Hv & Hc). injection Hc as ->.
  unfold rowwise in Hp. injection Hp as Hm Hsd. subst means stds.
  apply (ice_x_closed a _ RC) in Hx. destruct Hx as (idx & grid & Hi & Hg & Ex). exists idx, grid.
  destruct (mesh_points_length _ _ _ Hg) as [Lg _]. rewrite linspace_length in Lg. change (a_gpa a ^ n_selected a) with (num_grid_points a) in Lg.
  refine (conj Hi (conj Hg (conj Lg _))).
  assert (K : forall (h : list N -> N) z, reshape2 n0 (map h (concat (i_x d))) (num_samples a) (num_grid_points a) = Ok z -> z = map (fun row => map h (x_curve idx grid row)) (a_samples a)).
  { intros h z E. rewrite concat_map in E. rewrite reshape2_concat in E.
    - injection E as <-. rewrite Ex, map_map. reflexivity.
    - rewrite map_length, Ex, map_length. reflexivity.
    - rewrite Ex, map_map. apply Forall_map, Forall_forall. intros row _. rewrite !map_length. exact Lg. }
  apply K in Hy. apply K in Hs. subst sd. rewrite map_map in Hv. destruct d as [x y v]. cbn in *. subst. f_equal.
  apply map_ext. intro row. rewrite map_map. reflexivity.
Qed.

(** ** which coordinates of a curve come from where *)
Lemma idx_selected (cs : cspace N) sel idx j : NoDup (map hp_name cs) -> get_selected_idx sel cs = Ok idx -> (In j idx <-> is_selected cs sel j).
Proof.
  intros ND H. split.
  - intro Hj. destruct (in_idx cs sel idx j H Hj) as (hs & h & Hs & Hh & E). exists h. split; [exact Hh|]. rewrite E. apply in_map. exact Hs.
  - intros (h & Hh & Hin). apply in_map_iff in Hin. destruct Hin as (hs & E & Hs). apply In_nth_error in Hs. destruct Hs as (t & Ht).
    destruct (proj2 (selected_idx_nth cs sel idx H) t hs Ht) as (j' & Hj' & Hc). rewrite E in Hc.
    pose proof (cs_idx_nodup cs j h ND Hh) as Hc'. assert (j' = j) by congruence. subst. exact (nth_error_In _ _ Hj').
Qed.
Lemma not_selected_iff (cs : cspace N) sel j : (j < length cs) -> (not_selected cs sel j <-> ~ is_selected cs sel j).
Proof.
  intro Hj. split.
  - intros H (h & Hh & Hin). exact (H h Hh Hin).
  - intros H h Hh Hin. apply H. exists h. auto.
Qed.
Lemma assign_other idx (g row : list N) j : ~ In j idx -> nth_error (assign_row idx g row) j = nth_error row j.
Proof.
  intro H. destruct (Nat.lt_ge_cases j (length row)) as [L|L].
  - rewrite (nth_error_nth' (assign_row idx g row) n0) by (rewrite assign_row_length; exact L). rewrite (nth_error_nth' row n0) by exact L. f_equal. apply assign_row_other. exact H.
  - rewrite (proj2 (nth_error_None row j) L). apply nth_error_None. rewrite assign_row_length. exact L.
Qed.
Lemma set_nth_agree (i : nat) (v : N) r r' j : length r = length r' -> (j = i \/ nth_error r j = nth_error r' j) -> nth_error (set_nth i v r) j = nth_error (set_nth i v r') j.
Proof.
  revert i j r'. induction r as [|x r IH]; intros i j [|x' r'] L H; try discriminate; [reflexivity|]. cbn in L. injection L as L.
  destruct i as [|i], j as [|j]; cbn; auto.
  - destruct H as [H|H]; [discriminate|exact H].
  - destruct H as [H|H]; [discriminate|exact H].
  - apply IH; [exact L|]. destruct H as [H|H]; [left; congruence|right; exact H].
Qed.
Lemma assign_agree idx : forall (g r r' : list N) j, length g = length idx -> length r = length r' -> (In j idx \/ nth_error r j = nth_error r' j) ->
  nth_error (assign_row idx g r) j = nth_error (assign_row idx g r') j.
Proof.
  unfold assign_row. induction idx as [|i idx IH]; intros [|v g] r r' j Lg L H; try discriminate; cbn.
  - destruct H as [[]|H]; exact H.
  - injection Lg as Lg. apply IH; [exact Lg|rewrite !set_nth_length; exact L|].
    destruct (in_dec Nat.eq_dec j idx) as [I|I]; [left; exact I|]. right. apply set_nth_agree; [exact L|].
    destruct H as [[H|H]|H]; [left; congruence|contradiction|right; exact H].
Qed.
Lemma at2_closed (h : list N -> N) idx grid rows i g : at2 (map (fun row => map h (x_curve idx grid row)) rows) i g =
  match nth_error rows i, nth_error grid g with Some row, Some gp => Some (h (assign_row idx gp row)) | _, _ => None end.
Proof.
  unfold at2, x_curve. rewrite nth_error_map. destruct (nth_error rows i) as [row|]; [|reflexivity]. cbn. rewrite map_map, nth_error_map. destruct (nth_error grid g); reflexivity.
Qed.
Lemma at3_closed idx grid rows i g : at3 (map (x_curve idx grid) rows) i g =
  match nth_error rows i, nth_error grid g with Some row, Some gp => Some (assign_row idx gp row) | _, _ => None end.
Proof. unfold at3, x_curve. rewrite nth_error_map. destruct (nth_error rows i) as [row|]; [|reflexivity]. cbn. rewrite nth_error_map. destruct (nth_error grid g); reflexivity. Qed.
Lemma grid_row_len (a : algorithm N) idx grid g gp : get_selected_idx (a_sel a) (a_cs a) = Ok idx -> grid_points a = Ok grid -> nth_error grid g = Some gp -> length gp = length idx.
Proof.
  intros Hi Hg Hn. destruct (mesh_points_length _ _ _ Hg) as [_ F]. rewrite Forall_forall in F. rewrite (F gp (nth_error_In _ _ Hn)). symmetry. exact (proj1 (selected_idx_nth _ _ _ Hi)).
Qed.
Lemma rect_row (a : algorithm N) i row : rect (num_features a) (a_samples a) -> nth_error (a_samples a) i = Some row -> length row = num_features a.
Proof. intros R H. unfold rect in R. rewrite Forall_forall in R. apply R. exact (nth_error_In _ _ H). Qed.

(** a mean (deviation) that ignores the selected hyperparameters gives flat curves *)
Theorem flat_curves (a : algorithm N) f s d : NoDup (map hp_name (a_cs a)) -> rect (num_features a) (a_samples a) -> ice_calculate a false (rowwise f s) = Ok d ->
  (only_uses (not_selected (a_cs a) (a_sel a)) f -> forall i g row, nth_error (a_samples a) i = Some row -> g < num_grid_points a -> at2 (i_y d) i g = Some (f row)) /\
  (only_uses (not_selected (a_cs a) (a_sel a)) s -> forall i g row, nth_error (a_samples a) i = Some row -> g < num_grid_points a -> at2 (i_v d) i g = Some (nmul (s row) (s row))).
Proof.
  intros ND R H. destruct (rowwise_closed a f s d R H) as (idx & grid & Hi & Hg & Lg & ->). cbn [i_y i_v].
  assert (K : forall h : list N -> N, only_uses (not_selected (a_cs a) (a_sel a)) h -> forall gp row, h (assign_row idx gp row) = h row).
  { intros h U gp row. apply U; [apply assign_row_length|]. intros j Hj. apply assign_other. intro I. apply (idx_selected _ _ _ _ ND Hi) in I. destruct I as (q & Hq & Hin). exact (Hj q Hq Hin). }
  split; intros U i g row Hr Hgl; (destruct (nth_error grid g) as [gp|] eqn:E; [|apply nth_error_None in E; lia]).
  - rewrite at2_closed, Hr, E, (K f U). reflexivity.
  - rewrite (at2_closed (fun r => nmul (s r) (s r))), Hr, E, (K s U). reflexivity.
Qed.
(** one that looks at the selected hyperparameters only gives the same curve for all samples *)
Theorem same_curves (a : algorithm N) f s d : NoDup (map hp_name (a_cs a)) -> rect (num_features a) (a_samples a) -> ice_calculate a false (rowwise f s) = Ok d ->
  (only_uses (is_selected (a_cs a) (a_sel a)) f -> forall i i', i < num_samples a -> i' < num_samples a -> nth_error (i_y d) i = nth_error (i_y d) i') /\
  (only_uses (is_selected (a_cs a) (a_sel a)) s -> forall i i', i < num_samples a -> i' < num_samples a -> nth_error (i_v d) i = nth_error (i_v d) i').
Proof.
  intros ND R H. destruct (rowwise_closed a f s d R H) as (idx & grid & Hi & Hg & Lg & ->). cbn [i_y i_v].
  assert (K : forall h : list N -> N, only_uses (is_selected (a_cs a) (a_sel a)) h -> forall gp row row', In gp grid -> length row = length row' -> h (assign_row idx gp row) = h (assign_row idx gp row')).
  { intros h U gp row row' Hin L. apply U; [rewrite !assign_row_length; exact L|]. intros j Hj. apply In_nth_error in Hin. destruct Hin as (g & Hin).
    apply assign_agree; [exact (grid_row_len a idx grid g gp Hi Hg Hin)|exact L|]. left. apply (idx_selected _ _ _ _ ND Hi). exact Hj. }
  split; intros U i i' Hl Hl'; rewrite !nth_error_map;
    (destruct (nth_error (a_samples a) i) as [row|] eqn:E; [|apply nth_error_None in E; unfold num_samples in Hl; lia]);
    (destruct (nth_error (a_samples a) i') as [row'|] eqn:E'; [|apply nth_error_None in E'; unfold num_samples in Hl'; lia]); cbn; f_equal; unfold x_curve; rewrite !map_map; apply map_ext_in; intros gp Hin.
  - apply (K f U); [exact Hin|]. rewrite (rect_row a i row R E), (rect_row a i' row' R E'). reflexivity.
  - assert (Q : s (assign_row idx gp row) = s (assign_row idx gp row')); [|rewrite Q; reflexivity].
    apply (K s U); [exact Hin|]. rewrite (rect_row a i row R E), (rect_row a i' row' R E'). reflexivity.
Qed.
(** the curve of a sample depends on that sample only *)
Theorem curve_alone (a : algorithm N) rows' f s d d' : rect (num_features a) (a_samples a) -> rect (num_features a) rows' ->
  ice_calculate a false (rowwise f s) = Ok d -> ice_calculate (on_samples a rows') false (rowwise f s) = Ok d' ->
  forall i i' row, nth_error (a_samples a) i = Some row -> nth_error rows' i' = Some row ->
    nth_error (i_x d) i = nth_error (i_x d') i' /\ nth_error (i_y d) i = nth_error (i_y d') i' /\ nth_error (i_v d) i = nth_error (i_v d') i'.
Proof.
  intros R R' H H' i i' row E E'. destruct (rowwise_closed a f s d R H) as (idx & grid & Hi & Hg & Lg & ->).
  destruct (rowwise_closed (on_samples a rows') f s d' R' H') as (idx' & grid' & Hi' & Hg' & Lg' & ->).
  assert (idx' = idx) by (change (get_selected_idx (a_sel a) (a_cs a) = Ok idx') in Hi'; congruence). assert (grid' = grid) by (change (grid_points a = Ok grid') in Hg'; congruence). subst. cbn [i_x i_y i_v a_samples on_samples].
  rewrite !nth_error_map, E, E'. auto.
Qed.
Lemma calc_on_samples (a : algorithm N) rows' f s d : rect (num_features a) (a_samples a) -> rect (num_features a) rows' ->
  ice_calculate a false (rowwise f s) = Ok d -> exists d', ice_calculate (on_samples a rows') false (rowwise f s) = Ok d'.
Proof.
  intros R R' H. destruct (rowwise_closed a f s d R H) as (idx & grid & Hi & Hg & Lg & _).
  assert (Hx : ice_x (on_samples a rows') = Ok (map (x_curve idx grid) rows')).
  { apply (ice_x_closed (on_samples a rows') _ R'). exists idx, grid. auto. }
  unfold ice_calculate. rewrite Hx. cbn [bind]. unfold rowwise. cbn [bind fst snd]. rewrite !concat_map.
  assert (K : forall h : list N -> N, reshape2 n0 (concat (map (map h) (map (x_curve idx grid) rows'))) (num_samples (on_samples a rows')) (num_grid_points (on_samples a rows')) = Ok (map (map h) (map (x_curve idx grid) rows'))).
  { intro h. apply reshape2_concat; [rewrite !map_length; reflexivity|]. rewrite map_map. apply Forall_map, Forall_forall. intros row _. unfold x_curve. rewrite !map_length. exact Lg. }
  rewrite !K. cbn [bind]. rewrite !map_length. unfold num_samples. cbn [a_samples on_samples]. rewrite Nat.eqb_refl. cbn. eauto.
Qed.
Theorem curve_alone_ex (a : algorithm N) rows' f s d : rect (num_features a) (a_samples a) -> rect (num_features a) rows' ->
  ice_calculate a false (rowwise f s) = Ok d ->
  exists d', ice_calculate (on_samples a rows') false (rowwise f s) = Ok d' /\
  forall i i' row, nth_error (a_samples a) i = Some row -> nth_error rows' i' = Some row ->
    nth_error (i_x d) i = nth_error (i_x d') i' /\ nth_error (i_y d) i = nth_error (i_y d') i' /\ nth_error (i_v d) i = nth_error (i_v d') i'.
Proof.
  intros RC RC' H. destruct (calc_on_samples a rows' f s d RC RC' H) as (d' & H'). exists d'. split; [exact H'|]. exact (curve_alone a rows' f s d d' RC RC' H H').
Qed.
(** permuting the samples permutes the curves *)
Theorem permuted_curves (a : algorithm N) rows' f s d d' : rect (num_features a) (a_samples a) -> Permutation (a_samples a) rows' ->
  ice_calculate a false (rowwise f s) = Ok d -> ice_calculate (on_samples a rows') false (rowwise f s) = Ok d' ->
  Permutation (combine (i_x d) (combine (i_y d) (i_v d))) (combine (i_x d') (combine (i_y d') (i_v d'))).
Proof.
  intros R P H H'. assert (R' : rect (num_features (on_samples a rows')) rows') by (exact (Permutation_Forall P R)).
  destruct (rowwise_closed a f s d R H) as (idx & grid & Hi & Hg & Lg & ->).
  destruct (rowwise_closed (on_samples a rows') f s d' R' H') as (idx' & grid' & Hi' & Hg' & Lg' & ->).
  assert (idx' = idx) by (change (get_selected_idx (a_sel a) (a_cs a) = Ok idx') in Hi'; congruence). assert (grid' = grid) by (change (grid_points a = Ok grid') in Hg'; congruence). subst. cbn [i_x i_y i_v a_samples on_samples].
  assert (C : forall rows : list (list N), combine (map (x_curve idx grid) rows) (combine (map (fun row => map f (x_curve idx grid row)) rows) (map (fun row => map (fun r => nmul (s r) (s r)) (x_curve idx grid row)) rows)) =
    map (fun row => (x_curve idx grid row, (map f (x_curve idx grid row), map (fun r => nmul (s r) (s r)) (x_curve idx grid row)))) rows) by (induction rows as [|row rows IH]; [reflexivity|cbn; rewrite IH; reflexivity]).
  rewrite !C. apply Permutation_map. exact P.
Qed.
End Closed.
