(** IceShapeReal.v - the part of C98 and C99 that needs exact arithmetic. *)
From Coq Require Import Reals Lra Permutation.
From Verif Require Import Base Num NumLaws NumpyModel ConfigSpaceModel UtilsModel IceModel ListLemmas IceProofs IceProofs2 UtilsProofs
  RealProofs RealSums IceReal IceShapeSpec IceShapeProofs.
Local Open Scope R_scope.
Local Open Scope list_scope.

(** ** every PDP is a mean over the samples of a function that does not depend on them *)
Lemma pdp_closed (a : algorithm RNum) (f s : list R -> R) d : rect (num_features a) (a_samples a) -> ice_calculate a false (rowwise (N:=RNum) f s) = Ok d ->
  exists idx grid, get_selected_idx (a_sel a) (a_cs a) = Ok idx /\ grid_points a = Ok grid /\ length grid = num_grid_points a /\
  forall rows' d', rect (num_features a) rows' -> ice_calculate (on_samples a rows') false (rowwise (N:=RNum) f s) = Ok d' ->
    y_pdp (on_samples a rows') d' = map (fun g => Rmean (map (fun row => nth g (map f (x_curve (N:=RNum) idx grid row)) 0) rows')) (seq 0 (num_grid_points a)) /\
    v_pdp (on_samples a rows') d' = map (fun g => Rmean (map (fun row => nth g (map (fun r => s r * s r) (x_curve (N:=RNum) idx grid row)) 0) rows')) (seq 0 (num_grid_points a)) /\
    x_pdp (on_samples a rows') d' = map (fun g => map (fun j => Rmean (map (fun row => nth j (nth g (x_curve (N:=RNum) idx grid row) []) 0) rows')) (seq 0 (num_features a))) (seq 0 (num_grid_points a)).
Proof.
  intros RC H. destruct (rowwise_closed a f s d RC H) as (idx & grid & Hi & Hg & Lg & _). exists idx, grid. refine (conj Hi (conj Hg (conj Lg _))).
  intros rows' d' RC' H'. destruct (rowwise_closed (on_samples a rows') f s d' RC' H') as (idx' & grid' & Hi' & Hg' & Lg' & ->).
  assert (idx' = idx) by (change (get_selected_idx (a_sel a) (a_cs a) = Ok idx') in Hi'; congruence).
  assert (grid' = grid) by (change (grid_points a = Ok grid') in Hg'; congruence). subst.
  refine (conj _ (conj _ _)).
  - unfold y_pdp, mean_axis0. apply map_ext. intro g. etransitivity; [apply nmean_R|]. unfold column. cbn [i_y]. rewrite map_map. reflexivity.
  - unfold v_pdp, mean_axis0. apply map_ext. intro g. etransitivity; [apply nmean_R|]. unfold column. cbn [i_v]. rewrite map_map. reflexivity.
  - unfold x_pdp, mean3_axis0. apply map_ext. intro g. apply map_ext. intro j. etransitivity; [apply nmean_R|]. cbn [i_x]. rewrite map_map. reflexivity.
Qed.

Lemma Rmean_map_ext {A} (f g : A -> R) l : (forall x, In x l -> f x = g x) -> Rmean (map f l) = Rmean (map g l).
Proof. intro H. rewrite (map_ext_in _ _ _ H). reflexivity. Qed.
Lemma on_own (a : algorithm RNum) : on_samples a (a_samples a) = a.
Proof. destruct a. reflexivity. Qed.

(** entry [g] of the PDP *)
Lemma pdp_at (a : algorithm RNum) (f s : list R -> R) d idx grid g gp : rect (num_features a) (a_samples a) -> ice_calculate a false (rowwise (N:=RNum) f s) = Ok d ->
  get_selected_idx (a_sel a) (a_cs a) = Ok idx -> grid_points a = Ok grid -> nth_error grid g = Some gp ->
  nth_error (y_pdp a d) g = Some (Rmean (map (fun row => f (assign_row (A:=RNum) idx gp row)) (a_samples a))) /\
  nth_error (v_pdp a d) g = Some (Rmean (map (fun row => s (assign_row (A:=RNum) idx gp row) * s (assign_row (A:=RNum) idx gp row)) (a_samples a))).
Proof.
  intros RC H Hi Hg Hn. destruct (pdp_closed a f s d RC H) as (idx' & grid' & Hi' & Hg' & Lg & K).
  assert (idx' = idx) by congruence. assert (grid' = grid) by congruence. subst.
  destruct (K (a_samples a) d RC) as (Ey & Ev & _); [rewrite on_own; exact H|]. rewrite on_own in Ey, Ev.
  pose proof (nth_error_Some_lt _ _ _ Hn) as Lt. rewrite Lg in Lt.
  assert (Q : forall (h : list R -> R) row, nth g (map h (x_curve (N:=RNum) idx grid row)) 0 = h (assign_row (A:=RNum) idx gp row)).
  { intros h row. apply nth_error_nth_some. unfold x_curve. rewrite map_map, nth_error_map. rewrite Hn. reflexivity. }
  split.
  - transitivity (nth_error (map (fun g => Rmean (map (fun row => nth g (map f (x_curve (N:=RNum) idx grid row)) 0) (a_samples a))) (seq 0 (num_grid_points a))) g);
      [exact (f_equal (fun l : list R => nth_error l g) Ey)|].
    rewrite nth_error_map_seq by exact Lt. apply (f_equal (@Some R)). apply Rmean_map_ext. intros row _. apply Q.
  - transitivity (nth_error (map (fun g => Rmean (map (fun row => nth g (map (fun r => s r * s r) (x_curve (N:=RNum) idx grid row)) 0) (a_samples a))) (seq 0 (num_grid_points a))) g);
      [exact (f_equal (fun l : list R => nth_error l g) Ev)|].
    rewrite nth_error_map_seq by exact Lt. apply (f_equal (@Some R)). apply Rmean_map_ext. intros row _. exact (Q (fun r => s r * s r) row).
Qed.

(** ** C98 *)
Theorem flat_pdp (a : algorithm RNum) (f s : list R -> R) d : NoDup (map hp_name (a_cs a)) -> rect (num_features a) (a_samples a) -> (0 < num_samples a)%nat ->
  ice_calculate a false (rowwise (N:=RNum) f s) = Ok d -> only_uses (N:=RNum) (not_selected (a_cs a) (a_sel a)) f ->
  forall g, (g < num_grid_points a)%nat -> nth_error (y_pdp a d) g = Some (Rmean (map f (a_samples a))).
Proof.
  intros ND RC Hn H U g Hgl. destruct (rowwise_closed a f s d RC H) as (idx & grid & Hi & Hg & Lg & _).
  destruct (nth_error grid g) as [gp|] eqn:E; [|apply nth_error_None in E; lia].
  destruct (pdp_at a f s d idx grid g gp RC H Hi Hg E) as [P _]. etransitivity; [exact P|]. apply (f_equal (@Some R)). apply Rmean_map_ext. intros row _.
  apply U; [apply assign_row_length|]. intros j Hj. apply assign_other. intro I. apply (idx_selected _ _ _ _ ND Hi) in I. destruct I as (q & Hq & Hin). exact (Hj q Hq Hin).
Qed.

(** the effect of the selected hyperparameters: the value of [u] at the rows of grid point [g] *)
Lemma effect_exists (a : algorithm RNum) (u : list R -> R) idx grid : NoDup (map hp_name (a_cs a)) -> rect (num_features a) (a_samples a) -> (0 < num_samples a)%nat ->
  get_selected_idx (a_sel a) (a_cs a) = Ok idx -> grid_points a = Ok grid -> only_uses (N:=RNum) (is_selected (a_cs a) (a_sel a)) u ->
  exists e : nat -> R, forall g gp row, nth_error grid g = Some gp -> length row = num_features a -> u (assign_row (A:=RNum) idx gp row) = e g.
Proof.
  intros ND RC Hn Hi Hg U. exists (fun g => u (assign_row (A:=RNum) idx (nth g grid []) (repeat 0 (num_features a)))).
  intros g gp row E L. rewrite (nth_error_nth_some _ _ _ [] E). apply U; [rewrite !assign_row_length, repeat_length; exact L|].
  intros j Hj. apply assign_agree; [exact (grid_row_len a idx grid g gp Hi Hg E)|rewrite repeat_length; exact L|].
  left. apply (idx_selected _ _ _ _ ND Hi). exact Hj.
Qed.

Theorem additive_surrogate (a : algorithm RNum) (u w s : list R -> R) d :
  NoDup (map hp_name (a_cs a)) -> rect (num_features a) (a_samples a) -> (0 < num_samples a)%nat -> (1 <= a_gpa a)%nat ->
  only_uses (N:=RNum) (is_selected (a_cs a) (a_sel a)) u -> only_uses (N:=RNum) (not_selected (a_cs a) (a_sel a)) w ->
  ice_calculate a false (rowwise (N:=RNum) (fun r => u r + w r) s) = Ok d ->
  exists e : nat -> R,
    (forall i g r, at3 (i_x d) i g = Some r -> u r = e g) /\
    (forall i g row, nth_error (a_samples a) i = Some row -> (g < num_grid_points a)%nat -> at2 (i_y d) i g = Some (e g + w row : R)) /\
    (forall g, (g < num_grid_points a)%nat -> nth_error (y_pdp a d) g = Some (e g + Rmean (map w (a_samples a)))) /\
    exists dc, ice_calculate a true (rowwise (N:=RNum) (fun r => u r + w r) s) = Ok dc /\
      forall i g, (i < num_samples a)%nat -> (g < num_grid_points a)%nat -> at2 (i_y dc) i g = Some (e g - e 0%nat : R).
Proof.
  intros ND RC Hn G1 Uu Uw H. set (f := fun r => u r + w r) in *.
  destruct (rowwise_closed a f s d RC H) as (idx & grid & Hi & Hg & Lg & Ed).
  destruct (effect_exists a u idx grid ND RC Hn Hi Hg Uu) as (e & He). exists e.
  assert (W : forall gp row, w (assign_row (A:=RNum) idx gp row) = w row).
  { intros gp row. apply Uw; [apply assign_row_length|]. intros j Hj. apply assign_other. intro I. apply (idx_selected _ _ _ _ ND Hi) in I. destruct I as (q & Hq & Hin). exact (Hj q Hq Hin). }
  assert (Y : forall i g row, nth_error (a_samples a) i = Some row -> (g < num_grid_points a)%nat -> at2 (i_y d) i g = Some (e g + w row : R)).
  { intros i g row Hr Hgl. destruct (nth_error grid g) as [gp|] eqn:E; [|apply nth_error_None in E; lia].
    rewrite Ed. cbn [i_y]. rewrite at2_closed. rewrite Hr, E. apply (f_equal (@Some R)). unfold f. rewrite W, (He g gp row E (rect_row a i row RC Hr)). reflexivity. }
  refine (conj _ (conj Y (conj _ _))).
  - intros i g r Hx. rewrite Ed in Hx. cbn [i_x] in Hx. rewrite at3_closed in Hx.
    destruct (nth_error (a_samples a) i) as [row|] eqn:Er; [|discriminate]. destruct (nth_error grid g) as [gp|] eqn:Eg; [|discriminate]. injection Hx as <-.
    exact (He g gp row Eg (rect_row a i row RC Er)).
  - intros g Hgl. destruct (nth_error grid g) as [gp|] eqn:E; [|apply nth_error_None in E; lia].
    destruct (pdp_at a f s d idx grid g gp RC H Hi Hg E) as [P _]. etransitivity; [exact P|]. apply (f_equal (@Some R)).
    transitivity (Rmean (map (fun row => e g + w row) (a_samples a))).
    { apply Rmean_map_ext. intros row Hrow. unfold f. rewrite W. apply In_nth_error in Hrow. destruct Hrow as (i & Hrow). rewrite (He g gp row E (rect_row a i row RC Hrow)). reflexivity. }
    unfold Rmean. rewrite !map_length, Rsum_map_plus, Rsum_map_const. field. apply not_0_INR, Nat.neq_0_lt_0. exact Hn.
  - assert (Gp : (0 < num_grid_points a)%nat). { unfold num_grid_points. pose proof (Nat.pow_nonzero (a_gpa a) (n_selected a)) as E0. clear -E0 G1. lia. }
    destruct (centered_curves a _ d RC G1 H) as (dc & Hc & _ & _ & K). exists dc. split; [exact Hc|].
    intros i g Hil Hgl. destruct (nth_error (a_samples a) i) as [row|] eqn:E; [|apply nth_error_None in E; unfold num_samples in Hil; lia].
    rewrite (K i g _ _ (Y i g row E Hgl) (Y i 0%nat row E Gp)). apply (f_equal (@Some R)). cbn [nsub RNum]. ring.
Qed.

(** ** monotone surrogates *)
Lemma set_nth_le i (v v' : R) (r r' : list R) : v <= v' -> Forall2 Rle r r' -> Forall2 Rle (set_nth i v r) (set_nth i v' r').
Proof. intros Hv F. revert i. induction F as [|x x' r r' Hx F IH]; intros [|i]; cbn; constructor; auto. Qed.
Lemma assign_le idx : forall (g g' r r' : list R), Forall2 Rle g g' -> Forall2 Rle r r' -> Forall2 Rle (assign_row (A:=RNum) idx g r) (assign_row (A:=RNum) idx g' r').
Proof.
  unfold assign_row. induction idx as [|i idx IH]; intros g g' r r' Fg Fr; [exact Fr|].
  destruct Fg as [|v v' g g' Hv Fg]; [exact Fr|]. cbn. apply IH; [exact Fg|]. apply set_nth_le; assumption.
Qed.
Lemma Forall2_le_refl (r : list R) : Forall2 Rle r r.
Proof. induction r; constructor; auto with real. Qed.
Lemma Forall2_nth (l l' : list R) j x x' : Forall2 Rle l l' -> nth_error l j = Some x -> nth_error l' j = Some x' -> x <= x'.
Proof.
  intro F. revert j. induction F as [|y y' l l' Hy F IH]; intros [|j] A B; try discriminate; cbn in *.
  - injection A as <-. injection B as <-. exact Hy.
  - exact (IH j A B).
Qed.
Lemma grows_assign (a : algorithm RNum) idx (f : list R -> R) gp gp' row : NoDup (map hp_name (a_cs a)) -> get_selected_idx (a_sel a) (a_cs a) = Ok idx ->
  grows_with (is_selected (a_cs a) (a_sel a)) f -> pointwise_le gp gp' -> f (assign_row (A:=RNum) idx gp row) <= f (assign_row (A:=RNum) idx gp' row).
Proof.
  intros ND Hi M L. apply M; [rewrite !assign_row_length; reflexivity|]. intros j x x' Hx Hx'. split.
  - intros _. exact (Forall2_nth _ _ j x x' (assign_le idx gp gp' row row L (Forall2_le_refl row)) Hx Hx').
  - intro NS. assert (I : ~ In j idx) by (intro I; apply NS; apply (idx_selected _ _ _ _ ND Hi); exact I).
    change (nth_error (assign_row (A:=RNum) idx gp row) j = Some x) in Hx. change (nth_error (assign_row (A:=RNum) idx gp' row) j = Some x') in Hx'.
    rewrite (assign_other (N:=RNum)) in Hx by exact I. rewrite (assign_other (N:=RNum)) in Hx' by exact I. congruence.
Qed.
Theorem monotone_surrogate (a : algorithm RNum) (f s : list R -> R) d grid :
  NoDup (map hp_name (a_cs a)) -> rect (num_features a) (a_samples a) -> (0 < num_samples a)%nat -> grows_with (is_selected (a_cs a) (a_sel a)) f ->
  ice_calculate a false (rowwise (N:=RNum) f s) = Ok d -> grid_points a = Ok grid ->
  forall g g' gp gp', nth_error grid g = Some gp -> nth_error grid g' = Some gp' -> pointwise_le gp gp' ->
    (forall i v v', at2 (i_y d) i g = Some v -> at2 (i_y d) i g' = Some v' -> (v <= v')%R) /\
    (forall v v', nth_error (y_pdp a d) g = Some v -> nth_error (y_pdp a d) g' = Some v' -> (v <= v')%R).
Proof.
  intros ND RC Hn M H Hg g g' gp gp' E E' L. destruct (rowwise_closed a f s d RC H) as (idx & grid' & Hi & Hg' & Lg & Ed).
  assert (grid' = grid) by congruence. subst grid'. split.
  - intros i v v'. rewrite Ed. cbn [i_y]. rewrite !at2_closed, E, E'. destruct (nth_error (a_samples a) i) as [row|]; [|discriminate].
    intros A B. injection A as <-. injection B as <-. exact (grows_assign a idx f gp gp' row ND Hi M L).
  - intros v v' A B. destruct (pdp_at a f s d idx grid g gp RC H Hi Hg E) as [P _]. destruct (pdp_at a f s d idx grid g' gp' RC H Hi Hg E') as [P' _].
    pose proof (eq_trans (eq_sym P) A) as Q. pose proof (eq_trans (eq_sym P') B) as Q'. injection Q as <-. injection Q' as <-.
    unfold Rmean. rewrite !map_length. apply Rmult_le_compat_r; [|apply Rsum_map_le; intros row _; exact (grows_assign a idx f gp gp' row ND Hi M L)].
    left. apply Rinv_0_lt_compat, lt_0_INR. exact Hn.
Qed.
Lemma grid_one (a : algorithm RNum) grid g g' : grid_points a = Ok grid -> n_selected a = 1%nat -> (g <= g')%nat -> (g' < num_grid_points a)%nat ->
  exists gp gp', nth_error grid g = Some gp /\ nth_error grid g' = Some gp' /\ pointwise_le gp gp'.
Proof.
  intros H E1 Hle Hlt. unfold num_grid_points in Hlt. rewrite E1, Nat.pow_1_r in Hlt. unfold grid_points in H. rewrite E1 in H.
  pose proof (linspace_length (N:=RNum) n0 n1 (a_gpa a)) as L. pose proof (linspace_R 0 1 (a_gpa a)) as E.
  destruct (mesh_rows _ _ _ H) as [_ M]. rewrite L in M.
  assert (Q : forall k, (k < a_gpa a)%nat -> nth_error grid k = Some [nth k (linspace (N:=RNum) n0 n1 (a_gpa a)) (n0 (N:=RNum))]).
  { intros k Hk. destruct (M [k]) as (q & _ & Hq & Eq & _); [split; [reflexivity|]; repeat constructor; exact Hk|].
    replace k with q at 1 by (rewrite Eq; cbn; lia). exact Hq. }
  eexists. eexists. refine (conj (Q g ltac:(lia)) (conj (Q g' ltac:(lia)) _)). constructor; [|constructor].
  destruct (Nat.eq_dec g g') as [->|Hne]; [apply Rle_refl|]. left.
  apply (evenly_mono 0 1 _ (a_gpa a) g g' _ _ E Rlt_0_1 ltac:(lia)); apply (nth_error_nth' (A:=R)).
  - change (linspace (N:=RNum) 0 1 (a_gpa a)) with (linspace (N:=RNum) n0 n1 (a_gpa a)). replace (length _) with (a_gpa a). lia.
  - change (linspace (N:=RNum) 0 1 (a_gpa a)) with (linspace (N:=RNum) n0 n1 (a_gpa a)). replace (length _) with (a_gpa a). lia.
Qed.
Theorem monotone_one (a : algorithm RNum) (f s : list R -> R) d :
  NoDup (map hp_name (a_cs a)) -> rect (num_features a) (a_samples a) -> (0 < num_samples a)%nat -> grows_with (is_selected (a_cs a) (a_sel a)) f ->
  ice_calculate a false (rowwise (N:=RNum) f s) = Ok d -> n_selected a = 1%nat ->
  forall g g', (g <= g')%nat ->
    (forall i v v', at2 (i_y d) i g = Some v -> at2 (i_y d) i g' = Some v' -> (v <= v')%R) /\
    (forall v v', nth_error (y_pdp a d) g = Some v -> nth_error (y_pdp a d) g' = Some v' -> (v <= v')%R).
Proof.
  intros ND RC Hn M H E1 g g' Hle. destruct (rowwise_closed a f s d RC H) as (idx & grid & Hi & Hg & Lg & Ed).
  destruct (Nat.lt_ge_cases g' (num_grid_points a)) as [Hlt|Hge].
  - destruct (grid_one a grid g g' Hg E1 Hle Hlt) as (gp & gp' & A & B & L). exact (monotone_surrogate a f s d grid ND RC Hn M H Hg g g' gp gp' A B L).
  - split.
    + intros i v v' _ B. rewrite Ed in B. cbn [i_y] in B. rewrite at2_closed in B. rewrite (proj2 (nth_error_None grid g')) in B by lia. destruct (nth_error (a_samples a) i); discriminate.
    + intros v v' _ B. assert (N : nth_error (y_pdp a d) g' = None); [|congruence]. apply nth_error_None. unfold y_pdp, mean_axis0. rewrite map_length, seq_length. lia.
Qed.

(** ** combinations of surrogates *)
Lemma Rmean_linear {A} al be (f g : A -> R) l : Rmean (map (fun x => al * f x + be * g x) l) = al * Rmean (map f l) + be * Rmean (map g l).
Proof. unfold Rmean. rewrite !map_length, (Rsum_map_plus (fun x => al * f x)), !Rsum_map_scal. unfold Rdiv. ring. Qed.
Theorem linear_combination (a : algorithm RNum) (f1 f2 s1 s2 s : list R -> R) al be d1 d2 d :
  rect (num_features a) (a_samples a) -> (0 < num_samples a)%nat ->
  ice_calculate a false (rowwise (N:=RNum) f1 s1) = Ok d1 -> ice_calculate a false (rowwise (N:=RNum) f2 s2) = Ok d2 ->
  ice_calculate a false (rowwise (N:=RNum) (fun r => al * f1 r + be * f2 r) s) = Ok d ->
  (forall i g v1 v2, at2 (i_y d1) i g = Some v1 -> at2 (i_y d2) i g = Some v2 -> at2 (i_y d) i g = Some (al * v1 + be * v2 : R)) /\
  (forall g v1 v2, nth_error (y_pdp a d1) g = Some v1 -> nth_error (y_pdp a d2) g = Some v2 -> nth_error (y_pdp a d) g = Some (al * v1 + be * v2 : R)).
Proof.
  intros RC Hn H1 H2 H. destruct (rowwise_closed a _ _ d1 RC H1) as (idx & grid & Hi & Hg & Lg & E1).
  destruct (rowwise_closed a _ _ d2 RC H2) as (idx' & grid' & Hi' & Hg' & _ & E2). destruct (rowwise_closed a _ _ d RC H) as (idx'' & grid'' & Hi'' & Hg'' & _ & E).
  assert (idx' = idx) by congruence. assert (idx'' = idx) by congruence. assert (grid' = grid) by congruence. assert (grid'' = grid) by congruence. subst idx' idx'' grid' grid''. split.
  - intros i g v1 v2. rewrite E, E1, E2. cbn [i_y]. rewrite !at2_closed. destruct (nth_error (a_samples a) i) as [row|]; [|discriminate].
    destruct (nth_error grid g) as [gp|]; [|discriminate]. intros A B. injection A as <-. injection B as <-. reflexivity.
  - intros g v1 v2 A B. destruct (nth_error grid g) as [gp|] eqn:Eg.
    + destruct (pdp_at a _ _ d1 idx grid g gp RC H1 Hi Hg Eg) as [P1 _]. destruct (pdp_at a _ _ d2 idx grid g gp RC H2 Hi Hg Eg) as [P2 _]. destruct (pdp_at a _ _ d idx grid g gp RC H Hi Hg Eg) as [P _].
      pose proof (eq_trans (eq_sym P1) A) as Q1. pose proof (eq_trans (eq_sym P2) B) as Q2. injection Q1 as <-. injection Q2 as <-. etransitivity; [exact P|]. apply (f_equal (@Some R)).
      apply (Rmean_linear al be (fun row => f1 (assign_row (A:=RNum) idx gp row)) (fun row => f2 (assign_row (A:=RNum) idx gp row))).
    + assert (N : nth_error (y_pdp a d1) g = None); [|congruence]. apply nth_error_None in Eg. apply nth_error_None. unfold y_pdp, mean_axis0. rewrite map_length, seq_length. lia.
Qed.

(** ** C99: the PDP as a function of the samples *)
Theorem pdp_permuted (a : algorithm RNum) rows' (f s : list R -> R) d : rect (num_features a) (a_samples a) -> Permutation (a_samples a) rows' ->
  ice_calculate a false (rowwise (N:=RNum) f s) = Ok d ->
  exists d', ice_calculate (on_samples a rows') false (rowwise (N:=RNum) f s) = Ok d' /\
    x_pdp (on_samples a rows') d' = x_pdp a d /\ y_pdp (on_samples a rows') d' = y_pdp a d /\ v_pdp (on_samples a rows') d' = v_pdp a d.
Proof.
  intros RC P H. assert (RC' : rect (num_features a) rows') by (exact (Permutation_Forall P RC)).
  destruct (calc_on_samples a rows' f s d RC RC' H) as (d' & H'). exists d'. split; [exact H'|].
  destruct (pdp_closed a f s d RC H) as (idx & grid & _ & _ & _ & K). destruct (K rows' d' RC' H') as (Ey & Ev & Ex).
  destruct (K (a_samples a) d RC) as (Fy & Fv & Fx); [rewrite on_own; exact H|]. rewrite on_own in Fy, Fv, Fx.
  rewrite Ex, Ey, Ev, Fx, Fy, Fv.
  refine (conj _ (conj _ _)); apply map_ext; intro g; [apply map_ext; intro j| |]; apply Rmean_perm, Permutation_map, Permutation_sym; exact P.
Qed.
Lemma length_concat_repeat {A} (l : list A) k : length (concat (repeat l k)) = (k * length l)%nat.
Proof. induction k; cbn; [reflexivity|]. rewrite app_length, IHk. reflexivity. Qed.
Lemma Rsum_repeat {A} (h : A -> R) l k : Rsum (map h (concat (repeat l k))) = INR k * Rsum (map h l).
Proof. induction k; [cbn; ring|]. cbn [repeat concat]. rewrite map_app, Rsum_app, IHk, S_INR. ring. Qed.
Lemma Rmean_repeat {A} (h : A -> R) l k : (0 < k)%nat -> Rmean (map h (concat (repeat l k))) = Rmean (map h l).
Proof.
  intro Hk. unfold Rmean. rewrite Rsum_repeat, !map_length, length_concat_repeat, mult_INR.
  assert (INR k <> 0) by (apply not_0_INR; lia). destruct l as [|x l]; [cbn; unfold Rdiv; rewrite !Rmult_0_r, !Rmult_0_l; reflexivity|].
  field. split; [apply not_0_INR; discriminate|assumption].
Qed.
Theorem pdp_repeated (a : algorithm RNum) k (f s : list R -> R) d : rect (num_features a) (a_samples a) -> (0 < k)%nat ->
  ice_calculate a false (rowwise (N:=RNum) f s) = Ok d ->
  let a' := on_samples a (concat (repeat (a_samples a) k)) in
  exists d', ice_calculate a' false (rowwise (N:=RNum) f s) = Ok d' /\ x_pdp a' d' = x_pdp a d /\ y_pdp a' d' = y_pdp a d /\ v_pdp a' d' = v_pdp a d.
Proof.
  intros RC Hk H a'. assert (RC' : rect (num_features a) (concat (repeat (a_samples a) k))).
  { unfold rect. clear -RC. induction k; cbn; [constructor|]. apply Forall_app. auto. }
  destruct (calc_on_samples a _ f s d RC RC' H) as (d' & H'). exists d'. split; [exact H'|].
  destruct (pdp_closed a f s d RC H) as (idx & grid & _ & _ & _ & K). destruct (K _ d' RC' H') as (Ey & Ev & Ex).
  destruct (K (a_samples a) d RC) as (Fy & Fv & Fx); [rewrite on_own; exact H|]. rewrite on_own in Fy, Fv, Fx. fold a' in Ey, Ev, Ex.
  rewrite Ex, Ey, Ev, Fx, Fy, Fv.
  refine (conj _ (conj _ _)); apply map_ext; intro g; [apply map_ext; intro j| |]; apply Rmean_repeat; exact Hk.
Qed.
Lemma Rmean_union {A} (h : A -> R) l1 l2 : l1 <> [] -> l2 <> [] ->
  Rmean (map h (l1 ++ l2)) = (INR (length l1) * Rmean (map h l1) + INR (length l2) * Rmean (map h l2)) / (INR (length l1) + INR (length l2)).
Proof.
  intros N1 N2. unfold Rmean. rewrite map_app, Rsum_app, app_length, !map_length, plus_INR.
  assert (0 < INR (length l1)) by (apply lt_0_INR; destruct l1; [congruence|cbn; lia]). assert (0 < INR (length l2)) by (apply lt_0_INR; destruct l2; [congruence|cbn; lia]).
  field. lra.
Qed.
Theorem pdp_union (a : algorithm RNum) rows1 rows2 (f s : list R -> R) d : rect (num_features a) (a_samples a) -> a_samples a = rows1 ++ rows2 -> rows1 <> [] -> rows2 <> [] ->
  ice_calculate a false (rowwise (N:=RNum) f s) = Ok d ->
  exists d1 d2, ice_calculate (on_samples a rows1) false (rowwise (N:=RNum) f s) = Ok d1 /\ ice_calculate (on_samples a rows2) false (rowwise (N:=RNum) f s) = Ok d2 /\
    let n1 := INR (length rows1) in let n2 := INR (length rows2) in
    (forall g v1 v2, nth_error (y_pdp (on_samples a rows1) d1) g = Some v1 -> nth_error (y_pdp (on_samples a rows2) d2) g = Some v2 ->
      nth_error (y_pdp a d) g = Some ((n1 * v1 + n2 * v2) / (n1 + n2) : R)) /\
    (forall g v1 v2, nth_error (v_pdp (on_samples a rows1) d1) g = Some v1 -> nth_error (v_pdp (on_samples a rows2) d2) g = Some v2 ->
      nth_error (v_pdp a d) g = Some ((n1 * v1 + n2 * v2) / (n1 + n2) : R)).
Proof.
  intros RC E N1 N2 H. pose proof RC as RC0. rewrite E in RC0. apply Forall_app in RC0. destruct RC0 as [RC1 RC2].
  destruct (calc_on_samples a rows1 f s d RC RC1 H) as (d1 & H1). destruct (calc_on_samples a rows2 f s d RC RC2 H) as (d2 & H2).
  exists d1, d2. refine (conj H1 (conj H2 _)).
  destruct (pdp_closed a f s d RC H) as (idx & grid & _ & _ & _ & K). destruct (K _ d1 RC1 H1) as (Ey1 & Ev1 & _). destruct (K _ d2 RC2 H2) as (Ey2 & Ev2 & _).
  destruct (K (a_samples a) d RC) as (Fy & Fv & _); [rewrite on_own; exact H|]. rewrite on_own in Fy, Fv. rewrite Ey1, Ev1, Ey2, Ev2, Fy, Fv, E.
  assert (G : forall (h : nat -> list R -> R) g (v1 v2 : R), nth_error (map (fun g => Rmean (map (h g) rows1)) (seq 0 (num_grid_points a))) g = Some v1 ->
    nth_error (map (fun g => Rmean (map (h g) rows2)) (seq 0 (num_grid_points a))) g = Some v2 ->
    nth_error (map (fun g => Rmean (map (h g) (rows1 ++ rows2))) (seq 0 (num_grid_points a))) g = Some ((INR (length rows1) * v1 + INR (length rows2) * v2) / (INR (length rows1) + INR (length rows2)))).
  { intros h g v1 v2 A B. pose proof (nth_error_Some_lt _ _ _ A) as Lt. rewrite map_length, seq_length in Lt. rewrite nth_error_map_seq in A, B by exact Lt. rewrite nth_error_map_seq by exact Lt.
    injection A as <-. injection B as <-. apply (f_equal (@Some R)). exact (Rmean_union (h g) rows1 rows2 N1 N2). }
  split; intros g v1 v2; [apply (G (fun g row => nth g (map f (x_curve (N:=RNum) idx grid row)) 0))|apply (G (fun g row => nth g (map (fun r => s r * s r) (x_curve (N:=RNum) idx grid row)) 0))].
Qed.
