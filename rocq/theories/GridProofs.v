(** GridProofs.v - a grid with a multiple of the steps contains the coarse grid, and the curves agree there (C107). *)
From Coq Require Import Reals Lra FinFun.
From Verif Require Import Base Num NumLaws NumpyModel ConfigSpaceModel UtilsModel IceModel PartitionModel PartitionSpec ListLemmas IceProofs IceProofs2
  UtilsProofs IceShapeSpec IceShapeProofs SelOrderSpec SelOrderProofs SelOrderReal GridSpec.
Local Open Scope nat_scope.
Local Open Scope list_scope.

(** ** the positions of a coarse grid on the finer one *)
Lemma positions_at m d ks : all_digits m d ks -> nth_error (positions m d) (from_digits m (swap2 ks)) = Some ks /\ from_digits m (swap2 ks) < m ^ d.
Proof.
  intro A. pose proof (swap2_digits _ _ _ A) as A'.
  assert (Lt : from_digits m (swap2 ks) < m ^ d) by (destruct A' as [L F]; rewrite <- L; exact (from_digits_lt _ _ F)).
  split; [|exact Lt]. unfold positions. rewrite nth_error_map_seq by exact Lt. f_equal.
  rewrite (mesh_swap (fun j => digit m d j (from_digits m (swap2 ks))) d), (digits_back _ _ _ A'). apply swap2_swap2.
Qed.
Lemma map_inj_on {A B} (h : A -> B) : (forall x y, h x = h y -> x = y) -> forall l l', map h l = map h l' -> l = l'.
Proof. intros I l. induction l as [|x l IH]; intros [|y l'] E; try discriminate; [reflexivity|]. cbn in E. injection E as E1 E2. f_equal; [apply I; exact E1|apply IH; exact E2]. Qed.
Definition spread (k m m' d q : nat) : nat := from_digits m' (swap2 (map (Nat.mul k) (nth q (positions m d) []))).
Lemma refined_digits k m d ks : 1 <= m -> all_digits m d ks -> all_digits (refined k m) d (map (Nat.mul k) ks).
Proof.
  intros H [L F]. split; [rewrite map_length; exact L|]. apply Forall_map. apply (Forall_impl _ (P := fun k => k < m)); [|exact F]. intros x Hx. cbn. unfold refined. nia.
Qed.
Lemma spread_at k m d q : 1 <= m -> q < m ^ d -> exists ks, all_digits m d ks /\ nth_error (positions m d) q = Some ks /\
  nth_error (positions (refined k m) d) (spread k m (refined k m) d q) = Some (map (Nat.mul k) ks) /\ spread k m (refined k m) d q < refined k m ^ d.
Proof.
  intros H Hq. destruct (nth_error (positions m d) q) as [ks|] eqn:E; [|apply nth_error_None in E; rewrite positions_length in E; lia].
  assert (A : all_digits m d ks) by (apply positions_in; exact (nth_error_In _ _ E)). exists ks. split; [exact A|]. split; [reflexivity|].
  unfold spread. rewrite (nth_error_nth_some _ _ _ [] E). apply positions_at, refined_digits; assumption.
Qed.
Lemma spread_embeds k m d : 1 <= k -> 1 <= m -> embeds (m ^ d) (refined k m ^ d) (spread k m (refined k m) d).
Proof.
  intros K H. split; [intros g Hg; destruct (spread_at k m d g H Hg) as (_ & _ & _ & _ & B); exact B|].
  intros g g' Hg Hg' E. destruct (spread_at k m d g H Hg) as (ks & _ & A & B & _). destruct (spread_at k m d g' H Hg') as (ks' & _ & A' & B' & _).
  rewrite E in B. rewrite B in B'. injection B' as B'. assert (ks = ks').
  { apply (map_inj_on (Nat.mul k)); [intros x y; nia|exact B']. }
  subst ks'. apply (proj1 (NoDup_nth_error (positions m d)) (positions_nodup m d)); [rewrite positions_length; exact Hg|congruence].
Qed.
Lemma spread_0 k m d : 1 <= m -> spread k m (refined k m) d 0 = 0.
Proof.
  intro H. assert (Z : 0 < m ^ d) by (apply Nat.neq_0_lt_0, Nat.pow_nonzero; lia).
  destruct (spread_at k m d 0 H Z) as (ks & _ & A & B & Lt). rewrite (positions_0 m d) in A by lia. injection A as <-.
  assert (E : map (Nat.mul k) (repeat 0 d) = repeat 0 d) by (clear; induction d as [|d IH]; cbn; [reflexivity|]; rewrite IH, Nat.mul_0_r; reflexivity).
  rewrite E in B. apply (proj1 (NoDup_nth_error (positions (refined k m) d)) (positions_nodup _ d)); [rewrite positions_length; exact Lt|].
  rewrite B. symmetry. apply positions_0. unfold refined. rewrite Nat.add_1_r. discriminate.
Qed.

Lemma evenly_refined (axis axis' : list R) k m i : 1 <= k -> i < m -> evenly 0 1 axis m -> evenly 0 1 axis' (refined k m) -> nth (k * i) axis' 0%R = nth i axis 0%R.
Proof.
  intros K Hi [_ E] [_ E']. rewrite (nth_error_nth_some _ _ _ 0%R (E i Hi)).
  assert (Hk : k * i < refined k m) by (unfold refined; nia). rewrite (nth_error_nth_some _ _ _ 0%R (E' _ Hk)).
  destruct (Nat.eqb_spec m 1) as [->|M].
  - assert (i = 0) by lia. subst i. assert (F : refined k 1 = 1) by (unfold refined; rewrite Nat.mul_0_r; reflexivity). rewrite F. reflexivity.
  - destruct (Nat.eqb_spec (refined k m) 1) as [F|_]; [exfalso; unfold refined in F; assert (k * (m - 1) <> 0) by (apply Nat.neq_mul_0; lia); lia|].
    unfold refined. rewrite Nat.add_sub, !mult_INR.
    assert (INR k <> 0)%R by (apply not_0_INR; lia). assert (INR (m - 1) <> 0)%R by (apply not_0_INR; lia). field. split; assumption.
Qed.
Lemma axis_refined_R k m : 1 <= k -> axis_refines (N:=RNum) k m.
Proof. intros K i Hi. exact (evenly_refined _ _ k m i K Hi (linspace_R 0 1 m) (linspace_R 0 1 (refined k m))). Qed.
Lemma axis_refined {N : Num} k m ks : axis_refines (N:=N) k m -> Forall (fun x => x < m) ks ->
  axis_at (N:=N) (linspace (N:=N) n0 n1 (refined k m)) (map (Nat.mul k) ks) = axis_at (N:=N) (linspace (N:=N) n0 n1 m) ks.
Proof.
  intros K F. unfold axis_at. rewrite map_map. apply map_ext_in. intros i Hi. rewrite Forall_forall in F. exact (K i (F i Hi)).
Qed.

Section Any.
Context {N : Num}.
Section Curves.
Variable a : algorithm N.
Variable k : nat.
Hypothesis AX : axis_refines (N:=N) k (a_gpa a).
Hypothesis G1 : 1 <= a_gpa a.
Notation a' := (with_gpa a (refined k (a_gpa a))).
Notation sigma := (spread k (a_gpa a) (refined k (a_gpa a)) (n_selected a)).

Lemma grid_refined grid : grid_points a = Ok grid -> exists grid', grid_points a' = Ok grid' /\ length grid' = num_grid_points a' /\
  forall g, g < num_grid_points a -> nth_error grid g = nth_error grid' (sigma g).
Proof.
  intro H. assert (D : n_selected a <> 0) by (intro E; unfold grid_points in H; rewrite E in H; discriminate).
  destruct (grid_points a') as [grid'|e] eqn:H'; [|exfalso; unfold grid_points, n_selected in H'; cbn [a_gpa a_sel with_gpa] in H'; fold (n_selected a) in H'; destruct (n_selected a); [congruence|discriminate]].
  exists grid'. split; [reflexivity|]. split; [exact (ice_grid_length a' _ H') || (destruct (mesh_points_length _ _ _ H') as [L _]; rewrite linspace_length in L; exact L)|]. intros g Hg.
  destruct (spread_at k (a_gpa a) (n_selected a) g G1 Hg) as (ks & A & B & C & _).
  pose proof (mesh_positions _ _ _ H) as Eg. pose proof (mesh_positions _ _ _ H') as Eg'. rewrite linspace_length in Eg, Eg'.
  change (n_selected a') with (n_selected a) in Eg'. cbn [a_gpa with_gpa] in Eg'.
  rewrite Eg, Eg', !nth_error_map, B, C. cbn [option_map]. f_equal. symmetry. apply axis_refined; [exact AX|apply A].
Qed.

Lemma grid_curves f s d : rect (num_features a) (a_samples a) -> ice_calculate a false (rowwise f s) = Ok d ->
  exists d', ice_calculate a' false (rowwise f s) = Ok d' /\
    Forall2 (found_in (num_grid_points a) sigma) (i_x d) (i_x d') /\ Forall2 (found_in (num_grid_points a) sigma) (i_y d) (i_y d') /\
    Forall2 (found_in (num_grid_points a) sigma) (i_v d) (i_v d').
Proof.
  intros RC H. destruct (rowwise_closed a f s d RC H) as (idx & grid & Hi & Hg & Lg & Ed).
  destruct (grid_refined grid Hg) as (grid' & Hg' & Lg' & P).
  assert (C : exists d', ice_calculate a' false (rowwise f s) = Ok d').
  { assert (Hx : ice_x a' = Ok (map (x_curve idx grid') (a_samples a))) by (apply (ice_x_closed a' _ RC); exists idx, grid'; auto).
    unfold ice_calculate. rewrite Hx. cbn [bind]. unfold rowwise. cbn [bind fst snd]. rewrite !concat_map.
    assert (Q : forall h : list N -> N, reshape2 n0 (concat (map (map h) (map (x_curve idx grid') (a_samples a)))) (num_samples a') (num_grid_points a') = Ok (map (map h) (map (x_curve idx grid') (a_samples a)))).
    { intro h. apply reshape2_concat; [rewrite !map_length; reflexivity|]. rewrite map_map. apply Forall_map, Forall_forall. intros row _. unfold x_curve. rewrite !map_length. exact Lg'. }
    rewrite !Q. cbn [bind]. rewrite !map_length. unfold num_samples. cbn [a_samples with_gpa]. rewrite Nat.eqb_refl. cbn. eauto. }
  destruct C as (d' & H'). exists d'. split; [exact H'|].
  destruct (rowwise_closed a' f s d' RC H') as (idx1 & grid1 & Hi1 & Hg1 & _ & Ed').
  change (get_selected_idx (a_sel a) (a_cs a) = Ok idx1) in Hi1. assert (idx1 = idx) by congruence. assert (grid1 = grid') by congruence. subst idx1 grid1.
  subst d d'. cbn [i_x i_y i_v a_samples with_gpa].
  assert (B : forall row, found_in (num_grid_points a) sigma (x_curve idx grid row) (x_curve idx grid' row)).
  { intro row. unfold x_curve. split; [rewrite map_length; exact Lg|]. intros g Lt. rewrite !nth_error_map, P by exact Lt. reflexivity. }
  assert (B' : forall (h : list N -> N) row, found_in (num_grid_points a) sigma (map h (x_curve idx grid row)) (map h (x_curve idx grid' row))).
  { intros h row. destruct (B row) as [L E]. split; [rewrite map_length; exact L|]. intros g Lt. rewrite !nth_error_map, E by exact Lt. reflexivity. }
  refine (conj _ (conj _ _)); apply Forall2_self; intros row _; [apply B|apply B'|apply B'].
Qed.
End Curves.

Lemma found_at2 {A} G sigma (y y' : list (list A)) i g : Forall2 (found_in G sigma) y y' -> g < G -> match nth_error y i with Some r => nth_error r g | None => None end = match nth_error y' i with Some r => nth_error r (sigma g) | None => None end.
Proof. intros F Hg. revert i. induction F as [|r r' y y' (_ & E) F IH]; intros [|i]; cbn; auto. Qed.

Theorem any_grid_refined_curves (a : algorithm N) k f s d : axis_refines (N:=N) k (a_gpa a) -> 1 <= k -> 1 <= a_gpa a -> rect (num_features a) (a_samples a) ->
  ice_calculate a false (rowwise f s) = Ok d ->
  exists sigma, embeds (num_grid_points a) (num_grid_points (with_gpa a (refined k (a_gpa a)))) sigma /\ forall centered, exists d d',
    ice_calculate a centered (rowwise f s) = Ok d /\ ice_calculate (with_gpa a (refined k (a_gpa a))) centered (rowwise f s) = Ok d' /\
    forall i g, i < num_samples a -> g < num_grid_points a ->
      at3 (i_x d) i g = at3 (i_x d') i (sigma g) /\ at2 (i_y d) i g = at2 (i_y d') i (sigma g) /\ at2 (i_v d) i g = at2 (i_v d') i (sigma g).
Proof.
  intros AX K G1 RC H. destruct (grid_curves a k AX G1 f s d RC H) as (d' & H' & Fx & Fy & Fv).
  exists (spread k (a_gpa a) (refined k (a_gpa a)) (n_selected a)). split; [exact (spread_embeds k (a_gpa a) (n_selected a) K G1)|].
  pose proof (spread_0 k (a_gpa a) (n_selected a) G1) as S0. set (sigma := spread k (a_gpa a) (refined k (a_gpa a)) (n_selected a)) in *.
  intros [|].
  - destruct (centered_curves a (rowwise f s) d RC G1 H) as (e & He & Ex & Ev & Ec).
    assert (G1' : 1 <= a_gpa (with_gpa a (refined k (a_gpa a)))) by (cbn [a_gpa with_gpa]; unfold refined; rewrite Nat.add_1_r; apply le_n_S, Nat.le_0_l).
    destruct (centered_curves (with_gpa a (refined k (a_gpa a))) (rowwise f s) d' RC G1' H') as (e' & He' & Ex' & Ev' & Ec').
    exists e, e'. refine (conj He (conj He' _)). intros i g Li Hg. rewrite Ex, Ex', Ev, Ev'.
    assert (G0 : 0 < num_grid_points a) by lia.
    assert (T : forall q, q < num_grid_points a -> exists v, at2 (i_y d) i q = Some v).
    { intros q Hq. destruct (rowwise_closed a f s d RC H) as (idx & grid & _ & _ & Lg & Ed). subst d. cbn [i_y]. rewrite at2_closed.
      destruct (nth_error (a_samples a) i) as [row|] eqn:Er; [|apply nth_error_None in Er; unfold num_samples in Li; lia].
      destruct (nth_error grid q) as [gp|] eqn:Eg; [eauto|apply nth_error_None in Eg; lia]. }
    destruct (T g Hg) as (v & Hv). destruct (T 0 G0) as (v0 & Hv0).
    assert (A : at2 (i_y d') i (sigma g) = Some v) by (rewrite <- Hv; symmetry; exact (found_at2 _ _ _ _ i g Fy Hg)).
    assert (B : at2 (i_y d') i 0 = Some v0) by (rewrite <- Hv0; rewrite <- S0 at 1; symmetry; exact (found_at2 _ _ _ _ i 0 Fy G0)).
    refine (conj (found_at2 _ _ _ _ i g Fx Hg) (conj _ (found_at2 _ _ _ _ i g Fv Hg))).
    rewrite (Ec _ _ _ _ Hv Hv0), (Ec' _ _ _ _ A B). reflexivity.
  - exists d, d'. refine (conj H (conj H' _)). intros i g _ Hg.
    exact (conj (found_at2 _ _ _ _ i g Fx Hg) (conj (found_at2 _ _ _ _ i g Fy Hg) (found_at2 _ _ _ _ i g Fv Hg))).
Qed.

(** ** PDPs *)
Lemma found_column {A} G sigma (rows rows' : list (list A)) e g : Forall2 (found_in G sigma) rows rows' -> g < G -> column e g rows = column e (sigma g) rows'.
Proof.
  intros F Hg. unfold column. induction F as [|r r' rows rows' (L & E) F IH]; cbn; [reflexivity|]. rewrite IH. f_equal.
  assert (Lt : g < length r) by lia. specialize (E g Hg). rewrite (nth_error_nth' r e Lt) in E. symmetry in E. symmetry. apply nth_error_nth_some. exact E.
Qed.
Theorem any_grid_refined_pdp (a : algorithm N) k f s d : axis_refines (N:=N) k (a_gpa a) -> 1 <= k -> 1 <= a_gpa a -> rect (num_features a) (a_samples a) ->
  ice_calculate a false (rowwise f s) = Ok d ->
  exists d' sigma, ice_calculate (with_gpa a (refined k (a_gpa a))) false (rowwise f s) = Ok d' /\
    embeds (num_grid_points a) (num_grid_points (with_gpa a (refined k (a_gpa a)))) sigma /\
    found_in (num_grid_points a) sigma (x_pdp a d) (x_pdp (with_gpa a (refined k (a_gpa a))) d') /\
    found_in (num_grid_points a) sigma (y_pdp a d) (y_pdp (with_gpa a (refined k (a_gpa a))) d') /\
    found_in (num_grid_points a) sigma (v_pdp a d) (v_pdp (with_gpa a (refined k (a_gpa a))) d').
Proof.
  intros AX K G1 RC H. destruct (grid_curves a k AX G1 f s d RC H) as (d' & H' & Fx & Fy & Fv). pose proof (spread_embeds k (a_gpa a) (n_selected a) K G1) as Em.
  exists d', (spread k (a_gpa a) (refined k (a_gpa a)) (n_selected a)). refine (conj H' (conj Em _)).
  set (sigma := spread k (a_gpa a) (refined k (a_gpa a)) (n_selected a)) in *. set (a' := with_gpa a (refined k (a_gpa a))) in *.
  change (embeds (num_grid_points a) (num_grid_points a') sigma) in Em. destruct Em as [B _].
  assert (M : forall y y' : list (list N), Forall2 (found_in (num_grid_points a) sigma) y y' -> found_in (num_grid_points a) sigma (mean_axis0 (num_grid_points a) y) (mean_axis0 (num_grid_points a') y')).
  { intros y y' F. unfold mean_axis0. split; [rewrite map_length, seq_length; reflexivity|]. intros g Hg. rewrite !nth_error_map_seq by auto. do 2 f_equal. exact (found_column _ _ _ _ n0 g F Hg). }
  refine (conj _ (conj (M _ _ Fy) (M _ _ Fv))).
  unfold x_pdp, mean3_axis0. split; [rewrite map_length, seq_length; reflexivity|]. intros g Hg. rewrite !nth_error_map_seq by auto. f_equal. apply map_ext. intro j. f_equal.
  pose proof (found_column _ _ _ _ [] g Fx Hg) as E. unfold column in E. apply (f_equal (map (fun r => nth j r n0))) in E. rewrite !map_map in E. exact E.
Qed.

(** ** one and two selected hyperparameters: the numbers of the points *)
Theorem any_grid_refined_one (a : algorithm N) k h f s d d' : axis_refines (N:=N) k (a_gpa a) -> 1 <= k -> 1 <= a_gpa a -> a_sel a = [h] -> rect (num_features a) (a_samples a) ->
  ice_calculate a false (rowwise f s) = Ok d -> ice_calculate (with_gpa a (refined k (a_gpa a))) false (rowwise f s) = Ok d' ->
  forall i g, g < a_gpa a -> at3 (i_x d) i g = at3 (i_x d') i (k * g) /\ at2 (i_y d) i g = at2 (i_y d') i (k * g) /\ at2 (i_v d) i g = at2 (i_v d') i (k * g).
Proof.
  intros AX K G1 Es RC H H1 i g Hg. destruct (grid_curves a k AX G1 f s d RC H) as (d2 & H2 & Fx & Fy & Fv). assert (d2 = d') by congruence. subst d2.
  assert (Nn : n_selected a = 1) by (unfold n_selected; rewrite Es; reflexivity).
  assert (Hn : g < num_grid_points a) by (unfold num_grid_points; rewrite Nn; cbn; lia).
  assert (S : spread k (a_gpa a) (refined k (a_gpa a)) (n_selected a) g = k * g).
  { rewrite Nn. destruct (positions_at (a_gpa a) 1 [g]) as [A _]; [split; [reflexivity|repeat constructor; exact Hg]|].
    cbn [swap2 from_digits length Nat.pow] in A. rewrite Nat.mul_1_r, Nat.add_0_r in A. unfold spread. rewrite (nth_error_nth_some _ _ _ [] A). cbn [map swap2 from_digits length Nat.pow]. lia. }
  rewrite <- S. exact (conj (found_at2 _ _ _ _ i g Fx Hn) (conj (found_at2 _ _ _ _ i g Fy Hn) (found_at2 _ _ _ _ i g Fv Hn))).
Qed.
Theorem any_grid_refined_two (a : algorithm N) k h1 h2 f s d d' : axis_refines (N:=N) k (a_gpa a) -> 1 <= k -> 1 <= a_gpa a -> a_sel a = [h1; h2] -> rect (num_features a) (a_samples a) ->
  ice_calculate a false (rowwise f s) = Ok d -> ice_calculate (with_gpa a (refined k (a_gpa a))) false (rowwise f s) = Ok d' ->
  forall i g1 g2, g1 < a_gpa a -> g2 < a_gpa a ->
    at3 (i_x d) i (g2 * a_gpa a + g1) = at3 (i_x d') i (k * g2 * refined k (a_gpa a) + k * g1) /\
    at2 (i_y d) i (g2 * a_gpa a + g1) = at2 (i_y d') i (k * g2 * refined k (a_gpa a) + k * g1) /\
    at2 (i_v d) i (g2 * a_gpa a + g1) = at2 (i_v d') i (k * g2 * refined k (a_gpa a) + k * g1).
Proof.
  intros AX K G1 Es RC H H1 i g1 g2 L1 L2. destruct (grid_curves a k AX G1 f s d RC H) as (d2 & H2 & Fx & Fy & Fv). assert (d2 = d') by congruence. subst d2.
  assert (Nn : n_selected a = 2) by (unfold n_selected; rewrite Es; reflexivity).
  assert (Hn : g2 * a_gpa a + g1 < num_grid_points a) by (unfold num_grid_points; rewrite Nn; cbn; nia).
  assert (S : spread k (a_gpa a) (refined k (a_gpa a)) (n_selected a) (g2 * a_gpa a + g1) = k * g2 * refined k (a_gpa a) + k * g1).
  { rewrite Nn. destruct (positions_at (a_gpa a) 2 [g1; g2]) as [A _]; [split; [reflexivity|repeat constructor; assumption]|].
    cbn [swap2 from_digits length Nat.pow] in A. rewrite !Nat.mul_1_r, Nat.add_0_r in A. unfold spread. rewrite (nth_error_nth_some _ _ _ [] A). cbn [map swap2 from_digits length Nat.pow]. lia. }
  rewrite <- S. exact (conj (found_at2 _ _ _ _ i _ Fx Hn) (conj (found_at2 _ _ _ _ i _ Fy Hn) (found_at2 _ _ _ _ i _ Fv Hn))).
Qed.
End Any.

(** ** exact arithmetic *)
Definition grid_refined_curves (a : algorithm RNum) k f s d (K : 1 <= k) := any_grid_refined_curves a k f s d (axis_refined_R k (a_gpa a) K) K.
Definition grid_refined_pdp (a : algorithm RNum) k f s d (K : 1 <= k) := any_grid_refined_pdp a k f s d (axis_refined_R k (a_gpa a) K) K.
Definition grid_refined_one (a : algorithm RNum) k h f s d d' (K : 1 <= k) := any_grid_refined_one a k h f s d d' (axis_refined_R k (a_gpa a) K) K.
Definition grid_refined_two (a : algorithm RNum) k h1 h2 f s d d' (K : 1 <= k) := any_grid_refined_two a k h1 h2 f s d d' (axis_refined_R k (a_gpa a) K) K.
