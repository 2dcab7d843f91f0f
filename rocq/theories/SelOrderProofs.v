(** SelOrderProofs.v - the order of the selected hyperparameters reorders the grid points and nothing else (C100). *)
From Coq Require Import Permutation FinFun.
From Verif Require Import Base Num NumLaws NumpyModel ConfigSpaceModel UtilsModel IceModel PartitionModel PartitionSpec ListLemmas IceProofs IceProofs2
  UtilsProofs IceShapeSpec IceShapeProofs SelOrderSpec.
Local Open Scope nat_scope.
Local Open Scope list_scope.

(** ** the axis positions of all grid points *)
Definition positions (m d : nat) : list (list nat) := map (fun q => map (fun k => digit m d (mesh_dim d k) q) (seq 0 d)) (seq 0 (m ^ d)).
Lemma swap2_swap2 {A} (l : list A) : swap2 (swap2 l) = l.
Proof. destruct l as [|x [|y l]]; reflexivity. Qed.
Lemma swap2_length {A} (l : list A) : length (swap2 l) = length l.
Proof. destruct l as [|x [|y l]]; reflexivity. Qed.
Lemma swap2_digits m d ks : all_digits m d ks -> all_digits m d (swap2 ks).
Proof.
  intros [A B]. destruct ks as [|x [|y ks]]; cbn; try (split; assumption). split; [exact A|].
  inversion B as [|? ? B1 B2]; subst. inversion B2; subst. constructor; [assumption|]. constructor; assumption.
Qed.
Lemma digits_back m d ds : all_digits m d ds -> map (fun j => digit m d j (from_digits m ds)) (seq 0 d) = ds.
Proof.
  intros [L F]. apply list_eq_nth_error. intro j. rewrite nth_error_map. destruct (nth_error ds j) as [k|] eqn:E.
  - assert (j < d) by (rewrite <- L; exact (nth_error_Some_lt _ _ _ E)).
    rewrite (nth_error_nth' (seq 0 d) 0) by (rewrite seq_length; assumption). rewrite seq_nth by assumption. cbn [option_map Nat.add].
    rewrite <- L. rewrite (digit_from _ _ _ _ F E). reflexivity.
  - apply nth_error_None in E. rewrite L in E. rewrite (proj2 (nth_error_None (seq 0 d) j)); [reflexivity|]. rewrite seq_length. exact E.
Qed.
Lemma positions_length m d : length (positions m d) = m ^ d.
Proof. unfold positions. rewrite map_length, seq_length. reflexivity. Qed.
Lemma positions_in m d ks : In ks (positions m d) <-> all_digits m d ks.
Proof.
  unfold positions. rewrite in_map_iff. split.
  - intros (q & <- & Hq). apply in_seq in Hq. split; [rewrite map_length, seq_length; reflexivity|].
    apply Forall_map, Forall_forall. intros j Hj. apply in_seq in Hj. apply digit_lt. intros ->. destruct d; [lia|cbn in Hq; lia].
  - intro A. pose proof (swap2_digits _ _ _ A) as A'. exists (from_digits m (swap2 ks)). split.
    + rewrite (mesh_swap (fun j => digit m d j (from_digits m (swap2 ks))) d), (digits_back _ _ _ A'). apply swap2_swap2.
    + apply in_seq. cbn. destruct A' as [L F]. rewrite <- L. pose proof (from_digits_lt _ _ F). lia.
Qed.
Lemma positions_nodup m d : NoDup (positions m d).
Proof.
  apply (NoDup_map_inv (fun ks => from_digits m (swap2 ks))). unfold positions. rewrite map_map.
  rewrite (map_ext_in _ (fun q => q)); [rewrite map_id; apply seq_NoDup|].
  intros q Hq. apply in_seq in Hq. rewrite (mesh_swap (fun j => digit m d j q) d), swap2_swap2. apply digits_of. lia.
Qed.
Lemma positions_0 m d : m <> 0 -> nth_error (positions m d) 0 = Some (repeat 0 d).
Proof.
  intro H. assert (L : 0 < m ^ d) by (apply Nat.neq_0_lt_0; apply Nat.pow_nonzero; exact H). unfold positions. rewrite nth_error_map_seq by exact L. f_equal.
  assert (K : forall q, q = 0 -> forall l, map (fun k => digit m d (mesh_dim d k) q) l = repeat 0 (length l)).
  { intros q -> l. induction l as [|k l IH]; cbn; [reflexivity|]. rewrite IH. f_equal. unfold digit. rewrite Nat.div_0_l by (apply Nat.pow_nonzero; exact H). apply Nat.mod_0_l. exact H. }
  rewrite (K _ eq_refl), seq_length. reflexivity.
Qed.

Section Rows.
Context {N : Num}.
Definition axis_at (axis : list N) (ks : list nat) : list N := map (fun k => nth k axis n0) ks.
Lemma mesh_positions (axis : list N) d grid : mesh_points axis d = Ok grid -> grid = map (axis_at axis) (positions (length axis) d).
Proof.
  intro H. destruct d as [|d]; [discriminate|]. injection H as <-. unfold positions, axis_at. rewrite map_map. apply map_ext. intro q. rewrite map_map. reflexivity.
Qed.
(** ** position of a coordinate in a list of coordinates, and the choice of axis positions carried over *)
Fixpoint where_is (j : nat) (l : list nat) : nat := match l with [] => 0 | i :: t => if Nat.eqb i j then 0 else S (where_is j t) end.
Lemma where_is_nth l : NoDup l -> forall t j, nth_error l t = Some j -> where_is j l = t.
Proof.
  induction 1 as [|i l Hi ND IH]; intros t j E; [destruct t; discriminate|]. cbn. destruct t as [|t]; cbn in E.
  - injection E as ->. rewrite Nat.eqb_refl. reflexivity.
  - destruct (Nat.eqb_spec i j) as [->|]; [exfalso; apply Hi; exact (nth_error_In _ _ E)|]. f_equal. apply IH. exact E.
Qed.
Lemma where_is_in l j : In j l -> nth_error l (where_is j l) = Some j /\ where_is j l < length l.
Proof.
  induction l as [|i l IH]; [intros []|]. cbn. destruct (Nat.eqb_spec i j) as [->|Hn]; [intros _; split; [reflexivity|lia]|].
  intros [E|E]; [contradiction|]. destruct (IH E) as [A B]. split; [exact A|lia].
Qed.
Definition carry (from to : list nat) (ks : list nat) : list nat := map (fun j => nth (where_is j from) ks 0) to.
Lemma carry_digits from to m ks : (forall j, In j to -> In j from) -> all_digits m (length from) ks -> all_digits m (length to) (carry from to ks).
Proof.
  intros I [L F]. split; [apply map_length|]. apply Forall_map, Forall_forall. intros j Hj. destruct (where_is_in _ _ (I j Hj)) as [_ B].
  rewrite Forall_forall in F. apply F. apply nth_In. rewrite L. exact B.
Qed.
Lemma carry_nth from to ks t j : nth_error to t = Some j -> nth_error (carry from to ks) t = Some (nth (where_is j from) ks 0).
Proof. intro E. unfold carry. rewrite nth_error_map, E. reflexivity. Qed.
Lemma carry_back from to ks : NoDup from -> NoDup to -> (forall j, In j from -> In j to) -> length ks = length from -> carry to from (carry from to ks) = ks.
Proof.
  intros ND ND' I L. apply list_eq_nth_error. intro t. destruct (nth_error from t) as [j|] eqn:E.
  - rewrite (carry_nth _ _ _ _ _ E). destruct (where_is_in to j (I j (nth_error_In _ _ E))) as [A B].
    rewrite (nth_error_nth_some _ _ _ 0 (carry_nth from to ks _ _ A)). rewrite (where_is_nth _ ND _ _ E).
    symmetry. apply nth_error_nth'. rewrite L. exact (nth_error_Some_lt _ _ _ E).
  - apply nth_error_None in E. rewrite (proj2 (nth_error_None ks t)) by lia. apply nth_error_None. unfold carry. rewrite map_length. exact E.
Qed.
Lemma carry_0 from to : length from = length to -> carry from to (repeat 0 (length from)) = repeat 0 (length to).
Proof.
  intros _. unfold carry. generalize (length from) as n. intro n. induction to as [|j to IH]; cbn; [reflexivity|]. rewrite IH. f_equal.
  generalize (where_is j from) as w. clear. induction n as [|n IH]; intros [|w]; cbn; auto.
Qed.
(** assigning the same values in another order *)
Lemma assign_carry (axis : list N) idx idx' ks' row : NoDup idx -> NoDup idx' -> (forall j, In j idx <-> In j idx') -> length ks' = length idx' ->
  (forall j, In j idx -> j < length row) ->
  assign_row idx (axis_at axis (carry idx' idx ks')) row = assign_row idx' (axis_at axis ks') row.
Proof.
  intros ND ND' I L B. apply list_eq_nth_error. intro j. destruct (in_dec Nat.eq_dec j idx) as [J|J].
  - pose proof (B j J) as Lj. pose proof J as J'. apply I in J'.
    rewrite !(nth_error_nth' _ n0) by (rewrite assign_row_length; exact Lj). f_equal.
    destruct (where_is_in idx j J) as [A _]. destruct (where_is_in idx' j J') as [A' B'].
    assert (U : forall l t, NoDup l -> nth_error l t = Some j -> forall t', t < t' -> nth_error l t' <> Some j).
    { intros l t Nl Et t' Lt Et'. pose proof (where_is_nth l Nl _ _ Et). pose proof (where_is_nth l Nl _ _ Et'). lia. }
    rewrite (assign_row_at idx _ row j (where_is j idx) n0); [|unfold axis_at, carry; rewrite !map_length; reflexivity|exact Lj|exact A|exact (U idx _ ND A)].
    rewrite (assign_row_at idx' _ row j (where_is j idx') n0); [|unfold axis_at; rewrite map_length; exact L|exact Lj|exact A'|exact (U idx' _ ND' A')].
    assert (E : nth_error ks' (where_is j idx') = Some (nth (where_is j idx') ks' 0)) by (apply nth_error_nth'; rewrite L; exact B').
    unfold axis_at. apply nth_error_nth_some. rewrite nth_error_map, (carry_nth _ _ _ _ _ A). cbn. f_equal.
    symmetry. apply nth_error_nth_some. rewrite nth_error_map, E. reflexivity.
  - rewrite !assign_other; [reflexivity| |exact J]. rewrite <- I. exact J.
Qed.

(** ** one reordering of the grid points for all samples *)
Theorem grid_reordered (a : algorithm N) sel' idx idx' grid grid' : NoDup (map hp_name (a_cs a)) -> NoDup (map hp_name (a_sel a)) -> Permutation (a_sel a) sel' ->
  get_selected_idx (a_sel a) (a_cs a) = Ok idx -> get_selected_idx sel' (a_cs a) = Ok idx' ->
  grid_points a = Ok grid -> grid_points (with_selected a sel') = Ok grid' ->
  exists sigma, shuffles (num_grid_points a) sigma /\ (a_gpa a <> 0 -> sigma 0 = 0) /\
    forall row, length row = num_features a -> reordered (num_grid_points a) sigma (x_curve idx grid row) (x_curve idx' grid' row).
Proof.
  intros ND NS P Hi Hi' Hg Hg'.
  assert (Ln : length sel' = length (a_sel a)) by (symmetry; apply Permutation_length; exact P).
  assert (NS' : NoDup (map hp_name sel')) by (apply (Permutation_NoDup (Permutation_map hp_name P)); exact NS).
  assert (NDi : forall sel ix, NoDup (map hp_name sel) -> get_selected_idx sel (a_cs a) = Ok ix -> NoDup ix).
  { intros sel ix Nn H. destruct (selected_idx_nth _ _ _ H) as [Lx K]. apply NoDup_nth_error. intros t t' Lt E.
    destruct (nth_error sel t) as [h|] eqn:Eh; [|apply nth_error_None in Eh; lia]. destruct (K t h Eh) as (j & Ej & Cj).
    rewrite Ej in E. symmetry in E. pose proof (nth_error_Some_lt _ _ _ E) as Lt'. destruct (nth_error sel t') as [h'|] eqn:Eh'; [|apply nth_error_None in Eh'; lia].
    destruct (K t' h' Eh') as (j' & Ej' & Cj'). assert (j' = j) by congruence. subst j'.
    destruct (cs_idx_spec _ _ _ Cj) as (q & Hq & Hn & _). destruct (cs_idx_spec _ _ _ Cj') as (q' & Hq' & Hn' & _).
    apply (proj1 (NoDup_nth_error (map hp_name sel)) Nn); [rewrite map_length; lia|]. rewrite !nth_error_map, Eh, Eh'. cbn. congruence. }
  pose proof (NDi _ _ NS Hi) as N1. pose proof (NDi _ _ NS' Hi') as N2.
  assert (I : forall j, In j idx <-> In j idx').
  { intro j. rewrite (idx_selected _ _ _ j ND Hi), (idx_selected _ _ _ j ND Hi'). unfold is_selected.
    split; intros (h & Hh & Hin); exists h; (split; [exact Hh|]); [apply (Permutation_in _ (Permutation_map hp_name P)); exact Hin|].
    apply (Permutation_in _ (Permutation_sym (Permutation_map hp_name P))). exact Hin. }
  pose proof (proj1 (selected_idx_nth _ _ _ Hi)) as L1. pose proof (proj1 (selected_idx_nth _ _ _ Hi')) as L2.
  unfold grid_points in Hg, Hg'. apply mesh_positions in Hg, Hg'. cbn [a_gpa a_sel with_selected] in Hg'. unfold n_selected in Hg, Hg'. cbn [a_gpa a_sel with_selected] in Hg'.
  rewrite linspace_length in Hg, Hg'. rewrite Ln in Hg'. set (axis := linspace n0 n1 (a_gpa a)) in *. set (D := positions (a_gpa a) (length (a_sel a))) in *.
  assert (PD : Permutation D (map (carry idx' idx) D)).
  { apply NoDup_Permutation_bis.
    - apply positions_nodup.
    - rewrite map_length. reflexivity.
    - intros ks Hk. apply positions_in in Hk. apply in_map_iff. exists (carry idx idx' ks). split.
      + apply carry_back; [exact N1|exact N2|intro j; apply I|]. rewrite L1. apply Hk.
      + apply positions_in. rewrite <- Ln, <- L2. apply carry_digits; [intro j; apply I|]. rewrite L1. exact Hk. }
  apply Permutation_nth_error_bis in PD. destruct PD as (sigma & Inj & B & E).
  unfold D in B. rewrite positions_length in B. change (a_gpa a ^ length (a_sel a)) with (num_grid_points a) in B.
  set (G := num_grid_points a) in *.
  exists sigma. refine (conj (conj B _) (conj _ _)).
  - intros g g' _ _. apply Inj.
  - intro Z. pose proof (positions_0 (a_gpa a) (length (a_sel a)) Z) as E0. fold D in E0. pose proof (E 0) as Es. rewrite nth_error_map, E0 in Es. cbn [option_map] in Es.
    rewrite <- Ln, <- L2 in Es at 1. rewrite carry_0, L1 in Es by congruence.
    symmetry. apply (proj1 (NoDup_nth_error D) (positions_nodup _ _)); [exact (nth_error_Some_lt _ _ _ E0)|]. congruence.
  - intros row Lr. assert (LD : length D = G) by apply positions_length. unfold x_curve. refine (conj _ (conj _ _)).
    + rewrite Hg, !map_length. exact LD.
    + rewrite Hg', !map_length. exact LD.
    + intros g Lg. rewrite Hg, Hg', !map_map, !nth_error_map. pose proof (E g) as Eg. rewrite nth_error_map in Eg. rewrite <- Eg.
      destruct (nth_error D g) as [ks|] eqn:Ek; [|reflexivity]. cbn. f_equal. symmetry.
      assert (Hk : all_digits (a_gpa a) (length (a_sel a)) ks) by (apply positions_in; exact (nth_error_In _ _ Ek)).
      apply assign_carry; [exact N1|exact N2|exact I|rewrite L2, Ln; apply Hk|].
      intros j Hj. rewrite Lr. apply in_idx with (1 := Hi) in Hj. destruct Hj as (hs & h & _ & Hh & _). exact (nth_error_Some_lt _ _ _ Hh).
Qed.

Lemma reordered_map {A B} (h : A -> B) G sigma l l' : reordered G sigma l l' -> reordered G sigma (map h l) (map h l').
Proof.
  intros (L & L' & E). refine (conj _ (conj _ _)); [rewrite map_length; exact L|rewrite map_length; exact L'|].
  intros g Hg. rewrite !nth_error_map, E by exact Hg. reflexivity.
Qed.
Lemma Forall2_self {A B} (P : B -> B -> Prop) (h h' : A -> B) l : (forall x, In x l -> P (h x) (h' x)) -> Forall2 P (map h l) (map h' l).
Proof. induction l as [|x l IH]; intro H; cbn; constructor; [apply H; left; reflexivity|]. apply IH. intros y Hy. apply H. right. exact Hy. Qed.
Lemma mapM_perm {A B} (f : A -> res B) l l' : Permutation l l' -> forall r, mapM f l = Ok r -> exists r', mapM f l' = Ok r' /\ Permutation r r'.
Proof.
  induction 1 as [|x l l' P IH|x y l|l l' l'' P1 IH1 P2 IH2]; intros r H.
  - exists r. split; [exact H|reflexivity].
  - cbn in *. destruct (f x) as [b|]; [|discriminate]. cbn in *. destruct (mapM f l) as [t|]; [|discriminate]. cbn in *. injection H as <-. destruct (IH _ eq_refl) as (r' & E & Q). rewrite E. cbn. eexists. split; [reflexivity|]. constructor. exact Q.
  - cbn in *. destruct (f y) as [b|]; [|discriminate]. destruct (f x) as [c|]; [|discriminate]. cbn in *. destruct (mapM f l) as [t|]; [|discriminate]. cbn in *. injection H as <-.
    eexists. split; [reflexivity|]. constructor.
  - destruct (IH1 _ H) as (r1 & E1 & Q1). destruct (IH2 _ E1) as (r2 & E2 & Q2). exists r2. split; [exact E2|]. transitivity r1; assumption.
Qed.

Theorem selection_order (a : algorithm N) sel' f s d : NoDup (map hp_name (a_cs a)) -> NoDup (map hp_name (a_sel a)) -> Permutation (a_sel a) sel' ->
  rect (num_features a) (a_samples a) -> ice_calculate a false (rowwise f s) = Ok d ->
  exists d' sigma, ice_calculate (with_selected a sel') false (rowwise f s) = Ok d' /\ shuffles (num_grid_points a) sigma /\ (a_gpa a <> 0 -> sigma 0 = 0) /\
    Forall2 (reordered (num_grid_points a) sigma) (i_x d) (i_x d') /\ Forall2 (reordered (num_grid_points a) sigma) (i_y d) (i_y d') /\
    Forall2 (reordered (num_grid_points a) sigma) (i_v d) (i_v d').
Proof.
  intros ND NS P RC H. destruct (rowwise_closed a f s d RC H) as (idx & grid & Hi & Hg & Lg & Ed).
  destruct (mapM_perm _ _ _ P _ Hi) as (idx' & Hi' & _).
  assert (Ln : length sel' = length (a_sel a)) by (symmetry; apply Permutation_length; exact P).
  assert (Hg' : grid_points (with_selected a sel') = Ok grid).
  { unfold grid_points in *. unfold n_selected in *. cbn [a_gpa a_sel with_selected]. rewrite Ln. exact Hg. }
  destruct (grid_reordered a sel' idx idx' grid grid ND NS P Hi Hi' Hg Hg') as (sigma & Sh & S0 & K).
  assert (NG : num_grid_points (with_selected a sel') = num_grid_points a) by (unfold num_grid_points, n_selected; cbn [a_gpa a_sel with_selected]; rewrite Ln; reflexivity).
  assert (C : exists d', ice_calculate (with_selected a sel') false (rowwise f s) = Ok d').
  { assert (Hx : ice_x (with_selected a sel') = Ok (map (x_curve idx' grid) (a_samples a))).
    { apply (ice_x_closed (with_selected a sel') _ RC). exists idx', grid. auto. }
    unfold ice_calculate. rewrite Hx. cbn [bind]. unfold rowwise. cbn [bind fst snd]. rewrite !concat_map.
    assert (Q : forall h : list N -> N, reshape2 n0 (concat (map (map h) (map (x_curve idx' grid) (a_samples a)))) (num_samples (with_selected a sel')) (num_grid_points (with_selected a sel')) = Ok (map (map h) (map (x_curve idx' grid) (a_samples a)))).
    { intro h. apply reshape2_concat; [rewrite !map_length; reflexivity|]. rewrite map_map. apply Forall_map, Forall_forall. intros row _. unfold x_curve. rewrite !map_length, NG. exact Lg. }
    rewrite !Q. cbn [bind]. rewrite !map_length. unfold num_samples. cbn [a_samples with_selected]. rewrite Nat.eqb_refl. cbn. eauto. }
  destruct C as (d' & H'). exists d', sigma. refine (conj H' (conj Sh (conj S0 _))).
  destruct (rowwise_closed (with_selected a sel') f s d' RC H') as (idx1 & grid1 & Hi1 & Hg1 & _ & Ed').
  change (get_selected_idx sel' (a_cs a) = Ok idx1) in Hi1. assert (idx1 = idx') by (unfold get_selected_idx in *; congruence). assert (grid1 = grid) by congruence. subst idx1 grid1.
  subst d d'. cbn [i_x i_y i_v a_samples with_selected].
  refine (conj _ (conj _ _)); apply Forall2_self; intros row Hr; try apply reordered_map; apply K; unfold rect in RC; rewrite Forall_forall in RC; apply RC; exact Hr.
Qed.
End Rows.
