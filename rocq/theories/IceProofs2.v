(** IceProofs2.v - ICE values, grid and caching (C21-C25), selections (C31). *)
From Verif Require Import Base Num NumLaws NumpyModel ConfigSpaceModel UtilsModel IceModel ListLemmas IceProofs.
Local Open Scope nat_scope.

Section P.
Context {N : Num}.

(** ** vocabulary *)
(** the selection names known hyperparameters *)
Definition sel_known (cs : cspace N) (sel : list (hp N)) : Prop :=
  Forall (fun h => In (hp_name h) (map hp_name cs)) sel.
(** hyperparameter number [j] of the space is selected at position [t], and not again later *)
Definition selected_at (cs : cspace N) (sel : list (hp N)) (j t : nat) : Prop :=
  exists h hs, nth_error cs j = Some h /\ nth_error sel t = Some hs /\ hp_name hs = hp_name h /\
  forall t' hs', t < t' -> nth_error sel t' = Some hs' -> hp_name hs' <> hp_name h.
Definition not_selected (cs : cspace N) (sel : list (hp N)) (j : nat) : Prop :=
  forall h, nth_error cs j = Some h -> ~ In (hp_name h) (map hp_name sel).

Definition at3 (x : list (list (list N))) (i g : nat) : option (list N) :=
  match nth_error x i with Some c => nth_error c g | None => None end.
Definition at2 (y : list (list N)) (i g : nat) : option N :=
  match nth_error y i with Some r => nth_error r g | None => None end.

Lemma cs_idx_name (cs : cspace N) name : In name (map hp_name cs) -> exists i, cs_idx cs name = Ok i.
Proof. intro H. apply in_map_iff in H. destruct H as (h & <- & H). apply cs_idx_in, H. Qed.

Lemma selected_idx_total (cs : cspace N) sel : sel_known cs sel -> exists idx, get_selected_idx sel cs = Ok idx.
Proof.
  unfold get_selected_idx. induction 1 as [|h sel H Hs IH]; cbn; [eauto|].
  destruct (cs_idx_name cs _ H) as (i & ->). destruct IH as (idx & ->). cbn. eauto.
Qed.

Lemma selected_idx_nth (cs : cspace N) sel idx : get_selected_idx sel cs = Ok idx ->
  length idx = length sel /\
  forall t hs, nth_error sel t = Some hs -> exists j, nth_error idx t = Some j /\ cs_idx cs (hp_name hs) = Ok j.
Proof.
  intro H. split; [apply (mapM_length _ _ _ H)|]. intros t hs Ht. exact (mapM_nth _ _ _ _ _ H Ht).
Qed.

Lemma in_idx (cs : cspace N) sel idx j : get_selected_idx sel cs = Ok idx -> In j idx ->
  exists hs h, In hs sel /\ nth_error cs j = Some h /\ hp_name h = hp_name hs.
Proof.
  intros H Hj. destruct (mapM_in _ _ _ _ H Hj) as (hs & Hin & Hc).
  destruct (cs_idx_spec _ _ _ Hc) as (h & Hh & Hn & _). eauto.
Qed.

(** C21 *)
Theorem ice_x_values (a : algorithm N) c p d :
  NoDup (map hp_name (a_cs a)) -> rect (num_features a) (a_samples a) ->
  ice_calculate a c p = Ok d ->
  exists grid, grid_points a = Ok grid /\ length grid = num_grid_points a /\
    length (i_x d) = num_samples a /\ Forall (fun m => length m = num_grid_points a) (i_x d) /\
    Forall (Forall (fun r => length r = num_features a)) (i_x d) /\
    forall i g row gp, nth_error (a_samples a) i = Some row -> nth_error grid g = Some gp ->
      exists xrow, at3 (i_x d) i g = Some xrow /\
        (forall j t, selected_at (a_cs a) (a_sel a) j t -> nth_error xrow j = nth_error gp t) /\
        (forall j, not_selected (a_cs a) (a_sel a) j -> nth_error xrow j = nth_error row j).
Proof.
  intros ND RC H. pose proof (ice_calculate_shapes a c p d RC H) as S. cbv zeta in S.
  destruct S as (S1 & _ & _ & S4 & _ & _ & S7).
  apply ice_calculate_ok in H. destruct H as (means & stds & Hx & _).
  apply (ice_x_closed a _ RC) in Hx. destruct Hx as (idx & grid & Hi & Hg & Hx).
  exists grid. destruct (mesh_points_length _ _ _ Hg) as [Lg Fg]. rewrite linspace_length in Lg.
  refine (conj Hg (conj Lg (conj S1 (conj S4 (conj S7 _))))).
  intros i g row gp Hr Hgp.
  exists (assign_row idx gp row). split; [|split].
  - unfold at3. rewrite Hx, nth_error_map, Hr. cbn. rewrite nth_error_map, Hgp. reflexivity.
  - intros j t (h & hs & Hh & Hs & Hn & Hlast).
    destruct (selected_idx_nth _ _ _ Hi) as [Li Ni]. destruct (Ni t hs Hs) as (j' & Hj' & Hc).
    assert (j' = j).
    { rewrite Hn in Hc. pose proof (cs_idx_nodup _ _ _ ND Hh). congruence. } subst j'.
    assert (Lgp : length gp = length idx).
    { rewrite Li. apply nth_error_In in Hgp. exact (proj1 (Forall_forall _ _) Fg gp Hgp). }
    assert (Lrow : length row = num_features a).
    { apply nth_error_In in Hr. exact (proj1 (Forall_forall _ _) RC row Hr). }
    assert (Hjl : j < length row) by (rewrite Lrow; exact (nth_error_Some_lt _ _ _ Hh)).
    assert (Htl : t < length gp) by (rewrite Lgp; exact (nth_error_Some_lt _ _ _ Hj')).
    rewrite (nth_error_nth' (assign_row idx gp row) n0) by (rewrite assign_row_length; exact Hjl).
    rewrite (nth_error_nth' gp n0) by exact Htl. f_equal. apply assign_row_at; auto.
    intros t' Ht' Hnt'. assert (Hlt : t' < length (a_sel a)) by (rewrite <- Li; exact (nth_error_Some_lt _ _ _ Hnt')).
    destruct (nth_error (a_sel a) t') as [hs'|] eqn:E; [|apply nth_error_None in E; lia].
    destruct (Ni t' hs' E) as (j'' & Hj'' & Hc''). rewrite Hnt' in Hj''. inversion Hj''; subst j''.
    apply (Hlast t' hs' Ht' E). rewrite <- Hn. exact (cs_idx_inj _ _ _ _ Hc'' Hc).
  - intros j Hj. 
    assert (Lrow : length row = num_features a).
    { apply nth_error_In in Hr. exact (proj1 (Forall_forall _ _) RC row Hr). }
    destruct (Nat.lt_ge_cases j (length row)) as [Hjl|Hjl].
    + rewrite (nth_error_nth' (assign_row idx gp row) n0) by (rewrite assign_row_length; exact Hjl).
      rewrite (nth_error_nth' row n0) by exact Hjl. f_equal. apply assign_row_other.
      intro Hin. destruct (in_idx _ _ _ _ Hi Hin) as (hs & h & Hs & Hh & Hn).
      apply (Hj h Hh). rewrite Hn. apply in_map, Hs.
    + rewrite (proj2 (nth_error_None row j) Hjl). apply nth_error_None. rewrite assign_row_length. exact Hjl.
Qed.

(** success of the calculation *)
Definition batch_predictor (p : predictor N) : Prop :=
  forall rows, exists m s, p rows = Ok (m, s) /\ length m = length rows /\ length s = length rows.

Lemma reshape2_total {A} (d : A) flat n m : length flat = n * m -> exists r, reshape2 d flat n m = Ok r.
Proof. intro H. unfold reshape2. rewrite H, Nat.eqb_refl. eauto. Qed.

Lemma ice_x_total (a : algorithm N) : rect (num_features a) (a_samples a) -> sel_known (a_cs a) (a_sel a) ->
  a_sel a <> [] -> exists x, ice_x a = Ok x.
Proof.
  intros RC SK NE. destruct (selected_idx_total _ _ SK) as (idx & Hi).
  assert (exists grid, grid_points a = Ok grid) as (grid & Hg).
  { unfold grid_points, mesh_points, n_selected. destruct (a_sel a); [contradiction|]. cbn. eauto. }
  eexists. apply (ice_x_closed a _ RC). eauto.
Qed.

Theorem ice_calculate_total (a : algorithm N) c p :
  rect (num_features a) (a_samples a) -> sel_known (a_cs a) (a_sel a) -> a_sel a <> [] -> 1 <= a_gpa a ->
  batch_predictor p -> exists d, ice_calculate a c p = Ok d.
Proof.
  intros RC SK NE G1 BP. destruct (ice_x_total a RC SK NE) as (x & Hx).
  destruct (BP (concat x)) as (m & s & Hp & Lm & Ls).
  assert (Lc : length (concat x) = num_samples a * num_grid_points a).
  { pose proof Hx as Hx'. apply (ice_x_closed a _ RC) in Hx'. destruct Hx' as (idx & grid & Hi & Hg & E).
    destruct (mesh_points_length _ _ _ Hg) as [Lg _]. rewrite linspace_length in Lg.
    rewrite (concat_length_const x (num_grid_points a)); [rewrite E, map_length; reflexivity|].
    rewrite E. apply Forall_map, Forall_forall. intros row _. rewrite map_length. exact Lg. }
  destruct (reshape2_total n0 m (num_samples a) (num_grid_points a)) as (y & Hy); [congruence|].
  destruct (reshape2_total n0 s (num_samples a) (num_grid_points a)) as (sd & Hs); [congruence|].
  destruct (reshape2_ok _ _ _ _ _ Hy) as (_ & Ly & Fy & _). destruct (reshape2_ok _ _ _ _ _ Hs) as (_ & Lsd & _).
  assert (Hc : exists y', (if c then center_rows (num_grid_points a) y else Ok y) = Ok y' /\ length y' = num_samples a).
  { destruct c; [|eauto]. eexists. split; [apply (center_rows_closed _ _ _ Fy); split; [|reflexivity]|rewrite map_length; exact Ly].
    unfold num_grid_points. intro E0. apply Nat.pow_eq_0_iff in E0. lia. }
  destruct Hc as (y' & Hc & Ly'). unfold ice_calculate. rewrite Hx. cbn [bind]. rewrite Hp. cbn [bind fst snd].
  rewrite Hy, Hs. cbn [bind]. rewrite Hc. cbn [bind]. rewrite Ly', map_length, Lsd, Nat.eqb_refl. cbn. eauto.
Qed.

(** C22 *)
Lemma at2_nth (y : list (list N)) i g v : at2 y i g = Some v -> nth g (nth i y []) n0 = v /\ i < length y.
Proof.
  unfold at2. intro H. destruct (nth_error y i) as [r|] eqn:E; [|discriminate].
  split; [|exact (nth_error_Some_lt _ _ _ E)]. rewrite (nth_error_nth_some _ _ _ [] E). exact (nth_error_nth_some _ _ _ n0 H).
Qed.
Lemma at2_rect (y : list (list N)) n m i g : length y = n -> Forall (fun r => length r = m) y -> i < n -> g < m ->
  at2 y i g = Some (nth g (nth i y []) n0).
Proof.
  intros L F Hi Hg. unfold at2. rewrite (nth_error_nth' y []) by lia.
  apply nth_error_nth'. rewrite (proj1 (Forall_forall _ _) F); [lia|]. apply nth_In. lia.
Qed.

Theorem ice_values_are_predictions (a : algorithm N) p d :
  rect (num_features a) (a_samples a) -> ice_calculate a false p = Ok d ->
  exists means stds, p (concat (i_x d)) = Ok (means, stds) /\
    length means = num_samples a * num_grid_points a /\ length stds = num_samples a * num_grid_points a /\
    forall i g, i < num_samples a -> g < num_grid_points a ->
      exists xrow m s, at3 (i_x d) i g = Some xrow /\
        nth_error (concat (i_x d)) (i * num_grid_points a + g) = Some xrow /\
        nth_error means (i * num_grid_points a + g) = Some m /\ nth_error stds (i * num_grid_points a + g) = Some s /\
        at2 (i_y d) i g = Some m /\ at2 (i_v d) i g = Some (nmul s s).
Proof.
  intros RC H. pose proof (ice_calculate_shapes a false p d RC H) as S. cbv zeta in S.
  destruct S as (S1 & S2 & S3 & S4 & S5 & S6 & S7).
  apply ice_calculate_ok in H. destruct H as (means & stds & Hx & Hp & y & sd & Hy & Hs & Hv & Hc).
  inversion Hc as [Hc']. subst y. destruct (reshape2_ok _ _ _ _ _ Hy) as (Lm & _ & _ & Ny & _).
  destruct (reshape2_ok _ _ _ _ _ Hs) as (Lsd & Ls1 & Fs & Ns & _).
  exists means, stds. refine (conj Hp (conj Lm (conj Lsd _))). intros i g Hi Hg.
  assert (Hlt : i * num_grid_points a + g < num_samples a * num_grid_points a) by nia.
  assert (H3 : at3 (i_x d) i g = Some (nth g (nth i (i_x d) []) [])).
  { unfold at3. rewrite (nth_error_nth' (i_x d) []) by lia. apply nth_error_nth'.
    rewrite (proj1 (Forall_forall _ _) S4); [exact Hg|]. apply nth_In. lia. }
  exists (nth g (nth i (i_x d) []) []), (nth (i * num_grid_points a + g) means n0), (nth (i * num_grid_points a + g) stds n0).
  refine (conj H3 (conj _ (conj _ (conj _ (conj _ _))))).
  - rewrite (nth_error_nth' (concat (i_x d)) []) by (rewrite (concat_length_const _ _ S4), S1; exact Hlt).
    f_equal. rewrite (nth_concat_rect _ _ _ _ _ S4 Hg). reflexivity.
  - apply nth_error_nth'. lia.
  - apply nth_error_nth'. lia.
  - rewrite (at2_rect _ (num_samples a) (num_grid_points a)) by (assumption || lia). f_equal. apply Ny; assumption.
  - rewrite Hv. unfold at2. rewrite nth_error_map. rewrite (nth_error_nth' sd []) by lia. cbn. rewrite nth_error_map.
    rewrite (nth_error_nth' (nth i sd []) n0).
    + cbn. rewrite Ns by assumption. reflexivity.
    + rewrite (proj1 (Forall_forall _ _) Fs); [exact Hg|]. apply nth_In. lia.
Qed.

(** a surrogate that predicts row by row *)
Theorem ice_values_rowwise (a : algorithm N) (f s : list N -> N) d :
  rect (num_features a) (a_samples a) ->
  ice_calculate a false (fun rows => Ok (map f rows, map s rows)) = Ok d ->
  forall i g, i < num_samples a -> g < num_grid_points a ->
    exists xrow, at3 (i_x d) i g = Some xrow /\
      at2 (i_y d) i g = Some (f xrow) /\ at2 (i_v d) i g = Some (nmul (s xrow) (s xrow)).
Proof.
  intros RC H i g Hi Hg. destruct (ice_values_are_predictions a _ d RC H) as (means & stds & Hp & _ & _ & K).
  inversion Hp; subst means stds. destruct (K i g Hi Hg) as (xrow & m & sd & H3 & Hc & Hm & Hs & Hy & Hv).
  exists xrow. rewrite nth_error_map, Hc in Hm, Hs. cbn in Hm, Hs. inversion Hm. inversion Hs. subst m sd. auto.
Qed.

(** C23 *)
Theorem centered_curves (a : algorithm N) p d :
  rect (num_features a) (a_samples a) -> 1 <= a_gpa a ->
  ice_calculate a false p = Ok d ->
  exists d', ice_calculate a true p = Ok d' /\ i_x d' = i_x d /\ i_v d' = i_v d /\
    forall i g v v0, at2 (i_y d) i g = Some v -> at2 (i_y d) i 0 = Some v0 -> at2 (i_y d') i g = Some (nsub v v0).
Proof.
  intros RC G1 H. pose proof (ice_calculate_shapes a false p d RC H) as S. cbv zeta in S.
  destruct S as (S1 & S2 & S3 & S4 & S5 & S6 & S7).
  pose proof H as H0. apply ice_calculate_ok in H. destruct H as (means & stds & Hx & Hp & y & sd & Hy & Hs & Hv & Hc).
  inversion Hc as [Hc']. subst y.
  assert (E : center_rows (num_grid_points a) (i_y d) = Ok (map (fun r => map (fun v => nsub v (nth 0 r n0)) r) (i_y d))).
  { apply (center_rows_closed _ _ _ S5). split; [|reflexivity]. unfold num_grid_points. intro E0. apply Nat.pow_eq_0_iff in E0. lia. }
  exists (mkice (i_x d) (map (fun r => map (fun v => nsub v (nth 0 r n0)) r) (i_y d)) (i_v d)).
  refine (conj _ (conj eq_refl (conj eq_refl _))).
  - unfold ice_calculate. rewrite Hx. cbn [bind]. rewrite Hp. cbn [bind fst snd]. rewrite Hy. cbn [bind]. rewrite Hs. cbn [bind].
    rewrite E. cbn [bind]. rewrite map_length, S2, <- Hv, S3, Nat.eqb_refl. cbn. reflexivity.
  - intros i g v v0 Hg H00. cbn [i_y]. unfold at2 in *. rewrite nth_error_map. destruct (nth_error (i_y d) i) as [r|]; [|discriminate].
    cbn. rewrite nth_error_map, Hg. cbn. rewrite (nth_error_nth_some _ _ _ n0 H00). reflexivity.
Qed.

(** C24 *)
Definition all_digits (m d : nat) (ds : list nat) : Prop := length ds = d /\ Forall (fun k => k < m) ds.

Fixpoint from_digits (m : nat) (ds : list nat) : nat :=
  match ds with [] => 0 | k :: t => k * m ^ length t + from_digits m t end.

Lemma from_digits_lt m ds : Forall (fun k => k < m) ds -> from_digits m ds < m ^ length ds.
Proof.
  induction 1 as [|k t Hk Ht IH]; cbn [from_digits length Nat.pow]; [lia|]. nia.
Qed.

Lemma digit_from m ds j k : Forall (fun k => k < m) ds -> nth_error ds j = Some k ->
  digit m (length ds) j (from_digits m ds) = k.
Proof.
  intro H. revert j. induction H as [|k0 t Hk Ht IH]; intros j Hj; [destruct j; discriminate|].
  unfold digit in *. cbn [length from_digits] in *. destruct j as [|j].
  - cbn in Hj. inversion Hj; subst k0. replace (S (length t) - 1 - 0) with (length t) by lia.
    rewrite Nat.div_add_l by (intro E; apply Nat.pow_eq_0_iff in E; lia).
    rewrite (Nat.div_small _ _ (from_digits_lt m t Ht)), Nat.add_0_r. apply Nat.mod_small, Hk.
  - cbn in Hj. specialize (IH j Hj). pose proof (nth_error_Some_lt _ _ _ Hj).
    replace (S (length t) - 1 - S j) with (length t - 1 - j) by lia. set (e := length t - 1 - j) in *.
    assert (Hm : m <> 0) by lia.
    assert (Hme : m ^ e <> 0) by (intro E; apply Nat.pow_eq_0_iff in E; lia).
    replace (m ^ length t) with (m ^ (j + 1) * m ^ e) by (rewrite <- Nat.pow_add_r; f_equal; lia).
    rewrite Nat.mul_assoc, Nat.div_add_l by exact Hme.
    replace (k0 * m ^ (j + 1)) with (k0 * m ^ j * m) by (rewrite Nat.pow_add_r, Nat.pow_1_r; ring).
    rewrite Nat.add_comm, Nat.mod_add by exact Hm. exact IH.
Qed.

Lemma digits_of m d q : q < m ^ d -> from_digits m (map (fun j => digit m d j q) (seq 0 d)) = q.
Proof.
  revert q. induction d as [|d IH]; intros q Hq; [cbn in *; lia|].
  assert (Hm : m <> 0) by (intros ->; cbn in Hq; lia).
  cbn [seq map from_digits]. rewrite map_length, seq_length.
  unfold digit at 1. replace (S d - 1 - 0) with d by lia.
  assert (Hmd : m ^ d <> 0) by (intro E; apply Nat.pow_eq_0_iff in E; lia).
  rewrite (Nat.mod_small (q / m ^ d) m) by (apply Nat.div_lt_upper_bound; [exact Hmd|]; cbn in Hq; lia).
  rewrite <- seq_shift, map_map.
  rewrite (map_ext_in (fun x => digit m (S d) (S x) q) (fun j => digit m d j (q mod m ^ d))).
  2:{ intros j Hj. apply in_seq in Hj. unfold digit. replace (S d - 1 - S j) with (d - 1 - j) by lia.
      set (e := d - 1 - j). replace (m ^ d) with (m ^ e * (m * m ^ j)).
      2:{ replace (m * m ^ j) with (m ^ (1 + j)) by (cbn; reflexivity). rewrite <- Nat.pow_add_r. f_equal. unfold e. lia. }
      assert (Hme : m ^ e <> 0) by (intro E; apply Nat.pow_eq_0_iff in E; lia).
      assert (Hmj : m * m ^ j <> 0) by (intro E; apply Nat.mul_eq_0 in E; destruct E as [E|E]; [lia|apply Nat.pow_eq_0_iff in E; lia]).
      rewrite (Nat.mod_mul_r q (m ^ e) (m * m ^ j)) by assumption.
      rewrite (Nat.add_comm (q mod m ^ e)), (Nat.mul_comm (m ^ e)), Nat.div_add_l by assumption.
      rewrite (Nat.div_small (q mod m ^ e) (m ^ e)) by (apply Nat.mod_upper_bound; assumption).
      rewrite Nat.add_0_r. rewrite (Nat.mod_mul_r (q / m ^ e) m (m ^ j)) by (try lia; intro E; apply Nat.pow_eq_0_iff in E; lia).
      rewrite (Nat.mul_comm m), Nat.mod_add by exact Hm. rewrite Nat.mod_mod by exact Hm. reflexivity. }
  rewrite IH by (apply Nat.mod_upper_bound; exact Hmd).
  rewrite Nat.mul_comm. symmetry. apply Nat.div_mod. exact Hmd.
Qed.

Lemma digit_lt m d j q : m <> 0 -> digit m d j q < m.
Proof. intro. unfold digit. apply Nat.mod_upper_bound. assumption. Qed.

Definition swap2 {A} (l : list A) : list A := match l with a :: b :: t => b :: a :: t | _ => l end.
Lemma mesh_dim_lt d k : k < d -> mesh_dim d k < d.
Proof. unfold mesh_dim. destruct (Nat.leb_spec d 1); [auto|]. destruct k as [|[|k]]; lia. Qed.
Lemma mesh_dim_invol d k : k < d -> mesh_dim d (mesh_dim d k) = k.
Proof. unfold mesh_dim. destruct (Nat.leb_spec d 1); [auto|]. destruct k as [|[|k]]; reflexivity. Qed.

(** the row of the grid with index [q] read as digits (most significant first, the
    first two swapped) *)
Lemma mesh_swap {A} (f : nat -> A) d : map (fun k => f (mesh_dim d k)) (seq 0 d) = swap2 (map f (seq 0 d)).
Proof.
  unfold mesh_dim. destruct d as [|[|d]]; [reflexivity|reflexivity|]. cbn. do 2 f_equal.
  apply map_ext_in. intros k Hk. apply in_seq in Hk. destruct k as [|[|k]]; [lia|lia|reflexivity].
Qed.

Theorem mesh_rows (axis : list N) d grid : mesh_points axis d = Ok grid ->
  length grid = length axis ^ d /\
  forall ds, all_digits (length axis) d ds ->
    exists q, q < length axis ^ d /\ nth_error grid q = Some (swap2 (map (fun k => nth k axis n0) ds)) /\
      q = from_digits (length axis) ds /\
      forall q', q' < length axis ^ d -> from_digits (length axis) ds = q' -> q' = q.
Proof.
  intro H. split; [exact (proj1 (mesh_points_length _ _ _ H))|]. intros ds [Ld Fd].
  exists (from_digits (length axis) ds).
  assert (Hq : from_digits (length axis) ds < length axis ^ d) by (rewrite <- Ld; apply from_digits_lt, Fd).
  refine (conj Hq (conj _ (conj eq_refl _))); [|intros; congruence].
  unfold mesh_points in H. destruct d as [|d]; [discriminate|]. inversion H; subst grid.
  rewrite nth_error_map_seq by exact Hq. f_equal.
  etransitivity; [exact (mesh_swap (fun j => nth (digit (length axis) (S d) j (from_digits (length axis) ds)) axis n0) (S d))|]. f_equal.
  apply list_eq_nth_error. intro j. rewrite !nth_error_map.
  destruct (nth_error ds j) as [k|] eqn:E; cbn [option_map].
  - assert (j < S d) by (rewrite <- Ld; exact (nth_error_Some_lt _ _ _ E)).
    rewrite (nth_error_nth' (seq 0 (S d)) 0) by (rewrite seq_length; assumption). rewrite seq_nth by assumption. cbn [option_map Nat.add].
    rewrite <- Ld at 1. rewrite (digit_from _ _ _ _ Fd E). reflexivity.
  - apply nth_error_None in E. rewrite Ld in E. rewrite (proj2 (nth_error_None (seq 0 (S d)) j)); [reflexivity|]. rewrite seq_length. exact E.
Qed.

(** every row arises from exactly one choice of axis positions *)
Theorem grid_is_cartesian_product (axis : list N) d grid : mesh_points axis d = Ok grid ->
  length grid = length axis ^ d /\
  (forall ks, all_digits (length axis) d ks -> exists q, nth_error grid q = Some (map (fun k => nth k axis n0) ks)) /\
  (forall q row, nth_error grid q = Some row -> exists ks, all_digits (length axis) d ks /\ row = map (fun k => nth k axis n0) ks) /\
  (NoDup axis -> NoDup grid).
Proof.
  intro H. destruct (mesh_rows _ _ _ H) as [L K].
  assert (Sw : forall A (l : list A), swap2 (swap2 l) = l) by (intros A [|x [|y l]]; reflexivity).
  assert (SwD : forall ks, all_digits (length axis) d ks -> all_digits (length axis) d (swap2 ks)).
  { intros ks [A B]. destruct ks as [|x [|y ks]]; cbn; try (split; assumption). split; [exact A|].
    inversion B as [|? ? B1 B2]; subst. inversion B2; subst. constructor; [assumption|]. constructor; assumption. }
  assert (SwM : forall (f : nat -> N) ks, swap2 (map f ks) = map f (swap2 ks)) by (intros f [|x [|y ks]]; reflexivity).
  assert (Rows : forall q row, nth_error grid q = Some row -> exists ds, all_digits (length axis) d ds /\
            from_digits (length axis) ds = q /\ row = swap2 (map (fun k => nth k axis n0) ds)).
  { intros q row Hq. pose proof (nth_error_Some_lt _ _ _ Hq) as Hl. rewrite L in Hl.
    assert (Hm : d <> 0 -> length axis <> 0) by (intros Hd E; rewrite E in Hl; destruct d; [lia|cbn in Hl; lia]).
    exists (map (fun j => digit (length axis) d j q) (seq 0 d)).
    assert (AD : all_digits (length axis) d (map (fun j => digit (length axis) d j q) (seq 0 d))).
    { split; [rewrite map_length, seq_length; reflexivity|]. apply Forall_map, Forall_forall. intros j Hj. apply in_seq in Hj.
      apply digit_lt, Hm. lia. }
    refine (conj AD (conj (digits_of _ _ _ Hl) _)).
    destruct (K _ AD) as (q' & Hq' & Hn & E & _). rewrite (digits_of _ _ _ Hl) in E. subst q'. congruence. }
  refine (conj L (conj _ (conj _ _))).
  - intros ks AD. destruct (K _ (SwD ks AD)) as (q & _ & Hn & _). exists q. rewrite Hn, SwM, Sw. reflexivity.
  - intros q row Hq. destruct (Rows q row Hq) as (ds & AD & _ & ->). exists (swap2 ds). split; [apply SwD, AD|]. apply SwM.
  - intro ND. apply NoDup_nth_error. intros q q' Hl E.
    destruct (nth_error grid q) as [row|] eqn:Eq; [|apply nth_error_None in Eq; lia]. symmetry in E.
    destruct (Rows q row Eq) as (ds & [Ld AD] & <- & E1). destruct (Rows q' row E) as (ds' & [Ld' AD'] & <- & E2).
    f_equal. assert (M : map (fun k => nth k axis n0) ds = map (fun k => nth k axis n0) ds').
    { rewrite <- (Sw _ (map _ ds)), <- E1, E2, Sw. reflexivity. }
    clear - AD AD' M ND. revert ds' AD' M. induction ds as [|k ds IH]; intros [|k' ds'] AD' M; try discriminate; [reflexivity|].
    cbn in M. inversion M as [[M1 M2]]. inversion AD; subst. inversion AD'; subst. f_equal; [|apply IH; assumption].
    apply (proj1 (NoDup_nth axis n0) ND); assumption.
Qed.

(** C25 *)
Fixpoint flag_after (c : bool) (ops : list (ice_op N)) : bool :=
  match ops with [] => c | OCenter b :: t => flag_after b t | _ :: t => flag_after c t end.
Fixpoint model_after (p : predictor N) (ops : list (ice_op N)) : predictor N :=
  match ops with [] => p | ORefit q :: t => model_after q t | _ :: t => model_after p t end.
Definition is_read (op : ice_op N) : bool := match op with OReadX | OReadY | OReadV => true | _ => false end.
Definition is_reset (op : ice_op N) : bool := match op with OReset => true | _ => false end.
(** what a read returns, given the outcome of a calculation *)
Definition read_of (r : res (icedata N)) (op : ice_op N) (out : ice_out N) : Prop :=
  match op, r with
  | OReadX, Ok d => out = ROutX (Ok (i_x d)) | OReadX, Err e => out = ROutX (Err e)
  | OReadY, Ok d => out = ROutY (Ok (i_y d)) | OReadY, Err e => out = ROutY (Err e)
  | OReadV, Ok d => out = ROutV (Ok (i_v d)) | OReadV, Err e => out = ROutV (Err e)
  | _, _ => True
  end.

Lemma ice_run_ops_app (o : ice N) l1 l2 :
  ice_run_ops o (l1 ++ l2) =
  let (o1, r1) := ice_run_ops o l1 in let (o2, r2) := ice_run_ops o1 l2 in (o2, r1 ++ r2).
Proof.
  revert o. induction l1 as [|op l1 IH]; intro o; cbn.
  - destruct (ice_run_ops o l2); reflexivity.
  - destruct (ice_step o op) as [o1 r]. rewrite IH. destruct (ice_run_ops o1 l1) as [o2 r2]. destruct (ice_run_ops o2 l2). reflexivity.
Qed.

Definition clean (o : ice N) : Prop := ic_x o = None /\ ic_y o = None /\ ic_v o = None.
Definition holds (o : ice N) (d : icedata N) : Prop := ic_x o = Some (i_x d) /\ ic_y o = Some (i_y d) /\ ic_v o = Some (i_v d).

Definition caches_ok (o : ice N) : Prop := clean o \/ exists d, holds o d.
Lemma step_static (o : ice N) op : caches_ok o ->
  caches_ok (fst (ice_step o op)) /\ ic_alg (fst (ice_step o op)) = ic_alg o /\
  ic_centered (fst (ice_step o op)) = flag_after (ic_centered o) [op] /\
  ic_predict (fst (ice_step o op)) = model_after (ic_predict o) [op].
Proof.
  intro H.
  assert (K : forall A (f : ice N -> option A), caches_ok (fst (read_field f o)) /\
     ic_alg (fst (read_field f o)) = ic_alg o /\ ic_centered (fst (read_field f o)) = ic_centered o /\
     ic_predict (fst (read_field f o)) = ic_predict o).
  { intros A f. unfold read_field. destruct (f o); [auto|]. unfold ice_run.
    destruct (ice_calculate _ _ _) as [d|e]; cbn; [|auto]. split; [|auto]. right. exists d. repeat split. }
  destruct op; cbn.
  - specialize (K _ ic_x). unfold read_x. destruct (read_field ic_x o); exact K.
  - specialize (K _ ic_y). unfold read_y. destruct (read_field ic_y o); exact K.
  - specialize (K _ ic_v). unfold read_v. destruct (read_field ic_v o); exact K.
  - split; [left; repeat split|auto].
  - split; [exact H|auto].
  - split; [exact H|auto].
Qed.
Lemma flag_after_cons c op t : flag_after c (op :: t) = flag_after (flag_after c [op]) t.
Proof. destruct op; reflexivity. Qed.
Lemma model_after_cons c op t : model_after c (op :: t) = model_after (model_after c [op]) t.
Proof. destruct op; reflexivity. Qed.
Lemma run_static ops : forall (o : ice N), caches_ok o ->
  let o' := fst (ice_run_ops o ops) in
  caches_ok o' /\ ic_alg o' = ic_alg o /\ ic_centered o' = flag_after (ic_centered o) ops /\
  ic_predict o' = model_after (ic_predict o) ops.
Proof.
  induction ops as [|op ops IH]; intros o H; [cbn; auto|].
  cbv zeta. cbn [ice_run_ops]. destruct (ice_step o op) as [o1 r] eqn:E.
  pose proof (step_static o op H) as (K1 & K2 & K3 & K4). rewrite E in *. cbn in K1, K2, K3, K4.
  specialize (IH o1 K1). cbv zeta in IH. destruct (ice_run_ops o1 ops) as [o2 rs]. cbn in *.
  destruct IH as (I1 & I2 & I3 & I4). refine (conj I1 (conj _ (conj _ _))); [congruence| |].
  - rewrite I3, K3. symmetry. destruct op; reflexivity.
  - rewrite I4, K4. symmetry. destruct op; reflexivity.
Qed.

Lemma clean_step (o : ice N) op : is_read op = false -> clean o -> clean (fst (ice_step o op)).
Proof. intros Hr H. destruct op; try discriminate; cbn; [repeat split|exact H|exact H]. Qed.
Lemma clean_run ops : forall (o : ice N), forallb (fun op => negb (is_read op)) ops = true -> clean o -> clean (fst (ice_run_ops o ops)).
Proof.
  induction ops as [|op ops IH]; intros o Hr H; [exact H|]. cbn in Hr. apply andb_prop in Hr. destruct Hr as [Hr1 Hr2].
  apply negb_true_iff in Hr1. cbn [ice_run_ops]. pose proof (clean_step o op Hr1 H). destruct (ice_step o op) as [o1 r].
  specialize (IH o1 Hr2 H0). destruct (ice_run_ops o1 ops). exact IH.
Qed.
Lemma hold_step (o : ice N) op d : is_reset op = false -> holds o d ->
  holds (fst (ice_step o op)) d /\ read_of (Ok d) op (snd (ice_step o op)).
Proof.
  intros Hr (H1 & H2 & H3). destruct op; try discriminate; cbn; unfold read_x, read_y, read_v, read_field.
  - rewrite H1. cbn. repeat split; assumption.
  - rewrite H2. cbn. repeat split; assumption.
  - rewrite H3. cbn. repeat split; assumption.
  - repeat split; assumption.
  - repeat split; assumption.
Qed.
Lemma hold_run ops : forall (o : ice N) d, forallb (fun op => negb (is_reset op)) ops = true -> holds o d ->
  holds (fst (ice_run_ops o ops)) d /\ Forall2 (read_of (Ok d)) ops (snd (ice_run_ops o ops)).
Proof.
  induction ops as [|op ops IH]; intros o d Hr H; [split; [exact H|constructor]|]. cbn in Hr. apply andb_prop in Hr. destruct Hr as [Hr1 Hr2].
  apply negb_true_iff in Hr1. cbn [ice_run_ops]. pose proof (hold_step o op d Hr1 H) as [K1 K2]. destruct (ice_step o op) as [o1 r].
  specialize (IH o1 d Hr2 K1). destruct (ice_run_ops o1 ops). cbn in *. split; [apply IH|]. constructor; [exact K2|apply IH].
Qed.

Theorem ice_history (a : algorithm N) (p : predictor N) before quiet op later :
  (before = [] \/ exists b, before = b ++ [OReset]) ->
  forallb (fun x => negb (is_read x)) quiet = true -> is_read op = true ->
  let start := fst (ice_run_ops (ice_new a p) (before ++ quiet)) in
  let calc := ice_calculate a (flag_after false (before ++ quiet)) (model_after p (before ++ quiet)) in
  read_of calc op (snd (ice_step start op)) /\
  match calc with
  | Ok d => forallb (fun x => negb (is_reset x)) later = true ->
            Forall2 (read_of calc) later (snd (ice_run_ops (fst (ice_step start op)) later))
  | Err _ => fst (ice_step start op) = start
  end.
Proof.
  intros Hb Hq Hop start calc.
  assert (C0 : caches_ok (ice_new a p)) by (left; repeat split).
  pose proof (run_static (before ++ quiet) (ice_new a p) C0) as K. cbv zeta in K. fold start in K.
  destruct K as (_ & K2 & K3 & K4). cbn in K2, K3, K4.
  assert (CL : clean start).
  { unfold start. rewrite ice_run_ops_app. destruct (ice_run_ops (ice_new a p) before) as [o1 r1] eqn:E1.
    assert (C1 : clean o1).
    { destruct Hb as [-> | (b & ->)]; [cbn in E1; inversion E1; repeat split|].
      rewrite ice_run_ops_app in E1. destruct (ice_run_ops (ice_new a p) b). cbn in E1. inversion E1. repeat split. }
    pose proof (clean_run quiet o1 Hq C1). destruct (ice_run_ops o1 quiet). exact H. }
  assert (R : forall A (f : ice N -> option A), f start = None ->
     read_field f start = match calc with Ok d => let o' := mkiceobj (ic_alg start) (ic_centered start) (ic_predict start) (Some (i_x d)) (Some (i_y d)) (Some (i_v d)) in
        (o', match f o' with Some x => Ok x | None => Err AssertionError end) | Err e => (start, Err e) end).
  { intros A f Hf. unfold read_field. rewrite Hf. unfold ice_run. rewrite K2, K3, K4. fold calc. destruct calc; reflexivity. }
  destruct CL as (C1 & C2 & C3).
  assert (HH : forall d, holds (mkiceobj (ic_alg start) (ic_centered start) (ic_predict start) (Some (i_x d)) (Some (i_y d)) (Some (i_v d))) d) by (repeat split).
  destruct op; try discriminate Hop; cbn [ice_step]; unfold read_x, read_y, read_v; rewrite R by assumption; destruct calc as [d|e] eqn:Ec; cbn;
    try (split; reflexivity); (split; [reflexivity|]; intro Hl; exact (proj2 (hold_run later _ d Hl (HH d)))).
Qed.

(** C31 *)
Definition resolves (cs : cspace N) (i : selitem N) (h : hp N) : Prop :=
  match i with SHp h' => h = h' | SName s => cs_get cs s = Ok h | SOther => False end.

Lemma sel_items_spec (cs : cspace N) l :
  (forall hs, mapM (sel_item cs) l = Ok hs <-> Forall2 (resolves cs) l hs) /\
  (forall e, mapM (sel_item cs) l = Err e <->
     exists pre i post, l = pre ++ i :: post /\ (exists hs, Forall2 (resolves cs) pre hs) /\
       match i with SName s => ~ In s (map hp_name cs) /\ e = KeyError | SHp _ => False | SOther => e = TypeError end).
Proof.
  assert (R : forall i h, sel_item cs i = Ok h <-> resolves cs i h).
  { intros [s|h'|] h; cbn; [reflexivity| |split; [discriminate|contradiction]]. split; [congruence|intros ->; reflexivity]. }
  assert (KE : forall s e, cs_get cs s = Err e <-> ~ In s (map hp_name cs) /\ e = KeyError).
  { intros s e. induction cs as [|h t IH]; cbn; [split; [intro H; inversion H; tauto|intros [_ ->]; reflexivity]|].
    destruct (String.eqb_spec (hp_name h) s) as [->|Hne].
    - split; [discriminate|]. intros [H _]. exfalso. apply H. left; reflexivity.
    - rewrite IH by (intros i h'; destruct i; cbn; [reflexivity| |split; [discriminate|contradiction]]; split; [congruence|intros ->; reflexivity]).
      split; intros [H ->]; (split; [|reflexivity]); [intros [|]; [congruence|contradiction]|intro; apply H; right; assumption]. }
  split.
  - intro hs. rewrite mapM_ok. split; intro H; (eapply Forall2_impl'; [|exact H]); intros i h; apply R.
  - intro e. induction l as [|i l IH]; cbn.
    { split; [discriminate|]. intros (pre & i & post & H & _). destruct pre; discriminate. }
    rewrite bind_err. split.
    + intros [H|(h & Hh & H)].
      * exists [], i, l. refine (conj eq_refl (conj (ex_intro _ [] (Forall2_nil _)) _)).
        destruct i; cbn in H; [apply KE, H|discriminate|congruence].
      * apply bind_err in H. destruct H as [H|(hs & _ & H)]; [|discriminate].
        apply IH in H. destruct H as (pre & i' & post & -> & (hs & Hhs) & Hi').
        exists (i :: pre), i', post. refine (conj eq_refl (conj (ex_intro _ (h :: hs) _) Hi')).
        constructor; [apply R, Hh|exact Hhs].
    + intros (pre & i' & post & E & (hs & Hhs) & Hi'). destruct pre as [|i0 pre].
      * cbn in E. inversion E; subst i' l. left. destruct i; cbn; [apply KE, Hi'|contradiction|congruence].
      * cbn in E. inversion E; subst i0 l. inversion Hhs as [|? h ? hs' H1 H2]; subst. right. exists h. split; [apply R, H1|].
        apply bind_err. left. apply IH. exists pre, i', post. eauto.
Qed.

Theorem selected_idx_points_back (cs : cspace N) hps idx :
  get_selected_idx hps cs = Ok idx <->
  Forall2 (fun (h : hp N) i => exists h', nth_error cs i = Some h' /\ hp_name h' = hp_name h /\
                      forall j h'', j < i -> nth_error cs j = Some h'' -> hp_name h'' <> hp_name h) hps idx.
Proof.
  unfold get_selected_idx. rewrite mapM_ok.
  assert (K : forall (h : hp N) i, cs_idx cs (hp_name h) = Ok i <-> exists h', nth_error cs i = Some h' /\ hp_name h' = hp_name h /\
                      forall j h'', j < i -> nth_error cs j = Some h'' -> hp_name h'' <> hp_name h).
  { intros h i. split; [apply cs_idx_spec|]. intros (h' & Hi & Hn & Hf). revert i Hi Hf.
    induction cs as [|c t IH]; intros i Hi Hf; [destruct i; discriminate|]. cbn.
    destruct (String.eqb_spec (hp_name c) (hp_name h)) as [E|E].
    - destruct i; [reflexivity|]. exfalso. apply (Hf 0 c); [lia|reflexivity|exact E].
    - destruct i; [cbn in Hi; congruence|]. cbn in Hi. rewrite (IH i Hi); [reflexivity|].
      intros j h'' Hj Hh''. apply (Hf (S j) h''); [lia|exact Hh'']. }
  split; intro H; (eapply Forall2_impl'; [|exact H]); intros h i; apply K.
Qed.

End P.
