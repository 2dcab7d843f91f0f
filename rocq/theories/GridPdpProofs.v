(** GridPdpProofs.v - the points of a grid sampler as samples of a PDP and of a partitioner (C117). *)
From Coq Require Import Permutation Reals Lra.
From Coquelicot Require Import Coquelicot.
From Flocq Require Import Core.
From Verif Require Import Base Num NumLaws NumpyModel ConfigSpaceModel UtilsModel IceModel PartitionModel PartitionSpec SamplerModel SamplerSpec ListLemmas IceProofs IceProofs2 UtilsProofs
  RealProofs RealSums IceReal IceShapeSpec SamplerProofs SamplerProofs2 SamplerProofs3 SamplerProofs4 SamplerReal SyntheticModel SpreadSpec SpreadProofs SpreadSynSpec SpreadIce SpreadGrid SpreadSynthetic
  BoxSpec BoxProofs BoxRegion BoxExamples.
Local Open Scope R_scope.
Local Open Scope list_scope.

(** ** the vectors of a generated grid *)
Section G.
Variable w : world RNum.
Lemma float_axis_vec h n : float_hp h -> exists vs, grid_axis w h n = Ok vs /\ map (hp_inverse h) vs = linspace (N:=RNum) (0 : R) (1 : R) n.
Proof.
  intros (lo & up & lg & E & Hlt & Hlg). unfold grid_axis. rewrite E. eexists. split; [reflexivity|].
  assert (K : forall a b (g : R -> R), a < b -> (forall t, a <= t <= b -> g t = (t - a) / (b - a)) -> map g (linspace (N:=RNum) (a : R) (b : R) n) = linspace (N:=RNum) (0 : R) (1 : R) n).
  { intros a b g Hab Hg. destruct (linspace_R a b n) as [L1 H1] eqn:E1. destruct (linspace_R 0 1 n) as [L2 H2]. apply list_ext. intro i. destruct (Nat.lt_ge_cases i n) as [Hi|Hi].
    - rewrite nth_error_map. pose proof (nth_error_In _ _ (H1 i Hi)) as Hin. rewrite (H1 i Hi), (H2 i Hi). cbn [option_map]. f_equal. rewrite Hg by (apply (evenly_range _ _ _ n _ (linspace_R a b n)); [lra|exact Hin]).
      destruct (Nat.eqb_spec n 1) as [|Hn]; [field; lra|]. field. split; [|lra]. apply not_0_INR. lia.
    - rewrite !(proj2 (nth_error_None _ _)); [reflexivity|rewrite L2; exact Hi|rewrite map_length, L1; exact Hi]. }
  destruct lg.
  - specialize (Hlg eq_refl). assert (Hln : ln lo < ln up) by (apply ln_increasing; lra). rewrite clip_ends_id.
    + rewrite !map_map. apply K; [exact Hln|]. intros t Ht. unfold hp_inverse. rewrite E. unfold float_inverse. cbn. rewrite ln_exp. reflexivity.
    + intros x Hx. apply in_map_iff in Hx. destruct Hx as (t & <- & Ht). pose proof (evenly_range _ _ _ _ _ (linspace_R (ln lo) (ln up) n) (Rlt_le _ _ Hln) Ht) as [B1 B2].
      cbn. split; [rewrite <- (exp_ln lo) by lra|rewrite <- (exp_ln up) by lra]; (destruct (Rle_lt_or_eq_dec _ _ B1), (Rle_lt_or_eq_dec _ _ B2)); try (left; apply exp_increasing; assumption); try (right; congruence).
  - rewrite clip_ends_id.
    + rewrite map_map. apply K; [exact Hlt|]. intros t Ht. unfold hp_inverse. rewrite E. reflexivity.
    + intros x Hx. apply (evenly_range _ _ _ _ _ (linspace_R lo up n)); [lra|exact Hx].
Qed.
Lemma grid_vectors cs n : Forall float_hp cs -> exists g, grid_product w cs n = Ok g /\ map c_vec g = grid_rows (repeat (linspace (N:=RNum) (0 : R) (1 : R) n) (length cs)).
Proof.
  induction 1 as [|h cs Hh F IH]; cbn [grid_product]; [eexists; split; reflexivity|].
  destruct (float_axis_vec h n Hh) as (vs & -> & Ev). destruct IH as (g & -> & Eg). cbn [bind]. eexists. split; [reflexivity|]. cbn [length repeat grid_rows]. rewrite <- Eg, <- Ev.
  rewrite map_flat_map. clear. induction vs as [|v vs IH]; [reflexivity|]. cbn [map flat_map]. rewrite IH. f_equal. rewrite !map_map. reflexivity.
Qed.

(** ** sampling as many points as the grid has *)
Lemma grid_loop_all fuel : forall e (s : sampler RNum) g, s_grid s = Some g -> distinct (s_configs s ++ g) -> e = (slen s + length g)%nat -> (length g < fuel)%nat ->
  snd (grid_loop w fuel e s) = Ok tt -> s_configs (fst (grid_loop w fuel e s)) = s_configs s ++ g.
Proof.
  induction fuel as [|fuel IH]; intros e s g Eg HD He Hf HO; [lia|]. cbn [grid_loop] in *. destruct (Nat.leb_spec e (slen s)).
  - assert (g = []) as -> by (destruct g; [reflexivity|cbn in He; lia]). rewrite app_nil_r. reflexivity.
  - rewrite Eg in *. destruct g as [|c g]; [cbn in *; lia|]. apply distinct_middle in HD. destruct HD as [HD HF]. rewrite (existsb_all_false _ _ HF) in *.
    unfold bindM, upd, call_obj in *. cbn [s_calls set_grid set_points set_calls s_configs s_ys log] in *. destruct (w_obj _ _ _) as [y|er]; [|discriminate HO].
    refine (eq_trans (IH e _ g _ _ _ _ HO) _); [reflexivity|exact HD|unfold slen in *; cbn in *; rewrite app_length; cbn; lia|cbn in Hf; lia|]. cbn. rewrite <- app_assoc. reflexivity.
Qed.
Theorem grid_sampler_full k (s s' : sampler RNum) : s_kind s = KGrid -> s_configs s = [] -> s_grid s = None -> s_cs s <> [] -> Forall float_hp (s_cs s) ->
  w_steps w (k ^ length (s_cs s)) (length (s_cs s)) = k -> (length (s_cache s) < k ^ length (s_cs s))%nat -> sample w (k ^ length (s_cs s)) s = (s', Ok tt) ->
  Permutation (sX s') (grid_rows (repeat (linspace (N:=RNum) (0 : R) (1 : R) k) (length (s_cs s)))).
Proof.
  intros K Hc Hg Hcs HF Hk HC E. destruct (float_grid w (s_cs s) k HF) as (g & EG & LG & NG). destruct (grid_vectors (s_cs s) k HF) as (g' & EG' & VG). assert (g' = g) by congruence. subst g'.
  assert (EG2 : grid_product w (s_cs s) (w_steps w (k ^ length (s_cs s)) (length (s_cs s))) = Ok g) by (rewrite Hk; exact EG).
  destruct (grid_first_eq w (k ^ length (s_cs s)) s g K Hc Hg Hcs HC EG2) as (s1 & A1 & A2 & EQ). rewrite EQ in E.
  pose proof (grid_loop_all (S (length (shuffle w (s_rpos s) g))) (k ^ length (s_cs s)) s1 (shuffle w (s_rpos s) g) A1) as T. rewrite E in T. cbn [fst snd] in T. unfold sX; rewrite T; [| | |lia|reflexivity].
  - rewrite A2. cbn [app]. rewrite <- VG. apply Permutation_map. apply Permutation_sym. apply shuffle_perm.
  - rewrite A2. cbn. apply distinct_R. eapply Permutation_NoDup; [apply Permutation_map, shuffle_perm|exact NG].
  - unfold slen. rewrite A2, <- (Permutation_length (shuffle_perm w (s_rpos s) g)), LG. reflexivity.
Qed.
Lemma grid_loop_ok fuel : forall e (s : sampler RNum) g, (forall i c, is_ok (w_obj w i c) = true) -> s_grid s = Some g -> distinct (s_configs s ++ g) -> (e <= slen s + length g)%nat -> (length g < fuel)%nat ->
  snd (grid_loop w fuel e s) = Ok tt.
Proof.
  induction fuel as [|fuel IH]; intros e s g HO Eg HD He Hf; [lia|]. cbn [grid_loop] in *. destruct (Nat.leb_spec e (slen s)); [reflexivity|].
  rewrite Eg in *. destruct g as [|c g]; [cbn in *; lia|]. apply distinct_middle in HD. destruct HD as [HD HF]. rewrite (existsb_all_false _ _ HF) in *.
  unfold bindM, upd, call_obj in *. cbn [s_calls set_grid set_points set_calls s_configs s_ys log] in *. specialize (HO (s_calls s) (c_vals c)) as HO1. destruct (w_obj _ _ _) as [y|er]; [|discriminate HO1].
  apply (IH e _ g HO); [reflexivity|exact HD|unfold slen in *; cbn in *; rewrite app_length; cbn; lia|cbn in Hf; lia].
Qed.
Theorem grid_sampler_ok k (s : sampler RNum) : s_kind s = KGrid -> s_configs s = [] -> s_grid s = None -> s_cs s <> [] -> Forall float_hp (s_cs s) ->
  w_steps w (k ^ length (s_cs s)) (length (s_cs s)) = k -> (length (s_cache s) < k ^ length (s_cs s))%nat -> (forall i c, is_ok (w_obj w i c) = true) ->
  exists s', sample w (k ^ length (s_cs s)) s = (s', Ok tt).
Proof.
  intros K Hc Hg Hcs HF Hk HC HO. destruct (float_grid w (s_cs s) k HF) as (g & EG & LG & NG).
  assert (EG2 : grid_product w (s_cs s) (w_steps w (k ^ length (s_cs s)) (length (s_cs s))) = Ok g) by (rewrite Hk; exact EG).
  destruct (grid_first_eq w (k ^ length (s_cs s)) s g K Hc Hg Hcs HC EG2) as (s1 & A1 & A2 & EQ).
  exists (fst (sample w (k ^ length (s_cs s)) s)). rewrite EQ. rewrite (surjective_pairing (grid_loop _ _ _ _)) at 1. f_equal. apply (grid_loop_ok _ _ _ (shuffle w (s_rpos s) g) HO A1).
  - rewrite A2. cbn. apply distinct_R. eapply Permutation_NoDup; [apply Permutation_map, shuffle_perm|exact NG].
  - unfold slen. rewrite A2, <- (Permutation_length (shuffle_perm w (s_rpos s) g)), LG. reflexivity.
  - lia.
Qed.
End G.
(** int(ceil((k ** d) ** (1 / d))) without rounding *)
Lemma root_steps k d : (1 <= k)%nat -> (1 <= d)%nat -> Zceil (Rpower (INR (k ^ d)) (/ INR d)) = Z.of_nat k.
Proof.
  intros Hk Hd. assert (0 < INR k) by (apply lt_0_INR; lia). assert (0 < INR d) by (apply lt_0_INR; lia). rewrite pow_INR, <- Rpower_pow by assumption. rewrite Rpower_mult, Rinv_r, Rpower_1 by lra.
  rewrite INR_IZR_INZ. apply Zceil_IZR.
Qed.

(** ** spread does not depend on the order of the rows *)
Lemma spread_perm Jk rows rows' : Permutation rows rows' -> spread Jk rows -> spread Jk rows'.
Proof.
  intro P. destruct Jk as [|[j k] Jk]; cbn [spread].
  - intros H E. subst. apply H. apply Permutation_nil. apply Permutation_sym. exact P.
  - intros (parts & n & H1 & H2 & H3 & H4 & H5). exists parts, n. refine (conj H1 (conj H2 (conj H3 (conj _ H5)))). eapply Permutation_trans; [apply Permutation_sym; exact P|exact H4].
Qed.
Lemma spread_cells_perm Jk rows rows' : Permutation rows rows' -> spread_cells Jk rows -> spread_cells Jk rows'.
Proof.
  intro P. destruct Jk as [|[j k] Jk]; cbn [spread_cells].
  - intros H E. subst. apply H. apply Permutation_nil. apply Permutation_sym. exact P.
  - intros (parts & n & H1 & H2 & H3 & H4 & H5). exists parts, n. refine (conj H1 (conj H2 (conj H3 (conj _ H5)))). eapply Permutation_trans; [apply Permutation_sym; exact P|exact H4].
Qed.

(** ** the full grid of [k] points on each of [d] axes *)
Definition even_axes (k d : nat) : list (list R) := repeat (linspace (N:=RNum) (0 : R) (1 : R) k) d.
Definition all_k (k : nat) (J : list nat) : list (nat * nat) := map (fun j => (j, k)) J.
Lemma all_k_fst k J : map fst (all_k k J) = J.
Proof. unfold all_k. rewrite map_map. apply map_id. Qed.
Lemma all_k_error L k J : (0 < k)%nat -> spread_error L (all_k k J) = Rsum (map L J) / INR k.
Proof.
  intro Hk. assert (0 < INR k) by (apply lt_0_INR; lia). unfold spread_error, all_k. rewrite map_map. induction J as [|j J IH]; cbn [map Rsum fst snd]; [field; lra|]. cbn [fst snd] in IH. rewrite IH. field. lra.
Qed.
Lemma axes_len k d : length (even_axes k d) = d.
Proof. apply repeat_length. Qed.
Lemma axes_rows k d row : In row (grid_rows (even_axes k d)) -> length row = d /\ in_cube row.
Proof.
  intro H. destruct (grid_columns _ _ H) as [L G]. rewrite axes_len in L. split; [exact L|]. apply Forall_forall. intros x Hx. destruct (In_nth_error _ _ Hx) as (j & Hj).
  destruct (G j (linspace (N:=RNum) (0 : R) (1 : R) k)) as (y & Ey & Hy).
  - unfold even_axes. apply nth_error_repeat. rewrite <- L. eapply nth_error_Some_lt. exact Hj.
  - assert (y = x) by congruence. subst y. pose proof (evenly_unit _ _ (linspace_R 0 1 k)) as F. rewrite Forall_forall in F. exact (F x Hy).
Qed.
Lemma axes_nonempty k d : (0 < k)%nat -> Forall (fun axis => axis <> []) (even_axes k d).
Proof.
  intro Hk. apply Forall_forall. intros axis H. apply repeat_spec in H. subst. intro E. pose proof (f_equal (@length R) E) as Q. rewrite (proj1 (linspace_R 0 1 k)) in Q. cbn in Q. lia.
Qed.
Lemma axes_at k d J : (forall j, In j J -> (j < d)%nat) -> forall j k', In (j, k') (all_k k J) -> exists axis, nth_error (even_axes k d) j = Some axis /\ length axis = k' /\ evenly 0 1 axis k'.
Proof.
  intros HJ j k' H. apply in_map_iff in H. destruct H as (j' & E & Hj). injection E as -> <-. exists (linspace (N:=RNum) (0 : R) (1 : R) k). split; [apply nth_error_repeat, HJ, Hj|].
  split; [apply (proj1 (linspace_R 0 1 k))|apply linspace_R].
Qed.
Lemma axes_spread k d J : (0 < k)%nat -> NoDup J -> (forall j, In j J -> (j < d)%nat) -> spread (all_k k J) (grid_rows (even_axes k d)).
Proof.
  intros Hk ND HJ. apply grid_spread; [apply axes_nonempty; exact Hk|rewrite all_k_fst; exact ND|]. intros j k' H. destruct (axes_at k d J HJ j k' H) as (axis & A & B & C). exists axis. split; [exact A|split; [exact B|]]. eapply evenly_cells; exact C.
Qed.
Lemma axes_cells k d J : (0 < k)%nat -> NoDup J -> (forall j, In j J -> (j < d)%nat) -> spread_cells (all_k k J) (grid_rows (even_axes k d)).
Proof.
  intros Hk ND HJ. apply grid_spread_cells; [apply axes_nonempty; exact Hk|rewrite all_k_fst; exact ND|]. intros j k' H. destruct (axes_at k d J HJ j k' H) as (axis & A & B & C). exists axis. split; [exact A|split; [exact B|]]. eapply evenly_lower_cells; exact C.
Qed.

(** ** a PDP on these points *)
Section P.
Variable w : world RNum.
Variables (k : nat) (s s' : sampler RNum).
Let d := length (s_cs s).
Hypotheses (HK : s_kind s = KGrid) (Hc : s_configs s = []) (Hg : s_grid s = None) (Hcs : s_cs s <> []) (HF : Forall float_hp (s_cs s)).
Hypotheses (Hk : w_steps w (k ^ length (s_cs s)) (length (s_cs s)) = k) (Hc2 : (length (s_cache s) < k ^ length (s_cs s))%nat) (HS : sample w (k ^ length (s_cs s)) s = (s', Ok tt)).
Lemma sampled : Permutation (grid_rows (even_axes k d)) (sX s').
Proof. apply Permutation_sym. exact (grid_sampler_full w k s s' HK Hc Hg Hcs HF Hk Hc2 HS). Qed.
Lemma k_pos : (0 < k)%nat.
Proof. destruct k; [|lia]. destruct (s_cs s) as [|h cs]; [congruence|]. cbn in Hc2. lia. Qed.
Lemma sampled_rect : Forall (fun row => length row = d) (sX s').
Proof. apply Forall_forall. intros row H. apply (axes_rows k d row). eapply Permutation_in; [apply Permutation_sym, sampled|exact H]. Qed.
Lemma sampled_cube : Forall in_cube (sX s' : list (list R)).
Proof. apply Forall_forall. intros row H. apply (axes_rows k d row). eapply Permutation_in; [apply Permutation_sym, sampled|exact H]. Qed.
Lemma sampled_spread J : NoDup J -> (forall j, In j J -> (j < d)%nat) -> spread (all_k k J) (sX s').
Proof. intros ND HJ. eapply spread_perm; [apply sampled|]. apply axes_spread; auto. apply k_pos. Qed.
Lemma sampled_cells J : NoDup J -> (forall j, In j J -> (j < d)%nat) -> spread_cells (all_k k J) (sX s').
Proof. intros ND HJ. eapply spread_cells_perm; [apply sampled|]. apply axes_cells; auto. apply k_pos. Qed.

Theorem grid_pdp_near sel gpa (f sd : list R -> R) (dt : icedata RNum) J : NoDup (map hp_name (s_cs s)) ->
  let a := mkalg (s_cs s) sel (sX s') gpa in
  ice_calculate a false (rowwise (N:=RNum) f sd) = Ok dt -> NoDup J -> rest_of a J ->
  forall (L : nat -> R) g row, (g < num_grid_points a)%nat -> nth_error (x_pdp a dt) g = Some row ->
  ((forall j, In j J -> lipschitz_in d j (L j) f) -> exists y, nth_error (y_pdp a dt) g = Some y /\ Rabs (y - cube_average J f row) <= Rsum (map L J) / INR k) /\
  ((forall j, In j J -> lipschitz_in d j (L j) (fun r => sd r * sd r)) ->
     exists v, nth_error (v_pdp a dt) g = Some v /\ Rabs (v - cube_average J (fun r => sd r * sd r) row) <= Rsum (map L J) / INR k).
Proof.
  intros ND a Hd NJ HJ L g row Hlt Hrow. rewrite <- (all_k_error L k J k_pos). pose proof (all_k_fst k J) as EJ.
  assert (RC : rect (num_features a) (a_samples a)) by exact sampled_rect.
  assert (SP : spread (all_k k J) (a_samples a)) by (apply sampled_spread; [exact NJ|]; intros j Hj; apply (HJ j); exact Hj).
  assert (Hn : (0 < num_samples a)%nat) by (pose proof (spread_nonempty _ _ SP) as Q; unfold num_samples; destruct (a_samples a); [exfalso; apply Q; reflexivity|cbn; lia]).
  pose proof (pdp_near a f sd dt (all_k k J)) as T. rewrite EJ in T.
  exact (T ND RC sampled_cube Hd NJ HJ SP L g row Hlt (pdp_row_at_grid a f sd dt ND RC sampled_cube Hd g row Hn Hlt Hrow)).
Qed.
Theorem grid_pdp_stybtang sel gpa (sd : list R -> R) (dt : icedata RNum) J args hps C g : Forall linear_float (s_cs s) -> NoDup (map hp_name (s_cs s)) ->
  let a := mkalg (s_cs s) sel (sX s') gpa in
  ice_calculate a false (rowwise (N:=RNum) (exact_model (s_cs s)) sd) = Ok dt -> NoDup J -> rest_of a J ->
  args <> [] -> convert_hyperparameters (N:=RNum) (SelList args) (s_cs s) = Ok hps -> NoDup (map hp_name hps) ->
  (forall h, In h hps <-> In h (s_cs s) /\ ~ In (hp_name h) (map hp_name sel)) -> Forall (fun h => slope_at_most h C) hps -> (g < num_grid_points a)%nat ->
  exists row c y p v, nth_error (x_pdp a dt) g = Some row /\ config_of_vector (N:=RNum) (s_cs s) row = Ok c /\ nth_error (y_pdp a dt) g = Some y /\
    pd_integral (s_cs s) args = Ok p /\ (forall h, In h (fst p) <-> In h (s_cs s) /\ In (hp_name h) (map hp_name sel)) /\
    (forall c', (forall h, In h (fst p) -> config_get c' (hp_name h) = config_get c (hp_name h)) -> pd_value p c' = Ok v) /\
    Rabs (y - v) <= Rsum (map (fun j => C * match nth_error (s_cs s) j with Some h => hp_width h | None => 0 end) J) / INR k.
Proof.
  intros LF ND a Hd NJ HJ Ha Hconv NH Hh Hslope Hlt. pose proof (all_k_fst k J) as EJ.
  assert (SP : spread (all_k k J) (a_samples a)) by (apply sampled_spread; [exact NJ|]; intros j Hj; apply (HJ j); exact Hj).
  rewrite <- (all_k_error _ k J k_pos). pose proof (pdp_stybtang a sd dt (all_k k J) args hps C g) as T. rewrite EJ in T.
  exact (T LF ND sampled_rect sampled_cube Hd NJ HJ SP Ha Hconv NH Hh Hslope Hlt).
Qed.

(** ** a partition on these points *)
Theorem grid_regions (st : setup RNum) (p : dtp RNum) (f sd : list R -> R) sel m J id nd : su_cs st = s_cs s -> su_samples st = sX s' -> k = (m * (su_splits st + 1))%nat ->
  setup_ok st -> reaches st p -> su_predict st = rowwise (N:=RNum) f sd -> convert_hyperparameters (su_sel st) (su_cs st) = Ok sel -> NoDup J ->
  (forall j, In j J <-> (j < length (su_cs st))%nat /\ not_selected (su_cs st) sel j) -> deref p id = Some nd ->
  INR (region_len (n_region nd)) = INR (k ^ length (s_cs s)) * volume (box_lo (su_cs st) (n_conds nd)) (box_up (su_cs st) (n_conds nd)) J /\
  forall (L : nat -> R) i g row, (g < su_gpa st ^ length sel)%nat -> at3 (r_x (n_region nd)) i g = Some row ->
  ((forall j, In j J -> lipschitz_in (length (su_cs st)) j (L j) f) ->
     exists y : R, nth_error (region_pdp_y (n_region nd)) g = Some y /\
       Rabs (y - box_average (box_lo (su_cs st) (n_conds nd)) (box_up (su_cs st) (n_conds nd)) J f row) <= Rsum (map L J) / INR k) /\
  ((forall j, In j J -> lipschitz_in (length (su_cs st)) j (L j) (fun r => sd r * sd r)) ->
     exists v : R, nth_error (region_pdp_v (n_region nd)) g = Some v /\
       Rabs (v - box_average (box_lo (su_cs st) (n_conds nd)) (box_up (su_cs st) (n_conds nd)) J (fun r => sd r * sd r) row) <= Rsum (map L J) / INR k).
Proof.
  intros Ec Es Em SO RE Hp Hsel NJ HJ HD. pose proof (all_k_fst k J) as EJ.
  assert (SC : spread_cells (all_k k J) (su_samples st)) by (rewrite Es; apply sampled_cells; [exact NJ|]; intros j Hj; unfold d; rewrite <- Ec; apply (HJ j); exact Hj).
  assert (HC : Forall in_cube (su_samples st)) by (rewrite Es; exact sampled_cube).
  assert (HM : forall j k', In (j, k') (all_k k J) -> exists m', k' = (m' * (su_splits st + 1))%nat) by (intros j k' H; apply in_map_iff in H; destruct H as (j' & E & _); injection E as _ <-; exists m; exact Em).
  assert (LEN : length (su_samples st) = (k ^ length (s_cs s))%nat).
  { rewrite Es. refine (eq_trans (eq_sym (Permutation_length sampled)) _). rewrite grid_length. unfold even_axes, d. clear. induction (length (s_cs s)) as [|n IH]; cbn [repeat map fold_right Nat.pow]; [reflexivity|]. rewrite IH, (proj1 (linspace_R 0 1 k)). reflexivity. }
  split.
  - rewrite <- LEN. pose proof (region_volume st p f sd sel (all_k k J) id nd) as T. rewrite EJ in T. exact (T SO RE Hp Hsel HC NJ HJ HM SC HD).
  - intros L i g row Hlt Hrow. rewrite <- (all_k_error L k J k_pos). pose proof (region_pdp_near st p f sd sel (all_k k J) id nd) as T. pose proof (region_row_at st p f sd sel (all_k k J) id nd) as T2. rewrite EJ in T, T2.
    refine (T SO RE Hp Hsel HC NJ HJ HM SC HD L g row _ Hlt (T2 SO RE Hp Hsel HC HJ HM SC HD i g row Hrow)). intro E0. unfold region_len in E0. unfold at3 in Hrow.
    destruct (r_x (n_region nd)); [destruct i; discriminate Hrow|discriminate E0].
Qed.
End P.
