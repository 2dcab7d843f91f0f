(** NllProofs.v - the negative log likelihood of a region and its delta (C55). *)
From Coq Require Import Reals Lra Lia.
From Coquelicot Require Import Coquelicot.
From Verif Require Import Base Num NumLaws NumpyModel ConfigSpaceModel UtilsModel IceModel PartitionModel RealProofs RealSums SyntheticModel SyntheticSpec SyntheticPd SyntheticProofs NllModel NllSpec.
Local Open Scope R_scope.
Local Open Scope list_scope.

Lemma logpdf_sqrt t m v : 0 < v -> logpdf t m (sqrt v) = Some (- gauss_nll t m v).
Proof.
  intro Hv. pose proof (sqrt_lt_R0 v Hv) as Hs. unfold logpdf. destruct (Rlt_dec 0 (sqrt v)); [|lra]. f_equal. unfold gauss_nll. pose proof PI_RGT_0 as HP.
  assert (L : forall x, 0 < x -> ln (sqrt x) = ln x / 2). { intros x Hx. assert (ln (sqrt x * sqrt x) = ln (sqrt x) + ln (sqrt x)) by (apply ln_mult; apply sqrt_lt_R0; exact Hx). rewrite sqrt_sqrt in H by lra. lra. }
  rewrite !L by lra. rewrite (ln_mult (2 * PI) v) by lra. replace (((t - m) / sqrt v) ^ 2) with ((t - m) ^ 2 / v). 2:{ rewrite <- (sqrt_sqrt v) at 1 by lra. field. lra. }
  field. lra.
Qed.
Lemma logpdf_nan t m v : v <= 0 -> logpdf t m (sqrt v) = None.
Proof. intro Hv. unfold logpdf. rewrite sqrt_neg_0 by exact Hv. destruct (Rlt_dec 0 0); [lra|reflexivity]. Qed.

Lemma all_some_map {A B} (f : A -> option B) (h : A -> B) l : (forall x, In x l -> f x = Some (h x)) -> all_some (map f l) = Some (map h l).
Proof. induction l as [|x l IH]; intro H; [reflexivity|]. cbn [map all_some]. rewrite H by (left; reflexivity). rewrite IH by (intros y Hy; apply H; right; exact Hy). reflexivity. Qed.
Lemma all_some_none {A} (l : list (option A)) : In None l -> all_some l = None.
Proof. induction l as [|o l IH]; intro H; [destruct H|]. destruct H as [->|H]; [reflexivity|]. cbn. rewrite IH by exact H. destruct o; reflexivity. Qed.

Lemma mean_nan_some x l : all_some x = Some l -> l <> [] -> mean_nan x = Some (nmean (N:=RNum) l).
Proof. intros E H. unfold mean_nan. rewrite E. destruct l; [congruence|reflexivity]. Qed.
Lemma pdp_y_cols (r : region RNum) : region_pdp_y r = map (fun k => col_mean k (r_y r)) (seq 0 (width (r_y r))).
Proof. unfold region_pdp_y, mean_axis0. apply map_ext. intro k. exact (nmean_R _). Qed.
Lemma pdp_v_cols (r : region RNum) : region_pdp_v r = map (fun k => col_mean k (r_v r)) (seq 0 (width (r_v r))).
Proof. unfold region_pdp_v, mean_axis0. apply map_ext. intro k. exact (nmean_R _). Qed.
Lemma combine_seq {A B C} (ts : list A) (u : nat -> B) (v : nat -> C) : forall k, combine ts (combine (map u (seq k (length ts))) (map v (seq k (length ts)))) = map (fun p => (snd p, (u (fst p), v (fst p)))) (combine (seq k (length ts)) ts).
Proof. induction ts as [|t ts IH]; intro k; [reflexivity|]. cbn [length seq map combine fst snd]. rewrite IH. reflexivity. Qed.
Lemma seq_combine_nth (ts : list R) : forall k, combine (seq k (length ts)) ts = map (fun i => (i, nth (i - k) ts 0)) (seq k (length ts)).
Proof.
  induction ts as [|t ts IH]; intro k; [reflexivity|]. cbn [length seq map combine]. rewrite IH, Nat.sub_diag. cbn [nth]. f_equal. apply map_ext_in. intros i Hi. apply in_seq in Hi. replace (i - k)%nat with (S (i - S k)) by lia. reflexivity.
Qed.
Lemma mapM_of_nth {A B} (f : A -> res B) l r : length l = length r -> (forall i x y, nth_error l i = Some x -> nth_error r i = Some y -> f x = Ok y) -> mapM f l = Ok r.
Proof.
  revert r. induction l as [|x l IH]; intros [|y r] H F; try discriminate; [reflexivity|]. cbn [mapM]. rewrite (F 0%nat x y eq_refl eq_refl). cbn [bind].
  rewrite (IH r) by (try (cbn in H; lia); intros i a b Ha Hb; exact (F (S i) a b Ha Hb)). reflexivity.
Qed.

Section Value.
Variables (cs : cspace RNum) (h : hp RNum) (sel : list (hp RNum)) (r : region RNum) (f : truefn) (idx : nat) (p : cspace RNum * (config RNum -> res R)) (ts : list R).
Hypothesis Hidx : cs_idx cs (hp_name h) = Ok idx.
Hypothesis Hpd : tf_pd f (not_selected (h :: sel) (tf_space f)) = Ok p.
Hypothesis Hg : (0 < width (r_x r))%nat.
Hypothesis Hy : width (r_y r) = width (r_x r).
Hypothesis Hv : width (r_v r) = width (r_x r).
Hypothesis Hts : length ts = width (r_x r).
Hypothesis Htrue : forall i t, nth_error ts i = Some t -> true_value cs h idx r p i = Ok t.

Lemma nll_eq : nll cs (h :: sel) r f = Ok (option_map Ropp (mean_nan (map (fun i => logpdf (nth i ts 0) (col_mean i (r_y r)) (sqrt (col_mean i (r_v r)))) (seq 0 (width (r_x r)))))).
Proof.
  unfold nll. cbv zeta. cbn [py_nth nth_error bind]. rewrite Hidx. cbn [bind]. rewrite Hpd. cbn [bind].
  rewrite (mapM_of_nth _ _ ts); [|rewrite seq_length; auto|].
  2:{ intros i x y Hx Hy'. assert (x = i). { assert (Hi : (i < width (r_x r))%nat) by (rewrite <- Hts; apply nth_error_Some; rewrite Hy'; discriminate). apply nth_error_nth with (d := 0%nat) in Hx. rewrite seq_nth in Hx by exact Hi. lia. } subst x. apply Htrue. exact Hy'. }
  cbn [bind]. do 3 f_equal. rewrite pdp_y_cols, pdp_v_cols, map_map, Hy, Hv, <- Hts. rewrite combine_seq, map_map, seq_combine_nth, map_map. apply map_ext. intro i. rewrite Nat.sub_0_r. reflexivity.
Qed.
Theorem nll_value : (forall i, (i < width (r_x r))%nat -> 0 < col_mean i (r_v r)) ->
  nll cs (h :: sel) r f = Ok (Some (Rmean (map (fun i => gauss_nll (nth i ts 0) (col_mean i (r_y r)) (col_mean i (r_v r))) (seq 0 (width (r_x r)))))).
Proof.
  intro P. rewrite nll_eq. f_equal. set (g := width (r_x r)) in *. set (l := map (fun i => - gauss_nll (nth i ts 0) (col_mean i (r_y r)) (col_mean i (r_v r))) (seq 0 g)).
  assert (NE : l <> []) by (intro E; apply (f_equal (@length R)) in E; unfold l in E; rewrite map_length, seq_length in E; cbn in E; lia).
  rewrite (mean_nan_some _ l); [|apply all_some_map; intros i Hi; apply in_seq in Hi; apply logpdf_sqrt; apply P; lia|exact NE].
  cbn [option_map]. f_equal.
  rewrite (nmean_R l). unfold l, Rmean. rewrite !map_length, seq_length.
  replace (Rsum (map (fun i => - gauss_nll (nth i ts 0) (col_mean i (r_y r)) (col_mean i (r_v r))) (seq 0 g))) with (- Rsum (map (fun i => gauss_nll (nth i ts 0) (col_mean i (r_y r)) (col_mean i (r_v r))) (seq 0 g))).
  - field. apply not_0_INR. lia.
  - generalize (seq 0 g) as s. induction s as [|i s IH]; cbn [map Rsum]; [ring|]. rewrite <- IH. ring.
Qed.
(** a grid point without variance gives nan *)
Theorem nll_nan i : (i < width (r_x r))%nat -> col_mean i (r_v r) <= 0 -> nll cs (h :: sel) r f = Ok None.
Proof.
  intros Hi H. rewrite nll_eq. unfold mean_nan. rewrite all_some_none; [reflexivity|]. apply in_map_iff. exists i. split; [apply logpdf_nan; exact H|apply in_seq; lia].
Qed.
End Value.

(** ** StyblinskiTang *)
Lemma filter_one (cs : cspace RNum) h : NoDup (map hp_name cs) -> In h cs -> filter (fun k => String.eqb (hp_name k) (hp_name h)) cs = [h].
Proof.
  induction cs as [|k cs IH]; intros ND Hin; [destruct Hin|]. inversion ND as [|? ? Hk ND']; subst. cbn [filter]. destruct Hin as [->|Hin].
  - rewrite String.eqb_refl. f_equal. clear -Hk. induction cs as [|k cs IH]; [reflexivity|]. cbn [filter]. destruct (String.eqb_spec (hp_name k) (hp_name h)) as [E|]; [exfalso; apply Hk; left; exact E|]. apply IH. intro. apply Hk. right. assumption.
  - destruct (String.eqb_spec (hp_name k) (hp_name h)) as [E|]; [exfalso; apply Hk; rewrite E; apply in_map; exact Hin|]. apply IH; assumption.
Qed.
Lemma not_selected_space (cs : cspace RNum) h : NoDup (map hp_name cs) -> In h cs -> pd_space cs (not_selected [h] cs) = [h].
Proof.
  intros ND Hin. transitivity (filter (fun k => String.eqb (hp_name k) (hp_name h)) cs); [|exact (filter_one cs h ND Hin)]. unfold pd_space. apply filter_ext_in. intros k Hk. unfold not_selected. cbn [map existsb].
  destruct (String.eqb_spec (hp_name k) (hp_name h)) as [E|E].
  - apply negb_true_iff. apply not_true_iff_false. intro X. apply existsb_exists in X as (n & Hn & En). apply String.eqb_eq in En. subst n. apply in_map_iff in Hn as (k' & Ek & Hk'). apply filter_In in Hk' as [_ Hk']. cbv beta in Hk'; rewrite Ek, E, String.eqb_refl in Hk'. discriminate.
  - apply negb_false_iff. apply existsb_exists. exists (hp_name k). split; [|apply String.eqb_refl]. apply in_map. apply filter_In. split; [exact Hk|]. apply String.eqb_neq in E. rewrite E. reflexivity.
Qed.
Lemma convert_hps (l : list (hp RNum)) cs : convert_hyperparameters (N:=RNum) (SelList (map (fun h => SHp h) l)) cs = Ok l.
Proof. cbn [convert_hyperparameters]. induction l as [|h l IH]; [reflexivity|]. cbn [map mapM sel_item bind]. rewrite IH. reflexivity. Qed.
Lemma cs_get_in (cs : cspace RNum) h : NoDup (map hp_name cs) -> In h cs -> cs_get cs (hp_name h) = Ok h /\ exists idx, cs_idx cs (hp_name h) = Ok idx /\ (idx < length cs)%nat.
Proof.
  induction cs as [|k cs IH]; intros ND Hin; [destruct Hin|]. inversion ND as [|? ? Hk ND']; subst. cbn [cs_get cs_idx]. destruct Hin as [->|Hin].
  - rewrite String.eqb_refl. split; [reflexivity|]. exists 0%nat. cbn. split; [reflexivity|lia].
  - destruct (String.eqb_spec (hp_name k) (hp_name h)) as [E|]; [exfalso; apply Hk; rewrite E; apply in_map; exact Hin|]. destruct (IH ND' Hin) as (G & i & Ei & Li). split; [exact G|]. exists (S i). rewrite Ei. cbn. split; [reflexivity|lia].
Qed.
Lemma unscale_in_range (cs : cspace RNum) h (lo up : R) lg x : cs_get cs (hp_name h) = Ok h -> hp_kind h = KFloat (lo : RNum) (up : RNum) lg -> lo < up ->
  unscale_float (N:=RNum) x cs h = Ok (clamp lo up (raw_unscale lo up lg x)).
Proof. intros G K H. apply (unscale_float_R cs h h); [exact G|left; exact K]. Qed.

Section Stybtang.
Variables (cs fcs : cspace RNum) (h : hp RNum) (lo up : R) (lg : bool) (idx : nat) (r : region RNum).
Hypothesis ND : NoDup (map hp_name cs).
Hypothesis NDf : NoDup (map hp_name fcs).
Hypothesis FR : Forall float_range fcs.
Hypothesis Inf : In h fcs.
Hypothesis Hin : nth_error cs idx = Some h.
Hypothesis HK : hp_kind h = KFloat (lo : RNum) (up : RNum) lg.
Hypothesis Hothers : (2 <= length fcs)%nat.
Hypothesis Hg : (0 < width (r_x r))%nat.
Hypothesis Hrows : Forall (fun row => length row = length cs) (nth 0 (r_x r) []).
Hypothesis Hy : width (r_y r) = width (r_x r).
Hypothesis Hv : width (r_v r) = width (r_x r).

Let In_h : In h cs := nth_error_In _ _ Hin.
Lemma sty_idx : cs_idx cs (hp_name h) = Ok idx.
Proof.
  clear NDf FR Inf HK Hothers Hrows In_h. revert idx Hin. induction cs as [|k l IH]; intros i Hi; [destruct i; discriminate|]. inversion ND as [|? ? Hk ND']; subst. destruct i as [|i]; cbn [nth_error] in Hi; cbn [cs_idx].
  - injection Hi as ->. rewrite String.eqb_refl. reflexivity.
  - destruct (String.eqb_spec (hp_name k) (hp_name h)) as [E|]; [exfalso; apply Hk; rewrite E; apply in_map; exact (nth_error_In _ _ Hi)|]. rewrite (IH ND' i Hi). reflexivity.
Qed.
Lemma sty_others : not_selected [h] fcs <> [].
Proof.
  clear ND Hin In_h Hrows. intro E. assert (A : forall k, In k fcs -> k = h).
  { intros k Hk. destruct (String.eqb_spec (hp_name k) (hp_name h)) as [En|En].
    - pose proof (filter_one fcs h NDf Inf) as F. assert (X : In k [h]) by (rewrite <- F; apply filter_In; split; [exact Hk|apply String.eqb_eq; exact En]). destruct X as [X|[]]. congruence.
    - exfalso. assert (X : In k (not_selected [h] fcs)) by (apply filter_In; split; [exact Hk|cbn; apply String.eqb_neq in En; rewrite En; reflexivity]). rewrite E in X. exact X. }
  destruct fcs as [|a [|b l]]; cbn in Hothers; try lia. pose proof (A a (or_introl eq_refl)). pose proof (A b (or_intror (or_introl eq_refl))). subst a b. inversion NDf as [|? ? X _]. apply X. left. reflexivity.
Qed.
Lemma float_lt : lo < up.
Proof. rewrite Forall_forall in FR. destruct (FR h Inf) as (lo' & up' & lg' & K & L). rewrite HK in K. injection K as -> -> ->. exact L. Qed.

Lemma sty_true : exists p, tf_pd (stybtang_fn fcs) (not_selected [h] fcs) = Ok p /\
  forall i, (i < width (r_x r))%nat -> true_value cs h idx r p i = Ok (true_pd fcs h (grid_value r lo up lg idx i)).
Proof.
  pose proof (not_selected_space fcs h NDf Inf) as PS.
  destruct (pd_is_average fcs (map (fun k => SHp k) (not_selected [h] fcs)) (not_selected [h] fcs)) as (p & Ep & _ & Hav).
  - pose proof sty_others. destruct (not_selected [h] fcs); [congruence|discriminate].
  - apply convert_hps.
  - exact NDf.
  - apply nodup_filter. exact NDf.
  - intros k Hk. apply filter_In in Hk. tauto.
  - rewrite Forall_forall in *. intros k Hk. apply filter_In in Hk. apply FR. tauto.
  - exists (fst p, pd_value p). unfold stybtang_fn, tf_pd. split; [rewrite Ep; reflexivity|]. intros i Hi.
    assert (Fp : fst p = [h]). { unfold pd_integral in Ep. rewrite convert_hps in Ep. destruct (guard _ _); [|discriminate]. cbn [bind] in Ep. destruct (pd_offset _); [|discriminate]. cbn [bind] in Ep. injection Ep as <-. exact PS. }
    unfold true_value. destruct (r_x r) as [|curve rest] eqn:Ex; [cbn in Hi; lia|]. cbn [width] in Hi. cbn [py_nth nth_error bind]. cbn [nth] in Hrows.
    destruct (nth_error curve i) as [row|] eqn:Erow; [|exfalso; apply nth_error_None in Erow; exact (Nat.lt_irrefl _ (Nat.lt_le_trans _ _ _ Hi Erow))]. unfold py_nth. rewrite Erow. cbn [bind].
    rewrite Forall_forall in Hrows. pose proof (Hrows row (nth_error_In _ _ Erow)) as Lr. assert (Li : (idx < length row)%nat) by (rewrite Lr; apply nth_error_Some; rewrite Hin; discriminate).
    destruct (nth_error row idx) as [x|] eqn:E0; [|exfalso; apply nth_error_None in E0; lia]. cbn [bind].
    pose proof float_lt as Hlt. rewrite (unscale_in_range cs h lo up lg x) by (try exact (proj1 (cs_get_in cs h ND In_h)); assumption). cbn [bind fst snd].
    assert (Eg : grid_value r lo up lg idx i = clamp lo up (raw_unscale lo up lg x)). { unfold grid_value. rewrite Ex. cbn [nth]. rewrite (nth_error_nth _ _ _ Erow), (nth_error_nth _ _ _ E0). reflexivity. }
    rewrite Eg. set (u := clamp lo up (raw_unscale lo up lg x)). pose proof (clamp_bounds lo up (raw_unscale lo up lg x) (Rlt_le _ _ Hlt)) as Hu. fold u in Hu.
    unfold bb_call, make_configuration. rewrite Fp. cbn [forallb existsb fst]. rewrite String.eqb_refl. cbn [orb andb guard bind mapM config_get]. rewrite String.eqb_refl. unfold legal_value. rewrite HK.
    assert (EL : (nle (n:=RNum) lo u && nle (n:=RNum) u up)%bool = true). { cbn. unfold Rleb. destruct (Rle_dec lo u), (Rle_dec u up); try reflexivity; lra. }
    rewrite EL. cbn [bind]. specialize (Hav (fun _ => u)). rewrite Fp in Hav. exact Hav.
Qed.

Theorem nll_stybtang_on : (forall i, (i < width (r_x r))%nat -> 0 < col_mean i (r_v r)) ->
  nll cs [h] r (stybtang_fn fcs) = Ok (Some (Rmean (map (fun i => gauss_nll (true_pd fcs h (grid_value r lo up lg idx i)) (col_mean i (r_y r)) (col_mean i (r_v r))) (seq 0 (width (r_x r)))))).
Proof.
  intro P. destruct sty_true as (p & Ep & Ht). set (ts := map (fun i => true_pd fcs h (grid_value r lo up lg idx i)) (seq 0 (width (r_x r)))).
  assert (Lt : length ts = width (r_x r)) by (unfold ts; rewrite map_length, seq_length; reflexivity).
  assert (Nt : forall i, (i < width (r_x r))%nat -> nth i ts 0 = true_pd fcs h (grid_value r lo up lg idx i)).
  { intros i Hi. unfold ts. rewrite (nth_indep _ 0 (true_pd fcs h (grid_value r lo up lg idx 0))) by (rewrite map_length, seq_length; exact Hi). rewrite (map_nth (fun i => true_pd fcs h (grid_value r lo up lg idx i))), seq_nth by exact Hi. reflexivity. }
  rewrite (nll_value cs h [] r (stybtang_fn fcs) idx p ts sty_idx Ep Hg Hy Hv Lt).
  - do 3 f_equal. apply map_ext_in. intros i Hi. apply in_seq in Hi. rewrite Nt by lia. reflexivity.
  - intros i t Hi. assert (Li : (i < width (r_x r))%nat) by (rewrite <- Lt; apply nth_error_Some; rewrite Hi; discriminate). rewrite <- (nth_error_nth _ _ 0 Hi), Nt by exact Li. apply Ht. exact Li.
  - exact P.
Qed.
Theorem nll_stybtang_on_nan i : (i < width (r_x r))%nat -> col_mean i (r_v r) <= 0 -> nll cs [h] r (stybtang_fn fcs) = Ok None.
Proof.
  intros Hi H. destruct sty_true as (p & Ep & Ht). set (ts := map (fun i => true_pd fcs h (grid_value r lo up lg idx i)) (seq 0 (width (r_x r)))).
  assert (Lt : length ts = width (r_x r)) by (unfold ts; rewrite map_length, seq_length; reflexivity).
  refine (nll_nan cs h [] r (stybtang_fn fcs) idx p ts sty_idx Ep Hg Hy Hv Lt _ i Hi H).
  intros k t Hk. assert (Lk : (k < width (r_x r))%nat) by (rewrite <- Lt; apply nth_error_Some; rewrite Hk; discriminate). unfold ts in Hk. rewrite nth_error_map in Hk. destruct (nth_error (seq 0 (width (r_x r))) k) as [k'|] eqn:Ek; [|discriminate]. apply nth_error_nth with (d := 0%nat) in Ek. rewrite seq_nth in Ek by exact Lk. cbn in Ek. subst k'. cbn in Hk. injection Hk as <-. apply Ht. exact Lk.
Qed.
End Stybtang.

(** the function on the space of the region *)
Theorem nll_stybtang (cs : cspace RNum) (h : hp RNum) (lo up : R) lg idx (r : region RNum) :
  NoDup (map hp_name cs) -> Forall float_range cs -> nth_error cs idx = Some h -> hp_kind h = KFloat (lo : RNum) (up : RNum) lg ->
  (2 <= length cs)%nat -> (0 < width (r_x r))%nat -> Forall (fun row => length row = length cs) (nth 0 (r_x r) []) ->
  width (r_y r) = width (r_x r) -> width (r_v r) = width (r_x r) ->
  (forall i, (i < width (r_x r))%nat -> 0 < col_mean i (r_v r)) ->
  nll cs [h] r (stybtang_fn cs) = Ok (Some (Rmean (map (fun i => gauss_nll (true_pd cs h (grid_value r lo up lg idx i)) (col_mean i (r_y r)) (col_mean i (r_v r))) (seq 0 (width (r_x r)))))).
Proof. intros ND FR NT. intros. apply (nll_stybtang_on cs cs); auto. exact (nth_error_In _ _ NT). Qed.
Theorem nll_stybtang_nan (cs : cspace RNum) (h : hp RNum) (lo up : R) lg idx (r : region RNum) :
  NoDup (map hp_name cs) -> Forall float_range cs -> nth_error cs idx = Some h -> hp_kind h = KFloat (lo : RNum) (up : RNum) lg ->
  (2 <= length cs)%nat -> (0 < width (r_x r))%nat -> Forall (fun row => length row = length cs) (nth 0 (r_x r) []) ->
  width (r_y r) = width (r_x r) -> width (r_v r) = width (r_x r) ->
  forall i, (i < width (r_x r))%nat -> col_mean i (r_v r) <= 0 -> nll cs [h] r (stybtang_fn cs) = Ok None.
Proof. intros ND FR NT. intros. eapply (nll_stybtang_on_nan cs cs); eauto. exact (nth_error_In _ _ NT). Qed.

(** ** errors *)
(** every hyperparameter of the function selected (for one, a one-dimensional space) *)
Theorem nll_all_selected (cs : cspace RNum) sel (r : region RNum) h idx fcs : nth_error sel 0 = Some h -> cs_idx cs (hp_name h) = Ok idx ->
  (forall k, In k fcs -> In (hp_name k) (map hp_name sel)) -> nll cs sel r (stybtang_fn fcs) = Err ValueError.
Proof.
  intros E0 Ei A. unfold nll. cbv zeta. unfold py_nth. rewrite E0. cbn [bind]. rewrite Ei. cbn [bind].
  assert (E : not_selected sel fcs = []). { unfold not_selected. induction fcs as [|k l IH]; [reflexivity|]. cbn [filter]. rewrite IH by (intros; apply A; right; assumption).
    assert (X : existsb (String.eqb (hp_name k)) (map hp_name sel) = true) by (apply existsb_exists; exists (hp_name k); split; [apply A; left; reflexivity|apply String.eqb_refl]). rewrite X. reflexivity. }
  unfold stybtang_fn. cbn [tf_pd tf_space]. rewrite E. reflexivity.
Qed.
Theorem nll_not_implemented (cs : cspace RNum) sel (r : region RNum) h idx fcs : nth_error sel 0 = Some h -> cs_idx cs (hp_name h) = Ok idx ->
  nll cs sel r (other_fn fcs) = Err NotImplementedError.
Proof. intros E0 Ei. unfold nll. cbv zeta. unfold py_nth. rewrite E0. cbn [bind]. rewrite Ei. reflexivity. Qed.

(** two selected hyperparameters: the integral is called with the first one only *)
Theorem nll_two_selected (cs : cspace RNum) h k (r : region RNum) fcs : In k fcs -> hp_name k <> hp_name h -> (0 < width (r_x r))%nat ->
  forall v, nll cs [h; k] r (stybtang_fn fcs) <> Ok v.
Proof.
  intros Hk Hne Hg v. unfold nll. cbv zeta. cbn [py_nth nth_error bind]. destruct (cs_idx cs (hp_name h)) as [n|]; [|discriminate]. cbn [bind]. unfold stybtang_fn. cbn [tf_pd tf_space].
  destruct (pd_integral _ _) as [p|] eqn:Ep; [|discriminate]. cbn [bind]. destruct (width (r_x r)) as [|g]; [lia|]. cbn [seq mapM].
  assert (B : forall t, true_value cs h n r (fst p, pd_value p) 0 <> Ok t); [|destruct (true_value _ _ _ _ _ _) as [t|]; [exfalso; exact (B t eq_refl)|discriminate]].
  intro t. unfold true_value. destruct (py_nth (r_x r) 0) as [l|]; [|discriminate]. cbn [bind]. destruct (py_nth l 0) as [row|]; [|discriminate]. cbn [bind]. destruct (py_nth row n) as [x|]; [|discriminate]. cbn [bind]. destruct (unscale_float _ _ _) as [u|]; [|discriminate]. cbn [bind fst snd].
  assert (Hkp : In k (fst p)).
  { unfold pd_integral in Ep. rewrite convert_hps in Ep. destruct (guard _ _); [|discriminate]. cbn [bind] in Ep. destruct (pd_offset _); [|discriminate]. cbn [bind] in Ep. injection Ep as <-. cbn [fst]. unfold pd_space. apply filter_In. split; [exact Hk|]. apply negb_true_iff, not_true_iff_false. intro X.
    apply existsb_exists in X as (nm & Hn & En). apply String.eqb_eq in En. subst nm. apply in_map_iff in Hn as (k' & Ek & Hk'). apply filter_In in Hk' as [_ Hk']. cbn in Hk'. rewrite Ek, String.eqb_refl, orb_true_r in Hk'. discriminate. }
  unfold bb_call, make_configuration. destruct (guard _ _); [|discriminate]. cbn [bind].
  destruct (mapM _ (fst p)) as [c|] eqn:Em; [|discriminate]. exfalso. refine (mapM_not_err _ _ _ k ValueError Em Hkp _). cbn [config_get fst]. destruct (String.eqb_spec (hp_name h) (hp_name k)); [congruence|]. reflexivity.
Qed.

(** ** the delta *)
Theorem delta_nll_sign cs sel (r full : region RNum) f a b : nll cs sel r f = Ok (Some a) -> nll cs sel full f = Ok (Some b) -> b <> 0 ->
  exists d, delta_nll cs sel r full f = Ok (Some d) /\ d * Rabs b = b - a /\ (0 < d <-> a < b) /\ (d = 0 <-> a = b) /\ (d < 0 <-> b < a).
Proof.
  intros Ea Eb Hb. unfold delta_nll. rewrite Ea. cbn [bind]. rewrite Eb. cbn [bind log_delta]. destruct (Req_EM_T b 0); [contradiction|]. eexists. split; [reflexivity|].
  assert (E : calculate_log_delta (N:=RNum) a b = (b - a) / Rabs b).
  { unfold calculate_log_delta, nabs. cbn. unfold Rltb, Rabs. destruct (Rlt_dec b 0), (Rcase_abs b); try lra; try reflexivity. f_equal. f_equal. lra. }
  rewrite E. pose proof (Rabs_pos_lt b Hb) as HA. set (q := (b - a) / Rabs b) in *. assert (Eq : q * Rabs b = b - a) by (unfold q; field; lra). split; [exact Eq|]. clearbody q. repeat split; intro; nra.
Qed.
