(** IceReal.v - ICE, PDP and regional PDP in exact arithmetic (C23, C24, C26, C27, C59, C60). *)
From Coq Require Import Reals Lra Sorted.
From Verif Require Import Base Num NumLaws NumpyModel ConfigSpaceModel UtilsModel IceModel PartitionModel PartitionSpec
  ListLemmas IceProofs IceProofs2 UtilsProofs PartitionProofs PartitionProofs2 PartitionProofs3 PartitionProofs4
  RealProofs RealSums PartitionReal.
Local Open Scope R_scope.

(** ** C23: a centered curve starts at 0 and keeps all its differences *)
Theorem centered_differences (a : algorithm RNum) p d :
  rect (num_features a) (a_samples a) -> (1 <= a_gpa a)%nat -> ice_calculate a false p = Ok d ->
  exists d', ice_calculate a true p = Ok d' /\ i_x d' = i_x d /\ i_v d' = i_v d /\
    (forall i, (i < num_samples a)%nat -> at2 (i_y d') i 0 = Some (0 : RNum)) /\
    (forall i g h v w v' w', at2 (i_y d) i g = Some v -> at2 (i_y d) i h = Some w ->
       at2 (i_y d') i g = Some v' -> at2 (i_y d') i h = Some w' -> (v' - w' : R) = (v - w : R)).
Proof.
  intros RC G1 H. pose proof (ice_calculate_shapes a false p d RC H) as S. cbv zeta in S.
  destruct S as (_ & S2 & _ & _ & S5 & _).
  assert (Gp : (0 < num_grid_points a)%nat).
  { unfold num_grid_points. destruct (a_gpa a ^ n_selected a)%nat eqn:E0; [|lia]. apply Nat.pow_eq_0_iff in E0. lia. }
  destruct (centered_curves a p d RC G1 H) as (d' & H' & Ex & Ev & K). exists d'. refine (conj H' (conj Ex (conj Ev (conj _ _)))).
  - intros i Hi. pose proof (at2_rect (i_y d) _ _ i 0 S2 S5 Hi Gp) as E. rewrite (K i 0%nat _ _ E E).
    exact (f_equal (@Some R) (Rminus_diag_eq _ _ eq_refl)).
  - intros i g h v w v' w' Hv Hw Hv' Hw'.
    assert (E0 : exists v0, at2 (i_y d) i 0 = Some v0).
    { assert (i < num_samples a)%nat. { destruct (at2_nth _ _ _ _ Hv) as [_ Hl]. rewrite S2 in Hl. exact Hl. }
      eexists. exact (at2_rect (i_y d) _ _ i 0 S2 S5 H0 Gp). }
    destruct E0 as (v0 & E0). rewrite (K i g v v0 Hv E0) in Hv'. rewrite (K i h w v0 Hw E0) in Hw'.
    inversion Hv'. inversion Hw'. cbn [nsub RNum]. ring.
Qed.

(** ** C24: the axis *)
Lemma evenly_NoDup lo up l n : evenly lo up l n -> lo < up -> NoDup l.
Proof.
  intros E Hlt. apply NoDup_nth_error. intros i j Hi Hij.
  destruct (nth_error l i) as [x|] eqn:Ex; [|apply nth_error_None in Ex; lia]. symmetry in Hij.
  destruct (Nat.lt_trichotomy i j) as [H|[H|H]]; [|assumption|].
  - pose proof (evenly_mono lo up l n i j x x E Hlt H Ex Hij). lra.
  - pose proof (evenly_mono lo up l n j i x x E Hlt H Hij Ex). lra.
Qed.

Theorem ice_grid (a : algorithm RNum) grid : grid_points a = Ok grid ->
  exists axis, evenly 0 1 axis (a_gpa a) /\ NoDup axis /\ NoDup grid /\
    length grid = num_grid_points a /\
    (forall ks, all_digits (a_gpa a) (n_selected a) ks -> exists q, nth_error grid q = Some (map (fun k => nth k axis 0) ks)) /\
    (forall q row, nth_error grid q = Some row -> exists ks, all_digits (a_gpa a) (n_selected a) ks /\ row = map (fun k => nth k axis 0) ks) /\
    (n_selected a = 2%nat -> forall k1 k2, (k1 < a_gpa a)%nat -> (k2 < a_gpa a)%nat ->
       nth_error grid (k2 * a_gpa a + k1) = Some [nth k1 axis 0; nth k2 axis 0]).
Proof.
  intro H. exists (linspace (N:=RNum) 0 1 (a_gpa a)). unfold grid_points in H.
  pose proof (linspace_length (N:=RNum) n0 n1 (a_gpa a)) as L.
  pose proof (linspace_R 0 1 (a_gpa a)) as E. pose proof (evenly_NoDup _ _ _ _ E Rlt_0_1) as ND.
  destruct (grid_is_cartesian_product _ _ _ H) as (K1 & K2 & K3 & K4). rewrite L in *.
  refine (conj E (conj ND (conj (K4 ND) (conj K1 (conj K2 (conj K3 _)))))).
  intros E2 k1 k2 H1 H2. rewrite E2 in H. destruct (mesh_rows _ _ _ H) as [_ M]. rewrite L in M.
  destruct (M [k2; k1]) as (q & _ & Hq & Eq & _).
  { split; [reflexivity|]. repeat constructor; assumption. }
  replace (k2 * a_gpa a + k1)%nat with q by (rewrite Eq; cbn; ring). exact Hq.
Qed.

(** ** C26 *)
Lemma mean_between l : l <> [] -> exists a b, In a l /\ In b l /\ a <= Rmean l <= b.
Proof.
  intro Hne.
  assert (Mx : forall l : list R, l <> [] -> (exists a, In a l /\ Forall (fun x => a <= x) l) /\ (exists b, In b l /\ Forall (fun x => x <= b) l)).
  { clear. induction l as [|x l IH]; [congruence|]. intros _. destruct l as [|y l].
    - split; exists x; (split; [left; reflexivity|]); constructor; auto; lra.
    - destruct (IH ltac:(discriminate)) as [(a & Ha & Fa) (b & Hb & Fb)]. split.
      + destruct (Rle_dec x a) as [H|H].
        * exists x. split; [left; reflexivity|]. constructor; [lra|]. eapply Forall_impl; [|exact Fa]. cbn; intros; lra.
        * exists a. split; [right; exact Ha|]. constructor; [lra|exact Fa].
      + destruct (Rle_dec b x) as [H|H].
        * exists x. split; [left; reflexivity|]. constructor; [lra|]. eapply Forall_impl; [|exact Fb]. cbn; intros; lra.
        * exists b. split; [right; exact Hb|]. constructor; [lra|exact Fb]. }
  destruct (Mx l Hne) as [(a & Ha & Fa) (b & Hb & Fb)]. exists a, b. split; [exact Ha|]. split; [exact Hb|].
  apply Rmean_bounds; [exact Hne|]. rewrite Forall_forall in *. intros x Hx. split; [apply Fa|apply Fb]; exact Hx.
Qed.

(** [m] is the mean over the [n] values [f 0], ..., [f (n-1)], and lies between two of them *)
Definition mean_over (n : nat) (f : nat -> option R) (m : R) : Prop :=
  exists vs, length vs = n /\ (forall i, (i < n)%nat -> f i = nth_error vs i) /\ m = Rmean vs /\
    exists i j v w, f i = Some v /\ f j = Some w /\ v <= m <= w.

Lemma mean_over_intro n (f : nat -> option R) vs : length vs = n -> (0 < n)%nat ->
  (forall i, (i < n)%nat -> f i = nth_error vs i) -> mean_over n f (Rmean vs).
Proof.
  intros L Hn Hf. exists vs. refine (conj L (conj Hf (conj eq_refl _))).
  destruct (mean_between vs) as (a & b & Ha & Hb & Hab); [intro E; subst vs; cbn in L; lia|].
  destruct (In_nth_error _ _ Ha) as (i & Hi). destruct (In_nth_error _ _ Hb) as (j & Hj).
  pose proof (nth_error_Some_lt _ _ _ Hi). pose proof (nth_error_Some_lt _ _ _ Hj).
  exists i, j, a, b. rewrite !Hf by lia. auto.
Qed.

Lemma mean_axis0_R (n G : nat) (y : list (list RNum)) g : length y = n -> Forall (fun r => length r = G) y -> (0 < n)%nat -> (g < G)%nat ->
  exists m : R, nth_error (mean_axis0 (N:=RNum) G y) g = Some m /\ mean_over n (fun i => at2 (N:=RNum) y i g) m.
Proof.
  intros L F Hn Hg. exists (Rmean (column (0 : R) g y)). split.
  - unfold mean_axis0. etransitivity; [exact (nth_error_map_seq (fun k => nmean (N:=RNum) (column n0 k y)) G g Hg)|].
    apply (f_equal (@Some R)). apply nmean_R.
  - apply mean_over_intro; [unfold column; rewrite map_length; exact L|exact Hn|].
    intros i Hi. unfold column. rewrite nth_error_map.
    rewrite (at2_rect (N:=RNum) y n G i g L F Hi Hg). destruct (nth_error y i) as [r|] eqn:E.
    + rewrite (nth_error_nth_some _ _ _ [] E). symmetry. exact (f_equal (option_map (fun row : list R => nth g row 0)) E).
    + apply nth_error_None in E. lia.
Qed.

Lemma at3_coord {N : Num} (x : list (list (list N))) n G F i g j : length x = n -> Forall (fun m => length m = G) x ->
  Forall (Forall (fun r => length r = F)) x -> (i < n)%nat -> (g < G)%nat -> (j < F)%nat ->
  match at3 x i g with Some r => nth_error r j | None => None end = nth_error (map (fun m => nth j (nth g m []) n0) x) i.
Proof.
  intros L HG HF Hi Hg Hj. unfold at3. rewrite nth_error_map. destruct (nth_error x i) as [m|] eqn:E; [|apply nth_error_None in E; lia].
  cbn [option_map]. apply nth_error_In in E. pose proof (proj1 (Forall_forall _ _) HG m E) as Lm. cbv beta in Lm.
  pose proof (proj1 (Forall_forall _ _) HF m E) as Fm. rewrite (nth_error_nth' m []) by lia. apply nth_error_nth'.
  rewrite (proj1 (Forall_forall _ _) Fm); [exact Hj|]. apply nth_In. lia.
Qed.

Definition at3j (x : list (list (list RNum))) (i g j : nat) : option R :=
  match at3 (N:=RNum) x i g with Some r => nth_error r j | None => None end.

Theorem pdp_is_mean (a : algorithm RNum) c p d :
  NoDup (map hp_name (a_cs a)) -> rect (num_features a) (a_samples a) -> (0 < num_samples a)%nat ->
  ice_calculate a c p = Ok d ->
  forall g, (g < num_grid_points a)%nat ->
  (exists m, nth_error (y_pdp a d) g = Some m /\ mean_over (num_samples a) (fun i => at2 (i_y d) i g) m) /\
  (exists m, nth_error (v_pdp a d) g = Some m /\ mean_over (num_samples a) (fun i => at2 (i_v d) i g) m) /\
  (exists row, nth_error (x_pdp a d) g = Some row /\ length row = num_features a /\
     (forall j, (j < num_features a)%nat ->
        exists m, nth_error row j = Some m /\ mean_over (num_samples a) (fun i => at3j (i_x d) i g j) m) /\
     exists grid gp, grid_points a = Ok grid /\ nth_error grid g = Some gp /\
       forall j t, selected_at (a_cs a) (a_sel a) j t -> nth_error row j = nth_error gp t).
Proof.
  intros ND RC Hn H g Hg. pose proof (ice_calculate_shapes a c p d RC H) as S. cbv zeta in S.
  destruct S as (S1 & S2 & S3 & S4 & S5 & S6 & S7).
  refine (conj (mean_axis0_R _ _ _ g S2 S5 Hn Hg) (conj (mean_axis0_R _ _ _ g S3 S6 Hn Hg) _)).
  set (row := map (fun j => Rmean (map (fun m => nth j (nth g m []) (0 : R)) (i_x d))) (seq 0 (num_features a))).
  assert (Hrow : nth_error (x_pdp a d) g = Some row).
  { unfold x_pdp, mean3_axis0. rewrite nth_error_map_seq by exact Hg. f_equal. apply map_ext. intro j. apply nmean_R. }
  assert (Hat : forall i j, (i < num_samples a)%nat -> (j < num_features a)%nat ->
     at3j (i_x d) i g j = nth_error (map (fun m => nth j (nth g m []) (0 : R)) (i_x d)) i).
  { intros i j Hi Hj. exact (at3_coord (i_x d) _ _ _ i g j S1 S4 S7 Hi Hg Hj). }
  assert (HJ : forall j, (j < num_features a)%nat ->
        exists m, nth_error row j = Some m /\ mean_over (num_samples a) (fun i => at3j (i_x d) i g j) m).
  { intros j Hj. exists (Rmean (map (fun m => nth j (nth g m []) (0 : R)) (i_x d))). split.
    - unfold row. apply (nth_error_map_seq (fun j => Rmean (map (fun m => nth j (nth g m []) (0 : R)) (i_x d)))). exact Hj.
    - apply mean_over_intro; [rewrite map_length; exact S1|exact Hn|]. intros i Hi. apply Hat; assumption. }
  exists row. refine (conj Hrow (conj _ (conj HJ _))); [unfold row; rewrite map_length, seq_length; reflexivity|].
  destruct (ice_x_values a c p d ND RC H) as (grid & Hgr & Lg & _ & _ & _ & K).
  destruct (nth_error grid g) as [gp|] eqn:Eg; [|apply nth_error_None in Eg; lia].
  exists grid, gp. refine (conj Hgr (conj Eg _)). intros j t Hs.
  assert (Hj : (j < num_features a)%nat).
  { destruct Hs as (h & hs & Hh & _). exact (nth_error_Some_lt _ _ _ Hh). }
  destruct (HJ j Hj) as (m & Hm & vs & Lv & Hv & Em & _). etransitivity; [exact Hm|].
  assert (Hgt : exists w, nth_error gp t = Some w).
  { destruct Hs as (h & hs & _ & Hs & _). apply nth_error_Some_lt in Hs.
    destruct (mesh_points_length _ _ _ Hgr) as [_ Fg]. pose proof (nth_error_In _ _ Eg) as Eg'. pose proof (proj1 (Forall_forall _ _) Fg gp Eg') as Lgp.
    unfold n_selected in Lgp. destruct (nth_error gp t) eqn:E; [eauto|]. apply nth_error_None in E. lia. }
  destruct Hgt as (w & Hw). rewrite Hw. apply (f_equal (@Some R)). rewrite Em. apply Rmean_const; [intro E; subst vs; cbn in Lv; lia|].
  apply Forall_forall. intros x Hx. destruct (In_nth_error _ _ Hx) as (i & Hi). pose proof (nth_error_Some_lt _ _ _ Hi) as Hil.
  assert (Hin : (i < num_samples a)%nat) by lia. specialize (Hv i Hin).
  destruct (nth_error (a_samples a) i) as [srow|] eqn:Es; [|apply nth_error_None in Es; unfold num_samples in Hin; lia].
  destruct (K i g srow gp Es Eg) as (xrow & Hx3 & Ksel & _). unfold at3j in Hv. rewrite Hx3, (Ksel j t Hs), Hw, Hi in Hv.
  inversion Hv; reflexivity.
Qed.

(** ** C27 *)
Lemma rows_sum (whole : list (list R)) idxs part g :
  Forall2 (fun i m => nth_error whole i = Some m) idxs part ->
  Rsum (column 0 g part) = Rsum (map (fun i => nth g (nth i whole []) 0) idxs).
Proof.
  induction 1 as [|i m idxs part H F IH]; [reflexivity|]. unfold column in *. cbn [map Rsum]. rewrite IH.
  rewrite (nth_error_nth_some _ _ _ [] H). reflexivity.
Qed.

Lemma mean_axis0_mult (G : nat) (y : list (list RNum)) g : y <> [] -> Forall (fun r => length r = G) y -> (g < G)%nat ->
  INR (length y) * nth g (mean_axis0 (N:=RNum) (width y) y) 0 = Rsum (column 0 g y).
Proof.
  intros Hne F Hg. assert (W : width y = G) by (destruct F as [|r y Hr F]; [congruence|exact Hr]). rewrite W.
  assert (E : nth g (mean_axis0 (N:=RNum) G y) 0 = Rmean (column 0 g y)).
  { unfold mean_axis0. etransitivity; [exact (nth_map_seq (fun k => nmean (N:=RNum) (column n0 k y)) G g 0 Hg)|]. apply nmean_R. }
  rewrite E. replace (length y) with (length (column (0 : R) g y)) by (unfold column; apply map_length).
  apply Rmean_mult. unfold column. destruct y; [congruence|discriminate].
Qed.

Lemma parts_weighted (whole : list (list RNum)) parts (leaves : list (list (list RNum))) G g :
  Forall (fun r => length r = G) whole -> (g < G)%nat -> whole <> [] ->
  Forall2 (fun idxs part => Forall2 (fun i m => nth_error whole i = Some m) idxs part) parts leaves ->
  Forall (fun l => l <> []) leaves ->
  Permutation (concat parts) (seq 0 (length whole)) ->
  Rsum (map (fun l => INR (length l) * nth g (mean_axis0 (N:=RNum) (width l) l) 0) leaves) =
  INR (length whole) * nth g (mean_axis0 (N:=RNum) (width whole) whole) 0.
Proof.
  intros F Hg Hw HP HN P. rewrite (mean_axis0_mult G whole g Hw F Hg).
  assert (FL : Forall (fun l => Forall (fun r => length r = G) l) leaves).
  { clear - F HP. induction HP as [|i l parts leaves H HP IH]; constructor; auto.
    clear - F H. induction H as [|i m idxs part H F2 IH]; constructor; auto. apply (proj1 (Forall_forall _ _) F). exact (nth_error_In _ _ H). }
  assert (E1 : map (fun l => INR (length l) * nth g (mean_axis0 (N:=RNum) (width l) l) 0) leaves = map (fun l => Rsum (column 0 g l)) leaves).
  { apply map_ext_in. intros l Hl. rewrite Forall_forall in HN, FL. apply (mean_axis0_mult G); auto. }
  rewrite E1.
  assert (E2 : map (fun l => Rsum (column 0 g l)) leaves = map (fun idxs => Rsum (map (fun i => nth g (nth i whole []) 0) idxs)) parts).
  { clear - HP. induction HP as [|i l parts leaves H HP IH]; [reflexivity|]. cbn [map]. rewrite IH. f_equal. apply rows_sum, H. }
  rewrite E2. rewrite <- (map_map (map (fun i => nth g (nth i whole []) 0)) Rsum), <- Rsum_concat.
  rewrite <- concat_map. rewrite (Rsum_perm _ _ (Permutation_map _ P)).
  unfold column. rewrite <- (map_map (fun i => nth i whole []) (fun r => nth g r 0)), (map_nth_seq whole [] (length whole) eq_refl). reflexivity.
Qed.

Theorem pdp_is_weighted_mean (s : setup RNum) p d :
  setup_ok s -> (1 <= su_minpts s)%nat -> su_samples s <> [] -> reaches s p -> (0 < d)%nat ->
  exists p' ids leaves root G,
    partition p d = (p', Ok ids) /\ Forall2 (fun id nd => deref p' id = Some nd) ids leaves /\ deref p' 0 = Some root /\
    region_len (n_region root) = length (su_samples s) /\
    Forall (fun nd => (0 < region_len (n_region nd))%nat /\ length (region_pdp_y (n_region nd)) = G /\ length (region_pdp_v (n_region nd)) = G) (root :: leaves) /\
    (0 < G)%nat /\
    forall g, (g < G)%nat ->
      Rsum (map (fun nd : dnode RNum => INR (region_len (n_region nd)) * nth g (region_pdp_y (n_region nd)) 0) leaves) =
        INR (region_len (n_region root)) * nth g (region_pdp_y (n_region root)) 0 /\
      Rsum (map (fun nd : dnode RNum => INR (region_len (n_region nd)) * nth g (region_pdp_v (n_region nd)) 0) leaves) =
        INR (region_len (n_region root)) * nth g (region_pdp_v (n_region root)) 0.
Proof.
  intros SO MP NE R Hd.
  destruct (leaves_partition_curves R_order_laws s p d SO (R_no_nan s) (R_splits_ordinary s) R Hd)
    as (p' & ids & leaves & root & parts & H1 & H2 & H3 & H4 & H5 & H6 & H7 & H8).
  destruct (reaches_facts R_order_laws s p SO R) as (root' & dd & sel & ns & F).
  assert (root' = root) by (pose proof (rf_deref _ _ _ _ _ _ F); congruence). subst root'.
  pose proof (inv_wf _ _ (rf_inv _ _ _ _ _ _ F)) as W.
  destruct (wf_G _ _ W) as (G & G0 & Gx & Gy & Gv).
  exists p', ids, leaves, root, G. refine (conj H1 (conj H2 (conj H4 (conj H5 _)))).
  assert (R' : reaches s p') by (pose proof (reaches_partition s p d R) as Q; rewrite H1 in Q; exact Q).
  assert (Hlen0 : (0 < length (su_samples s))%nat) by (destruct (su_samples s); [congruence|cbn; lia]).
  assert (Hpos : Forall (fun nd => (0 < region_len (n_region nd))%nat) leaves).
  { apply Forall_forall. intros nd Hnd. destruct (Forall2_in_r _ _ _ _ H2 Hnd) as (id & _ & Hid).
    destruct (min_points_respected R_order_laws s p' SO R' id nd Hid) as [D0|Hm]; [|lia].
    destruct (regions_are_selections R_order_laws s p' SO R') as (root' & Hr & Hl & K). 
    destruct (K id nd Hid) as (Dc & idxs & _ & (Rx & _) & Iff).
    assert (In 0%nat idxs).
    { apply Iff. destruct (nth_error (r_x (n_region root')) 0) as [cv|] eqn:E0; [|apply nth_error_None in E0; lia].
      exists cv. split; [reflexivity|]. assert (E : n_conds nd = []) by (destruct (n_conds nd); [reflexivity|cbn in Dc; lia]). rewrite E. constructor. }
    unfold region_len. rewrite <- (Forall2_length _ _ _ Rx). destruct idxs; [contradiction|cbn; lia]. }
  assert (FW : Forall (fun nd => length (r_y (n_region nd)) = length (r_x (n_region nd)) /\ length (r_v (n_region nd)) = length (r_x (n_region nd)) /\
             Forall (fun r => length r = G) (r_y (n_region nd)) /\ Forall (fun r => length r = G) (r_v (n_region nd))) leaves).
  { apply Forall_forall. intros nd Hnd. destruct (Forall2_in_r _ _ _ _ H8 Hnd) as (idxs & _ & (Rx & Ry & Rv)).
    assert (K : forall whole part : list (list RNum), Forall (fun r => length r = G) whole -> Forall2 (fun i m => nth_error whole i = Some m) idxs part ->
              Forall (fun r => length r = G) part).
    { intros whole part FG HH. apply Forall_forall. intros r Hr. destruct (Forall2_in_r _ _ _ _ HH Hr) as (i & _ & Hi).
      apply (proj1 (Forall_forall _ _) FG). exact (nth_error_In _ _ Hi). }
    refine (conj _ (conj _ (conj (K _ _ Gy Ry) (K _ _ Gv Rv)))).
    - rewrite <- (Forall2_length _ _ _ Ry), <- (Forall2_length _ _ _ Rx). reflexivity.
    - rewrite <- (Forall2_length _ _ _ Rv), <- (Forall2_length _ _ _ Rx). reflexivity. }
  assert (LenM : forall y : list (list RNum), (0 < length y)%nat -> Forall (fun r => length r = G) y -> length (mean_axis0 (N:=RNum) (width y) y) = G).
  { intros y Hy FG. unfold mean_axis0. rewrite map_length, seq_length. destruct FG as [|r y Hr FG]; [cbn in Hy; lia|exact Hr]. }
  split.
  { constructor.
    - unfold region_len, region_pdp_y, region_pdp_v. rewrite H5. split; [exact Hlen0|].
      split; apply LenM; try assumption; [rewrite (wf_y _ _ W), H5|rewrite (wf_v _ _ W), H5]; exact Hlen0.
    - rewrite Forall_forall in *. intros nd Hnd. specialize (Hpos nd Hnd). destruct (FW nd Hnd) as (Ly & Lv & Fy & Fv).
      split; [exact Hpos|]. unfold region_pdp_y, region_pdp_v, region_len in *. split; apply LenM; try assumption; lia. }
  split; [exact G0|]. intros g Hg.
  assert (Hleaf : forall (proj : region RNum -> list (list RNum)), 
     Forall2 (fun idxs nd => Forall2 (fun i m => nth_error (proj (n_region root)) i = Some m) idxs (proj (n_region nd))) parts leaves ->
     Forall (fun r => length r = G) (proj (n_region root)) -> length (proj (n_region root)) = length (su_samples s) ->
     Forall (fun nd => length (proj (n_region nd)) = region_len (n_region nd)) leaves ->
     Rsum (map (fun nd : dnode RNum => INR (region_len (n_region nd)) * nth g (mean_axis0 (N:=RNum) (width (proj (n_region nd))) (proj (n_region nd))) 0) leaves) =
     INR (length (su_samples s)) * nth g (mean_axis0 (N:=RNum) (width (proj (n_region root))) (proj (n_region root))) 0).
  { intros proj HP FG HL HLf.
    rewrite <- HL. rewrite <- (parts_weighted (proj (n_region root)) parts (map (fun nd => proj (n_region nd)) leaves) G g FG Hg).
    - rewrite map_map. f_equal. apply map_ext_in. intros nd Hnd. rewrite Forall_forall in HLf. rewrite (HLf nd Hnd). reflexivity.
    - intro E. rewrite <- HL in Hlen0. rewrite E in Hlen0. inversion Hlen0.
    - clear - HP. induction HP; constructor; auto.
    - apply Forall_map. rewrite Forall_forall in *. intros nd Hnd E. specialize (HLf nd Hnd). specialize (Hpos nd Hnd). rewrite E in HLf. cbn in HLf. lia.
    - rewrite HL. exact H6. }
  unfold region_len at 2 4. rewrite H5. unfold region_pdp_y, region_pdp_v. split.
  - apply (Hleaf (fun r => r_y r)); auto.
    + eapply Forall2_impl'; [|exact H8]. intros idxs nd (_ & Q & _). exact Q.
    + rewrite (wf_y _ _ W). exact H5.
    + eapply Forall_impl; [|exact FW]. intros nd (Q & _). exact Q.
  - apply (Hleaf (fun r => r_v r)); auto.
    + eapply Forall2_impl'; [|exact H8]. intros idxs nd (_ & _ & Q). exact Q.
    + rewrite (wf_v _ _ W). exact H5.
    + eapply Forall_impl; [|exact FW]. intros nd (_ & Q & _). exact Q.
Qed.
