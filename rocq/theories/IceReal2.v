(** IceReal2.v - implied space of an ICE curve (C59) and caching in the PDP object (C60). *)
From Coq Require Import Reals Lra.
From Verif Require Import Base Num NumLaws NumpyModel ConfigSpaceModel UtilsModel IceModel PartitionModel PartitionSpec
  ListLemmas IceProofs IceProofs2 UtilsProofs RealProofs RealSums PartitionReal IceReal.
Local Open Scope R_scope.

Lemma fold_min_spec (l : list RNum) x : exists m, fold_left np_minimum l x = m /\ In m (x :: l) /\ forall y, In y (x :: l) -> (m <= y)%R.
Proof.
  revert x. induction l as [|a l IH]; intro x.
  - exists x. refine (conj eq_refl (conj (or_introl eq_refl) _)). intros y [->|[]]. apply Rle_refl.
  - cbn [fold_left]. destruct (IH (np_minimum x a)) as (m & E & Hin & Hle). exists m. split; [exact E|].
    rewrite np_minimum_R in *. assert (M : Rmin x a = x \/ Rmin x a = a) by (unfold Rmin; destruct (Rle_dec x a); auto).
    split.
    + destruct Hin as [<-|Hin]; [|right; right; exact Hin]. destruct M as [M|M]; rewrite M; [left|right; left]; reflexivity.
    + intros y [<-|[<-|Hy]]; [| |apply Hle; right; exact Hy].
      * eapply Rle_trans; [apply Hle; left; reflexivity|apply Rmin_l].
      * eapply Rle_trans; [apply Hle; left; reflexivity|apply Rmin_r].
Qed.
Lemma fold_max_spec (l : list RNum) x : exists m, fold_left np_maximum l x = m /\ In m (x :: l) /\ forall y, In y (x :: l) -> (y <= m)%R.
Proof.
  revert x. induction l as [|a l IH]; intro x.
  - exists x. refine (conj eq_refl (conj (or_introl eq_refl) _)). intros y [->|[]]. apply Rle_refl.
  - cbn [fold_left]. destruct (IH (np_maximum x a)) as (m & E & Hin & Hle). exists m. split; [exact E|].
    rewrite np_maximum_R in *. assert (M : Rmax x a = x \/ Rmax x a = a) by (unfold Rmax; destruct (Rle_dec x a); auto).
    split.
    + destruct Hin as [<-|Hin]; [|right; right; exact Hin]. destruct M as [M|M]; rewrite M; [left|right; left]; reflexivity.
    + intros y [<-|[<-|Hy]]; [| |apply Hle; right; exact Hy].
      * eapply Rle_trans; [apply Rmax_l|apply Hle; left; reflexivity].
      * eapply Rle_trans; [apply Rmax_r|apply Hle; left; reflexivity].
Qed.

Lemma reduce_total (op : RNum -> RNum -> RNum) (P : list RNum -> RNum -> Prop) f x :
  (forall l a, P (a :: l) (fold_left op l a)) -> x <> [] ->
  exists mn, reduce_axis0 op f x = Ok mn /\ length mn = f /\ forall j, (j < f)%nat -> exists m, nth_error mn j = Some m /\ P (column n0 j x) m.
Proof.
  intros HP Hx. exists (map (fun j => match column n0 j x with [] => n0 | a :: l => fold_left op l a end) (seq 0 f)).
  refine (conj _ (conj _ _)).
  - unfold reduce_axis0. apply mapM_total. intros j _. destruct x as [|r x]; [congruence|]. reflexivity.
  - rewrite map_length, seq_length. reflexivity.
  - intros j Hj. eexists. split; [apply (nth_error_map_seq _ f j Hj)|]. destruct x as [|r x]; [congruence|]. apply HP.
Qed.

Definition min_of (l : list RNum) (m : RNum) : Prop := In m l /\ forall y, In y l -> (m <= y)%R.
Definition max_of (l : list RNum) (m : RNum) : Prop := In m l /\ forall y, In y l -> (y <= m)%R.

(** ** C59 *)
Theorem ice_curve_implied_space (a : algorithm RNum) c p d i curve row :
  NoDup (map hp_name (a_cs a)) -> float_space (a_cs a) -> rect (num_features a) (a_samples a) -> (2 <= a_gpa a)%nat ->
  ice_calculate a c p = Ok d -> nth_error (i_x d) i = Some curve -> nth_error (a_samples a) i = Some row ->
  Forall (fun x : R => 0 <= x <= 1) row ->
  exists l, curve_implied_space (a_cs a) curve = Ok l /\ length l = length (a_cs a) /\
    forall j h lo up lg, nth_error (a_cs a) j = Some h -> hp_kind h = KFloat (N:=RNum) lo up lg ->
      (forall t, selected_at (a_cs a) (a_sel a) j t -> nth_error l j = Some (IUniform (N:=RNum) (hp_name h) lo up lg)) /\
      (not_selected (a_cs a) (a_sel a) j ->
         exists x u, nth_error row j = Some x /\ unscale_float (N:=RNum) x (a_cs a) h = Ok u /\ nth_error l j = Some (IConst (hp_name h) u)).
Proof.
  intros ND FS RC G2 H Hc Hr H01.
  destruct (ice_x_values a c p d ND RC H) as (grid & Hgr & Lg & L1 & F1 & F2 & K).
  destruct (ice_grid a grid Hgr) as (axis & EA & _ & _ & _ & GK & GR & _).
  pose proof (nth_error_In _ _ Hc) as Hcin. pose proof (proj1 (Forall_forall _ _) F1 curve Hcin) as Lc. cbv beta in Lc.
  pose proof (proj1 (Forall_forall _ _) F2 curve Hcin) as Fc.
  assert (Gp : (0 < num_grid_points a)%nat).
  { unfold num_grid_points. destruct (a_gpa a ^ n_selected a)%nat eqn:E0; [|lia]. apply Nat.pow_eq_0_iff in E0. lia. }
  assert (Hne : curve <> []) by (intros ->; cbn in Lc; lia).
  set (f := length (a_cs a)).
  destruct (reduce_total np_minimum min_of f curve) as (mn & Emn & Lmn & Kmn).
  { intros l x. destruct (fold_min_spec l x) as (m & -> & A & B). split; assumption. } { exact Hne. }
  destruct (reduce_total np_maximum max_of f curve) as (mx & Emx & Lmx & Kmx).
  { intros l x. destruct (fold_max_spec l x) as (m & -> & A & B). split; assumption. } { exact Hne. }
  destruct (unscale_coordinatewise (a_cs a) (float_space_numerical _ FS)) as (U1 & _ & _).
  destruct (U1 mn Lmn) as (umn & Eumn & Lumn & Kumn). destruct (U1 mx Lmx) as (umx & Eumx & Lumx & Kumx).
  assert (Col : forall j y, In y (column n0 j curve) <-> exists g r, nth_error curve g = Some r /\ y = nth j r n0).
  { intros j y. unfold column. rewrite in_map_iff. split.
    - intros (r & <- & Hin). destruct (In_nth_error _ _ Hin) as (g & Hg). eauto.
    - intros (g & r & Hg & ->). exists r. split; [reflexivity|exact (nth_error_In _ _ Hg)]. }
  assert (Rowc : forall g r, nth_error curve g = Some r -> exists gp, nth_error grid g = Some gp /\
      (forall j t, selected_at (a_cs a) (a_sel a) j t -> nth_error r j = nth_error gp t) /\
      (forall j, not_selected (a_cs a) (a_sel a) j -> nth_error r j = nth_error row j)).
  { intros g r Hg. pose proof (nth_error_Some_lt _ _ _ Hg). destruct (nth_error grid g) as [gp|] eqn:Eg; [|apply nth_error_None in Eg; lia].
    exists gp. split; [reflexivity|]. destruct (K i g row gp Hr Eg) as (xrow & Hx & K1 & K2). unfold at3 in Hx. rewrite Hc, Hg in Hx.
    inversion Hx; subst xrow. auto. }
  assert (Main : forall j h lo up lg, nth_error (a_cs a) j = Some h -> hp_kind h = KFloat (N:=RNum) lo up lg -> good_bounds lo up lg ->
     exists m1 m2 r, nth_error umn j = Some m1 /\ nth_error umx j = Some m2 /\ implied_hp h m1 m2 = Ok r /\
      (forall t, selected_at (a_cs a) (a_sel a) j t -> r = IUniform (N:=RNum) (hp_name h) lo up lg) /\
      (not_selected (a_cs a) (a_sel a) j ->
         exists x u, nth_error row j = Some x /\ unscale_float (N:=RNum) x (a_cs a) h = Ok u /\ r = IConst (hp_name h) u)).
  { intros j h lo up lg Hh Kh Gb. pose proof (nth_error_Some_lt _ _ _ Hh) as Hj. fold f in Hj.
    destruct (Kmn j Hj) as (mj & Hmj & [Mi Ml]). destruct (Kmx j Hj) as (Mj & HMj & [Ma Mu]).
    destruct (Kumn j h mj Hh Hmj) as (lo1 & up1 & lg1 & A1 & A2 & A3 & A4).
    destruct (Kumx j h Mj Hh HMj) as (lo2 & up2 & lg2 & B1 & B2 & B3 & B4).
    assert (lo1 = lo /\ up1 = up /\ lg1 = lg) as (-> & -> & ->).
    { unfold hp_lower, hp_upper, hp_log in A1, A2, A3. rewrite Kh in *. inversion A1; inversion A2; inversion A3. auto. }
    assert (lo2 = lo /\ up2 = up /\ lg2 = lg) as (-> & -> & ->).
    { unfold hp_lower, hp_upper, hp_log in B1, B2, B3. rewrite Kh in *. inversion B1; inversion B2; inversion B3. auto. }
    assert (Num : is_numerical h = true) by (unfold is_numerical; rewrite Kh; reflexivity).
    exists (unscaler lo up lg mj), (unscaler lo up lg Mj).
    assert (Sel : forall t, selected_at (a_cs a) (a_sel a) j t -> mj = 0 /\ Mj = 1).
    { intros t Hs.
      assert (Ht : (t < n_selected a)%nat) by (destruct Hs as (? & ? & _ & Hs & _); exact (nth_error_Some_lt _ _ _ Hs)).
      assert (In01 : forall y, In y (column n0 j curve) -> 0 <= y <= 1).
      { intros y Hy. apply Col in Hy. destruct Hy as (g & r & Hg & Ey). destruct (Rowc g r Hg) as (gp & Hgp & K1 & _).
        specialize (K1 j t Hs). destruct (GR g gp Hgp) as (ks & [Lk Fk] & ->). rewrite nth_error_map in K1.
        destruct (nth_error ks t) as [k|] eqn:Ek; [|apply nth_error_None in Ek; lia]. cbn in K1.
        pose proof (nth_error_nth _ _ (@n0 RNum : R) K1) as E1. pose proof (eq_trans Ey E1) as Ey'. clear Ey. rename Ey' into Ey.
        pose proof (proj1 (Forall_forall _ _) Fk k (nth_error_In _ _ Ek)) as Hk. cbv beta in Hk. destruct EA as [LA EA]. specialize (EA k Hk).
        pose proof (nth_error_nth _ _ (0 : R) EA) as E2. pose proof (eq_trans Ey E2) as Ey2. change (y = (if (a_gpa a =? 1)%nat then 0 else 0 + INR k * ((1 - 0) / INR (a_gpa a - 1)))) in Ey2. rewrite Ey2.
        destruct (Nat.eqb_spec (a_gpa a) 1); [lra|]. assert (0 < INR (a_gpa a - 1)) by (apply lt_0_INR; lia).
        assert (0 <= INR k <= INR (a_gpa a - 1)) by (split; [apply pos_INR|apply le_INR; lia]).
        rewrite Rplus_0_l, Rminus_0_r. unfold Rdiv. rewrite Rmult_1_l.
        split; [apply Rmult_le_pos; [lra|left; apply Rinv_0_lt_compat; lra]|].
        apply (Rmult_le_reg_r (INR (a_gpa a - 1))); [lra|]. rewrite Rmult_assoc, Rinv_l; lra. }
      assert (Hit : forall k w, nth_error axis k = Some w -> (k < a_gpa a)%nat -> In (w : RNum) (column n0 j curve)).
      { intros k w Hw Hk. destruct (GK (repeat k (n_selected a))) as (q & Hq).
        { split; [apply repeat_length|]. apply Forall_forall. intros z Hz. apply repeat_spec in Hz. subst z. exact Hk. }
        assert (Hql : (q < length curve)%nat) by (rewrite Lc, <- Lg; exact (nth_error_Some_lt _ _ _ Hq)).
        destruct (nth_error curve q) as [r|] eqn:Er; [|apply nth_error_None in Er; lia].
        destruct (Rowc q r Er) as (gp & Hgp & K1 & _). apply Col. exists q, r. split; [exact Er|].
        specialize (K1 j t Hs). assert (Egp : gp = map (fun k => nth k axis 0) (repeat k (n_selected a))) by (rewrite Hgp in Hq; inversion Hq; reflexivity).
        rewrite Egp, nth_error_map in K1. rewrite (nth_error_repeat _ Ht) in K1. cbn in K1.
        pose proof (nth_error_nth _ _ (@n0 RNum : R) K1) as E1. symmetry. etransitivity; [exact E1|]. exact (nth_error_nth _ _ (0 : R) Hw). }
      destruct (evenly_ends 0 1 axis _ EA G2) as [A0 A9].
      pose proof (Hit _ _ A0 ltac:(lia)) as I0. pose proof (Hit _ _ A9 ltac:(lia)) as I1.
      pose proof (Ml _ I0). pose proof (Mu _ I1). pose proof (In01 _ Mi). pose proof (In01 _ Ma). split; apply Rle_antisym; tauto. }
    assert (NSel : not_selected (a_cs a) (a_sel a) j -> exists x, nth_error row j = Some x /\ mj = x /\ Mj = x /\ 0 <= x <= 1).
    { intro Hns. assert (Lr : length row = f) by (apply (proj1 (Forall_forall _ _) RC), (nth_error_In _ _ Hr)).
      destruct (nth_error row j) as [x|] eqn:Ex; [|apply nth_error_None in Ex; lia]. exists x. split; [reflexivity|].
      assert (C : forall y, In y (column n0 j curve) -> y = x).
      { intros y Hy. apply Col in Hy. destruct Hy as (g & r & Hg & ->). destruct (Rowc g r Hg) as (gp & _ & _ & K2).
        specialize (K2 j Hns). rewrite Ex in K2. exact (nth_error_nth _ _ (@n0 RNum : R) K2). }
      split; [apply C, Mi|]. split; [apply C, Ma|]. apply (proj1 (Forall_forall _ _) H01). exact (nth_error_In _ _ Ex). }
    destruct (Req_EM_T (unscaler (N:=RNum) lo up lg mj) (unscaler (N:=RNum) lo up lg Mj)) as [Eq|Nq].
    - exists (IConst (hp_name h) (unscaler lo up lg mj)). refine (conj A4 (conj B4 (conj _ (conj _ _)))).
      + unfold implied_hp. rewrite Num. cbn [guard bind]. replace (neqb (unscaler lo up lg mj) (unscaler lo up lg Mj)) with true; [reflexivity|].
        cbn [neqb RNum]. symmetry. destruct (Reqb_spec (unscaler (N:=RNum) lo up lg mj) (unscaler (N:=RNum) lo up lg Mj)); [reflexivity|contradiction].
      + intros t Hs. exfalso. destruct (Sel t Hs) as [-> ->]. rewrite !unscaler_R in Eq.
        pose proof (raw_unscale_0 lo up lg Gb) as U0. pose proof (raw_unscale_1 lo up lg Gb) as U9. destruct (Gb) as [Hlt _].
        destruct lg; [rewrite U0, U9, !clamp_id in Eq by lra|rewrite U0, U9 in Eq]; lra.
      + intro Hns. destruct (NSel Hns) as (x & Ex & -> & -> & Hx). exists x. eexists. split; [exact Ex|]. split; [|reflexivity].
        exact (unscaler_is_unscale_float (a_cs a) h lo up lg x ND (nth_error_In _ _ Hh) A1 A2 A3 Gb (or_intror Hx)).
    - exists (IUniform (hp_name h) (unscaler lo up lg mj) (unscaler lo up lg Mj) lg). refine (conj A4 (conj B4 (conj _ (conj _ _)))).
      + unfold implied_hp. rewrite Num. cbn [guard bind]. replace (neqb (unscaler lo up lg mj) (unscaler lo up lg Mj)) with false.
        * rewrite A3. cbn [bind]. rewrite Kh. reflexivity.
        * cbn [neqb RNum]. symmetry. destruct (Reqb_spec (unscaler (N:=RNum) lo up lg mj) (unscaler (N:=RNum) lo up lg Mj)); [contradiction|reflexivity].
      + intros t Hs. destruct (Sel t Hs) as [-> ->].
        pose proof (raw_unscale_0 lo up lg Gb) as U0. pose proof (raw_unscale_1 lo up lg Gb) as U9. destruct (Gb) as [Hlt _].
        rewrite !unscaler_R. rewrite U0, U9. destruct lg; [rewrite !clamp_id by lra|]; reflexivity.
      + intro Hns. exfalso. destruct (NSel Hns) as (x & _ & -> & -> & _). apply Nq. reflexivity. }
  assert (Tot : exists l, mapM (fun q => implied_hp (fst q) (fst (snd q)) (snd (snd q))) (combine (a_cs a) (combine umn umx)) = Ok l /\
     length l = length (a_cs a) /\ forall j h m1 m2, nth_error (a_cs a) j = Some h -> nth_error umn j = Some m1 -> nth_error umx j = Some m2 ->
        exists r, nth_error l j = Some r /\ implied_hp h m1 m2 = Ok r).
  { assert (Lu : length umn = length (a_cs a)) by (rewrite Lumn; exact Lmn).
    assert (Lv : length umx = length (a_cs a)) by (rewrite Lumx; exact Lmx).
    assert (PW : forall j h m1 m2, nth_error (a_cs a) j = Some h -> nth_error umn j = Some m1 -> nth_error umx j = Some m2 -> exists r, implied_hp h m1 m2 = Ok r).
    { intros j h m1 m2 Hh H1 H2. destruct (proj1 (Forall_forall _ _) FS h (nth_error_In _ _ Hh)) as (lo & up & lg & Kh & Gb).
      destruct (Main j h lo up lg Hh Kh Gb) as (m1' & m2' & r & Q1 & Q2 & Q3 & _). exists r. congruence. }
    clear - Lu Lv PW. revert umn umx Lu Lv PW. induction (a_cs a) as [|h cs IH]; intros [|u umn] [|v umx] Lu Lv PW; try discriminate.
    - exists []. split; [reflexivity|]. split; [reflexivity|]. intros [|j]; discriminate.
    - destruct (IH umn umx) as (l & El & Ll & Kl); [cbn in *; lia|cbn in *; lia| |].
      { intros j. exact (PW (S j)). }
      destruct (PW 0%nat h u v eq_refl eq_refl eq_refl) as (r & Er). exists (r :: l). cbn [combine mapM fst snd]. rewrite Er. cbn [bind]. rewrite El.
      split; [reflexivity|]. split; [cbn; lia|]. intros [|j] h' m1 m2 Q1 Q2 Q3.
      + cbn in Q1, Q2, Q3. inversion Q1; inversion Q2; inversion Q3; subst. exists r. auto.
      + exact (Kl j h' m1 m2 Q1 Q2 Q3). }
  destruct Tot as (l & El & Ll & Kl). exists l. split.
  { unfold curve_implied_space. fold f. rewrite Emn. cbn [bind]. rewrite Eumn. cbn [bind]. rewrite Emx. cbn [bind]. rewrite Eumx. cbn [bind]. exact El. }
  split; [exact Ll|]. intros j h lo up lg Hh Kh.
  assert (Gb : good_bounds lo up lg).
  { destruct (proj1 (Forall_forall _ _) FS h (nth_error_In _ _ Hh)) as (lo' & up' & lg' & Kh' & Gb). rewrite Kh in Kh'. inversion Kh'; subst. exact Gb. }
  destruct (Main j h lo up lg Hh Kh Gb) as (m1 & m2 & r & Q1 & Q2 & Q3 & Q4 & Q5).
  destruct (Kl j h m1 m2 Hh Q1 Q2) as (r' & Hr' & Er'). assert (r' = r) by congruence. subst r'. rewrite Hr'. split.
  - intros t Hs. f_equal. exact (Q4 t Hs).
  - intro Hns. destruct (Q5 Hns) as (x & u & X1 & X2 & ->). eauto.
Qed.

(** ** C60 *)
Section Cache.
Context {N : Num}.

Definition res_map {A B} (f : A -> B) (r : res A) : res B := match r with Ok x => Ok (f x) | Err e => Err e end.

(** a read of a PDP array that was never read successfully: the mean of what the ICE object returns now *)
Theorem pdp_first_read (s : pdp N) :
  let a := ic_alg (pd_ice s) in
  (pd_x s = None -> snd (pdp_step s PX) = POX (res_map (mean3_axis0 (num_grid_points a) (num_features a)) (snd (read_x (pd_ice s))))) /\
  (pd_y s = None -> snd (pdp_step s PY) = POY (res_map (mean_axis0 (num_grid_points a)) (snd (read_y (pd_ice s))))) /\
  (pd_v s = None -> snd (pdp_step s PV) = POV (res_map (mean_axis0 (num_grid_points a)) (snd (read_v (pd_ice s))))).
Proof.
  cbv zeta. cbn [pdp_step]. refine (conj _ (conj _ _)); intros ->.
  - destruct (read_x (pd_ice s)) as [i' [d|e]]; reflexivity.
  - destruct (read_y (pd_ice s)) as [i' [d|e]]; reflexivity.
  - destruct (read_v (pd_ice s)) as [i' [d|e]]; reflexivity.
Qed.

Lemma pdp_keeps (s : pdp N) op :
  (forall x, pd_x s = Some x -> pd_x (fst (pdp_step s op)) = Some x) /\
  (forall x, pd_y s = Some x -> pd_y (fst (pdp_step s op)) = Some x) /\
  (forall x, pd_v s = Some x -> pd_v (fst (pdp_step s op)) = Some x).
Proof.
  destruct op as [o| | |]; cbn [pdp_step].
  - destruct (ice_step (pd_ice s) o). cbn. auto.
  - destruct (pd_x s) eqn:E; [cbn; rewrite E; auto|]. destruct (read_x (pd_ice s)) as [i' [d|e]]; cbn; refine (conj _ (conj _ _)); auto; intros; discriminate.
  - destruct (pd_y s) eqn:E; [cbn; rewrite E; auto|]. destruct (read_y (pd_ice s)) as [i' [d|e]]; cbn; refine (conj _ (conj _ _)); auto; intros; discriminate.
  - destruct (pd_v s) eqn:E; [cbn; rewrite E; auto|]. destruct (read_v (pd_ice s)) as [i' [d|e]]; cbn; refine (conj _ (conj _ _)); auto; intros; discriminate.
Qed.
Lemma pdp_keeps_run ops : forall s : pdp N,
  (forall x, pd_x s = Some x -> pd_x (fst (pdp_run s ops)) = Some x) /\
  (forall x, pd_y s = Some x -> pd_y (fst (pdp_run s ops)) = Some x) /\
  (forall x, pd_v s = Some x -> pd_v (fst (pdp_run s ops)) = Some x).
Proof.
  induction ops as [|op ops IH]; intro s; [cbn; auto|]. cbn [pdp_run].
  pose proof (pdp_keeps s op) as (K1 & K2 & K3). destruct (pdp_step s op) as [s1 r]. specialize (IH s1).
  destruct (pdp_run s1 ops) as [s2 rs]. cbn in *. destruct IH as (I1 & I2 & I3). auto.
Qed.

(** once read, a PDP array never changes, whatever is done to the ICE object *)
Theorem pdp_read_is_final (s : pdp N) later :
  (forall x, snd (pdp_step s PX) = POX (Ok x) -> snd (pdp_step (fst (pdp_run (fst (pdp_step s PX)) later)) PX) = POX (Ok x)) /\
  (forall x, snd (pdp_step s PY) = POY (Ok x) -> snd (pdp_step (fst (pdp_run (fst (pdp_step s PY)) later)) PY) = POY (Ok x)) /\
  (forall x, snd (pdp_step s PV) = POV (Ok x) -> snd (pdp_step (fst (pdp_run (fst (pdp_step s PV)) later)) PV) = POV (Ok x)).
Proof.
  refine (conj _ (conj _ _)); intros x H.
  - assert (E : pd_x (fst (pdp_step s PX)) = Some x).
    { cbn [pdp_step] in *. destruct (pd_x s) eqn:E; [cbn in *; congruence|]. destruct (read_x (pd_ice s)) as [i' [d|e]]; cbn in *; congruence. }
    pose proof (proj1 (pdp_keeps_run later (fst (pdp_step s PX))) x E) as E2. cbn [pdp_step] in *. rewrite E2. reflexivity.
  - assert (E : pd_y (fst (pdp_step s PY)) = Some x).
    { cbn [pdp_step] in *. destruct (pd_y s) eqn:E; [cbn in *; congruence|]. destruct (read_y (pd_ice s)) as [i' [d|e]]; cbn in *; congruence. }
    pose proof (proj1 (proj2 (pdp_keeps_run later (fst (pdp_step s PY)))) x E) as E2. cbn [pdp_step] in *. rewrite E2. reflexivity.
  - assert (E : pd_v (fst (pdp_step s PV)) = Some x).
    { cbn [pdp_step] in *. destruct (pd_v s) eqn:E; [cbn in *; congruence|]. destruct (read_v (pd_ice s)) as [i' [d|e]]; cbn in *; congruence. }
    pose proof (proj2 (proj2 (pdp_keeps_run later (fst (pdp_step s PV)))) x E) as E2. cbn [pdp_step] in *. rewrite E2. reflexivity.
Qed.
End Cache.
