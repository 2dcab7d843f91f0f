(** SpreadSynthetic.v - the PDP of the Styblinski-Tang function is close to pd_integral (C115). *)
From Coq Require Import Reals Lra.
From Coquelicot Require Import Coquelicot.
From Verif Require Import Base Num NumLaws NumpyModel ConfigSpaceModel UtilsModel IceModel ListLemmas IceProofs IceProofs2 UtilsProofs
  RealProofs RealSums IceReal IceShapeSpec IceShapeProofs IceShapeReal SyntheticModel SyntheticSpec SyntheticPd SpreadSpec SpreadProofs SpreadIce SpreadSynSpec.
Local Open Scope R_scope.
Local Open Scope list_scope.

Definition phi (h : hp RNum) (x : R) : R := match hp_kind h with KFloat lo up _ => g (x * (up - lo) + lo) / 2 | _ => 0 end.
Fixpoint fsum (cs : cspace RNum) (row : list R) : R := match cs, row with h :: cs', x :: row' => phi h x + fsum cs' row' | _, _ => 0 end.

Lemma g_cont (t : R) : continuous (fun u => g u / 2) t.
Proof. apply (ex_derive_continuous (V := R_NormedModule) (fun t => g t / 2)). unfold g. auto_derive. trivial. Qed.
Lemma phi_int h : linear_float h -> is_RInt (phi h) 0 1 (hp_mean h).
Proof.
  intros (lo & up & E & Hlt). unfold hp_mean, phi. rewrite E.
  assert (I : is_RInt (fun t => g t / 2) ((up - lo) * 0 + lo) ((up - lo) * 1 + lo) (stybtang_integral up - stybtang_integral lo)).
  { replace ((up - lo) * 0 + lo) with lo by ring. replace ((up - lo) * 1 + lo) with up by ring.
    pose proof (g_int 0 lo up) as I. replace (0 * (up - lo) + (stybtang_integral up - stybtang_integral lo)) with (stybtang_integral up - stybtang_integral lo) in I by ring.
    apply (is_RInt_ext (V := R_NormedModule) (fun t => 0 + g t / 2)); [|exact I]. intros x _. apply Rplus_0_l. }
  apply (is_RInt_comp_lin (V := R_NormedModule)) in I.
  apply (is_RInt_scal (V := R_NormedModule) _ _ _ (/ (up - lo))) in I.
  assert (E2 : (stybtang_integral up - stybtang_integral lo) / (up - lo) = scal (/ (up - lo)) (stybtang_integral up - stybtang_integral lo)).
  { unfold scal; cbn. unfold mult; cbn. field. lra. }
  rewrite E2. refine (is_RInt_ext (V := R_NormedModule) _ _ _ _ _ _ I). intros x _. unfold scal; cbn. unfold mult; cbn. replace ((up - lo) * x + lo) with (x * (up - lo) + lo) by ring. field. lra.
Qed.
Lemma phi_lip h C : linear_float h -> slope_at_most h C -> forall t t', 0 <= t <= 1 -> 0 <= t' <= 1 -> Rabs (phi h t - phi h t') <= C * hp_width h * Rabs (t - t').
Proof.
  intros (lo & up & E & Hlt) HC t t' Ht Ht'. unfold phi, hp_width, slope_at_most in *. rewrite E in *.
  destruct (MVT_gen (fun u => g u / 2) (t' * (up - lo) + lo) (t * (up - lo) + lo) (fun u => 2 * u ^ 3 - 16 * u + 5 / 2)) as (c & Hc & Eq).
  - intros x _. unfold g. auto_derive; [trivial|]. field.
  - intros x _. apply continuity_pt_filterlim. apply g_cont.
  - rewrite Eq, Rabs_mult. replace (t * (up - lo) + lo - (t' * (up - lo) + lo)) with ((up - lo) * (t - t')) by ring. rewrite Rabs_mult, (Rabs_pos_eq (up - lo)) by lra.
    rewrite <- Rmult_assoc. apply Rmult_le_compat_r; [apply Rabs_pos|]. apply Rmult_le_compat_r; [lra|]. apply HC.
    assert (A : lo <= t * (up - lo) + lo <= up) by nra. assert (A' : lo <= t' * (up - lo) + lo <= up) by nra.
    revert Hc. unfold Rmin, Rmax. destruct (Rle_dec (t' * (up - lo) + lo) (t * (up - lo) + lo)); lra.
Qed.

(** ** the surrogate is this sum *)
Lemma transform_linear (lo up x : R) : lo < up -> 0 <= x <= 1 -> float_transform (N:=RNum) lo up false x = x * (up - lo) + lo.
Proof.
  intros Hl Hx. unfold float_transform. change (np_maximum (N:=RNum) lo (np_minimum (N:=RNum) up (x * (up - lo) + lo)) = x * (up - lo) + lo).
  rewrite np_minimum_R, np_maximum_R. assert (B : lo <= x * (up - lo) + lo <= up) by nra. rewrite Rmin_right, Rmax_right; lra.
Qed.
Definition value_at (h : hp RNum) (x : R) : R := match hp_kind h with KFloat lo up _ => x * (up - lo) + lo | _ => 0 end.
Lemma phi_value h x : linear_float h -> phi h x = g (value_at h x) / 2.
Proof. intros (lo & up & E & _). unfold phi, value_at. rewrite E. reflexivity. Qed.

Lemma config_linear : forall (cs : cspace RNum) (row : list R), Forall linear_float cs -> NoDup (map hp_name cs) -> length row = length cs -> in_cube row ->
  exists c, config_of_vector (N:=RNum) cs row = Ok c /\ (forall n, ~ In n (map hp_name cs) -> config_get c n = None) /\
    forall j h x, nth_error cs j = Some h -> nth_error row j = Some x -> config_get c (hp_name h) = Some (VNum (N:=RNum) (value_at h x)).
Proof.
  induction cs as [|h cs IH]; intros [|x row] F ND Hl Hc; try discriminate Hl.
  - exists []. split; [reflexivity|]. split; [reflexivity|]. intros [|j] ? ? E; discriminate E.
  - pose proof (Forall_inv F) as (lo & up & E & Hlt). cbn [map] in ND. inversion ND as [|? ? Hn ND']; subst. inversion Hc as [|? ? Hx Hc']; subst.
    destruct (IH row (Forall_inv_tail F) ND') as (c & Ec & Hno & Hget); [cbn in Hl; lia|exact Hc'|].
    exists ((hp_name h, VNum (N:=RNum) (value_at h x)) :: c). split; [|split].
    + cbn [config_of_vector]. rewrite Ec. unfold hp_transform. rewrite E. assert (Q : neqb (n := RNum) x x = true) by (cbn; destruct (Reqb_spec x x); congruence). rewrite Q. cbn [negb bind].
      rewrite (transform_linear lo up x Hlt Hx). unfold value_at. rewrite E. reflexivity.
    + intros n Hnn. cbn [config_get]. cbn [map In] in Hnn. destruct (String.eqb_spec (hp_name h) n) as [<-|_]; [exfalso; apply Hnn; left; reflexivity|]. apply Hno. intro; apply Hnn; right; assumption.
    + intros [|j] h' x' Eh Ex; cbn [nth_error] in Eh, Ex.
      * injection Eh as <-. injection Ex as <-. cbn [config_get]. rewrite String.eqb_refl. reflexivity.
      * cbn [config_get]. destruct (String.eqb_spec (hp_name h) (hp_name h')) as [Eq|_]; [|apply (Hget j); assumption]. exfalso. apply Hn. rewrite Eq. apply in_map. eapply nth_error_In; exact Eh.
Qed.
Lemma mapM_vals {A} (f : A -> res RNum) (v : A -> R) l : (forall x, In x l -> f x = Ok (v x)) -> mapM f l = Ok (map v l).
Proof. induction l as [|x l IH]; intro H; [reflexivity|]. cbn [mapM map]. rewrite H by (left; reflexivity). cbn [bind]. rewrite IH by (intros; apply H; right; assumption). reflexivity. Qed.
Lemma mapM_map {A B C} (f : B -> res C) (h : A -> B) l : mapM f (map h l) = mapM (fun x => f (h x)) l.
Proof. induction l as [|x l IH]; [reflexivity|]. cbn [mapM map]. rewrite IH. reflexivity. Qed.
Lemma stybtang_of_sum l : stybtang_of l = Rsum (map (fun t => g t / 2) l).
Proof. unfold stybtang_of, rsum. induction l as [|x l IH]; cbn [map fold_right Rsum]; [lra|]. rewrite <- IH. unfold g. lra. Qed.

Definition h0 : hp RNum := mkhp "" KOther.
Definition hpn (cs : cspace RNum) (j : nat) : hp RNum := nth j cs h0.
Definition term (cs : cspace RNum) (row : list R) (j : nat) : R := phi (hpn cs j) (nth j row 0).
Lemma as_seq {A} (l : list A) d : l = map (fun j => nth j l d) (seq 0 (length l)).
Proof.
  induction l as [|x l IH]; [reflexivity|]. cbn [length seq map nth]. f_equal. rewrite <- seq_shift, map_map. exact IH.
Qed.
Definition Fsum (cs : cspace RNum) (row : list R) : R := Rsum (map (term cs row) (seq 0 (length cs))).
Lemma exact_sum (cs : cspace RNum) row : Forall linear_float cs -> NoDup (map hp_name cs) -> length row = length cs -> in_cube row -> exact_model cs row = Fsum cs row.
Proof.
  intros F ND Hl Hc. unfold exact_model. destruct (config_linear cs row F ND Hl Hc) as (c & -> & _ & Hget). unfold stybtang_value.
  rewrite (as_seq cs h0) at 1. rewrite mapM_map.
  rewrite (mapM_vals _ (fun j => value_at (hpn cs j) (nth j row 0))).
  - cbn [bind]. rewrite stybtang_of_sum, map_map. unfold Fsum. apply f_equal. apply map_ext_in. intros j Hj. apply in_seq in Hj. unfold term. symmetry. apply phi_value.
    rewrite Forall_forall in F. apply F. apply nth_In. lia.
  - intros j Hj. apply in_seq in Hj. unfold config_item. fold (hpn cs j). rewrite (Hget j (hpn cs j) (nth j row 0)); [reflexivity| |]; apply nth_error_nth'; lia.
Qed.

(** ** its average *)
Lemma average_ext_cube d (F G : list R -> R) : (forall row, length row = d -> in_cube row -> F row = G row) ->
  forall J row, length row = d -> in_cube row -> cube_average J F row = cube_average J G row.
Proof.
  intros H. induction J as [|j J IH]; intros row Hl Hc; cbn [cube_average]; [apply H; assumption|]. apply (RInt_ext (V := R_CompleteNormedModule)). intros t Ht.
  rewrite Rmin_left, Rmax_right in Ht by lra. apply IH; [rewrite set_nth_length; exact Hl|apply in_cube_set; [exact Hc|lra]].
Qed.
Lemma sum_set_in cs row j t : forall l, NoDup l -> In j l -> (j < length row)%nat -> Rsum (map (term cs (set_nth j t row)) l) = Rsum (map (term cs row) l) - term cs row j + phi (hpn cs j) t.
Proof.
  induction l as [|i l IH]; intros ND Hin Hj; [destruct Hin|]. inversion ND as [|? ? Hi ND']; subst. cbn [map Rsum]. destruct (Nat.eq_dec i j) as [->|Hij].
  - assert (E : map (term cs (set_nth j t row)) l = map (term cs row) l).
    { apply map_ext_in. intros i Hil. unfold term. rewrite nth_set_nth_neq; [reflexivity|]. intros ->. contradiction. }
    rewrite E. unfold term at 1. rewrite nth_set_nth_eq by exact Hj. ring.
  - destruct Hin as [|Hin]; [contradiction|]. rewrite IH by assumption. unfold term at 1. rewrite nth_set_nth_neq by auto. fold (term cs row i). ring.
Qed.
Lemma sum_set_out cs row j t (m : nat -> R) : forall l, ~ In j l -> Rsum (map (fun i => m i - term cs (set_nth j t row) i) l) = Rsum (map (fun i => m i - term cs row i) l).
Proof. intros l H. apply f_equal. apply map_ext_in. intros i Hi. unfold term. rewrite nth_set_nth_neq; [reflexivity|]. intros ->. contradiction. Qed.
Lemma sum_average (cs : cspace RNum) : Forall linear_float cs -> forall J row, NoDup J -> (forall j, In j J -> (j < length cs)%nat) -> length row = length cs ->
  cube_average J (Fsum cs) row = Fsum cs row + Rsum (map (fun j => hp_mean (hpn cs j) - term cs row j) J).
Proof.
  intros F. induction J as [|j J IH]; intros row ND HJ Hl; cbn [cube_average map Rsum]; [symmetry; apply Rplus_0_r|]. inversion ND as [|? ? Hj ND']; subst.
  assert (Lj : (j < length cs)%nat) by (apply HJ; left; reflexivity).
  set (K := Fsum cs row - term cs row j + Rsum (map (fun i => hp_mean (hpn cs i) - term cs row i) J)).
  assert (E : RInt (fun t => cube_average J (Fsum cs) (set_nth j t row)) 0 1 = K + hp_mean (hpn cs j)).
  { apply is_RInt_unique. apply (is_RInt_ext (V := R_NormedModule) (fun t => plus K (phi (hpn cs j) t))).
    - intros t _. symmetry. rewrite IH; [|exact ND'|intros; apply HJ; right; assumption|rewrite set_nth_length; exact Hl].
      rewrite sum_set_out by exact Hj. unfold Fsum at 1. rewrite sum_set_in; [|apply seq_NoDup|apply in_seq; lia|lia]. fold (Fsum cs row). unfold K, plus; cbn. ring.
    - assert (EK : K + hp_mean (hpn cs j) = plus (scal (1 - 0) K) (hp_mean (hpn cs j))) by (unfold plus, scal; cbn; unfold mult; cbn; ring). rewrite EK.
      apply (is_RInt_plus (V := R_NormedModule)); [apply (is_RInt_const (V := R_NormedModule))|]. apply phi_int. rewrite Forall_forall in F. apply F. apply nth_In. exact Lj. }
  rewrite E. unfold K. ring.
Qed.
Lemma exact_lip (cs : cspace RNum) C j : Forall linear_float cs -> NoDup (map hp_name cs) -> (j < length cs)%nat -> slope_at_most (hpn cs j) C ->
  lipschitz_in (length cs) j (C * hp_width (hpn cs j)) (exact_model cs).
Proof.
  intros F ND Hj HC row t t' Hl Hc Ht Ht'. rewrite !exact_sum; auto using in_cube_set; try (rewrite set_nth_length; exact Hl).
  unfold Fsum. rewrite !sum_set_in; try apply seq_NoDup; try (apply in_seq; lia); try lia.
  match goal with |- Rabs ?e <= _ => replace e with (phi (hpn cs j) t - phi (hpn cs j) t') by ring end.
  apply phi_lip; auto. rewrite Forall_forall in F. apply F. apply nth_In. exact Hj.
Qed.

(** ** pd_integral is this average *)
Lemma filter_map_comm {A B} (f : A -> B) (P : B -> bool) l : filter P (map f l) = map f (filter (fun x => P (f x)) l).
Proof. induction l as [|x l IH]; [reflexivity|]. cbn. destruct (P (f x)); cbn; rewrite IH; reflexivity. Qed.
Lemma Rsum_filter {A} (f : A -> R) (P : A -> bool) l : Rsum (map f l) = Rsum (map f (filter P l)) + Rsum (map f (filter (fun x => negb (P x)) l)).
Proof. induction l as [|x l IH]; cbn [map Rsum filter]; [ring|]. rewrite IH. destruct (P x); cbn [negb map Rsum]; ring. Qed.
Lemma rsum_Rsum l : rsum l = Rsum l.
Proof. induction l as [|x l IH]; [reflexivity|]. cbn [Rsum]. rewrite <- IH. reflexivity. Qed.
Lemma nth_error_hpn cs j : (j < length cs)%nat -> nth_error cs j = Some (hpn cs j).
Proof. intro H. apply nth_error_nth'. exact H. Qed.
Lemma hpn_inj cs i j : NoDup (map hp_name cs) -> (i < length cs)%nat -> (j < length cs)%nat -> hp_name (hpn cs i) = hp_name (hpn cs j) -> i = j.
Proof.
  intros ND Hi Hj E. rewrite NoDup_nth_error in ND. apply ND; [rewrite map_length; exact Hi|]. rewrite !nth_error_map, !nth_error_hpn by assumption. cbn. f_equal. exact E.
Qed.

Lemma pd_of_rest (cs : cspace RNum) sel args hps J row c : Forall linear_float cs -> NoDup (map hp_name cs) -> args <> [] ->
  convert_hyperparameters (N:=RNum) (SelList args) cs = Ok hps -> NoDup (map hp_name hps) ->
  (forall h, In h hps <-> In h cs /\ ~ In (hp_name h) (map hp_name sel)) ->
  NoDup J -> (forall j, In j J <-> (j < length cs)%nat /\ not_selected cs sel j) ->
  length row = length cs -> in_cube row -> config_of_vector (N:=RNum) cs row = Ok c ->
  exists p, pd_integral cs args = Ok p /\ (forall h, In h (fst p) <-> In h cs /\ In (hp_name h) (map hp_name sel)) /\
    forall c', (forall h, In h (fst p) -> config_get c' (hp_name h) = config_get c (hp_name h)) -> pd_value p c' = Ok (cube_average J (exact_model cs) row).
Proof.
  intros F ND Ha Hconv NH Hh NJ HJ Hl Hc Ec.
  assert (Hnames : forall h, In h cs -> In (hp_name h) (map hp_name hps) <-> ~ In (hp_name h) (map hp_name sel)).
  { intros h Hin. split.
    - intro H. apply in_map_iff in H as (h' & E & H'). apply Hh in H' as [_ H']. rewrite <- E. exact H'.
    - intro H. apply in_map. apply Hh. auto. }
  assert (FH : Forall linear_float hps) by (apply Forall_forall; intros h H; apply Hh in H as [H _]; rewrite Forall_forall in F; apply F; exact H).
  assert (FR : Forall float_range hps) by (eapply Forall_impl; [|exact FH]; intros h (lo & up & E & Hlt); exists lo, up, false; auto).
  set (P := fun j => negb (existsb (String.eqb (hp_name (hpn cs j))) (map hp_name hps))).
  assert (HP : forall j, (j < length cs)%nat -> P j = true <-> In (hp_name (hpn cs j)) (map hp_name sel)).
  { intros j Hj. unfold P. rewrite negb_true_iff, <- not_true_iff_false, existsb_exists.
    assert (Hin : In (hpn cs j) cs) by (apply nth_In; exact Hj). split.
    - intro H. destruct (in_dec string_dec (hp_name (hpn cs j)) (map hp_name sel)) as [|N]; [assumption|]. exfalso. apply H. exists (hp_name (hpn cs j)). split; [apply Hnames; assumption|apply String.eqb_refl].
    - intros H (n & Hn & E). apply String.eqb_eq in E. subst n. apply (Hnames _ Hin) in Hn. contradiction. }
  exists (pd_space cs hps, rsum (map hp_mean hps)). split; [|split].
  - unfold pd_integral. destruct args; [congruence|]. cbn [length Nat.eqb negb guard bind]. rewrite Hconv. cbn [bind]. rewrite pd_offset_mean by exact FR. reflexivity.
  - intro h. cbn [fst]. unfold pd_space. rewrite filter_In. split; intros [Hin H]; (split; [exact Hin|]).
    + destruct (In_nth _ _ h0 Hin) as (j & Hj & <-). apply (HP j Hj). exact H.
    + destruct (In_nth _ _ h0 Hin) as (j & Hj & <-). apply (HP j Hj). exact H.
  - assert (Epd : pd_space cs hps = map (hpn cs) (filter P (seq 0 (length cs)))).
    { unfold pd_space. rewrite (as_seq cs h0) at 1. rewrite filter_map_comm. reflexivity. }
    intros c' Hc'. cbn [fst] in Hc'. unfold pd_value. cbn [fst snd]. unfold stybtang_value. rewrite Epd in Hc' |- *. rewrite mapM_map.
    rewrite (mapM_vals _ (fun j => value_at (hpn cs j) (nth j row 0))).
    + cbn [bind]. apply (f_equal (@Ok R)). rewrite (average_ext_cube (length cs) _ (Fsum cs) (fun r Hr Hcr => exact_sum cs r F ND Hr Hcr) J row Hl Hc).
      rewrite (sum_average cs F J row NJ (fun j H => proj1 (proj1 (HJ j) H)) Hl). rewrite stybtang_of_sum, map_map.
      assert (E1 : map (fun j => g (value_at (hpn cs j) (nth j row 0)) / 2) (filter P (seq 0 (length cs))) = map (term cs row) (filter P (seq 0 (length cs)))).
      { apply map_ext_in. intros j Hj. apply filter_In in Hj as [Hj _]. apply in_seq in Hj. unfold term. symmetry. apply phi_value. rewrite Forall_forall in F. apply F. apply nth_In. lia. }
      rewrite E1. unfold Fsum. rewrite (Rsum_filter (term cs row) P (seq 0 (length cs))). rewrite Rsum_map_minus.
      assert (E2 : Permutation J (filter (fun j => negb (P j)) (seq 0 (length cs)))).
      { apply NoDup_Permutation; [exact NJ|apply NoDup_filter, seq_NoDup|]. intro j. rewrite HJ, filter_In, in_seq, negb_true_iff, <- not_true_iff_false. split.
        - intros [Hj Hns]. split; [lia|]. rewrite (HP j Hj). apply Hns. apply nth_error_hpn. exact Hj.
        - intros [Hj HN]. split; [lia|]. intros h Eh. rewrite nth_error_hpn in Eh by lia. injection Eh as <-. rewrite <- (HP j) by lia. exact HN. }
      rewrite (Rsum_perm _ _ (Permutation_map (term cs row) E2)).
      assert (E3 : Permutation hps (map (hpn cs) J)).
      { apply NoDup_Permutation.
        - exact (NoDup_map_inv _ _ NH).
        - apply (NoDup_map_inv hp_name). rewrite map_map. clear -NJ HJ ND. 
          assert (HJ' : forall j, In j J -> (j < length cs)%nat) by (intros j H; apply HJ; exact H). clear HJ.
          induction J as [|i J IH]; [constructor|]. inversion NJ; subst. cbn [map]. constructor; [|apply IH; auto; intros; apply HJ'; right; assumption].
          intro H. apply in_map_iff in H as (i' & E & Hi'). apply hpn_inj in E; [subst; contradiction|exact ND|apply HJ'; right; exact Hi'|apply HJ'; left; reflexivity].
        - intro h. rewrite Hh, (in_map_iff (hpn cs) J h). split.
          + intros [Hin Hns]. destruct (In_nth _ _ h0 Hin) as (j & Hj & <-). exists j. split; [reflexivity|]. apply HJ. split; [exact Hj|]. intros h Eh. rewrite nth_error_hpn in Eh by exact Hj. injection Eh as <-. exact Hns.
          + intros (j & <- & Hj). apply HJ in Hj as [Hj Hns]. split; [apply nth_In; exact Hj|]. apply Hns. apply nth_error_hpn. exact Hj. }
      assert (E4 : rsum (map hp_mean hps) = Rsum (map (fun j => hp_mean (hpn cs j)) J)) by (rewrite <- (map_map (hpn cs) hp_mean), <- (Rsum_perm _ _ (Permutation_map hp_mean E3)); apply rsum_Rsum).
      rewrite E4. ring.
    + intros j Hj. apply filter_In in Hj as [Hj HPj]. pose proof Hj as Hjs. apply in_seq in Hj. unfold config_item. rewrite Hc'; [|apply in_map; apply filter_In; auto].
      destruct (config_linear cs row F ND Hl Hc) as (c2 & E2 & _ & Hget). assert (c2 = c) by congruence. subst c2.
      rewrite (Hget j (hpn cs j) (nth j row 0)); [reflexivity|apply nth_error_hpn; lia|apply nth_error_nth'; lia].
Qed.

Theorem pdp_stybtang (a : algorithm RNum) (s : list R -> R) (d : icedata RNum) (Jk : list (nat * nat)) args hps C g :
  Forall linear_float (a_cs a) -> NoDup (map hp_name (a_cs a)) -> rect (num_features a) (a_samples a) -> Forall in_cube (a_samples a) ->
  ice_calculate a false (rowwise (N:=RNum) (exact_model (a_cs a)) s) = Ok d ->
  NoDup (map fst Jk) -> rest_of a (map fst Jk) -> spread Jk (a_samples a) ->
  args <> [] -> convert_hyperparameters (N:=RNum) (SelList args) (a_cs a) = Ok hps -> NoDup (map hp_name hps) ->
  (forall h, In h hps <-> In h (a_cs a) /\ ~ In (hp_name h) (map hp_name (a_sel a))) -> Forall (fun h => slope_at_most h C) hps ->
  (g < num_grid_points a)%nat ->
  exists row c y p v, nth_error (x_pdp a d) g = Some row /\ config_of_vector (N:=RNum) (a_cs a) row = Ok c /\ nth_error (y_pdp a d) g = Some y /\
    pd_integral (a_cs a) args = Ok p /\ (forall h, In h (fst p) <-> In h (a_cs a) /\ In (hp_name h) (map hp_name (a_sel a))) /\
    (forall c', (forall h, In h (fst p) -> config_get c' (hp_name h) = config_get c (hp_name h)) -> pd_value p c' = Ok v) /\
    Rabs (y - v) <= spread_error (fun j => C * match nth_error (a_cs a) j with Some h => hp_width h | None => 0 end) Jk.
Proof.
  intros F ND RC HC HI NJ HJ HS Ha Hconv NH Hh Hslope Hg.
  assert (Hn : (0 < num_samples a)%nat) by (pose proof (spread_nonempty _ _ HS) as Q; unfold num_samples; destruct (a_samples a); [exfalso; apply Q; reflexivity|cbn; lia]).
  destruct (pdp_is_mean a false _ d ND RC Hn HI g Hg) as (_ & _ & row & Erow & _).
  pose proof (pdp_row_at_grid a _ s d ND RC HC HI g row Hn Hg Erow) as Hat. pose proof Hat as (Hl & Hc & _).
  destruct (config_linear (a_cs a) row F ND Hl Hc) as (c & Ec & _).
  destruct (pd_of_rest (a_cs a) (a_sel a) args hps (map fst Jk) row c F ND Ha Hconv NH Hh NJ HJ Hl Hc Ec) as (p & Ep & Hp & Hv).
  destruct (pdp_near a (exact_model (a_cs a)) s d Jk ND RC HC HI NJ HJ HS
    (fun j => C * match nth_error (a_cs a) j with Some h => hp_width h | None => 0 end) g row Hg Hat) as [P1 _].
  destruct P1 as (y & Ey & B).
  - intros j Hj. pose proof Hj as Hj2. apply HJ in Hj2 as [Hlt Hns]. change (num_features a) with (length (a_cs a)) in *. rewrite nth_error_hpn by exact Hlt.
    apply exact_lip; auto. rewrite Forall_forall in Hslope. apply Hslope. apply Hh. split; [apply nth_In; exact Hlt|]. apply Hns. apply nth_error_hpn. exact Hlt.
  - exists row, c, y, p, (cube_average (map fst Jk) (exact_model (a_cs a)) row). repeat (split; [first [assumption | exact Hp | exact Hv]|]). exact B.
Qed.

Lemma slope_default (h : hp RNum) : (match hp_kind h with KFloat lo up _ => -5 <= lo /\ up <= 5 | _ => True end : Prop) -> slope_at_most h (345 / 2).
Proof.
  unfold slope_at_most. destruct (hp_kind h) as [lo up lg| | | |]; auto. intros [H1 H2] t Ht. assert (B : -5 <= t <= 5) by lra. clear -B.
  assert (P1 : 0 <= (5 - t) * (t * t + 5 * t + 17)) by (apply Rmult_le_pos; nra).
  assert (P2 : 0 <= (t + 5) * (t * t - 5 * t + 17)) by (apply Rmult_le_pos; nra).
  apply Rabs_le. replace (t ^ 3) with (t * t * t) by ring. split; lra.
Qed.
