(** DtypeProofs.v - which configurations are evaluated for integer and boolean samples (C92). *)
From Coq Require Import Reals QArith Lra.
From Verif Require Import Base Num NumLaws NumpyModel ConfigSpaceModel UtilsModel IceModel DtypeModel ListLemmas IceProofs IceProofs2
  RealProofs RealSums PartitionReal IceReal UtilsProofs.
Local Open Scope nat_scope.
Local Open Scope list_scope.

Section P.
Context {N : Num}.

Lemma stored_float (x : N) : stored KArrayFloat x = x.
Proof. reflexivity. Qed.

Lemma calculate_of_float (a : algorithm N) c p : ice_calculate_of KArrayFloat a c p = ice_calculate a c p.
Proof.
  unfold ice_calculate_of, ice_calculate, ice_x_of, ice_x.
  destruct (get_selected_idx _ _) as [idx|e]; [|reflexivity]. cbn [bind].
  destruct (grid_points a) as [g|e]; [|reflexivity]. cbn [bind guard].
  replace (map (map (stored KArrayFloat)) g) with g; [reflexivity|].
  rewrite <- (map_id g) at 1. apply map_ext. intro r. symmetry. apply (map_id r).
Qed.

Lemma calculate_of_list (a : algorithm N) c p : sel_known (a_cs a) (a_sel a) -> a_sel a <> [] ->
  ice_calculate_of KList a c p = Err AttributeError.
Proof.
  intros SK NE. destruct (selected_idx_total _ _ SK) as (idx & Hi).
  assert (exists grid, grid_points a = Ok grid) as (grid & Hg).
  { unfold grid_points, mesh_points, n_selected. destruct (a_sel a); [contradiction|]. cbn. eauto. }
  unfold ice_calculate_of, ice_x_of. rewrite Hi, Hg. reflexivity.
Qed.

(** the same object with another grid: used to reuse the facts about [ice_x] *)
Lemma ice_x_of_closed k (a : algorithm N) x :
  rect (num_features a) (a_samples a) -> k <> KList ->
  ice_x_of k a = Ok x ->
  exists idx grid, get_selected_idx (a_sel a) (a_cs a) = Ok idx /\ grid_points a = Ok grid /\
    x = map (fun row => map (fun g => assign_row idx (map (stored k) g) row) grid) (a_samples a).
Proof.
  intros RC NK H. unfold ice_x_of in H. inv_bind H. inv_bind H. inv_bind H. inv_bind H.
  exists x0, x1. refine (conj E (conj E0 _)).
  assert (HX : ice_x a = Ok (map (fun row => map (fun g => assign_row x0 g row) x1) (a_samples a))).
  { apply (ice_x_closed a _ RC). eauto. }
  unfold ice_x in HX. rewrite E, E0 in HX. cbn [bind] in HX. cbv zeta in HX. rewrite E2 in HX. cbn [bind] in HX.
  assert (GL : length x1 = num_grid_points a).
  { destruct (mesh_points_length _ _ _ E0) as [L _]. rewrite linspace_length in L. exact L. }
  (* the rows before the assignment are the samples *)
  assert (T : transpose021 n0 (num_features a) (num_grid_points a) x3 = map (fun row => map (fun _ => row) x1) (a_samples a)).
  { unfold reshape3 in E2. rewrite np_repeat_length, (concat_length_const _ _ RC) in E2.
    change (length (a_samples a)) with (num_samples a) in E2. rewrite Nat.eqb_refl in E2. injection E2 as <-.
    unfold transpose021. rewrite map_map. apply list_eq_nth with (d := []).
    - rewrite !map_length, seq_length. reflexivity.
    - rewrite map_length, seq_length. intros i Hi. rewrite nth_map_seq by exact Hi.
      rewrite (nth_indep (map _ (a_samples a)) [] (map (fun _ => []) x1)) by (rewrite map_length; exact Hi).
      rewrite (map_nth (fun row => map (fun _ => row) x1)).
      assert (HR : length (nth i (a_samples a) []) = num_features a).
      { unfold rect in RC. rewrite Forall_forall in RC. apply RC. apply nth_In. exact Hi. }
      transitivity (map (fun _ : nat => nth i (a_samples a) []) (seq 0 (num_grid_points a))).
      + apply map_ext_in. intros g Hk. apply in_seq in Hk.
        rewrite <- (map_nth_seq (nth i (a_samples a) []) n0 (num_features a) HR) at 1.
        apply map_ext_in. intros j Hj. apply in_seq in Hj.
        rewrite nth_map_seq by lia. rewrite nth_map_seq by lia.
        rewrite np_repeat_nth; [|lia|].
        * apply nth_concat_rect; [exact RC|lia].
        * rewrite (concat_length_const _ _ RC). change (length (a_samples a)) with (num_samples a). nia.
      + rewrite <- GL. clear. generalize 0. induction x1 as [|v l IH]; intro s; cbn; [reflexivity|]. f_equal. apply IH. }
  rewrite T in H. injection H as <-. unfold assign_cols. rewrite map_map. apply map_ext. intro row.
  clear. induction x1 as [|v l IH]; cbn; [reflexivity|]. f_equal. exact IH.
Qed.

Lemma calculate_of_ok k (a : algorithm N) c p d :
  ice_calculate_of k a c p = Ok d ->
  exists means stds, ice_x_of k a = Ok (i_x d) /\ p (concat (i_x d)) = Ok (means, stds) /\
    exists y s, reshape2 n0 means (num_samples a) (num_grid_points a) = Ok y /\
    reshape2 n0 stds (num_samples a) (num_grid_points a) = Ok s /\
    i_v d = map (map (fun s => nmul s s)) s /\
    (if c then center_rows (num_grid_points a) y else Ok y) = Ok (i_y d).
Proof.
  unfold ice_calculate_of. intro H. inv_bind H. inv_bind H. inv_bind H. inv_bind H. inv_bind H. inv_bind H.
  inversion H; subst; cbn. destruct x0 as [means stds]; cbn in *. exists means, stds.
  repeat split; auto. exists x1, x2. repeat split; auto.
Qed.

(** the configurations that are evaluated *)
Theorem x_values_of k (a : algorithm N) c p d :
  NoDup (map hp_name (a_cs a)) -> rect (num_features a) (a_samples a) -> k <> KList ->
  ice_calculate_of k a c p = Ok d ->
  exists grid, grid_points a = Ok grid /\
    forall i g row gp, nth_error (a_samples a) i = Some row -> nth_error grid g = Some gp ->
      exists xrow, at3 (i_x d) i g = Some xrow /\
        (forall j t, selected_at (a_cs a) (a_sel a) j t -> nth_error xrow j = option_map (stored k) (nth_error gp t)) /\
        (forall j, not_selected (a_cs a) (a_sel a) j -> nth_error xrow j = nth_error row j).
Proof.
  intros ND RC NK H. apply calculate_of_ok in H. destruct H as (means & stds & Hx & _).
  apply (ice_x_of_closed k a _ RC NK) in Hx. destruct Hx as (idx & grid & Hi & Hg & Hx).
  exists grid. split; [exact Hg|]. destruct (mesh_points_length _ _ _ Hg) as [Lg Fg].
  intros i g row gp Hr Hgp. exists (assign_row idx (map (stored k) gp) row).
  assert (Lrow : length row = num_features a) by (apply nth_error_In in Hr; exact (proj1 (Forall_forall _ _) RC row Hr)).
  split; [|split].
  - unfold at3. rewrite Hx, nth_error_map, Hr. cbn. rewrite nth_error_map, Hgp. reflexivity.
  - intros j t (h & hs & Hh & Hs & Hn & Hlast).
    destruct (selected_idx_nth _ _ _ Hi) as [Li Ni]. destruct (Ni t hs Hs) as (j' & Hj' & Hc).
    assert (j' = j) by (rewrite Hn in Hc; pose proof (cs_idx_nodup _ _ _ ND Hh); congruence). subst j'.
    assert (Lgp : length gp = length idx).
    { rewrite Li. apply nth_error_In in Hgp. exact (proj1 (Forall_forall _ _) Fg gp Hgp). }
    assert (Hjl : j < length row) by (rewrite Lrow; exact (nth_error_Some_lt _ _ _ Hh)).
    assert (Htl : t < length gp) by (rewrite Lgp; exact (nth_error_Some_lt _ _ _ Hj')).
    change (option_map (stored k) (nth_error gp t)) with (option_map (stored k) (nth_error gp t)).
    rewrite <- nth_error_map.
    rewrite (nth_error_nth' (assign_row idx (map (stored k) gp) row) n0) by (rewrite assign_row_length; exact Hjl).
    rewrite (nth_error_nth' (map (stored k) gp) n0) by (rewrite map_length; exact Htl). f_equal.
    apply assign_row_at; auto; [rewrite map_length; auto|].
    intros t' Ht' Hnt'. assert (Hlt : t' < length (a_sel a)) by (rewrite <- Li; exact (nth_error_Some_lt _ _ _ Hnt')).
    destruct (nth_error (a_sel a) t') as [hs'|] eqn:E; [|apply nth_error_None in E; lia].
    destruct (Ni t' hs' E) as (j'' & Hj'' & Hc''). rewrite Hnt' in Hj''. inversion Hj''; subst j''.
    apply (Hlast t' hs' Ht' E). rewrite <- Hn. exact (cs_idx_inj _ _ _ _ Hc'' Hc).
  - intros j Hj. destruct (Nat.lt_ge_cases j (length row)) as [Hjl|Hjl].
    + rewrite (nth_error_nth' (assign_row idx (map (stored k) gp) row) n0) by (rewrite assign_row_length; exact Hjl).
      rewrite (nth_error_nth' row n0) by exact Hjl. f_equal. apply assign_row_other.
      intro Hin. destruct (in_idx _ _ _ _ Hi Hin) as (hs & h & Hs & Hh & Hn).
      apply (Hj h Hh). rewrite Hn. apply in_map, Hs.
    + rewrite (proj2 (nth_error_None row j) Hjl). apply nth_error_None. rewrite assign_row_length. exact Hjl.
Qed.

(** values of a row-wise surrogate at those configurations *)
Theorem values_of k (a : algorithm N) (f s : list N -> N) d :
  rect (num_features a) (a_samples a) -> k <> KList ->
  ice_calculate_of k a false (fun rows => Ok (map f rows, map s rows)) = Ok d ->
  forall i g, i < num_samples a -> g < num_grid_points a ->
    exists xrow, at3 (i_x d) i g = Some xrow /\
      at2 (i_y d) i g = Some (f xrow) /\ at2 (i_v d) i g = Some (nmul (s xrow) (s xrow)).
Proof.
  intros RC NK H i g Hi Hg. apply calculate_of_ok in H.
  destruct H as (means & stds & Hx & Hp & y & sd & Hy & Hs & Hv & Hc). injection Hp as <- <-. injection Hc as Ey.
  apply (ice_x_of_closed k a _ RC NK) in Hx. destruct Hx as (idx & grid & _ & G & Hx).
  assert (GL : length grid = num_grid_points a).
  { destruct (mesh_points_length _ _ _ G) as [L _]. rewrite linspace_length in L. exact L. }
  assert (FX : Forall (fun m => length m = num_grid_points a) (i_x d)).
  { rewrite Hx. apply Forall_map, Forall_forall. intros r _. rewrite map_length. exact GL. }
  assert (LX : length (i_x d) = num_samples a) by (rewrite Hx, map_length; reflexivity).
  rewrite concat_map in Hy, Hs.
  rewrite (reshape2_concat n0 (map (map f) (i_x d))) in Hy;
    [|rewrite map_length; exact LX|apply Forall_map; eapply Forall_impl; [|exact FX]; intros m Hm; rewrite map_length; exact Hm].
  rewrite (reshape2_concat n0 (map (map s) (i_x d))) in Hs;
    [|rewrite map_length; exact LX|apply Forall_map; eapply Forall_impl; [|exact FX]; intros m Hm; rewrite map_length; exact Hm].
  injection Hy as <-. injection Hs as <-.
  destruct (nth_error (i_x d) i) as [m|] eqn:Em; [|apply nth_error_None in Em; lia].
  assert (Lm : length m = num_grid_points a) by (apply nth_error_In in Em; exact (proj1 (Forall_forall _ _) FX m Em)).
  destruct (nth_error m g) as [xr|] eqn:Exr; [|apply nth_error_None in Exr; lia].
  exists xr. unfold at3, at2. rewrite Em, Exr, <- Ey, Hv, !nth_error_map, Em. cbn.
  rewrite !nth_error_map, Exr. auto.
Qed.

Lemma ice_x_of_total k (a : algorithm N) : rect (num_features a) (a_samples a) -> sel_known (a_cs a) (a_sel a) ->
  a_sel a <> [] -> k <> KList -> exists x, ice_x_of k a = Ok x /\ length (concat x) = num_samples a * num_grid_points a.
Proof.
  intros RC SK NE NK. destruct (ice_x_total a RC SK NE) as (x & Hx). unfold ice_x in Hx. inv_bind Hx. inv_bind Hx. inv_bind Hx.
  assert (EX : exists z, ice_x_of k a = Ok z).
  { unfold ice_x_of. rewrite E, E0. cbn [bind]. cbv zeta. rewrite E1. destruct k; cbn [bind guard]; eauto. contradiction. }
  destruct EX as (z & Hz). exists z. split; [exact Hz|].
  apply (ice_x_of_closed k a _ RC NK) in Hz. destruct Hz as (idx & grid & Hi & Hg & ->).
  destruct (mesh_points_length _ _ _ Hg) as [Lg _]. rewrite linspace_length in Lg.
  rewrite (concat_length_const _ (num_grid_points a)); [rewrite map_length; reflexivity|].
  apply Forall_map, Forall_forall. intros row _. rewrite map_length. exact Lg.
Qed.

(** nothing raises: the wrong grid goes unnoticed *)
Theorem calculate_of_total k (a : algorithm N) p :
  rect (num_features a) (a_samples a) -> sel_known (a_cs a) (a_sel a) -> a_sel a <> [] -> k <> KList ->
  batch_predictor p -> exists d, ice_calculate_of k a false p = Ok d.
Proof.
  intros RC SK NE NK BP. destruct (ice_x_of_total k a RC SK NE NK) as (x & Hx & Lc).
  destruct (BP (concat x)) as (m & s & Hp & Lm & Ls).
  destruct (reshape2_total n0 m (num_samples a) (num_grid_points a)) as (y & Hy); [congruence|].
  destruct (reshape2_total n0 s (num_samples a) (num_grid_points a)) as (sd & Hs); [congruence|].
  destruct (reshape2_ok _ _ _ _ _ Hy) as (_ & Ly & _). destruct (reshape2_ok _ _ _ _ _ Hs) as (_ & Lsd & _).
  unfold ice_calculate_of. rewrite Hx. cbn [bind]. rewrite Hp. cbn [bind fst snd]. rewrite Hy, Hs. cbn [bind].
  rewrite Ly, map_length, Lsd, Nat.eqb_refl. cbn. eauto.
Qed.

End P.

(** ** over the reals: what remains of the grid *)
Lemma axis_value (n k : nat) : (k < n)%nat ->
  nth k (linspace (N:=RNum) n0 n1 n) n0 = (if Nat.eqb n 1 then 0 else INR k / INR (n - 1))%R.
Proof.
  intro H. destruct (linspace_R 0 1 n) as [L E]. specialize (E k H).
  refine (eq_trans (nth_error_nth _ _ _ E) _). destruct (Nat.eqb n 1); [reflexivity|]. unfold Rdiv. ring.
Qed.

Lemma axis_facts (n k : nat) : (k < n)%nat ->
  let u := (nth k (linspace (N:=RNum) n0 n1 n) n0 : R) in
  (0 <= u <= 1)%R /\ ((S k < n)%nat -> (u < 1)%R) /\ ((2 <= n)%nat -> S k = n -> u = 1%R) /\ ((0 < k)%nat -> (0 < u)%R) /\ (k = 0%nat -> u = 0%R).
Proof.
  intro H. cbv zeta. rewrite (axis_value n k H). destruct (Nat.eqb_spec n 1) as [->|Hn].
  { repeat split; intros; try lra; lia. }
  assert (P : (0 < INR (n - 1))%R) by (apply lt_0_INR; lia).
  assert (K : (0 <= INR k <= INR (n - 1))%R) by (split; [apply pos_INR|apply le_INR; lia]).
  assert (D : (INR k / INR (n - 1) * INR (n - 1) = INR k)%R) by (field; lra).
  set (u := (INR k / INR (n - 1))%R) in *.
  repeat split; intros.
  - apply Rmult_le_pos; [lra|]. apply Rlt_le, Rinv_0_lt_compat, P.
  - nra.
  - assert (INR k < INR (n - 1))%R by (apply lt_INR; lia). nra.
  - replace (n - 1)%nat with k in * by lia. nra.
  - assert (0 < INR k)%R by (apply lt_0_INR; lia). nra.
  - subst k. unfold u. cbn. unfold Rdiv. ring.
Qed.

Lemma grid_entry (a : algorithm RNum) grid g gp t u : grid_points a = Ok grid -> nth_error grid g = Some gp -> nth_error gp t = Some u ->
  exists k, (k < a_gpa a)%nat /\ u = nth k (linspace (N:=RNum) n0 n1 (a_gpa a)) n0.
Proof.
  intros G Hg Hu. destruct (grid_is_cartesian_product _ _ _ G) as (_ & _ & K & _). rewrite linspace_length in K.
  destruct (K g gp Hg) as (ks & [L F] & ->). rewrite nth_error_map in Hu. destruct (nth_error ks t) as [k|] eqn:E; [|discriminate].
  injection Hu as <-. exists k. split; [|reflexivity]. apply nth_error_In in E. exact (proj1 (Forall_forall _ _) F k E).
Qed.

Lemma stored_int_R (u : RNum) : stored KArrayInt u = (if Rle_dec 1 u then 1 else 0 : R)%R.
Proof. unfold stored. change (nle n1 u) with (Rleb 1 u). unfold Rleb. destruct (Rle_dec 1 u); reflexivity. Qed.
Lemma stored_bool_R (u : RNum) : stored KArrayBool u = (if Req_EM_T u 0 then 0 else 1 : R)%R.
Proof. unfold stored. change (neqb u n0) with (Reqb u 0). unfold Reqb. destruct (Req_EM_T u 0); reflexivity. Qed.

(** C92: of the grid only its corners remain *)
Theorem corners_only k (a : algorithm RNum) c p d :
  NoDup (map hp_name (a_cs a)) -> rect (num_features a) (a_samples a) -> k = KArrayInt \/ k = KArrayBool ->
  ice_calculate_of k a c p = Ok d ->
  exists grid, grid_points a = Ok grid /\ length grid = num_grid_points a /\
    forall i g row gp, nth_error (a_samples a) i = Some row -> nth_error grid g = Some gp ->
      exists xrow, at3 (i_x d) i g = Some xrow /\
        (forall j t (u : R), selected_at (a_cs a) (a_sel a) j t -> nth_error gp t = Some (u : RNum) ->
           (0 <= u <= 1)%R /\
           nth_error xrow j = Some (match k with
                                    | KArrayInt => if Req_EM_T u 1 then 1 else 0
                                    | _ => if Req_EM_T u 0 then 0 else 1 end : RNum)%R) /\
        (forall j, not_selected (a_cs a) (a_sel a) j -> nth_error xrow j = nth_error row j).
Proof.
  intros ND RC Hk H. assert (NK : k <> KList) by (destruct Hk; subst; discriminate).
  destruct (x_values_of k a c p d ND RC NK H) as (grid & G & K). exists grid.
  assert (GL : length grid = num_grid_points a).
  { destruct (mesh_points_length _ _ _ G) as [L _]. rewrite linspace_length in L. exact L. }
  refine (conj G (conj GL _)). intros i g row gp Hr Hg. destruct (K i g row gp Hr Hg) as (xr & X & S1 & S2).
  exists xr. refine (conj X (conj _ S2)). intros j t u Hs Hu.
  destruct (grid_entry a grid g gp t u G Hg Hu) as (q & Hq & ->). destruct (axis_facts _ _ Hq) as (B & _).
  set (v := (nth q (linspace (N:=RNum) n0 n1 (a_gpa a)) n0 : R)) in *. split; [exact B|].
  rewrite (S1 j t Hs), Hu. cbn [option_map]. f_equal. destruct Hk as [->| ->].
  - refine (eq_trans (stored_int_R v) _). destruct (Rle_dec 1 v), (Req_EM_T v 1); try reflexivity; lra.
  - refine (eq_trans (stored_bool_R v) _). reflexivity.
Qed.

Lemma grid_one (a : algorithm RNum) h grid g gp : a_sel a = [h] -> grid_points a = Ok grid -> nth_error grid g = Some gp ->
  (g < a_gpa a)%nat /\ gp = [nth g (linspace (N:=RNum) n0 n1 (a_gpa a)) n0].
Proof.
  intros Es G Hg. pose proof G as G'. unfold grid_points, n_selected in G'. rewrite Es in G'. cbn [length] in G'.
  unfold mesh_points in G'. rewrite linspace_length in G'. injection G' as <-.
  assert (L : (g < a_gpa a ^ 1)%nat) by (apply nth_error_Some_lt in Hg; rewrite map_length, seq_length in Hg; exact Hg).
  rewrite nth_error_map_seq in Hg by exact L. injection Hg as <-. rewrite Nat.pow_1_r in L. split; [exact L|].
  unfold digit, mesh_dim. cbn [Nat.leb seq map Nat.sub Nat.pow]. rewrite Nat.div_1_r, Nat.mod_small by exact L. reflexivity.
Qed.

(** the curve over one hyperparameter has two values at most *)
Theorem two_values k (a : algorithm RNum) h (f s : list R -> R) d :
  rect (num_features a) (a_samples a) -> a_sel a = [h] -> k = KArrayInt \/ k = KArrayBool ->
  ice_calculate_of (N:=RNum) k a false (fun rows => Ok (map f rows, map s rows)) = Ok d ->
  forall i g, (i < num_samples a)%nat -> (g < a_gpa a)%nat ->
    let same := match k with KArrayInt => if Nat.ltb (S g) (a_gpa a) then 0 else g | _ => if Nat.eqb g 0 then 0 else a_gpa a - 1 end in
    at3 (i_x d) i g = at3 (i_x d) i same /\ at2 (i_y d) i g = at2 (i_y d) i same /\ at2 (i_v d) i g = at2 (i_v d) i same.
Proof.
  intros RC Es Hk H i g Hi Hg same. assert (NK : k <> KList) by (destruct Hk; subst; discriminate).
  assert (GN : num_grid_points a = a_gpa a) by (unfold num_grid_points, n_selected; rewrite Es; cbn; lia).
  assert (Hs : (same < a_gpa a)%nat).
  { subst same. destruct Hk as [->| ->]; [destruct (Nat.ltb_spec (S g) (a_gpa a)); lia|destruct (Nat.eqb_spec g 0); lia]. }
  destruct (values_of (N:=RNum) k a f s d RC NK H i g Hi ltac:(lia)) as (xr & X & Y & V).
  destruct (values_of (N:=RNum) k a f s d RC NK H i same Hi ltac:(lia)) as (xr' & X' & Y' & V').
  assert (xr = xr') as <-; [|rewrite X, X', Y, Y', V, V'; auto].
  apply calculate_of_ok in H. destruct H as (means & stds & Hx & _).
  apply (ice_x_of_closed k a _ RC NK) in Hx. destruct Hx as (idx & grid & _ & G & Hx).
  unfold at3 in X, X'. rewrite Hx, nth_error_map in X, X'. destruct (nth_error (a_samples a) i) as [row|]; [|discriminate]. cbn [option_map] in X, X'.
  rewrite nth_error_map in X, X'. destruct (nth_error grid g) as [gp|] eqn:E1; [|discriminate]. destruct (nth_error grid same) as [gp'|] eqn:E2; [|discriminate].
  injection X as <-. injection X' as <-. destruct (grid_one a h grid g gp Es G E1) as (_ & ->). destruct (grid_one a h grid same gp' Es G E2) as (_ & ->).
  f_equal. cbn [map]. f_equal. destruct (axis_facts _ _ Hg) as (B & U1 & U2 & U3 & U4). destruct (axis_facts _ _ Hs) as (B' & U1' & U2' & U3' & U4').
  set (u := (nth g (linspace (N:=RNum) n0 n1 (a_gpa a)) n0 : R)) in *. set (u' := (nth same (linspace (N:=RNum) n0 n1 (a_gpa a)) n0 : R)) in *.
  destruct Hk as [->| ->]; [refine (eq_trans (stored_int_R u) (eq_trans _ (eq_sym (stored_int_R u'))))|refine (eq_trans (stored_bool_R u) (eq_trans _ (eq_sym (stored_bool_R u'))))].
  - subst same. destruct (Nat.ltb_spec (S g) (a_gpa a)) as [L|L].
    + specialize (U1 L). rewrite (U4' eq_refl). destruct (Rle_dec 1 u), (Rle_dec 1 0); try reflexivity; lra.
    + reflexivity.
  - subst same. destruct (Nat.eqb_spec g 0) as [->|L].
    + reflexivity.
    + specialize (U3 ltac:(lia)). specialize (U3' ltac:(lia)). destruct (Req_EM_T u 0), (Req_EM_T u' 0); try reflexivity; lra.
Qed.

(** witness: curves of a + c at integer samples *)
Definition t_cs : cspace QNum := [mkhp "a"%string (KFloat (0#1 : QNum) (1#1 : QNum) false); mkhp "c"%string (KFloat (0#1 : QNum) (1#1 : QNum) false)].
Definition t_alg : algorithm QNum := mkalg t_cs [mkhp "a"%string (KFloat (0#1 : QNum) (1#1 : QNum) false)] [[1#1; 0#1]; [0#1; 1#1]]%Q 5.
Definition t_predict : predictor QNum := fun rows => Ok (map (fun r => Qred (nth 0 r (0#1) + nth 1 r (0#1))%Q) rows, map (fun r => nth 1 r (0#1)) rows).
Definition t_curve (k : samples_kind) : option (list Q) :=
  match ice_calculate_of k t_alg false t_predict with Ok d => nth_error (i_y d) 0 | Err _ => None end.
Lemma t_curves : t_curve KArrayFloat = Some [0#1; 1#4; 1#2; 3#4; 1#1]%Q /\ t_curve KArrayInt = Some [0#1; 0#1; 0#1; 0#1; 1#1]%Q /\
  t_curve KArrayBool = Some [0#1; 1#1; 1#1; 1#1; 1#1]%Q.
Proof. vm_compute. auto. Qed.
