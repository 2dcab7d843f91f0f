(** Prop_IceShape.v - what curves and PDP show of a surrogate (C98) and how they depend on the samples (C99).

    [rowwise f s]: the surrogate whose mean and standard deviation at a row are [f] and [s].
    [only_uses P f]: [f] looks only at the coordinates in [P]. *)
From Coq Require Import Reals QArith Lra Permutation.
From Verif Require Import Base Num NumLaws NumpyModel ConfigSpaceModel UtilsModel IceModel ListLemmas IceProofs IceProofs2 RealSums
  IceShapeSpec IceShapeProofs IceShapeReal IceShapeWitness Examples Prop_Ice.
Local Open Scope nat_scope.
Local Open Scope list_scope.

(** ** C98 *)
(** the selected hyperparameters do not matter to the mean (the deviation): every curve is constant, at its sample's prediction *)
Theorem C98_flat : forall (N : Num) (a : algorithm N) f s d, NoDup (map hp_name (a_cs a)) -> rect (num_features a) (a_samples a) -> ice_calculate a false (rowwise f s) = Ok d ->
  (only_uses (not_selected (a_cs a) (a_sel a)) f -> forall i g row, nth_error (a_samples a) i = Some row -> g < num_grid_points a -> at2 (i_y d) i g = Some (f row)) /\
  (only_uses (not_selected (a_cs a) (a_sel a)) s -> forall i g row, nth_error (a_samples a) i = Some row -> g < num_grid_points a -> at2 (i_v d) i g = Some (nmul (s row) (s row))).
Proof. exact @flat_curves. Qed.
Print Assumptions C98_flat.
Theorem C98_flat_pdp : forall (a : algorithm RNum) (f s : list R -> R) d, NoDup (map hp_name (a_cs a)) -> rect (num_features a) (a_samples a) -> (0 < num_samples a) ->
  ice_calculate a false (rowwise (N:=RNum) f s) = Ok d -> only_uses (N:=RNum) (not_selected (a_cs a) (a_sel a)) f ->
  forall g, (g < num_grid_points a) -> nth_error (y_pdp a d) g = Some (Rmean (map f (a_samples a))).
Proof. exact flat_pdp. Qed.
Print Assumptions C98_flat_pdp.

(** only the selected hyperparameters matter: all samples have one curve *)
Theorem C98_same : forall (N : Num) (a : algorithm N) f s d, NoDup (map hp_name (a_cs a)) -> rect (num_features a) (a_samples a) -> ice_calculate a false (rowwise f s) = Ok d ->
  (only_uses (is_selected (a_cs a) (a_sel a)) f -> forall i i', i < num_samples a -> i' < num_samples a -> nth_error (i_y d) i = nth_error (i_y d) i') /\
  (only_uses (is_selected (a_cs a) (a_sel a)) s -> forall i i', i < num_samples a -> i' < num_samples a -> nth_error (i_v d) i = nth_error (i_v d) i').
Proof. exact @same_curves. Qed.
Print Assumptions C98_same.

(** additive means: the curves are shifted copies of one effect, the PDP is that effect shifted by the mean of the rest,
    and the centered curves are all the same *)
Theorem C98_additive : forall (a : algorithm RNum) (u w s : list R -> R) d,
  NoDup (map hp_name (a_cs a)) -> rect (num_features a) (a_samples a) -> 0 < num_samples a -> 1 <= a_gpa a ->
  only_uses (N:=RNum) (is_selected (a_cs a) (a_sel a)) u -> only_uses (N:=RNum) (not_selected (a_cs a) (a_sel a)) w ->
  ice_calculate a false (rowwise (N:=RNum) (fun r => u r + w r)%R s) = Ok d ->
  exists e : nat -> R,
    (forall i g r, at3 (i_x d) i g = Some r -> u r = e g) /\
    (forall i g row, nth_error (a_samples a) i = Some row -> g < num_grid_points a -> at2 (i_y d) i g = Some (e g + w row : R)%R) /\
    (forall g, g < num_grid_points a -> nth_error (y_pdp a d) g = Some (e g + Rmean (map w (a_samples a)))%R) /\
    exists dc, ice_calculate a true (rowwise (N:=RNum) (fun r => u r + w r)%R s) = Ok dc /\
      forall i g, i < num_samples a -> g < num_grid_points a -> at2 (i_y dc) i g = Some (e g - e 0%nat : R)%R.
Proof. exact additive_surrogate. Qed.
Print Assumptions C98_additive.

(** means that do not fall in the selected hyperparameters: neither do the curves and the PDP, along any two comparable grid
    points, and along the whole axis of one hyperparameter *)
Theorem C98_monotone : forall (a : algorithm RNum) (f s : list R -> R) d grid,
  NoDup (map hp_name (a_cs a)) -> rect (num_features a) (a_samples a) -> 0 < num_samples a -> grows_with (is_selected (a_cs a) (a_sel a)) f ->
  ice_calculate a false (rowwise (N:=RNum) f s) = Ok d -> grid_points a = Ok grid ->
  forall g g' gp gp', nth_error grid g = Some gp -> nth_error grid g' = Some gp' -> pointwise_le gp gp' ->
    (forall i v v', at2 (i_y d) i g = Some v -> at2 (i_y d) i g' = Some v' -> (v <= v')%R) /\
    (forall v v', nth_error (y_pdp a d) g = Some v -> nth_error (y_pdp a d) g' = Some v' -> (v <= v')%R).
Proof. exact monotone_surrogate. Qed.
Print Assumptions C98_monotone.
Theorem C98_monotone_one : forall (a : algorithm RNum) (f s : list R -> R) d,
  NoDup (map hp_name (a_cs a)) -> rect (num_features a) (a_samples a) -> 0 < num_samples a -> grows_with (is_selected (a_cs a) (a_sel a)) f ->
  ice_calculate a false (rowwise (N:=RNum) f s) = Ok d -> n_selected a = 1 ->
  forall g g', g <= g' ->
    (forall i v v', at2 (i_y d) i g = Some v -> at2 (i_y d) i g' = Some v' -> (v <= v')%R) /\
    (forall v v', nth_error (y_pdp a d) g = Some v -> nth_error (y_pdp a d) g' = Some v' -> (v <= v')%R).
Proof. exact monotone_one. Qed.
Print Assumptions C98_monotone_one.

(** curves and PDP of a combination of two means are the combinations of theirs *)
Theorem C98_linear : forall (a : algorithm RNum) (f1 f2 s1 s2 s : list R -> R) al be d1 d2 d,
  rect (num_features a) (a_samples a) -> 0 < num_samples a ->
  ice_calculate a false (rowwise (N:=RNum) f1 s1) = Ok d1 -> ice_calculate a false (rowwise (N:=RNum) f2 s2) = Ok d2 ->
  ice_calculate a false (rowwise (N:=RNum) (fun r => al * f1 r + be * f2 r)%R s) = Ok d ->
  (forall i g v1 v2, at2 (i_y d1) i g = Some v1 -> at2 (i_y d2) i g = Some v2 -> at2 (i_y d) i g = Some (al * v1 + be * v2 : R)%R) /\
  (forall g v1 v2, nth_error (y_pdp a d1) g = Some v1 -> nth_error (y_pdp a d2) g = Some v2 -> nth_error (y_pdp a d) g = Some (al * v1 + be * v2 : R)%R).
Proof. exact linear_combination. Qed.
Print Assumptions C98_linear.

(** hypotheses met: b and a selected, effect a * b, the rest is c *)
Lemma ex_selected N : is_selected (N:=N) (a_cs (ex_alg N)) (a_sel (ex_alg N)) 0 /\ is_selected (N:=N) (a_cs (ex_alg N)) (a_sel (ex_alg N)) 1 /\ not_selected (a_cs (ex_alg N)) (a_sel (ex_alg N)) 2.
Proof.
  split; [eexists; split; [reflexivity|cbn; auto]|]. split; [eexists; split; [reflexivity|cbn; auto]|].
  intros h H. cbn in H. injection H as <-. cbn. intuition discriminate.
Qed.
Lemma nth_of_error {A} (l l' : list A) j x : nth_error l j = nth_error l' j -> nth j l x = nth j l' x.
Proof. intro H. rewrite <- !nth_default_eq. unfold nth_default. rewrite H. reflexivity. Qed.
Example C98_example : let a := ex_alg RNum in let u := (fun r => nth 0 r 0 + nth 1 r 0)%R in let w := (fun r => nth 2 r 0)%R in
  NoDup (map hp_name (a_cs a)) /\ rect (num_features a) (a_samples a) /\ 0 < num_samples a /\ 1 <= a_gpa a /\
  only_uses (N:=RNum) (is_selected (a_cs a) (a_sel a)) u /\ only_uses (N:=RNum) (not_selected (a_cs a) (a_sel a)) w /\
  grows_with (is_selected (a_cs a) (a_sel a)) (fun r => u r + w r)%R /\
  (exists d, ice_calculate a false (rowwise (N:=RNum) (fun r => u r + w r)%R w) = Ok d) /\
  (exists grid gp gp', grid_points a = Ok grid /\ nth_error grid 1 = Some gp /\ nth_error grid 5 = Some gp' /\ pointwise_le gp gp').
Proof.
  intros a u w. destruct (ex_alg_ok RNum) as (H1 & H2 & H3 & _). destruct (ex_selected RNum) as (S0 & S1 & S2).
  refine (conj H1 (conj H2 (conj _ (conj _ (conj _ (conj _ (conj _ (conj _ _)))))))).
  - cbn. lia.
  - cbn. lia.
  - intros r r' _ K. exact (f_equal2 Rplus (nth_of_error r r' 0 0%R (K 0 S0)) (nth_of_error r r' 1 0%R (K 1 S1))).
  - intros r r' _ K. exact (nth_of_error r r' 2 0%R (K 2 S2)).
  - intros r r' L K. assert (Q : forall j, (nth j r 0 <= nth j r' 0)%R).
    { intro j. destruct (nth_error r j) as [x|] eqn:E.
      - destruct (nth_error r' j) as [x'|] eqn:E'.
        + rewrite (nth_error_nth_some _ _ _ 0%R E), (nth_error_nth_some _ _ _ 0%R E'). destruct (K j x x' E E') as [Ka Kb].
          destruct (Nat.eq_dec j 0) as [->|]; [exact (Ka S0)|]. destruct (Nat.eq_dec j 1) as [->|]; [exact (Ka S1)|]. right. apply Kb.
          intros (h & Hh & Hin). destruct j as [|[|[|j]]]; try congruence; [exact (S2 h Hh Hin)|]. cbn in Hh. destruct j; discriminate.
        + apply nth_error_None in E'. pose proof (nth_error_Some_lt _ _ _ E). lia.
      - apply nth_error_None in E. rewrite !nth_overflow by lia. lra. }
    unfold u, w. pose proof (Q 0). pose proof (Q 1). pose proof (Q 2). lra.
  - apply ice_calculate_total; auto; [discriminate|cbn; lia|]. intro rows. eexists _, _. split; [reflexivity|]. rewrite !map_length. auto.
  - eexists _, _, _. split; [reflexivity|]. split; [reflexivity|]. split; [reflexivity|]. cbn. unfold pointwise_le. repeat constructor; cbn; lra.
Qed.

(** "a flat PDP means flat curves" fails: curves of opposite slope (an interaction) cancel *)
Theorem C98_flat_pdp_only_refuted : exists d, ice_calculate q_alg false (rowwise (N:=QNum) q_mean (fun _ => n0)) = Ok d /\
  (forall g v, nth_error (y_pdp q_alg d) g = Some v -> (v == 0)%Q) /\
  exists v w, at2 (i_y d) 0 0 = Some v /\ at2 (i_y d) 0 1 = Some w /\ ~ (v == w)%Q.
Proof. exact flat_pdp_slopes. Qed.
Print Assumptions C98_flat_pdp_only_refuted.

(** ** C99 *)
(** the curve of a sample does not depend on the other samples *)
Theorem C99_alone : forall (N : Num) (a : algorithm N) rows' f s d, rect (num_features a) (a_samples a) -> rect (num_features a) rows' ->
  ice_calculate a false (rowwise f s) = Ok d ->
  exists d', ice_calculate (on_samples a rows') false (rowwise f s) = Ok d' /\
  forall i i' row, nth_error (a_samples a) i = Some row -> nth_error rows' i' = Some row ->
    nth_error (i_x d) i = nth_error (i_x d') i' /\ nth_error (i_y d) i = nth_error (i_y d') i' /\ nth_error (i_v d) i = nth_error (i_v d') i'.
Proof. exact @curve_alone_ex. Qed.
Print Assumptions C99_alone.

(** permuted samples: permuted curves and the same PDP; k copies of the samples: the same PDP *)
Theorem C99_permuted_curves : forall (N : Num) (a : algorithm N) rows' f s d d', rect (num_features a) (a_samples a) -> Permutation (a_samples a) rows' ->
  ice_calculate a false (rowwise f s) = Ok d -> ice_calculate (on_samples a rows') false (rowwise f s) = Ok d' ->
  Permutation (combine (i_x d) (combine (i_y d) (i_v d))) (combine (i_x d') (combine (i_y d') (i_v d'))).
Proof. exact @permuted_curves. Qed.
Print Assumptions C99_permuted_curves.
Theorem C99_permuted : forall (a : algorithm RNum) rows' (f s : list R -> R) d, rect (num_features a) (a_samples a) -> Permutation (a_samples a) rows' ->
  ice_calculate a false (rowwise (N:=RNum) f s) = Ok d ->
  exists d', ice_calculate (on_samples a rows') false (rowwise (N:=RNum) f s) = Ok d' /\
    x_pdp (on_samples a rows') d' = x_pdp a d /\ y_pdp (on_samples a rows') d' = y_pdp a d /\ v_pdp (on_samples a rows') d' = v_pdp a d.
Proof. exact pdp_permuted. Qed.
Print Assumptions C99_permuted.
Theorem C99_repeated : forall (a : algorithm RNum) k (f s : list R -> R) d, rect (num_features a) (a_samples a) -> 0 < k ->
  ice_calculate a false (rowwise (N:=RNum) f s) = Ok d ->
  let a' := on_samples a (concat (repeat (a_samples a) k)) in
  exists d', ice_calculate a' false (rowwise (N:=RNum) f s) = Ok d' /\ x_pdp a' d' = x_pdp a d /\ y_pdp a' d' = y_pdp a d /\ v_pdp a' d' = v_pdp a d.
Proof. exact pdp_repeated. Qed.
Print Assumptions C99_repeated.

(** the PDP of a union is the mean of the two PDPs, weighted by the numbers of samples *)
Theorem C99_union : forall (a : algorithm RNum) rows1 rows2 (f s : list R -> R) d, rect (num_features a) (a_samples a) -> a_samples a = rows1 ++ rows2 -> rows1 <> [] -> rows2 <> [] ->
  ice_calculate a false (rowwise (N:=RNum) f s) = Ok d ->
  exists d1 d2, ice_calculate (on_samples a rows1) false (rowwise (N:=RNum) f s) = Ok d1 /\ ice_calculate (on_samples a rows2) false (rowwise (N:=RNum) f s) = Ok d2 /\
    let n1 := INR (length rows1) in let n2 := INR (length rows2) in
    (forall g v1 v2, nth_error (y_pdp (on_samples a rows1) d1) g = Some v1 -> nth_error (y_pdp (on_samples a rows2) d2) g = Some v2 ->
      nth_error (y_pdp a d) g = Some ((n1 * v1 + n2 * v2) / (n1 + n2) : R)%R) /\
    (forall g v1 v2, nth_error (v_pdp (on_samples a rows1) d1) g = Some v1 -> nth_error (v_pdp (on_samples a rows2) d2) g = Some v2 ->
      nth_error (v_pdp a d) g = Some ((n1 * v1 + n2 * v2) / (n1 + n2) : R)%R).
Proof. exact pdp_union. Qed.
Print Assumptions C99_union.

(** two samples in either order, and the two parts of a union *)
Example C99_example : let a := ex_alg QNum in let u := (fun r => Qred (nth 0 r 0 + nth 1 r 0 + nth 2 r 0))%Q in
  rect (num_features a) (a_samples a) /\ Permutation (a_samples a) (rev (a_samples a)) /\ a_samples a <> rev (a_samples a) /\
  a_samples a = firstn 1 (a_samples a) ++ skipn 1 (a_samples a) /\
  map (fun rows => match ice_calculate (on_samples a rows) false (rowwise (N:=QNum) u u) with Ok d => firstn 3 (y_pdp (on_samples a rows) d) | Err _ => [] end)
    [a_samples a; rev (a_samples a); firstn 1 (a_samples a); skipn 1 (a_samples a)] =
    [[1#4; 3#4; 5#4]; [1#4; 3#4; 5#4]; [1#5; 7#10; 6#5]; [3#10; 4#5; 13#10]]%Q.
Proof.
  intros a u. split; [repeat constructor|]. split; [apply Permutation_rev|]. split; [vm_compute; discriminate|]. split; [reflexivity|]. vm_compute. reflexivity.
Qed.

(** surrogates that look at the whole batch do not have C99_alone *)
Theorem C99_batch_refuted : exists (a : algorithm QNum) rows' (p : predictor QNum) d d' row, batch_predictor p /\
  rect (num_features a) (a_samples a) /\ rect (num_features a) rows' /\ ice_calculate a false p = Ok d /\ ice_calculate (on_samples a rows') false p = Ok d' /\
  nth_error (a_samples a) 0 = Some row /\ nth_error rows' 0 = Some row /\ nth_error (i_y d) 0 <> nth_error (i_y d') 0.
Proof. exact batch_matters. Qed.
Print Assumptions C99_batch_refuted.

(** binary64: samples with predictions 0.1, 0.2, 0.3 in the other order give another PDP *)
Theorem C99_binary64_refuted : forall fe fln fr, let BN := B64 fe fln fr in
  exists (a : algorithm BN) rows' f s d d' v w, rect (num_features a) (a_samples a) /\ Permutation (a_samples a) rows' /\
    ice_calculate a false (rowwise f s) = Ok d /\ ice_calculate (on_samples a rows') false (rowwise f s) = Ok d' /\
    nth_error (y_pdp a d) 0 = Some v /\ nth_error (y_pdp (on_samples a rows') d') 0 = Some w /\ nlt w v = true.
Proof. exact order_matters. Qed.
Print Assumptions C99_binary64_refuted.

(** ** C26 in binary64: three curves at 0.1 have a PDP above 0.1 *)
Theorem C26_binary64_refuted : forall fe fln fr, let BN := B64 fe fln fr in
  exists (a : algorithm BN) f s d v m, rect (num_features a) (a_samples a) /\ ice_calculate a false (rowwise f s) = Ok d /\
    num_samples a = 3 /\ (forall i, i < 3 -> at2 (i_y d) i 0 = Some v) /\ nth_error (y_pdp a d) 0 = Some m /\ nlt v m = true.
Proof. exact mean_above. Qed.
Print Assumptions C26_binary64_refuted.
