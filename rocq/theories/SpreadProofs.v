(** SpreadProofs.v - the mean over evenly spread samples and the average over the cube (C115). *)
From Coq Require Import Reals Lra.
From Coquelicot Require Import Coquelicot.
From Verif Require Import Base Num ListLemmas RealSums SpreadSpec.
Local Open Scope R_scope.

(** ** lists *)
Lemma set_nth_comm {A} i j (x y : A) l : i <> j -> set_nth i x (set_nth j y l) = set_nth j y (set_nth i x l).
Proof.
  revert i j. induction l as [|a l IH]; intros [|i] [|j] H; cbn; try reflexivity; try congruence. f_equal. apply IH. congruence.
Qed.
Lemma set_nth_twice {A} i (x y : A) l : set_nth i x (set_nth i y l) = set_nth i x l.
Proof. revert i. induction l as [|a l IH]; intros [|i]; cbn; congruence. Qed.
Lemma set_nth_same {A} i (x : A) l : nth_error l i = Some x -> set_nth i x l = l.
Proof. revert i. induction l as [|a l IH]; intros [|i] H; cbn in *; try discriminate; [congruence|]. f_equal. auto. Qed.
Lemma firstn_snoc {A} (l : list A) n x : nth_error l n = Some x -> firstn (S n) l = firstn n l ++ [x].
Proof. revert n. induction l as [|a l IH]; intros [|n] H; cbn in *; try discriminate; [congruence|]. f_equal. apply IH. exact H. Qed.
Lemma in_cube_set j t row : in_cube row -> 0 <= t <= 1 -> in_cube (set_nth j t row).
Proof.
  unfold in_cube. intros H Ht. revert j. induction H as [|x l Hx Hl IH]; intros [|j]; cbn; constructor; auto.
Qed.

(** ** integrals of functions with a bounded slope *)
Definition clip (t : R) : R := Rmin 1 (Rmax 0 t).
Lemma clip_unit t : 0 <= clip t <= 1.
Proof. unfold clip, Rmin, Rmax. repeat destruct (Rle_dec _ _); lra. Qed.
Lemma clip_id t : 0 <= t <= 1 -> clip t = t.
Proof. intro H. unfold clip, Rmin, Rmax. repeat destruct (Rle_dec _ _); lra. Qed.
Lemma clip_lip s t : Rabs (clip s - clip t) <= Rabs (s - t).
Proof. unfold clip, Rmin, Rmax. repeat destruct (Rle_dec _ _); unfold Rabs; repeat destruct (Rcase_abs _); lra. Qed.

Lemma lip_integrable (f : R -> R) L a b : (forall s t, 0 <= s <= 1 -> 0 <= t <= 1 -> Rabs (f s - f t) <= L * Rabs (s - t)) ->
  0 <= a <= b -> b <= 1 -> ex_RInt f a b.
Proof.
  intros H Ha Hb.
  assert (HL : 0 <= L).
  { specialize (H 0 1 ltac:(lra) ltac:(lra)). replace (Rabs (0 - 1)) with 1 in H by (rewrite Rabs_left; lra). pose proof (Rabs_pos (f 0 - f 1)). lra. }
  apply (ex_RInt_ext (V := R_NormedModule) (fun t => f (clip t))).
  { intros t Ht. rewrite Rmin_left, Rmax_right in Ht by lra. rewrite clip_id by lra. reflexivity. }
  apply (ex_RInt_continuous (V := R_CompleteNormedModule)). intros z _.
  apply continuity_pt_filterlim. intros eps He. exists (eps / (L + 1)). split; [apply Rlt_gt, Rdiv_lt_0_compat; lra|].
  intros x [_ Hx]. unfold dist in *. cbn in *. unfold R_dist in *.
  eapply Rle_lt_trans; [apply H; apply clip_unit|]. eapply Rle_lt_trans; [apply Rmult_le_compat_l; [exact HL|apply clip_lip]|].
  apply (Rle_lt_trans _ (L * (eps / (L + 1)))); [apply Rmult_le_compat_l; lra|].
  apply (Rmult_lt_reg_r (L + 1)); [lra|]. replace (L * (eps / (L + 1)) * (L + 1)) with (L * eps) by (field; lra). lra.
Qed.

Lemma RInt_close (f g : R -> R) a b c : a <= b -> ex_RInt f a b -> ex_RInt g a b -> (forall t, a <= t <= b -> Rabs (f t - g t) <= c) ->
  Rabs (RInt f a b - RInt g a b) <= (b - a) * c.
Proof.
  intros Hab If Ig H.
  assert (E : RInt f a b - RInt g a b = RInt (fun t => f t - g t) a b) by (symmetry; apply (RInt_minus (V := R_CompleteNormedModule) f g a b If Ig)).
  rewrite E. apply abs_RInt_le_const; [exact Hab| |exact H]. apply (ex_RInt_minus (V := R_NormedModule)); assumption.
Qed.

(** ** averages over the cube keep the slopes *)
Lemma average_lip d (F : list R -> R) (L : nat -> R) : forall J, NoDup J -> (forall j, In j J -> lipschitz_in d j (L j) F) ->
  forall j, ~ In j J -> lipschitz_in d j (L j) F -> lipschitz_in d j (L j) (cube_average J F).
Proof.
  induction J as [|i J IH]; intros ND HJ j Hj Lj; [exact Lj|]. inversion ND as [|? ? Hi ND']; subst.
  assert (HJ' : forall k, In k J -> lipschitz_in d k (L k) F) by (intros k Hk; apply HJ; right; exact Hk).
  assert (Li : lipschitz_in d i (L i) (cube_average J F)) by (apply IH; auto; apply HJ; left; reflexivity).
  assert (Lj' : lipschitz_in d j (L j) (cube_average J F)) by (apply IH; auto; intro; apply Hj; right; assumption).
  intros row t t' Hd Hc Ht Ht'. cbn [cube_average].
  replace (L j * Rabs (t - t')) with ((1 - 0) * (L j * Rabs (t - t'))) by ring.
  assert (I : forall r, length r = d -> in_cube r -> ex_RInt (fun s => cube_average J F (set_nth i s r)) 0 1).
  { intros r Hr Hrc. apply (lip_integrable _ (L i)); [|lra|lra]. intros s s' Hs Hs'. apply Li; assumption. }
  apply RInt_close; [lra|apply I; [rewrite set_nth_length; exact Hd|apply in_cube_set; assumption]|apply I; [rewrite set_nth_length; exact Hd|apply in_cube_set; assumption]|].
  intros s Hs. assert (Hij : i <> j) by (intro; apply Hj; left; assumption).
  rewrite (set_nth_comm i j s t) by exact Hij. rewrite (set_nth_comm i j s t') by exact Hij.
  apply Lj'; [rewrite set_nth_length; exact Hd|apply in_cube_set; assumption|exact Ht|exact Ht'].
Qed.
Lemma average_integrable d (F : list R -> R) (L : nat -> R) i J a b row : NoDup (i :: J) -> (forall j, In j (i :: J) -> lipschitz_in d j (L j) F) ->
  length row = d -> in_cube row -> 0 <= a <= b -> b <= 1 -> ex_RInt (fun t => cube_average J F (set_nth i t row)) a b.
Proof.
  intros ND HJ Hd Hc Ha Hb. inversion ND as [|? ? Hi ND']; subst. apply (lip_integrable _ (L i)); [|exact Ha|exact Hb].
  intros s t Hs Ht. apply (average_lip (length row) F L J); auto; [intros j Hj; apply HJ; right; exact Hj|apply HJ; left; reflexivity].
Qed.

(** ** an integral cell by cell *)
Lemma cells_close (A : R -> R) (k : nat) (ms : list R) E : (0 < k)%nat -> length ms = k ->
  (forall a b, 0 <= a <= b -> b <= 1 -> ex_RInt A a b) ->
  (forall i m, nth_error ms i = Some m -> forall t, INR i / INR k <= t <= INR (i + 1) / INR k -> Rabs (A t - m) <= E) ->
  Rabs (RInt A 0 1 - Rsum ms / INR k) <= E.
Proof.
  intros Hk Hl I H. assert (Pk : 0 < INR k) by (apply lt_0_INR; exact Hk).
  assert (G : forall n, (n <= k)%nat -> Rabs (RInt A 0 (INR n / INR k) - Rsum (firstn n ms) / INR k) <= INR n / INR k * E).
  { induction n as [|n IH]; intro Hn.
    - cbn [firstn Rsum INR]. unfold Rdiv. rewrite !Rmult_0_l. rewrite (RInt_point (V := R_CompleteNormedModule)). change (@zero R_CompleteNormedModule) with 0. rewrite Rminus_0_r, Rabs_R0. lra.
    - assert (Hn' : (n < length ms)%nat) by lia. destruct (nth_error ms n) as [m|] eqn:Em; [|apply nth_error_None in Em; lia].
      rewrite (firstn_snoc ms n m Em). rewrite Rsum_app. cbn [Rsum]. rewrite Rplus_0_r.
      assert (B0 : 0 <= INR n / INR k) by (apply Rmult_le_pos; [apply pos_INR|left; apply Rinv_0_lt_compat; exact Pk]).
      assert (B1 : INR n / INR k <= INR (S n) / INR k).
      { apply Rmult_le_compat_r; [left; apply Rinv_0_lt_compat; exact Pk|]. rewrite S_INR. lra. }
      assert (B2 : INR (S n) / INR k <= 1).
      { apply (Rmult_le_reg_r (INR k)); [exact Pk|]. unfold Rdiv. rewrite Rmult_assoc, Rinv_l, Rmult_1_r, Rmult_1_l by lra. apply le_INR. exact Hn. }
      assert (Ch : RInt A 0 (INR (S n) / INR k) = RInt A 0 (INR n / INR k) + RInt A (INR n / INR k) (INR (S n) / INR k)).
      { symmetry. apply (RInt_Chasles (V := R_CompleteNormedModule)); apply I; lra. }
      assert (W : INR (S n) / INR k - INR n / INR k = / INR k) by (rewrite S_INR; field; lra).
      assert (Cell : Rabs (RInt A (INR n / INR k) (INR (S n) / INR k) - m / INR k) <= / INR k * E).
      { assert (EC : RInt (fun _ : R => m) (INR n / INR k) (INR (S n) / INR k) = (INR (S n) / INR k - INR n / INR k) * m) by (rewrite (RInt_const (V := R_CompleteNormedModule)); reflexivity).
        replace (m / INR k) with (RInt (fun _ : R => m) (INR n / INR k) (INR (S n) / INR k)) by (rewrite EC, W; unfold Rdiv; apply Rmult_comm).
        rewrite <- W. apply RInt_close; [exact B1|apply I; lra|apply (ex_RInt_const (V := R_NormedModule))|].
        intros t Ht. apply (H n m Em). rewrite Nat.add_1_r. exact Ht. }
      specialize (IH ltac:(lia)). rewrite Ch.
      replace (RInt A 0 (INR n / INR k) + RInt A (INR n / INR k) (INR (S n) / INR k) - (Rsum (firstn n ms) + m) / INR k)
        with ((RInt A 0 (INR n / INR k) - Rsum (firstn n ms) / INR k) + (RInt A (INR n / INR k) (INR (S n) / INR k) - m / INR k)) by (field; lra).
      eapply Rle_trans; [apply Rabs_triang|]. replace (INR (S n) / INR k * E) with (INR n / INR k * E + / INR k * E) by (rewrite S_INR; field; lra). lra. }
  specialize (G k (le_n k)). replace (INR k / INR k) with 1 in G by (field; lra). rewrite (firstn_all2 ms) in G by lia. lra.
Qed.

(** ** spread samples *)
Lemma spread_map (h : list R -> list R) : forall Jk rows, (forall row j k, In (j, k) Jk -> nth_error (h row) j = nth_error row j) -> spread Jk rows -> spread Jk (map h rows).
Proof.
  induction Jk as [|[j k] Jk IH]; intros rows Hh S; cbn [spread] in *.
  - intro E. apply S. destruct rows; [reflexivity|discriminate].
  - destruct S as (parts & n & Hk & Hn & Hp & Hperm & Hparts). exists (map (map h) parts), n. split; [exact Hk|]. split; [exact Hn|].
    split; [rewrite map_length; exact Hp|]. split; [rewrite <- concat_map; apply Permutation_map; exact Hperm|].
    intros i p Hi. rewrite nth_error_map in Hi. destruct (nth_error parts i) as [q|] eqn:Eq; [|discriminate]. injection Hi as <-.
    destruct (Hparts i q Eq) as (H1 & H2 & H3). split; [rewrite map_length; exact H1|]. split.
    + apply IH; [intros row j' k' Hin; apply (Hh row j' k'); right; exact Hin|exact H2].
    + apply Forall_map. eapply Forall_impl; [|exact H3]. intros row (x & Hx & B). exists x. split; [|exact B]. rewrite (Hh row j k) by (left; reflexivity). exact Hx.
Qed.
Lemma spread_nonempty : forall Jk rows, spread Jk rows -> rows <> [].
Proof.
  intros [|[j k] Jk] rows S; cbn [spread] in S; [exact S|]. destruct S as (parts & n & Hk & Hn & Hp & Hperm & Hparts). intros ->.
  destruct parts as [|p parts]; [cbn in Hp; lia|]. destruct (Hparts 0%nat p eq_refl) as (H1 & _). apply Permutation_nil in Hperm. cbn in Hperm. apply app_eq_nil in Hperm as [-> _]. cbn in H1. lia.
Qed.

Lemma list_eq_nth {A} (l l' : list A) : length l = length l' -> (forall j, (j < length l)%nat -> nth_error l j = nth_error l' j) -> l = l'.
Proof.
  revert l'. induction l as [|x l IH]; intros [|y l'] Hl H; cbn in *; try discriminate; [reflexivity|]. f_equal.
  - specialize (H 0%nat ltac:(lia)). cbn in H. congruence.
  - apply IH; [lia|]. intros j Hj. apply (H (S j)). lia.
Qed.

Theorem spread_mean d (F : list R -> R) (L : nat -> R) : forall Jk rows base, NoDup (map fst Jk) -> (forall j k, In (j, k) Jk -> (j < d)%nat /\ lipschitz_in d j (L j) F) ->
  spread Jk rows -> length base = d -> in_cube base ->
  Forall (fun row => length row = d /\ in_cube row /\ forall j, ~ In j (map fst Jk) -> nth_error row j = nth_error base j) rows ->
  Rabs (Rmean (map F rows) - cube_average (map fst Jk) F base) <= spread_error L Jk.
Proof.
  induction Jk as [|[j k] Jk IH]; intros rows base ND HL S Hd Hc HF.
  - cbn [map cube_average spread_error Rsum]. unfold spread_error. cbn [map Rsum]. cbn [spread] in S. rewrite (Rmean_const (F base)).
    + rewrite Rminus_diag_eq by reflexivity. rewrite Rabs_R0. lra.
    + intro E. apply S. destruct rows; [reflexivity|discriminate].
    + apply Forall_map. eapply Forall_impl; [|exact HF]. intros row (H1 & _ & H3). f_equal. apply list_eq_nth; [congruence|]. intros j _. apply H3. intros [].
  - cbn [spread] in S. destruct S as (parts & n & Hk & Hn & Hp & Hperm & Hparts). cbn [map fst] in ND |- *. inversion ND as [|? ? Hj ND']; subst.
    assert (HLJ : forall j' k', In (j', k') Jk -> (j' < length base)%nat /\ lipschitz_in (length base) j' (L j') F) by (intros; apply (HL j' k'); right; assumption).
    destruct (HL j (length parts) (or_introl eq_refl)) as [Hjd Lj].
    set (k := length parts) in *. assert (Pk : 0 < INR k) by (apply lt_0_INR; exact Hk). assert (Pn : 0 < INR n) by (apply lt_0_INR; exact Hn).
    assert (HFp : forall i p, nth_error parts i = Some p -> Forall (fun row => length row = length base /\ in_cube row /\ forall j', ~ In j' (j :: map fst Jk) -> nth_error row j' = nth_error base j') p).
    { intros i p Hi. apply Forall_forall. intros row Hin. rewrite Forall_forall in HF. apply HF. apply (Permutation_in row (Permutation_sym Hperm)). apply in_concat. exists p. split; [eapply nth_error_In; exact Hi|exact Hin]. }
    (* the mean of all rows is the mean of the means of the parts *)
    assert (Hlens : forall i p, nth_error parts i = Some p -> length p = n) by (intros i p Hi; apply (Hparts i p Hi)).
    set (ms := map (fun p => Rmean (map F p)) parts).
    assert (Hmean : Rmean (map F rows) = Rsum ms / INR k).
    { assert (Hlen : length rows = (k * n)%nat).
      { rewrite (Permutation_length Hperm). unfold k. clear -Hlens. induction parts as [|p parts IHp]; [reflexivity|]. cbn [concat length]. rewrite app_length, IHp.
        - rewrite (Hlens 0%nat p eq_refl). lia.
        - intros i q Hi. apply (Hlens (Datatypes.S i) q Hi). }
      unfold Rmean at 1. rewrite map_length, Hlen, mult_INR.
      assert (Hs : Rsum (map F rows) = INR n * Rsum ms).
      { rewrite (Rsum_perm _ _ (Permutation_map F Hperm)). unfold ms. clear -Hlens Pn. induction parts as [|p parts IHp]; [cbn; ring|]. cbn [concat map Rsum]. rewrite map_app, Rsum_app.
        rewrite IHp by (intros i q Hi; apply (Hlens (Datatypes.S i) q Hi)). pose proof (Hlens 0%nat p eq_refl) as H1. rewrite Rmult_plus_distr_l. f_equal.
        unfold Rmean. rewrite map_length, H1. field. lra. }
      rewrite Hs. field. lra. }
    rewrite Hmean. cbn [cube_average]. rewrite Rabs_minus_sym. unfold spread_error. cbn [map fst snd Rsum]. fold (spread_error L Jk).
    apply cells_close; [exact Hk|unfold ms; rewrite map_length; reflexivity| |].
    { intros a b Ha Hb. apply (average_integrable (length base) F L); auto. intros j' [<-|Hin]; [exact Lj|]. apply in_map_iff in Hin as ([j'' k''] & E & Hin). cbn in E. subst j''. apply (HLJ j' k'' Hin). }
    intros i m Hm t Ht. unfold ms in Hm. rewrite nth_error_map in Hm. destruct (nth_error parts i) as [p|] eqn:Ep; [|discriminate]. injection Hm as <-.
    destruct (Hparts i p Ep) as (Hpl & Hps & Hpc). specialize (HFp i p Ep).
    assert (Hi : (i < k)%nat) by (apply nth_error_Some; congruence).
    assert (Ht01 : 0 <= t <= 1).
    { split; [eapply Rle_trans; [|exact (proj1 Ht)]|eapply Rle_trans; [exact (proj2 Ht)|]].
      - apply Rmult_le_pos; [apply pos_INR|left; apply Rinv_0_lt_compat; exact Pk].
      - apply (Rmult_le_reg_r (INR k)); [exact Pk|]. unfold Rdiv. rewrite Rmult_assoc, Rinv_l, Rmult_1_r, Rmult_1_l by lra. apply le_INR. lia. }
    (* move the rows of the part to coordinate t *)
    assert (S1 : Rabs (Rmean (map F (map (set_nth j t) p)) - cube_average (map fst Jk) F (set_nth j t base)) <= spread_error L Jk).
    { apply (IH (map (set_nth j t) p) (set_nth j t base)); auto.
      - apply spread_map; [|exact Hps]. intros row j' k' Hin. apply nth_error_set_nth_neq. intros ->. apply Hj. apply in_map_iff. exists (j', k'). auto.
      - rewrite set_nth_length. reflexivity.
      - apply in_cube_set; assumption.
      - apply Forall_map. eapply Forall_impl; [|exact HFp]. intros row (H1 & H2 & H3). split; [rewrite set_nth_length; exact H1|]. split; [apply in_cube_set; assumption|].
        intros j' Hj'. destruct (Nat.eq_dec j j') as [<-|Hne].
        + rewrite !nth_error_set_nth_eq by lia. reflexivity.
        + rewrite !nth_error_set_nth_neq by exact Hne. apply H3. intros [E|E]; [congruence|contradiction]. }
    assert (S2 : Rabs (Rmean (map F p) - Rmean (map F (map (set_nth j t) p))) <= L j / INR k).
    { assert (Hpn : p <> []) by (intros ->; cbn in Hpl; lia).
      replace (Rmean (map F p) - Rmean (map F (map (set_nth j t) p))) with (Rmean (map (fun row => F row - F (set_nth j t row)) p)).
      2:{ unfold Rmean. rewrite !map_length. rewrite Rsum_map_minus. rewrite map_map. unfold Rdiv. ring. }
      apply Rabs_le. apply Rmean_bounds; [intro E; apply Hpn; destruct p; [reflexivity|discriminate]|]. apply Forall_map. apply Forall_forall. intros row Hin.
      rewrite Forall_forall in HFp, Hpc. destruct (HFp row Hin) as (H1 & H2 & _). destruct (Hpc row Hin) as (x & Hx & Bx).
      apply Rabs_le_between. rewrite <- (set_nth_same j x row Hx) at 1.
      assert (Hx01 : 0 <= x <= 1) by (unfold in_cube in H2; rewrite Forall_forall in H2; apply H2; eapply nth_error_In; exact Hx).
      eapply Rle_trans; [apply Lj; auto|].
      assert (HL0 : 0 <= L j).
      { pose proof (Lj row 0 1 H1 H2 ltac:(lra) ltac:(lra)) as Q. replace (Rabs (0 - 1)) with 1 in Q by (rewrite Rabs_left; lra). pose proof (Rabs_pos (F (set_nth j 0 row) - F (set_nth j 1 row))). lra. }
      unfold Rdiv. apply Rmult_le_compat_l; [exact HL0|]. replace (/ INR k) with (INR (i + 1) / INR k - INR i / INR k) by (rewrite plus_INR; cbn; field; lra).
      apply Rabs_le. lra. }
    replace (cube_average (map fst Jk) F (set_nth j t base) - Rmean (map F p)) with
      (- ((Rmean (map F p) - Rmean (map F (map (set_nth j t) p))) + (Rmean (map F (map (set_nth j t) p)) - cube_average (map fst Jk) F (set_nth j t base)))) by ring.
    rewrite Rabs_Ropp. eapply Rle_trans; [apply Rabs_triang|]. lra.
Qed.
