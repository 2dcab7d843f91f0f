(** RoundTree.v - the splits that are chosen in binary64 are nearly the best ones (C112). *)
From Coq Require Import Reals Lra Psatz.
From Flocq Require Import Core.Core IEEE754.BinarySingleNaN.
From Verif Require Import Base Num NumLaws NumpyModel ConfigSpaceModel UtilsModel IceModel PartitionModel PartitionSpec
  ListLemmas IceProofs PartitionProofs PartitionProofs2 PartitionProofs3 PartitionProofs4 PartitionProofs5 PartitionProofs6 RealSums PartitionReal2 B64Proofs RoundSpec RoundProofs RoundLoss.
Local Open Scope R_scope.

(** ** rows on one side of a split or the other *)
Lemma ssd_nil c : ssd c [] = 0. Proof. reflexivity. Qed.
Lemma ssd_cons c x l : ssd c (x :: l) = (x - c) * (x - c) + ssd c l. Proof. reflexivity. Qed.
Lemma ssd_disjoint {A} (f g : A -> bool) c k : (forall a, f a = true -> g a = true -> False) ->
  forall (xs : list A) (v : list (list R)), length v = length xs ->
  ssd c (at_grid k (mask_select (map f xs) v)) + ssd c (at_grid k (mask_select (map g xs) v)) <= ssd c (at_grid k v).
Proof.
  intros D. induction xs as [|a xs IH]; intros [|row v] H; try discriminate.
  - cbn. unfold ssd. cbn. lra.
  - cbn [map mask_select]. specialize (IH v ltac:(cbn in H; lia)). cbn [at_grid map]. fold (at_grid k v). rewrite ssd_cons.
    pose proof (Rle_0_sqr (nth k row 0 - c)) as S. unfold Rsqr in S.
    destruct (f a) eqn:Ea, (g a) eqn:Eb; cbn [at_grid map]; rewrite ?ssd_cons; unfold at_grid in *; try lra. destruct (D a Ea Eb).
Qed.
Lemma within_disjoint {A} (f g : A -> bool) G (xs : list A) (v : list (list R)) :
  (forall a, f a = true -> g a = true -> False) -> length v = length xs ->
  within_variance G (mask_select (map f xs) v) + within_variance G (mask_select (map g xs) v) <= within_variance G v.
Proof.
  intros D H. rewrite !within_ssd, <- Rsum_map_plus. apply Rsum_map_le. intros k _.
  eapply Rle_trans; [|apply (ssd_disjoint f g (Rmean (at_grid k v)) k D xs v H)]. apply Rplus_le_compat; apply ssd_mean_least.
Qed.
Lemma mask_disjoint_len {A B} (f g : A -> bool) : (forall a, f a = true -> g a = true -> False) ->
  forall (xs : list A) (v : list B), length v = length xs ->
  (length (mask_select (map f xs) v) + length (mask_select (map g xs) v) <= length v)%nat.
Proof.
  intros D. induction xs as [|a xs IH]; intros [|row v] H; try discriminate; [cbn; lia|].
  cbn [map mask_select]. specialize (IH v ltac:(cbn in H; lia)).
  destruct (f a) eqn:Ea, (g a) eqn:Eb; cbn [length]; try lia. destruct (D a Ea Eb).
Qed.

Section Tree.
Variables (fe fl fr : b64 -> b64).
Notation BN := (B64 fe fl fr).
Notation val := (val fe fl fr).
Notation fin := (fin fe fl fr).
Notation fits := (fits fe fl fr).
Notation real_rows := (real_rows fe fl fr).

Lemma le_not_gt (x v : BN) : nle x v = true -> nlt v x = true -> False.
Proof.
  cbn. unfold Bleb, Bltb, SpecFloat.SFleb, SpecFloat.SFltb.
  change (SpecFloat.SFcompare (B2SF x) (B2SF v)) with (Bcompare x v). change (SpecFloat.SFcompare (B2SF v) (B2SF x)) with (Bcompare v x).
  rewrite (Bcompare_swap _ _ x v). destruct (Bcompare x v) as [[]|]; cbn; discriminate.
Qed.
Lemma sides_disjoint cs (h : hp BN) (v : BN) m : cond_sat cs (mkcond h v true) m = true -> cond_sat cs (mkcond h v false) m = true -> False.
Proof.
  unfold cond_sat. cbn [c_hp]. destruct (cs_idx cs (hp_name h)); [|discriminate]. unfold cond_mask. cbn [c_le c_val]. apply le_not_gt.
Qed.
Lemma fin_nltinf (x : BN) : fin x -> nltinf x = true.
Proof. unfold B64Proofs.fin. cbn. destruct (x : b64); try discriminate; reflexivity. Qed.
Lemma nlt_val (x y : BN) : fin x -> fin y -> nlt x y = false -> val y <= val x.
Proof.
  intros Fx Fy H. cbn in H. rewrite (Bltb_correct 53 1024 x y Fx Fy) in H. unfold B64Proofs.val.
  destruct (Rlt_bool_spec (B2R x) (B2R y)); [discriminate|]. lra.
Qed.

Definition nd_fits (G : nat) (M : R) (nd : dnode BN) : Prop :=
  Forall (fun row => length row = G) (r_v (n_region nd)) /\ Forall (Forall (fits M)) (r_v (n_region nd)).

Lemma node_loss (nd : dnode BN) G M (n := length (r_v (n_region nd))) : nd_fits G M nd -> bpow radix2 (-500) <= M <= bpow radix2 400 ->
  (Z.of_nat n < 2 ^ 49)%Z -> (Z.of_nat (n * G) <= 2 ^ 49)%Z ->
  fin (region_loss (n_region nd)) /\ Rabs (val (region_loss (n_region nd)) - true_loss G nd) <= INR (n * G) * INR (n + n * G + 3) * bpow radix2 (-50) * (M * M) /\
  Rabs (val (region_loss (n_region nd))) <= 9 * INR (n * G) * (M * M).
Proof.
  intros (HG & HM) BM Hn HnG. pose proof (loss_some (n_region nd) G HG) as S.
  exact (loss_rounded fe fl fr n (n * G) _ _ G M S HG HM BM ltac:(fold n; lia) HnG Hn HnG).
Qed.

Theorem split_rounded_any cs (nd l r : dnode BN) h v G M d1 d2 (x y : BN) (n := length (r_v (n_region nd))) :
  loss_within d1 d2 (r_v (n_region l)) x -> loss_within d1 d2 (r_v (n_region r)) y -> (Z.of_nat d1 < 2 ^ 49)%Z -> (Z.of_nat d2 <= 2 ^ 49)%Z ->
  wf_region (length cs) (n_region nd) -> known cs h -> split_at_value cs nd h v = Ok (l, r) ->
  nd_fits G M nd -> bpow radix2 (-500) <= M <= bpow radix2 400 -> (Z.of_nat n < 2 ^ 49)%Z -> (Z.of_nat (n * G) <= 2 ^ 49)%Z ->
  fin (nadd x y) /\ Rabs (val (nadd x y) - (true_loss G l + true_loss G r)) <= slack_within d1 d2 n G M /\
  true_loss G l + true_loss G r <= true_loss G nd.
Proof.
  intros (e1 & e2 & De1 & De2 & SL) (e3 & e4 & De3 & De4 & SR) Hd1 Hd2 W K E (HG & HM) BM Hn HnG. rewrite split_ok in E by assumption. injection E as <- <-.
  set (f := cond_sat cs (mkcond h v true)) in *. set (g := cond_sat cs (mkcond h v false)) in *.
  assert (D : forall m, f m = true -> g m = true -> False) by (intro m; apply sides_disjoint).
  assert (Fl : nd_fits G M (child cs nd (mkcond h v true))) by (split; cbn; apply Forall_mask; assumption).
  assert (Fr : nd_fits G M (child cs nd (mkcond h v false))) by (split; cbn; apply Forall_mask; assumption).
  pose proof (mask_disjoint_len f g D (r_x (n_region nd)) (r_v (n_region nd)) (wf_v _ _ W)) as L. fold n in L.
  set (L' := child cs nd (mkcond h v true)) in *. set (R' := child cs nd (mkcond h v false)) in *.
  change (mask_select (map f (r_x (n_region nd))) (r_v (n_region nd))) with (r_v (n_region L')) in L.
  change (mask_select (map g (r_x (n_region nd))) (r_v (n_region nd))) with (r_v (n_region R')) in L.
  set (a := length (r_v (n_region L'))) in *. set (b := length (r_v (n_region R'))) in *.
  destruct (loss_rounded fe fl fr e1 e2 _ _ G M SL (proj1 Fl) (proj2 Fl) BM) as (F1 & E1 & B1); [fold a; lia|fold a; nia|lia|lia|].
  destruct (loss_rounded fe fl fr e3 e4 _ _ G M SR (proj1 Fr) (proj2 Fr) BM) as (F2 & E2 & B2); [fold b; lia|fold b; nia|lia|lia|].
  fold a in E1, B1. fold b in E2, B2. fold (true_loss G L') in E1. fold (true_loss G R') in E2.
  set (Q := M * M) in *.
  assert (Q0 : 0 <= Q) by (unfold Q; apply Rle_0_sqr).
  assert (Q8 : Q <= bpow radix2 800).
  { unfold Q. replace (bpow radix2 800) with (bpow radix2 400 * bpow radix2 400) by (rewrite <- bpow_plus; reflexivity).
    pose proof (bpow_ge_0 radix2 (-500)). apply Rmult_le_compat; lra. }
  assert (AB : INR (a * G) + INR (b * G) <= INR (n * G)). { rewrite <- plus_INR. apply le_INR. nia. }
  assert (Sz : Rabs (val x + val y) <= 9 * INR (n * G) * Q).
  { eapply Rle_trans; [apply Rabs_triang|]. pose proof (pos_INR (n * G)).
    apply Rle_trans with (9 * (INR (a * G) + INR (b * G)) * Q); [lra|]. apply Rmult_le_compat_r; [exact Q0|]. lra. }
  assert (Big : Rabs (val x + val y) <= bpow radix2 853).
  { eapply Rle_trans; [exact Sz|]. pose proof (INR_pow (n * G) 49 HnG ltac:(lia)) as I. pose proof (pos_INR (n * G)).
    apply Rle_trans with (bpow radix2 4 * bpow radix2 49 * bpow radix2 800).
    - apply Rmult_le_compat; [lra|exact Q0| |exact Q8]. apply Rmult_le_compat; [lra|lra| |exact I]. cbn. lra.
    - rewrite <- !bpow_plus. apply Rle_refl. }
  destruct (add_ok fe fl fr x y 853 ltac:(lia) F1 F2 Big) as [Ft Et]. split; [exact Ft|]. split.
  - rewrite Et. pose proof (RN_plus (val x) (val y) (fmt_val fe fl fr x) (fmt_val fe fl fr y)) as P.
    set (s := RN (val x + val y)) in *.
    replace (s - (true_loss G L' + true_loss G R')) with ((s - (val x + val y)) + ((val x - true_loss G L') + (val y - true_loss G R'))) by ring.
    set (e := bpow radix2 (-50)) in *. assert (eu : uu = e / 8). { unfold uu, e. change (-53)%Z with (-50 + -3)%Z. rewrite bpow_plus. reflexivity. }
    assert (e0 : 0 < e) by apply bpow_gt_0.
    assert (P1 : Rabs (s - (val x + val y)) <= 2 * (INR (n * G) * (e * Q))).
    { eapply Rle_trans; [exact P|]. rewrite eu. pose proof (pos_INR (n * G)).
      assert (e / 8 * Rabs (val x + val y) <= e / 8 * (9 * INR (n * G) * Q)) by (apply Rmult_le_compat_l; lra).
      assert (0 <= INR (n * G) * (e * Q)) by (apply Rmult_le_pos; [lra|apply Rmult_le_pos; lra]). nra. }
    assert (eQ : 0 <= e * Q) by (apply Rmult_le_pos; lra).
    assert (S1 : Rabs (val x - true_loss G L') <= INR (a * G) * (INR (d1 + d2 + 3) * (e * Q))).
    { eapply Rle_trans; [exact E1|]. rewrite !Rmult_assoc. apply Rmult_le_compat_l; [apply pos_INR|]. apply Rmult_le_compat_r; [exact eQ|]. apply le_INR. lia. }
    assert (S2 : Rabs (val y - true_loss G R') <= INR (b * G) * (INR (d1 + d2 + 3) * (e * Q))).
    { eapply Rle_trans; [exact E2|]. rewrite !Rmult_assoc. apply Rmult_le_compat_l; [apply pos_INR|]. apply Rmult_le_compat_r; [exact eQ|]. apply le_INR. lia. }
    eapply Rle_trans; [apply Rabs_triang|]. eapply Rle_trans; [apply Rplus_le_compat; [exact P1|apply Rabs_triang]|].
    unfold slack_within. fold e Q. replace (INR (d1 + d2 + 5)) with (2 + INR (d1 + d2 + 3)) by (rewrite !plus_INR; cbn; ring).
    set (z := INR (d1 + d2 + 3) * (e * Q)) in *. assert (0 <= z) by (apply Rmult_le_pos; [apply pos_INR|exact eQ]).
    replace (INR (n * G) * (2 + INR (d1 + d2 + 3)) * e * Q) with (2 * (INR (n * G) * (e * Q)) + INR (n * G) * z) by (unfold z; ring).
    assert (INR (a * G) * z + INR (b * G) * z <= INR (n * G) * z).
    { rewrite <- Rmult_plus_distr_r. apply Rmult_le_compat_r; assumption. }
    lra.
  - unfold true_loss, RoundSpec.real_rows, L', R', child, sel_region. cbn [n_region r_v]. fold f g.
    rewrite <- !mask_select_map. apply (within_disjoint f g); [exact D|]. rewrite map_length. apply (wf_v _ _ W).
Qed.

Lemma loss_within_own (r : region BN) G d1 d2 : Forall (fun row => length row = G) (r_v r) -> (length (r_v r) <= d1)%nat -> (length (r_v r) * G <= d2)%nat ->
  loss_within d1 d2 (r_v r) (region_loss r).
Proof. intros HG H1 H2. exists (length (r_v r)), (length (r_v r) * G)%nat. refine (conj H1 (conj H2 _)). apply loss_some. exact HG. Qed.
Lemma split_rounded cs (nd l r : dnode BN) h v G M (n := length (r_v (n_region nd))) :
  wf_region (length cs) (n_region nd) -> known cs h -> split_at_value cs nd h v = Ok (l, r) ->
  nd_fits G M nd -> bpow radix2 (-500) <= M <= bpow radix2 400 -> (Z.of_nat n < 2 ^ 49)%Z -> (Z.of_nat (n * G) <= 2 ^ 49)%Z ->
  fin (split_total (l, r)) /\ Rabs (val (split_total (l, r)) - (true_loss G l + true_loss G r)) <= slack n G M /\
  true_loss G l + true_loss G r <= true_loss G nd.
Proof.
  intros W K E NF BM Hn HnG. pose proof E as E'. rewrite split_ok in E' by assumption. injection E' as El Er.
  assert (Le : forall c, (length (r_v (n_region (child cs nd c))) <= n)%nat).
  { intro c. pose proof (mask_disjoint_len (cond_sat cs c) (fun _ => false) ltac:(discriminate) (r_x (n_region nd)) (r_v (n_region nd)) (wf_v _ _ W)) as L.
    change (mask_select (map (cond_sat cs c) (r_x (n_region nd))) (r_v (n_region nd))) with (r_v (n_region (child cs nd c))) in L. fold n in L. lia. }
  assert (Lw : forall c, loss_within n (n * G) (r_v (n_region (child cs nd c))) (region_loss (n_region (child cs nd c)))).
  { intro c. apply (loss_within_own _ G); [cbn; apply Forall_mask, NF|apply Le|apply Nat.mul_le_mono_r, Le]. }
  apply (split_rounded_any cs nd l r h v G M n (n * G) (region_loss (n_region l)) (region_loss (n_region r))); try assumption; [rewrite <- El|rewrite <- Er]; apply Lw.
Qed.

(** whatever the order of the additions, a split whose computed loss is not larger is nearly as good *)
Theorem any_order_near_best cs (nd l r l' r' : dnode BN) h v h' v' G M d1 d2 (x y x' y' : BN) (n := length (r_v (n_region nd))) :
  wf_region (length cs) (n_region nd) -> known cs h -> known cs h' -> split_at_value cs nd h v = Ok (l, r) -> split_at_value cs nd h' v' = Ok (l', r') ->
  Forall (fun row => length row = G) (r_v (n_region nd)) -> Forall (Forall (fits M)) (r_v (n_region nd)) -> bpow radix2 (-500) <= M <= bpow radix2 400 ->
  (Z.of_nat n < 2 ^ 49)%Z -> (Z.of_nat (n * G) <= 2 ^ 49)%Z -> (Z.of_nat d1 < 2 ^ 49)%Z -> (Z.of_nat d2 <= 2 ^ 49)%Z ->
  loss_within d1 d2 (r_v (n_region l)) x -> loss_within d1 d2 (r_v (n_region r)) y ->
  loss_within d1 d2 (r_v (n_region l')) x' -> loss_within d1 d2 (r_v (n_region r')) y' ->
  nlt (nadd x' y') (nadd x y) = false ->
  true_loss G l + true_loss G r <= true_loss G l' + true_loss G r' + 2 * slack_within d1 d2 n G M.
Proof.
  intros W K K' E E' HG HM BM Hn HnG H1 H2 Lx Ly Lx' Ly' C.
  destruct (split_rounded_any cs nd l r h v G M d1 d2 x y Lx Ly H1 H2 W K E (conj HG HM) BM Hn HnG) as (F1 & B1 & _).
  destruct (split_rounded_any cs nd l' r' h' v' G M d1 d2 x' y' Lx' Ly' H1 H2 W K' E' (conj HG HM) BM Hn HnG) as (F2 & B2 & _).
  pose proof (nlt_val _ _ F2 F1 C) as V. fold n in B1, B2. apply Rabs_le_inv in B1. apply Rabs_le_inv in B2. lra.
Qed.

(** a split that is offered comes from split_at_value *)
Lemma offered_split s (nd l r : dnode BN) : setup_ok s -> wf_region (length (su_cs s)) (n_region nd) -> offered s nd l r ->
  exists h v, known (su_cs s) h /\ split_at_value (su_cs s) nd h v = Ok (l, r).
Proof.
  intros (ND & _) W (h & v & (Hh & _) & _ & Sl & Sr & _). exists h, v. split.
  - destruct (cs_idx_in (su_cs s) h Hh) as (i & Hi). exists i. exact Hi.
  - apply split_is_sides; auto.
Qed.

(** ** every region of a tree has variances that fit *)
Lemma square_fits S (x : BN) : bpow radix2 (-250) <= S <= bpow radix2 199 -> fits S x -> fits (2 * (S * S)) (nmul x x).
Proof.
  intros [S1 S2] [Fx Bx]. pose proof (bpow_ge_0 radix2 (-250)) as P0.
  assert (SS1 : bpow radix2 (-500) <= S * S). { replace (bpow radix2 (-500)) with (bpow radix2 (-250) * bpow radix2 (-250)) by (rewrite <- bpow_plus; reflexivity). apply Rmult_le_compat; lra. }
  assert (SS2 : S * S <= bpow radix2 398). { replace (bpow radix2 398) with (bpow radix2 199 * bpow radix2 199) by (rewrite <- bpow_plus; reflexivity). apply Rmult_le_compat; lra. }
  assert (BB : Rabs (val x * val x) <= S * S). { rewrite Rabs_mult. pose proof (Rabs_pos (val x)). apply Rmult_le_compat; lra. }
  destruct (mul_ok fe fl fr x x 398 ltac:(lia) Fx Fx ltac:(lra)) as [F E]. split; [exact F|]. rewrite E.
  pose proof (RN_any (val x * val x)) as A. destruct (tiny_bounds (S * S) SS1) as [T _]. pose proof uu_small. pose proof uu_pos.
  assert (uu * Rabs (val x * val x) <= / 1024 * (S * S)). { apply Rmult_le_compat; [lra|apply Rabs_pos|lra|exact BB]. }
  assert (uu * (S * S) / 8 <= / 8 * (S * S)). { assert (0 <= S * S) by (pose proof (bpow_ge_0 radix2 (-500)); lra). nra. }
  replace (RN (val x * val x)) with ((RN (val x * val x) - val x * val x) + val x * val x) by ring.
  eapply Rle_trans; [apply Rabs_triang|]. pose proof (bpow_ge_0 radix2 (-500)). lra.
Qed.
Lemma data_fits (s : setup BN) sel dd S : setup_ok s -> deviations_fit S s -> bpow radix2 (-250) <= S <= bpow radix2 199 ->
  ice_calculate (alg_of s sel) false (su_predict s) = Ok dd -> Forall (Forall (fits (2 * (S * S)))) (i_v dd).
Proof.
  intros (_ & RC & _) DF BS E. apply ice_calculate_ok in E. destruct E as (means & stds & _ & Hp & y & t & _ & Ht & Hv & _).
  specialize (DF _ _ _ Hp). apply reshape2_ok in Ht. destruct Ht as (_ & _ & _ & _ & Ec). rewrite Hv.
  rewrite <- Ec in DF.
  rewrite Forall_map. apply Forall_forall. intros row Hr. rewrite Forall_map. apply Forall_forall. intros x Hx. apply square_fits; [exact BS|].
  rewrite Forall_forall in DF. apply DF. apply in_concat. exists row. auto.
Qed.
Lemma cell_fits (s : setup BN) p root dd sel ns nd S : setup_ok s -> reach_facts s p root dd sel ns -> derived p root nd ->
  deviations_fit S s -> bpow radix2 (-250) <= S <= bpow radix2 199 ->
  wf_region (length (su_cs s)) (n_region nd) /\ nd_fits (width (r_v (n_region nd))) (2 * (S * S)) nd.
Proof.
  intros SO F De DF BS.
  assert (W : wf_region (length (su_cs s)) (n_region nd)).
  { rewrite <- (rf_cs _ _ _ _ _ _ F). apply (derived_wf p root); [apply (inv_wf _ _ (rf_inv _ _ _ _ _ _ F))|exact De]. }
  split; [exact W|]. split.
  - destruct (wf_G _ _ W) as (G & _ & _ & _ & HG). destruct (r_v (n_region nd)) as [|row rest]; [constructor|].
    inversion HG; subst. cbn [width]. exact HG.
  - pose proof (data_fits s sel dd S SO DF BS (rf_ice _ _ _ _ _ _ F)) as D.
    destruct (derived_is_leaf_of_conditions s p root dd sel ns nd SO F De) as (_ & idxs & _ & (_ & _ & IR) & _).
    rewrite (rf_root _ _ _ _ _ _ F) in IR. cbn in IR. apply Forall_forall. intros v Hv. rewrite Forall_forall in D. apply D.
    clear - IR Hv. induction IR as [|i m li lm H F IH]; [destruct Hv|].
    destruct Hv as [->|Hv]; [eapply nth_error_In; exact H|exact (IH Hv)].
Qed.
Lemma room S : bpow radix2 (-250) <= S <= bpow radix2 199 -> bpow radix2 (-500) <= 2 * (S * S) <= bpow radix2 400.
Proof.
  intros [S1 S2]. pose proof (bpow_ge_0 radix2 (-250)) as P0.
  assert (bpow radix2 (-500) <= S * S). { replace (bpow radix2 (-500)) with (bpow radix2 (-250) * bpow radix2 (-250)) by (rewrite <- bpow_plus; reflexivity). apply Rmult_le_compat; lra. }
  assert (S * S <= bpow radix2 398). { replace (bpow radix2 398) with (bpow radix2 199 * bpow radix2 199) by (rewrite <- bpow_plus; reflexivity). apply Rmult_le_compat; lra. }
  replace (bpow radix2 400) with (bpow radix2 2 * bpow radix2 398) by (rewrite <- bpow_plus; reflexivity).
  change (bpow radix2 2) with 4. pose proof (bpow_ge_0 radix2 (-500)). lra.
Qed.
Lemma wide (nd : dnode BN) nf : wf_region nf (n_region nd) -> let n := region_len (n_region nd) in let G := width (r_v (n_region nd)) in
  (Z.of_nat (n * G) < 2 ^ 49)%Z -> (Z.of_nat (length (r_v (n_region nd))) < 2 ^ 49)%Z /\ (Z.of_nat (length (r_v (n_region nd)) * G) <= 2 ^ 49)%Z.
Proof.
  intros W n G H. assert (E : length (r_v (n_region nd)) = n) by apply (wf_v _ _ W). rewrite E. split; [|lia].
  destruct (Nat.eq_dec n 0) as [En|En]; [lia|]. assert (P0 : (0 < G)%nat).
  { destruct (wf_G _ _ W) as (G' & P & _ & _ & HG). clear - En E HG P. clearbody n. unfold G. revert E HG.
    destruct (r_v (n_region nd)) as [|row rest]; intros E HG; [cbn in E; congruence|]. inversion HG; subst. cbn [width]. lia. }
  nia.
Qed.

(** what rounding does to any split of a region that is offered *)
Theorem offered_rounded (s : setup BN) p S id nd l r : setup_ok s -> reaches s p -> deviations_fit S s -> bpow radix2 (-250) <= S <= bpow radix2 199 ->
  deref p id = Some nd -> let n := region_len (n_region nd) in let G := width (r_v (n_region nd)) in (Z.of_nat (n * G) < 2 ^ 49)%Z ->
  offered s nd l r ->
  fin (split_total (l, r)) /\ Rabs (val (split_total (l, r)) - (true_loss G l + true_loss G r)) <= slack n G (2 * (S * S)) /\
  true_loss G l + true_loss G r <= true_loss G nd /\ val (split_total (l, r)) <= val (region_loss (n_region nd)) + 2 * slack n G (2 * (S * S)).
Proof.
  intros SO RE DF BS D n G Hn O. destruct (reaches_facts (B64_order_laws fe fl fr) s p SO RE) as (root & dd & sel & ns & F).
  destruct (cell_fits s p root dd sel ns nd S SO F (deref_derived s p root dd sel ns id nd F D) DF BS) as [W NF]. fold G in NF.
  destruct (wide nd _ W Hn) as [H1 H2]. fold G in H2. destruct (offered_split s nd l r SO W O) as (h & v & K & E).
  destruct (split_rounded (su_cs s) nd l r h v G (2 * (S * S)) W K E NF (room S BS) H1 H2) as (A & B & C).
  destruct (node_loss nd G (2 * (S * S)) NF (room S BS) H1 H2) as (_ & L & _).
  assert (En : length (r_v (n_region nd)) = n) by apply (wf_v _ _ W). rewrite En in B, L.
  refine (conj A (conj B (conj C _))).
  assert (L2 : Rabs (val (region_loss (n_region nd)) - true_loss G nd) <= slack n G (2 * (S * S))).
  { eapply Rle_trans; [exact L|]. unfold slack. generalize (2 * (S * S)). intro Q. rewrite !Rmult_assoc. apply Rmult_le_compat_l; [apply pos_INR|].
    apply Rmult_le_compat_r; [|apply le_INR; lia]. apply Rmult_le_pos; [apply bpow_ge_0|]. apply Rle_0_sqr. }
  apply Rabs_le_inv in B. apply Rabs_le_inv in L2. lra.
Qed.

(** the split that is made is as good as every other one, up to rounding *)
Theorem split_near_best (s : setup BN) p S : setup_ok s -> reaches s p -> deviations_fit S s -> bpow radix2 (-250) <= S <= bpow radix2 199 ->
  forall id c a b l r, nth_error (d_heap p) id = Some c -> n_left c = Some a -> n_right c = Some b -> deref p a = Some l -> deref p b = Some r ->
  let n := region_len (n_region (n_node c)) in let G := width (r_v (n_region (n_node c))) in (Z.of_nat (n * G) < 2 ^ 49)%Z ->
  offered s (n_node c) l r /\
  forall l' r', offered s (n_node c) l' r' -> true_loss G l + true_loss G r <= true_loss G l' + true_loss G r' + 2 * slack n G (2 * (S * S)).
Proof.
  intros SO RE DF BS id c a b l r Hc Ha Hb Dl Dr n G Hn.
  destruct (tree_splits_optimal (B64_order_laws fe fl fr) s p SO RE id c Hc) as [[X _]|(a' & b' & l0 & r0 & Ea & Eb & D1 & D2 & O & I & Opt)]; [congruence|].
  assert (a' = a) by congruence. assert (b' = b) by congruence. subst a' b'. assert (l0 = l) by congruence. assert (r0 = r) by congruence. subst l0 r0.
  split; [exact O|]. intros l' r' O'. specialize (Opt _ _ O').
  assert (D : deref p id = Some (n_node c)) by (unfold deref; rewrite Hc; reflexivity).
  destruct (offered_rounded s p S id (n_node c) l r SO RE DF BS D Hn O) as (F1 & B1 & _).
  destruct (offered_rounded s p S id (n_node c) l' r' SO RE DF BS D Hn O') as (F2 & B2 & _).
  pose proof (nlt_val _ _ F2 F1 Opt) as V. fold n in B1, B2. fold G in B1, B2. apply Rabs_le_inv in B1. apply Rabs_le_inv in B2. lra.
Qed.
(** a split that is better than all others by more than rounding can hide is the one that is made *)
Theorem clear_best_chosen (s : setup BN) p S : setup_ok s -> reaches s p -> deviations_fit S s -> bpow radix2 (-250) <= S <= bpow radix2 199 ->
  forall id c a b l r, nth_error (d_heap p) id = Some c -> n_left c = Some a -> n_right c = Some b -> deref p a = Some l -> deref p b = Some r ->
  let n := region_len (n_region (n_node c)) in let G := width (r_v (n_region (n_node c))) in (Z.of_nat (n * G) < 2 ^ 49)%Z ->
  forall l' r', offered s (n_node c) l' r' ->
    (forall l2 r2, offered s (n_node c) l2 r2 -> (l2, r2) = (l', r') \/ true_loss G l' + true_loss G r' + 2 * slack n G (2 * (S * S)) < true_loss G l2 + true_loss G r2) ->
    (l, r) = (l', r').
Proof.
  intros SO RE DF BS id c a b l r Hc Ha Hb Dl Dr n G Hn l' r' O' B.
  destruct (split_near_best s p S SO RE DF BS id c a b l r Hc Ha Hb Dl Dr Hn) as [O Opt]. destruct (B l r O) as [E|E]; [exact E|].
  specialize (Opt l' r' O'). fold n in Opt. fold G in Opt. lra.
Qed.
(** no region is left whole because its loss is too large to count *)
Theorem stop_reason_finite (s : setup BN) p S d : setup_ok s -> reaches s p -> deviations_fit S s -> bpow radix2 (-250) <= S <= bpow radix2 199 -> (0 < d)%nat ->
  exists p' ids leaves, partition p d = (p', Ok ids) /\
    Forall2 (fun id nd => deref p' id = Some nd) ids leaves /\
    Forall (fun nd => (Z.of_nat (region_len (n_region nd) * width (r_v (n_region nd))) < 2 ^ 49)%Z ->
      n_depth nd = d \/ (region_len (n_region nd) <= 1)%nat \/ forall l r, ~ offered s nd l r) leaves.
Proof.
  intros SO RE DF BS Hd. destruct (leaf_stop_reason_offered (B64_order_laws fe fl fr) s p d SO RE Hd) as (p' & ids & leaves & E & F2 & Fl).
  exists p', ids, leaves. refine (conj E (conj F2 _)).
  assert (RE' : reaches s p').
  { pose proof (reaches_partition s p d RE) as X. rewrite E in X. exact X. }
  apply Forall_forall. intros nd Hin Hs. rewrite Forall_forall in Fl. destruct (Fl nd Hin) as [X|[X|X]]; auto.
  right; right. intros l r O. specialize (X l r O).
  assert (Q : exists id, deref p' id = Some nd).
  { clear - F2 Hin. induction F2 as [|i x ids leaves Hi _ IH]; [destruct Hin|]. destruct Hin as [->|Hin]; eauto. }
  destruct Q as (id & D). destruct (offered_rounded s p' S id nd l r SO RE' DF BS D Hs O) as (F & _). rewrite (fin_nltinf _ F) in X. discriminate.
Qed.
End Tree.
