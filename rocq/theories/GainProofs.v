(** GainProofs.v - ties between splits, regions without variance, steps of the uncertainty. *)
From Coq Require Import Reals Lra Sorted.
From Verif Require Import Base Num NumLaws NumpyModel ConfigSpaceModel UtilsModel IceModel PartitionModel PartitionSpec
  ListLemmas IceProofs IceProofs2 PartitionProofs PartitionProofs2 PartitionProofs3 PartitionProofs4 PartitionProofs5 PartitionProofs6
  RealProofs RealSums PartitionReal PartitionReal2 IceShapeSpec IceShapeProofs GainSpec.
Local Open Scope nat_scope.
Local Open Scope list_scope.

Section F.
Context {A : Type} (f : A -> bool).
Lemma filter_pos l j x : nth_error l j = Some x -> f x = true -> nth_error (filter f l) (length (filter f (firstn j l))) = Some x.
Proof.
  revert j; induction l as [|y l IH]; intros [|j] H F; try discriminate.
  - cbn in H. inversion H; subst. cbn. rewrite F. reflexivity.
  - cbn in H. cbn. destruct (f y); cbn; apply IH; assumption.
Qed.
Lemma filter_pos_inv l a x : nth_error (filter f l) a = Some x ->
  exists j, nth_error l j = Some x /\ f x = true /\ a = length (filter f (firstn j l)).
Proof.
  revert a; induction l as [|y l IH]; intros a H; [destruct a; discriminate|]. cbn in H. destruct (f y) eqn:E.
  - destruct a as [|a]; cbn in H.
    + inversion H; subst. exists 0. auto.
    + destruct (IH a H) as (j & H1 & H2 & ->). exists (S j). cbn. rewrite E. auto.
  - destruct (IH a H) as (j & H1 & H2 & ->). exists (S j). cbn. rewrite E. auto.
Qed.
Lemma filter_pos_lt l j j' x : j' < j -> nth_error l j' = Some x -> f x = true ->
  length (filter f (firstn j' l)) < length (filter f (firstn j l)).
Proof.
  revert j j'; induction l as [|y l IH]; intros [|j] [|j'] Hj H F; try discriminate; try lia.
  - cbn in H. inversion H; subst. cbn. rewrite F. cbn. lia.
  - cbn in H. cbn. specialize (IH j j' ltac:(lia) H F). destruct (f y); cbn; lia.
Qed.
End F.

Section P.
Context {N : Num}.
Variable L : order_laws N.
Implicit Types (p : dtp N) (nd : dnode N) (s : setup N).

Lemma offered_at_admissible s p root dd sel ns nd j b l r :
  setup_ok s -> reach_facts s p root dd sel ns -> wf_region (length (su_cs s)) (n_region nd) ->
  (offered_at s nd j b l r <-> exists h a, nth_error (su_cs s) j = Some h /\ nth_error (d_possible p) a = Some h /\
     a = length (filter (fun h => negb (mem_string (hp_name h) (map hp_name sel ++ map hp_name ns))) (firstn j (su_cs s))) /\
     admissible (su_cs s) (d_possible p) (su_splits s) (su_minpts s) nd a b l r).
Proof.
  intros (ND & _) F W. pose proof (rf_poss _ _ _ _ _ _ F) as EP.
  assert (SP : forall h, splittable s h <-> In h (d_possible p)).
  { intro h. rewrite EP, split_parameters_spec. pose proof (rf_sel _ _ _ _ _ _ F) as E1. pose proof (rf_nots _ _ _ _ _ _ F) as E2. split.
    - intros (H1 & H2 & H3). refine (conj H1 (conj (H2 _ E1) _)). destruct (su_nots s) as [q|]; [apply (H3 q ns eq_refl E2)|]. inversion E2; subst. intros [].
    - intros (H1 & H2 & H3). refine (conj H1 (conj _ _)).
      + intros sel' E. rewrite E1 in E. inversion E; subst; exact H2.
      + intros q nots Eq E. rewrite Eq, E in E2. inversion E2; subst; exact H3. }
  assert (HC : forall h, In h (d_possible p) -> In h (su_cs s)) by (intros h Hh; apply SP in Hh; apply Hh).
  split.
  - intros (h & v & Hj & Hs & Hb & Sl & Sr & M1 & M2).
    assert (Hf : negb (mem_string (hp_name h) (map hp_name sel ++ map hp_name ns)) = true).
    { apply SP in Hs. rewrite EP in Hs. unfold split_parameters in Hs. apply filter_In in Hs. tauto. }
    pose proof (filter_pos (fun h : hp N => negb (mem_string (hp_name h) (map hp_name sel ++ map hp_name ns))) _ _ _ Hj Hf) as Ha. exists h. eexists. split; [exact Hj|]. rewrite EP. split; [exact Ha|]. split; [reflexivity|].
    exists h, v. refine (conj Ha (conj Hb (conj _ (conj M1 M2)))). apply split_is_sides; auto. eapply nth_error_In; exact Hj.
  - intros (h & a & Hj & Ha & Ea & (h' & v & Ha' & Hb & E & M1 & M2)). rewrite Ha in Ha'. inversion Ha'; subst h'.
    pose proof (nth_error_In _ _ Ha) as Hin. apply split_is_sides in E; auto. destruct E as [E1 E2].
    exists h, v. refine (conj Hj (conj (proj2 (SP h) Hin) (conj Hb (conj E1 (conj E2 (conj M1 M2)))))).
Qed.

Theorem tree_splits_first s p : setup_ok s -> reaches s p ->
  forall id c, nth_error (d_heap p) id = Some c ->
    (n_left c = None /\ n_right c = None) \/
    exists a b l r j k, n_left c = Some a /\ n_right c = Some b /\ deref p a = Some l /\ deref p b = Some r /\
      offered_at s (n_node c) j k l r /\
      forall j' k' l' r', offered_at s (n_node c) j' k' l' r' ->
        nlt (split_total (l', r')) (split_total (l, r)) = false /\
        (tried_before j' k' j k -> nltinf (split_total (l', r')) = true -> nlt (split_total (l, r)) (split_total (l', r')) = true).
Proof.
  intros SO R. pose proof R as R0. destruct (reaches_facts L s p SO R) as (root & dd & sel & ns & F).
  assert (LB : links_best p (d_heap p)).
  { destruct R0 as (p0 & ds & Hc & ->). destruct (construct_spec s p0 SO Hc) as (sel' & ns' & d' & root' & _ & _ & _ & _ & E0 & I0 & _).
    assert (X : links_best p0 (d_heap (run_history p0 ds))).
    { eapply (links_best_history L); [exact I0|]. rewrite E0. cbn [d_heap]. intros [|[|id]] c Hid; cbn in Hid; try discriminate.
      inversion Hid; subst c. cbn. split; [tauto|discriminate]. }
    destruct (history_inv L p0 _ ds I0) as [_ (A & B & C & D & E)]. unfold links_best in *. rewrite <- A, <- C, <- D, <- E. exact X. }
  intros id c Hc. destruct (LB id c Hc) as [Q1 Q2].
  destruct (n_left c) as [a|] eqn:Ea; [|left; tauto]. destruct (n_right c) as [b|] eqn:Eb; [|exfalso; destruct Q1 as [_ Q1]; discriminate (Q1 eq_refl)].
  right. destruct (Q2 a b eq_refl eq_refl) as (ca & cb & Ha & Hb & Hs & E). exists a, b, (n_node ca), (n_node cb).
  assert (W : wf_region (length (su_cs s)) (n_region (n_node c))).
  { rewrite <- (rf_cs _ _ _ _ _ _ F). apply (derived_wf p root); [apply (inv_wf _ _ (rf_inv _ _ _ _ _ _ F))|]. exact (rf_derived _ _ _ _ _ _ F id c Hc). }
  assert (HI : incl (d_possible p) (su_cs s)).
  { intros h Hh. rewrite (rf_poss _ _ _ _ _ _ F), split_parameters_spec in Hh. tauto. }
  rewrite (rf_cs _ _ _ _ _ _ F), (rf_ns _ _ _ _ _ _ F), (rf_mp _ _ _ _ _ _ F) in E.
  destruct (best_split_optimal L (su_cs s) (d_possible p) (su_splits s) (su_minpts s) (n_node c) W HI) as [[E' _]|(a' & b' & l & r & E' & Ad & Hi & Opt)].
  { apply Nat.ltb_lt. exact Hs. } { congruence. }
  rewrite E' in E. inversion E; subst l r.
  set (ff := fun h : hp N => negb (mem_string (hp_name h) (map hp_name sel ++ map hp_name ns))).
  destruct Ad as (h & v & Hp & Hv & Ead). pose proof Hp as Hp'. rewrite (rf_poss _ _ _ _ _ _ F) in Hp'. unfold split_parameters in Hp'.
  destruct (filter_pos_inv ff _ _ _ Hp') as (j & Hj & Hff & Eaj).
  exists j, b'. refine (conj eq_refl (conj eq_refl (conj _ (conj _ (conj _ _))))).
  - unfold deref. rewrite Ha. reflexivity.
  - unfold deref. rewrite Hb. reflexivity.
  - apply (offered_at_admissible s p root dd sel ns); auto. exists h, a'. refine (conj Hj (conj Hp (conj Eaj _))). exists h, v. auto.
  - intros j' k' l' r' Ho. apply (offered_at_admissible s p root dd sel ns) in Ho; auto.
    destruct Ho as (h' & x & Hj' & Hx & Ex & Ho). destruct (Opt _ _ _ _ Ho) as (O1 & O2). split; [exact O1|].
    intros Hb4 Hinf. apply O2; [|exact Hinf]. fold ff in Ex. destruct Hb4 as [Hlt|[-> Hlt]].
    + left. rewrite Ex, Eaj. eapply filter_pos_lt; eauto.
      rewrite (rf_poss _ _ _ _ _ _ F) in Hx. unfold split_parameters in Hx. apply nth_error_In, filter_In in Hx. apply Hx.
    + right. split; [congruence|exact Hlt].
Qed.
End P.
