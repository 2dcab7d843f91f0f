(** FinerProofs.v - more choice never makes the best split of a region worse (C106). *)
From Coq Require Import Reals Lra.
From Verif Require Import Base Num NumLaws NumpyModel ConfigSpaceModel UtilsModel IceModel PartitionModel PartitionSpec
  ListLemmas IceProofs IceProofs2 PartitionProofs PartitionProofs2 PartitionProofs3 PartitionProofs4 PartitionProofs5 PartitionProofs6
  RealProofs RealSums PartitionReal PartitionReal2 GainReal FinerSpec.
Local Open Scope nat_scope.
Local Open Scope list_scope.

Section P.
Context {N : Num}.
Variable L : order_laws N.

Theorem best_with_more_choice (cs : cspace N) hps hps' ns ns' mp mp' (nd l r : dnode N) :
  wf_region (length cs) (n_region nd) -> incl hps hps' -> incl hps' cs -> mp' <= mp ->
  incl (possible_split_vals (N:=N) ns) (possible_split_vals (N:=N) ns') -> 1 < region_len (n_region nd) ->
  calc_best_split cs hps ns mp nd = Ok (Some (l, r)) ->
  exists l' r', calc_best_split cs hps' ns' mp' nd = Ok (Some (l', r')) /\ nlt (split_total (l, r)) (split_total (l', r')) = false.
Proof.
  intros W I1 I2 M IV Hl E.
  destruct (best_split_optimal L cs hps ns mp nd W (incl_tran I1 I2) Hl) as [[E' _]|(a & b & l0 & r0 & E' & Ad & Hi & _)]; [congruence|].
  rewrite E in E'. injection E' as <- <-.
  assert (Ad' : exists a' b', admissible cs hps' ns' mp' nd a' b' l r).
  { destruct Ad as (h & v & Ha & Hb & Es & M1 & M2). apply nth_error_In, I1, In_nth_error in Ha. apply nth_error_In, IV, In_nth_error in Hb.
    destruct Ha as (a' & Ha), Hb as (b' & Hb). exists a', b', h, v. repeat split; auto; lia. }
  destruct Ad' as (a' & b' & Ad').
  destruct (best_split_optimal L cs hps' ns' mp' nd W I2 Hl) as [[_ No]|(x & y & l' & r' & E2 & _ & _ & Opt)].
  - rewrite (No _ _ _ _ Ad') in Hi. discriminate.
  - exists l', r'. split; [exact E2|]. exact (proj1 (Opt _ _ _ _ Ad')).
Qed.
End P.

Theorem split_values_divide n n' : Nat.divide (S n) (S n') -> incl (possible_split_vals (N:=RNum) n) (possible_split_vals (N:=RNum) n').
Proof.
  intros (k & E) v Hv. rewrite split_vals_R in *. apply in_map_iff in Hv. destruct Hv as (i & <- & Hi). apply in_seq in Hi.
  assert (Kp : 0 < k) by nia.
  apply in_map_iff. exists (k * i). split.
  - assert (E' : n' + 1 = k * (n + 1)) by lia. rewrite E', !mult_INR. field.
    split; apply not_0_INR; lia.
  - apply in_seq. nia.
Qed.

Lemma possible_iff (s : setup RNum) p root dd sel ns h : reach_facts s p root dd sel ns -> (splittable s h <-> In h (d_possible p)).
Proof.
  intro F. rewrite (rf_poss _ _ _ _ _ _ F), split_parameters_spec. pose proof (rf_sel _ _ _ _ _ _ F) as E1. pose proof (rf_nots _ _ _ _ _ _ F) as E2. split.
  - intros (H1 & H2 & H3). refine (conj H1 (conj (H2 _ E1) _)). destruct (su_nots s) as [q|]; [apply (H3 q ns eq_refl E2)|]. inversion E2; subst. intros [].
  - intros (H1 & H2 & H3). refine (conj H1 (conj _ _)).
    + intros sel' E. rewrite E1 in E. inversion E; subst; exact H2.
    + intros q nots Eq E. rewrite Eq, E in E2. inversion E2; subst; exact H3.
Qed.

Lemma sum_two (x y a b : R) : nlt (n:=RNum) (x + y)%R (a + b)%R = false -> (Rsum [b; a] <= Rsum [y; x])%R.
Proof. cbn. unfold Rltb. destruct (Rlt_dec (x + y) (a + b)); intro; [discriminate|lra]. Qed.

Lemma sum_one (x y : R) : (x <= y)%R -> (x <= Rsum [y])%R.
Proof. cbn. lra. Qed.

Lemma one_level (s : setup RNum) p root dd sel ns : setup_ok s -> reach_facts s p root dd sel ns ->
  exists p' ids leaves, partition p 1 = (p', Ok ids) /\ Forall2 (fun id nd => deref p' id = Some nd) ids leaves /\
    ((leaves = [root] /\ forall l r, region_len (n_region root) <= 1 \/ calc_best_split (su_cs s) (d_possible p) (su_splits s) (su_minpts s) root <> Ok (Some (l, r))) \/
     exists l r, leaves = [r; l] /\ 1 < region_len (n_region root) /\ calc_best_split (su_cs s) (d_possible p) (su_splits s) (su_minpts s) root = Ok (Some (l, r))).
Proof.
  intros SO F. destruct (partition_facts R_order_laws s p root dd sel ns 1 F ltac:(lia)) as (p' & ids & t & U).
  exists p', ids, (tleaves t). refine (conj (ru_eq _ _ _ _ _ _ _ U) (conj (ru_leaves _ _ _ _ _ _ _ U) _)).
  pose proof (ru_build _ _ _ _ _ _ _ U) as B. cbn [build] in B. destruct (is_splittable root) eqn:IS.
  - rewrite (rf_cs _ _ _ _ _ _ F), (rf_ns _ _ _ _ _ _ F), (rf_mp _ _ _ _ _ _ F) in B.
    destruct (calc_best_split (su_cs s) (d_possible p) (su_splits s) (su_minpts s) root) as [[[l r]|]|e]; cbn [bind] in B; [| |discriminate].
    + injection B as <-. right. exists l, r. refine (conj eq_refl (conj _ eq_refl)). apply Nat.ltb_lt. exact IS.
    + injection B as <-. left. split; [reflexivity|]. intros l r. right. discriminate.
  - injection B as <-. left. split; [reflexivity|]. intros l r. left. apply Nat.ltb_ge. exact IS.
Qed.

Theorem more_choice_no_worse (s s' : setup RNum) p q : setup_ok s -> more_choice s s' -> reaches s p -> reaches s' q ->
  exists p' ids leaves q' ids' leaves',
    partition p 1 = (p', Ok ids) /\ Forall2 (fun id nd => deref p' id = Some nd) ids leaves /\
    partition q 1 = (q', Ok ids') /\ Forall2 (fun id nd => deref q' id = Some nd) ids' leaves' /\
    (Rsum (map (fun nd : dnode RNum => region_loss (n_region nd)) leaves') <= Rsum (map (fun nd : dnode RNum => region_loss (n_region nd)) leaves))%R.
Proof.
  intros SO (C1 & C2 & C3 & C4 & C5 & Mp & IV & Sp) RE RE'.
  assert (SO' : setup_ok s'). { destruct SO as (A & B & C). unfold setup_ok. rewrite C1, C4, C5. auto. }
  destruct (reaches_facts R_order_laws s p SO RE) as (root & dd & sel & ns & F).
  destruct (reaches_facts R_order_laws s' q SO' RE') as (root' & dd' & sel' & ns' & F').
  assert (ER : root' = root).
  { pose proof (rf_sel _ _ _ _ _ _ F') as Es. rewrite C1, C3, (rf_sel _ _ _ _ _ _ F) in Es. injection Es as <-.
    pose proof (rf_ice _ _ _ _ _ _ F') as Ei. unfold alg_of in Ei. rewrite C1, C2, C4, C5 in Ei.
    pose proof (rf_ice _ _ _ _ _ _ F) as Ei0. unfold alg_of in Ei0. rewrite Ei0 in Ei. injection Ei as <-.
    rewrite (rf_root _ _ _ _ _ _ F), (rf_root _ _ _ _ _ _ F'). reflexivity. }
  subst root'.
  destruct (one_level s p root dd sel ns SO F) as (p' & ids & leaves & E & F2 & K).
  destruct (one_level s' q root dd' sel' ns' SO' F') as (q' & ids' & leaves' & E' & F2' & K').
  exists p', ids, leaves, q', ids', leaves'. refine (conj E (conj F2 (conj E' (conj F2' _)))).
  assert (W : wf_region (length (su_cs s)) (n_region root)).
  { rewrite <- (rf_cs _ _ _ _ _ _ F). apply (inv_wf _ _ (rf_inv _ _ _ _ _ _ F)). }
  destruct K as [(-> & No)|(l & r & -> & Hl & Eb)].
  - destruct (leaves_loss_at_most_root s' q 1 SO' RE' ltac:(lia)) as (q2 & ids2 & lv2 & root2 & Eq & Fq & Dq & Le).
    rewrite E' in Eq. injection Eq as <- <-.
    assert (lv2 = leaves') as ->. { clear - Fq F2'. revert leaves' F2'. induction Fq as [|i x li lx H Fq IH]; intros lv F2; inversion F2; subst; [reflexivity|]. f_equal; [congruence|auto]. }
    assert (root2 = root) as ->.
    { assert (Rq : reaches s' q') by (pose proof (reaches_partition s' q 1 RE') as Z; rewrite E' in Z; exact Z).
      destruct (root_is_ice R_order_laws s' q' SO' Rq) as (se & de & A1 & A2 & A3). rewrite (rf_sel _ _ _ _ _ _ F') in A1. injection A1 as <-.
      pose proof (rf_ice _ _ _ _ _ _ F') as Ei. unfold alg_of in Ei. rewrite A2 in Ei. injection Ei as <-.
      rewrite (rf_root _ _ _ _ _ _ F'). congruence. }
    cbn [map]. exact (sum_one _ _ Le).
  - destruct (best_with_more_choice R_order_laws (su_cs s) (d_possible p) (d_possible q) (su_splits s) (su_splits s') (su_minpts s) (su_minpts s') root l r W) as (l' & r' & Eb' & Le); auto.
    + intros h Hh. apply (possible_iff s' q root dd' sel' ns' h F'). apply Sp. apply (possible_iff s p root dd sel ns h F). exact Hh.
    + intros h Hh. apply (possible_iff s' q root dd' sel' ns' h F') in Hh. rewrite <- C1. apply Hh.
    + destruct K' as [(_ & No)|(l2 & r2 & -> & _ & Eb2)].
      * exfalso. destruct (No l' r') as [No'|No']; [lia|]. apply No'. rewrite C1. exact Eb'.
      * rewrite C1, Eb' in Eb2. injection Eb2 as <- <-. cbn [map]. apply sum_two. exact Le.
Qed.
