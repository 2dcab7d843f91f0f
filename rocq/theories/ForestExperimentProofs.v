(** ForestExperimentProofs.v - the size of a forest's incumbent region, and the rows of the forest experiment (C118). *)
From Coq Require Import Reals Lra Sorted Permutation.
From Verif Require Import Base Num NumLaws NumpyModel ConfigSpaceModel UtilsModel IceModel PartitionModel PartitionSpec ListLemmas IceProofs IceProofs2 UtilsProofs
  RealProofs RealSums PartitionProofs PartitionProofs2 PartitionProofs3 PartitionProofs4 PartitionProofs6 PartitionReal ForestModel ForestSpec ForestProofs ForestProofs2
  ForestExperimentModel ForestExperimentSpec.
Local Open Scope nat_scope.
Local Open Scope list_scope.

(** ** counting twice *)
Definition ind (i : nat) (l : list nat) : nat := if existsb (Nat.eqb i) l then 1 else 0.
Lemma existsb_In i l : existsb (Nat.eqb i) l = true <-> In i l.
Proof. rewrite existsb_exists. split; [intros (x & H & E); apply Nat.eqb_eq in E; subst; exact H|intro H; exists i; split; [exact H|apply Nat.eqb_refl]]. Qed.
Lemma ls_cons a l : list_sum (a :: l) = a + list_sum l.
Proof. reflexivity. Qed.
Lemma sum_filter {A} (p : A -> bool) l : list_sum (map (fun a => if p a then 1 else 0) l) = length (filter p l).
Proof. induction l as [|a l IH]; [reflexivity|]. cbn [map filter]. rewrite ls_cons, IH. destruct (p a); reflexivity. Qed.
Lemma sum_swap {A B} (b : A -> B -> nat) S T :
  list_sum (map (fun i => list_sum (map (fun t => b i t) T)) S) = list_sum (map (fun t => list_sum (map (fun i => b i t) S)) T).
Proof.
  induction S as [|i S IH].
  - cbn [map]. induction T as [|t T IH]; [reflexivity|exact IH].
  - cbn [map]. rewrite ls_cons, IH. clear IH. induction T as [|t T IH]; [reflexivity|]. cbn [map]. rewrite !ls_cons. lia.
Qed.
Lemma sum_members n l : NoDup l -> (forall i, In i l -> i < n) -> list_sum (map (fun i => ind i l) (seq 0 n)) = length l.
Proof.
  intros ND H. unfold ind. rewrite sum_filter. apply Permutation_length, NoDup_Permutation; [apply NoDup_filter, seq_NoDup|exact ND|].
  intro i. rewrite filter_In, existsb_In, in_seq. split; [tauto|]. intro Hi. specialize (H i Hi). split; [lia|exact Hi].
Qed.
Lemma sum_le {A} (g h : A -> nat) l : (forall a, In a l -> g a <= h a) -> list_sum (map g l) <= list_sum (map h l).
Proof. induction l as [|a l IH]; intro H; [apply le_n|]. cbn [map]. rewrite !ls_cons. specialize (IH (fun b Hb => H b (or_intror Hb))). specialize (H a (or_introl eq_refl)). lia. Qed.
Lemma sum_const {A} (c : nat) (l : list A) : list_sum (map (fun _ => c) l) = c * length l.
Proof. induction l as [|a l IH]; cbn [map length]; [cbn; lia|]. rewrite ls_cons, IH. lia. Qed.
Lemma sum_scale {A} (c : nat) (g : A -> nat) l : list_sum (map (fun a => c * g a) l) = c * list_sum (map g l).
Proof. induction l as [|a l IH]; cbn [map]; [cbn; lia|]. rewrite !ls_cons, IH. lia. Qed.
Lemma Forall2_nth_l {A B} (P : A -> B -> Prop) l m j a : Forall2 P l m -> nth_error l j = Some a -> exists b, nth_error m j = Some b /\ P a b.
Proof. intro F. revert j. induction F as [|x y l m H F IH]; intros [|j] E; cbn in *; try discriminate; [injection E as <-; eauto|auto]. Qed.
Lemma Forall2_nth_r {A B} (P : A -> B -> Prop) l m j b : Forall2 P l m -> nth_error m j = Some b -> exists a, nth_error l j = Some a /\ P a b.
Proof. intro F. revert j. induction F as [|x y l m H F IH]; intros [|j] E; cbn in *; try discriminate; [injection E as <-; eauto|auto]. Qed.
Lemma sorted_NoDup (l : list nat) : StronglySorted lt l -> NoDup l.
Proof. induction 1 as [|a l _ IH F]; constructor; [|exact IH]. intro H. pose proof (proj1 (Forall_forall _ _) F a H). lia. Qed.

(** the positions of the lists that hold [i] *)
Definition holding (i : nat) (Is : list (list nat)) : list nat := filter (fun t => existsb (Nat.eqb i) (nth t Is [])) (seq 0 (length Is)).
Lemma holding_In i Is t : In t (holding i Is) <-> exists I, nth_error Is t = Some I /\ In i I.
Proof.
  unfold holding. rewrite filter_In, existsb_In, in_seq. split.
  - intros [H Hi]. destruct (nth_error Is t) as [I|] eqn:E; [|apply nth_error_None in E; lia]. exists I. split; [reflexivity|]. rewrite (nth_error_nth _ _ [] E) in Hi. exact Hi.
  - intros (I & E & Hi). pose proof (nth_error_Some_lt _ _ _ E). rewrite (nth_error_nth _ _ [] E). split; [lia|exact Hi].
Qed.
Lemma double_count n (Is : list (list nat)) : Forall (fun I => NoDup I /\ forall i, In i I -> i < n) Is ->
  list_sum (map (fun i => length (holding i Is)) (seq 0 n)) = list_sum (map (@length nat) Is).
Proof.
  intro F. rewrite (map_ext _ (fun i => list_sum (map (fun t => ind i (nth t Is [])) (seq 0 (length Is))))) by (intro i; unfold ind, holding; symmetry; apply sum_filter).
  rewrite sum_swap. f_equal.
  assert (E : map (fun t => length (nth t Is [])) (seq 0 (length Is)) = map (@length nat) Is).
  { clear F. rewrite <- (map_map (fun t => nth t Is []) (@length nat)). f_equal. apply nth_ext with (d := []) (d' := []); [rewrite map_length, seq_length; reflexivity|].
    intros j Hj. rewrite map_length, seq_length in Hj. rewrite (nth_indep _ [] (nth 0 Is [])) by (rewrite map_length, seq_length; exact Hj).
    rewrite map_nth with (f := fun t => nth t Is []). rewrite seq_nth by exact Hj. reflexivity. }
  rewrite <- E. apply map_ext_in. intros t Ht. apply in_seq in Ht. destruct (nth_error Is t) as [I|] eqn:EI; [|apply nth_error_None in EI; lia].
  pose proof (proj1 (Forall_forall _ _) F I (nth_error_In _ _ EI)) as [A B]. rewrite (nth_error_nth _ _ [] EI). apply sum_members; assumption.
Qed.

Section Any.
Context {N : Num}.
Implicit Types (f : forest N).

Lemma regions_unique f cfg nds nds' : incumbent_regions f cfg nds -> incumbent_regions f cfg nds' -> nds' = nds.
Proof.
  intros (ts & Ht & F) (ts' & Ht' & F'). rewrite Ht in Ht'. inversion Ht'; subst ts'. clear -F F'.
  revert nds' F'. induction F as [|t nd ts nds (id & A & B) F IH]; intros nds' F'; inversion F' as [|t' nd' ? ? (id' & A' & B') F'']; subst; [reflexivity|].
  f_equal; [congruence|auto].
Qed.

Lemma overlaps_holding f nds Is i c k : sample_is f i c -> Forall2 (samples_of f) nds Is ->
  (overlaps (a_cs (f_alg f)) c nds k <-> (k <= Z.of_nat (length (holding i Is)))%Z).
Proof.
  intros (row & Hr & Hc) F.
  assert (K : forall t, In t (holding i Is) <-> exists nd, nth_error nds t = Some nd /\ lies_in (a_cs (f_alg f)) c nd).
  { intro t. rewrite holding_In. split.
    - intros (I & E & Hi). destruct (Forall2_nth_r _ _ _ _ _ F E) as (nd & En & _ & M). exists nd. split; [exact En|]. apply M in Hi. destruct Hi as (c' & (row' & Hr' & Hc') & Hl).
      assert (c' = c) by congruence. subst c'. exact Hl.
    - intros (nd & E & Hl). destruct (Forall2_nth_l _ _ _ _ _ F E) as (I & EI & _ & M). exists I. split; [exact EI|]. apply M. exists c. split; [|exact Hl]. exists row. auto. }
  split.
  - intros (ts & ND & Hk & Ft). pose proof (NoDup_incl_length (l' := holding i Is) ND) as H. etransitivity; [exact Hk|]. apply inj_le, H.
    intros t Ht. apply K. exact (proj1 (Forall_forall _ _) Ft t Ht).
  - intro Hk. exists (holding i Is). refine (conj (NoDup_filter _ (seq_NoDup _ _)) (conj Hk _)). apply Forall_forall. intros t Ht. apply K. exact Ht.
Qed.

(** the region is at most as large as the sizes of the incumbent regions allow, and not empty when they are large enough *)
Theorem region_size f cfg k r nds Is : snd (forest_incumbent_region f cfg (Some k)) = Ok r -> a_samples (f_alg f) <> [] ->
  incumbent_regions f cfg nds -> Forall2 (samples_of f) nds Is ->
  (k * Z.of_nat (region_len r) <= Z.of_nat (list_sum (map (@length nat) Is)))%Z /\
  ((1 <= k)%Z -> ((k - 1) * Z.of_nat (length (a_samples (f_alg f))) < Z.of_nat (list_sum (map (@length nat) Is)))%Z -> region_len r <> 0).
Proof.
  intros H Hne IR F. destruct (forest_region_is_overlap f cfg (Some k) r H Hne) as (nds' & x & y & v & idxs & IR' & SH & SS & IS & M).
  pose proof (regions_unique f cfg nds nds' IR IR'). subst nds'. cbn [threshold] in M.
  set (n := length (a_samples (f_alg f))) in *.
  assert (Len : region_len r = length idxs) by (destruct IS as (I1 & _); symmetry; exact (Forall2_length _ _ _ I1)).
  assert (ND : NoDup idxs) by (apply sorted_NoDup; exact SS).
  assert (B : forall i, In i idxs -> i < n) by (intros i Hi; apply M in Hi; destruct Hi as (row & c & A & _); exact (nth_error_Some_lt _ _ _ A)).
  assert (FI : Forall (fun I => NoDup I /\ forall i, In i I -> i < n) Is).
  { apply Forall_forall. intros I HI. destruct (In_nth_error _ _ HI) as (t & Et). destruct (Forall2_nth_r _ _ _ _ _ F Et) as (nd & _ & A & B').
    split; [exact A|]. intros i Hi. apply B' in Hi. destruct Hi as (c & (row & Hr & _) & _). exact (nth_error_Some_lt _ _ _ Hr). }
  pose proof (double_count n Is FI) as DC. rewrite Len. split.
  - destruct (Z.le_gt_cases k 0) as [Hk|Hk].
    { assert (0 <= Z.of_nat (length idxs))%Z by lia. nia. }
    rewrite <- DC. rewrite <- (sum_members n idxs ND B), <- (Z2Nat.id k) by lia. rewrite <- Nat2Z.inj_mul, <- sum_scale. apply inj_le, sum_le.
    intros i Hi. unfold ind. destruct (existsb (Nat.eqb i) idxs) eqn:E; [|lia]. apply existsb_In, M in E. destruct E as (row & c & Hr & Hc & O).
    apply (overlaps_holding f nds Is i c k) in O; [lia|exists row; auto|exact F].
  - intros Hk HS E. assert (idxs = []) by (destruct idxs; [reflexivity|discriminate E]). subst idxs.
    assert (list_sum (map (fun i => length (holding i Is)) (seq 0 n)) <= list_sum (map (fun _ => Z.to_nat (k - 1)) (seq 0 n))).
    { apply sum_le. intros i Hi. destruct (Nat.le_gt_cases (length (holding i Is)) (Z.to_nat (k - 1))) as [Q|Q]; [exact Q|exfalso].
      assert (exists t, In t (holding i Is)) as (t & Ht) by (destruct (holding i Is) as [|t l]; [cbn in Q; lia|exists t; left; reflexivity]).
      apply holding_In in Ht. destruct Ht as (I & EI & HI). destruct (Forall2_nth_r _ _ _ _ _ F EI) as (nd & _ & _ & Mt). apply Mt in HI. destruct HI as (c & Sc & _).
      assert (O : overlaps (a_cs (f_alg f)) c nds k) by (apply (overlaps_holding f nds Is i c k Sc F); lia).
      destruct Sc as (row & Hr & Hc). apply (proj2 (M i)). exists row, c. auto. }
    rewrite DC, sum_const, seq_length in H0. rewrite <- (Z2Nat.id (k - 1)) in HS by lia. lia.
Qed.

End Any.
