(** GainExamples.v - setups with a constant deviation and with a step, for C105. *)
From Coq Require Import QArith Reals Lra.
From Verif Require Import Base Num NumLaws NumpyModel ConfigSpaceModel UtilsModel IceModel PartitionModel PartitionSpec
  ListLemmas IceProofs IceProofs2 PartitionProofs PartitionProofs2 PartitionProofs3 PartitionProofs6 RealProofs PartitionReal Examples Witness
  IceShapeSpec GainSpec GainReal.
Local Open Scope string_scope.
Local Open Scope nat_scope.
Local Open Scope list_scope.

Section G.
Context {N : Num}.
Definition g_rows : list (list N) :=
  [[frac 1 2; frac 1 10; frac 1 5]; [frac 1 4; frac 9 10; frac 7 10]; [frac 1 8; frac 1 5; frac 3 10]; [frac 3 4; frac 4 5; frac 9 10]].
Definition g_setup (sd : list N -> N) : setup N :=
  mksetup ex_cs (rowwise (fun r => nth 0 r n0) sd) (SelOne (SName "a")) g_rows 3 4 1 None.
Definition g_step (r : list N) : N := if nle (nth 2 r n0) (frac 2 5) then n1 else nofZ 3.
Lemma g_ok sd : setup_ok (g_setup sd).
Proof.
  refine (conj _ (conj _ _)).
  - cbn. repeat constructor; cbn; intuition discriminate.
  - cbn. repeat constructor.
  - cbn. lia.
Qed.
Lemma g_construct sd : exists p0, construct (g_setup sd) = Ok p0.
Proof.
  apply (construct_total (g_setup sd) [mkhp "a" (KFloat n0 n1 false)]).
  - apply g_ok. - reflexivity. - discriminate. - repeat constructor. - discriminate.
  - intro rows. do 2 eexists. refine (conj eq_refl (conj _ _)); apply map_length.
Qed.
Lemma g_reaches sd : exists p, reaches (g_setup sd) p.
Proof. destruct (g_construct sd) as (p0 & E). exists p0, p0, []. split; [exact E|reflexivity]. Qed.
End G.

Definition g_obj (sd : list QNum -> QNum) : dtp QNum := match construct (g_setup sd) with Ok p => p | Err _ => mkdtp [] [] [] 0 0 [] [] end.
Lemma g_obj_ok sd : construct (g_setup (N:=QNum) sd) = Ok (g_obj sd).
Proof. destruct (g_construct sd) as (p0 & E). unfold g_obj. rewrite E. reflexivity. Qed.

Definition g_c : hp RNum := mkhp "c" (KFloat (n1 : RNum) (nofZ (n:=RNum) 5) false).
Lemma g_split_val : In (frac (N:=RNum) 2 5) (possible_split_vals (N:=RNum) 4).
Proof.
  unfold possible_split_vals. cbn. right. left. unfold frac. cbn. lra.
Qed.
Lemma g_splittable sd : splittable (g_setup (N:=RNum) sd) g_c.
Proof.
  split; [cbn; auto|]. split.
  - intros sel E. cbn in E. injection E as <-. cbn. intuition discriminate.
  - intros q nots E. discriminate.
Qed.
Lemma Rleb_iff a b c d : (a <= b <-> c <= d)%R -> Rleb a b = Rleb c d.
Proof. unfold Rleb. intro H. destruct (Rle_dec a b), (Rle_dec c d); tauto. Qed.
Lemma g_step_at P : step_at P 2 (frac (N:=RNum) 2 5) (g_step (N:=RNum)).
Proof.
  intros r r' L _ H. unfold g_step.
  assert (Q : Rleb (nth 2 r 0%R) (frac (N:=RNum) 2 5) = Rleb (nth 2 r' 0%R) (frac (N:=RNum) 2 5)).
  2:{ cbn. cbn in Q. rewrite Q. reflexivity. }
  apply Rleb_iff. destruct (Nat.lt_ge_cases 2 (length r)) as [Hl|Hl].
  - apply H; apply nth_error_nth'; [exact Hl|rewrite <- L; exact Hl].
  - rewrite (nth_overflow r), (nth_overflow r'); [tauto|rewrite <- L; exact Hl|exact Hl].
Qed.
Lemma count_map {A} (f : A -> bool) l : length (filter f l) = length (filter (fun b : bool => b) (map f l)).
Proof. induction l as [|x l IH]; [reflexivity|]. cbn. destruct (f x); cbn; rewrite IH; reflexivity. Qed.
Lemma g_counts : length (filter (at_most 2 (frac (N:=RNum) 2 5)) (g_rows (N:=RNum))) = 2 /\
  length (filter (fun row => negb (at_most 2 (frac (N:=RNum) 2 5) row)) (g_rows (N:=RNum))) = 2.
Proof.
  assert (Q : map (at_most 2 (frac (N:=RNum) 2 5)) (g_rows (N:=RNum)) = [true; false; true; false]).
  { cbn. unfold at_most, frac, Rleb. cbn. repeat (destruct (Rle_dec _ _); try (exfalso; lra)). reflexivity. }
  rewrite count_map, (count_map (fun row => negb _)), <- (map_map _ negb), Q. split; reflexivity.
Qed.
