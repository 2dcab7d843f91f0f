(** ColumnsExamples.v - the example space in another order, and a tie that the order decides (C109). *)
From Coq Require Import QArith Reals Permutation.
From Verif Require Import Base Num NumLaws NumpyModel ConfigSpaceModel UtilsModel IceModel PartitionModel PartitionSpec
  ListLemmas IceProofs IceProofs2 PartitionProofs PartitionProofs2 PartitionProofs3 PartitionProofs4 PartitionProofs6 Examples Witness IceShapeSpec FinerSpec FinerProofs FinerExamples
  TwinSpec ColumnsSpec ColumnsProofs.
Local Open Scope string_scope.
Local Open Scope nat_scope.
Local Open Scope list_scope.

(** [s] in the order [ord]; [inv] leads back *)
Definition rearranged {N : Num} (ord inv : list nat) (cs' : cspace N) (s : setup N) : setup N :=
  mksetup cs' (fun rows => su_predict s (map (pick inv) rows)) (su_sel s) (map (pick ord) (su_samples s)) (su_gpa s) (su_splits s) (su_minpts s) (su_nots s).
Lemma rearranged_same {N : Num} ord inv (cs' : cspace N) (s : setup N) : reorders (su_cs s) cs' ord ->
  (forall r : list N, length r = length (su_cs s) -> pick inv (pick ord r) = r) -> same_setup ord s (rearranged ord inv cs' s).
Proof.
  intros RO Inv. refine (conj RO (conj _ (conj eq_refl (conj eq_refl (conj eq_refl (conj eq_refl (conj eq_refl eq_refl))))))).
  intros rows F. cbn. rewrite map_map. f_equal. rewrite <- (map_id rows) at 2. apply map_ext_in. intros r Hr. apply Inv. exact (proj1 (Forall_forall _ _) F r Hr).
Qed.
Ltac three := intros [|? [|? [|? [|? ?]]]] Hr; try discriminate Hr; reflexivity.

Definition ex_cs_cab {N : Num} : cspace N :=
  [mkhp "c" (KFloat n1 (nofZ 5) false); mkhp "a" (KFloat n0 n1 false); mkhp "b" (KFloat n0 (nofZ 10) false)].
Definition ex_cs_acb {N : Num} : cspace N :=
  [mkhp "a" (KFloat n0 n1 false); mkhp "c" (KFloat n1 (nofZ 5) false); mkhp "b" (KFloat n0 (nofZ 10) false)].
Lemma cab_reorders {N : Num} : reorders (N:=N) ex_cs ex_cs_cab [2; 0; 1].
Proof.
  refine (conj _ (conj _ _)).
  - cbn. repeat constructor; cbn; intuition discriminate.
  - cbn. apply (Permutation_trans (l' := [0; 2; 1])); [apply perm_swap|]. apply perm_skip, perm_swap.
  - repeat constructor.
Qed.
Lemma acb_reorders {N : Num} : reorders (N:=N) ex_cs ex_cs_acb [0; 2; 1].
Proof.
  refine (conj _ (conj _ _)).
  - cbn. repeat constructor; cbn; intuition discriminate.
  - cbn. apply perm_skip, perm_swap.
  - repeat constructor.
Qed.

(** a check for [no_ties]: every other split that is allowed has a larger loss *)
Definition decides {N : Num} (p : dtp N) (c : cell N) : bool :=
  match n_left c, n_right c with
  | Some a, Some b =>
    match deref p a, deref p b with
    | Some l, Some r =>
      forallb (fun h => forallb (fun v =>
        match split_at_value (d_cs p) (n_node c) h v with
        | Ok (l', r') => String.eqb (hp_name h) (hp_name (c_hp (last (n_conds l) (mkcond h v true)))) ||
            negb (Nat.leb (d_minpts p) (region_len (n_region l')) && Nat.leb (d_minpts p) (region_len (n_region r'))) ||
            nlt (split_total (l, r)) (split_total (l', r'))
        | Err _ => false
        end) (possible_split_vals (N:=N) (d_nsplits p))) (d_possible p)
    | _, _ => true
    end
  | _, _ => true
  end.
Lemma no_ties_check {N : Num} (L : order_laws N) (s : setup N) p : setup_ok s -> reaches s p -> forallb (decides p) (d_heap p) = true -> no_ties s p.
Proof.
  intros SO RE Ch id c a b l r Hc Ha Hb Da Db h v h' v' l' r' O1 O2 Hne.
  destruct (reaches_facts L s p SO RE) as (root & dd & sel & ns & F).
  rewrite forallb_forall in Ch. specialize (Ch c (nth_error_In _ _ Hc)). unfold decides in Ch. rewrite Ha, Hb, Da, Db in Ch.
  destruct O1 as (S1 & _ & (_ & C1 & _) & _), O2 as (S2 & V2 & L2 & R2 & M1 & M2).
  assert (P2 : In h' (d_possible p)).
  { rewrite (rf_poss _ _ _ _ _ _ F), split_parameters_spec. destruct S2 as (X1 & X2 & X3). refine (conj X1 (conj (X2 _ (rf_sel _ _ _ _ _ _ F)) _)).
    pose proof (rf_nots _ _ _ _ _ _ F) as E2. destruct (su_nots s) as [z|]; [exact (X3 z ns eq_refl E2)|]. injection E2 as <-. intros []. }
  assert (W : wf_region (length (su_cs s)) (n_region (n_node c))).
  { rewrite <- (rf_cs _ _ _ _ _ _ F). apply (derived_wf p root); [apply (inv_wf _ _ (rf_inv _ _ _ _ _ _ F))|].
    pose proof (rf_derived _ _ _ _ _ _ F) as HD. eapply HD. eassumption. }
  pose proof SO as (ND & _).
  assert (E : split_at_value (su_cs s) (n_node c) h' v' = Ok (l', r')) by (apply split_is_sides; [exact W|exact ND|apply S2|split; assumption]).
  rewrite forallb_forall in Ch. specialize (Ch h' P2). rewrite (rf_ns _ _ _ _ _ _ F) in Ch. rewrite forallb_forall in Ch. specialize (Ch v' V2).
  rewrite (rf_cs _ _ _ _ _ _ F), E, C1, last_last, (rf_mp _ _ _ _ _ _ F) in Ch. cbn [c_hp] in Ch.
  apply Nat.leb_le in M1, M2. rewrite M1, M2 in Ch. cbn in Ch. rewrite orb_false_r in Ch. apply orb_true_iff in Ch. destruct Ch as [Ch|Ch]; [|exact Ch].
  exfalso. apply Hne. apply String.eqb_eq in Ch. pose proof (cs_get_nodup (su_cs s) h ND (proj1 S1)) as G1. rewrite <- Ch, (cs_get_nodup (su_cs s) h' ND (proj1 S2)) in G1. congruence.
Qed.

(** six rows; the tree of depth 2 has three splits and four leaves, without ties between hyperparameters *)
Definition f_clear : list (Q * Q * Q) := [(1#8, 7#8, 4#1); (7#8, 7#8, 1#1); (3#8, 1#8, 0#1); (5#8, 5#8, 2#1); (3#8, 5#8, 3#1); (1#8, 1#8, 2#1)].
Definition f_cab : setup QNum := rearranged [2; 0; 1] [1; 2; 0] ex_cs_cab (f_setup f_clear 3 1).
Definition f_cab_obj : dtp QNum := match construct f_cab with Ok p => p | Err _ => mkdtp [] [] [] 0 0 [] [] end.
Lemma f_cab_ok : construct f_cab = Ok f_cab_obj.
Proof. unfold f_cab_obj. apply obj_ok. vm_compute. reflexivity. Qed.
Lemma f_reaches t ns mp ds : reaches (f_setup t ns mp) (run_history (f_obj t ns mp) ds).
Proof. exists (f_obj t ns mp), ds. split; [apply f_obj_ok|reflexivity]. Qed.
Lemma columns_example : setup_ok (f_setup f_clear 3 1) /\ same_setup [2; 0; 1] (f_setup f_clear 3 1) f_cab /\
  reaches (f_setup f_clear 3 1) (f_obj f_clear 3 1) /\ reaches f_cab f_cab_obj /\ no_ties (f_setup f_clear 3 1) (fst (partition (f_obj f_clear 3 1) 2)).
Proof.
  refine (conj (f_setup_ok _ _ _) (conj _ (conj (f_reaches _ _ _ []) (conj _ _)))).
  - apply rearranged_same; [exact cab_reorders|three].
  - exists f_cab_obj, []. split; [exact f_cab_ok|reflexivity].
  - apply (no_ties_check Q_order_laws); [apply f_setup_ok|exact (f_reaches _ _ _ [2])|]. vm_compute. reflexivity.
Qed.

Definition f_tie : list (Q * Q * Q) := [(7#8, 5#8, 2#1); (3#8, 3#8, 1#1); (1#8, 3#8, 2#1); (1#8, 5#8, 1#1); (5#8, 1#8, 0#1)].
Definition f_acb : setup QNum := rearranged [0; 2; 1] [0; 2; 1] ex_cs_acb (f_setup f_tie 3 1).
Definition f_acb_obj : dtp QNum := match construct f_acb with Ok p => p | Err _ => mkdtp [] [] [] 0 0 [] [] end.
Lemma tie_decided_by_order : setup_ok (f_setup f_tie 3 1) /\ same_setup [0; 2; 1] (f_setup f_tie 3 1) f_acb /\
  construct (f_setup f_tie 3 1) = Ok (f_obj f_tie 3 1) /\ construct f_acb = Ok f_acb_obj /\
  (exists p' ids, partition (f_obj f_tie 3 1) 1 = (p', Ok ids) /\ leaf_total p' ids = ((9 # 1)%Q, [1; 4])) /\
  (exists p' ids, partition f_acb_obj 1 = (p', Ok ids) /\ leaf_total p' ids = ((9 # 1)%Q, [4; 1])) /\
  (exists p' ids, partition (f_obj f_tie 3 1) 2 = (p', Ok ids) /\ leaf_total p' ids = ((5 # 1)%Q, [1; 2; 2])) /\
  (exists p' ids, partition f_acb_obj 2 = (p', Ok ids) /\ leaf_total p' ids = ((6 # 1)%Q, [1; 3; 1])).
Proof.
  refine (conj (f_setup_ok _ _ _) (conj _ (conj (f_obj_ok _ _ _) (conj _ (conj _ (conj _ (conj _ _))))))).
  - apply rearranged_same; [exact acb_reorders|three].
  - unfold f_acb_obj. apply obj_ok. vm_compute. reflexivity.
  - apply (run_check (f_obj f_tie 3 1) 1 leaf_total). vm_compute. reflexivity.
  - apply (run_check f_acb_obj 1 leaf_total). vm_compute. reflexivity.
  - apply (run_check (f_obj f_tie 3 1) 2 leaf_total). vm_compute. reflexivity.
  - apply (run_check f_acb_obj 2 leaf_total). vm_compute. reflexivity.
Qed.
(** the first points of the curves of the leaves *)
Definition leaf_rows (p : dtp QNum) (ids : list nat) : list (option (list (list Q))) :=
  map (fun id => option_map (fun nd : dnode QNum => map (fun m => map Qred (nth 0 m [])) (r_x (n_region nd))) (deref p id)) ids.
