(** FinerExamples.v - more choice, worse trees: witnesses for C106. *)
From Coq Require Import QArith.
From Verif Require Import Base Num NumLaws NumpyModel ConfigSpaceModel UtilsModel IceModel PartitionModel PartitionSpec
  ListLemmas IceProofs IceProofs2 PartitionProofs PartitionProofs2 PartitionProofs3 PartitionProofs6 Examples Witness IceShapeSpec FinerSpec FinerProofs.
Local Open Scope string_scope.
Local Open Scope nat_scope.
Local Open Scope list_scope.

(** deviations read off a table of (b, c, deviation) *)
Definition look (t : list (Q * Q * Q)) (r : list QNum) : QNum :=
  fold_right (fun e z => if Qeq_bool (nth 1 r 0%Q) (fst (fst e)) && Qeq_bool (nth 2 r 0%Q) (snd (fst e)) then snd e else z) 0%Q t.
Definition f_rows (t : list (Q * Q * Q)) : list (list QNum) := map (fun e => [1#2; fst (fst e); snd (fst e)]) t.
Definition f_setup (t : list (Q * Q * Q)) (ns mp : nat) : setup QNum :=
  mksetup (N:=QNum) ex_cs (rowwise (N:=QNum) (fun _ => 0%Q) (look t)) (SelOne (SName "a")) (f_rows t) 1 ns mp None.
Definition f_obj (t : list (Q * Q * Q)) (ns mp : nat) : dtp QNum := match construct (f_setup t ns mp) with Ok p => p | Err _ => mkdtp [] [] [] 0 0 [] [] end.
Definition f_grid : list (Q * Q * Q) := [(7#8, 7#8, 4#1); (3#8, 5#8, 0#1); (3#8, 3#8, 3#1); (5#8, 7#8, 3#1)].
Definition f_size : list (Q * Q * Q) := [(7#8, 3#8, 4#1); (1#8, 7#8, 1#1); (3#8, 1#8, 1#1); (3#8, 3#8, 4#1); (3#8, 5#8, 0#1); (5#8, 1#8, 2#1)].
(** the sum of the losses of the leaves, and their sizes *)
Definition leaf_total (p : dtp QNum) (ids : list nat) : Q * list nat :=
  let ls := map (fun id => match deref p id with Some nd => (region_loss (n_region nd), region_len (n_region nd)) | None => (0%Q, 0) end) ids in
  (Qred (fold_right Qplus 0%Q (map fst ls)), map snd ls).

Lemma f_setup_ok t ns mp : setup_ok (f_setup t ns mp).
Proof.
  refine (conj _ (conj _ _)).
  - cbn. repeat constructor; cbn; intuition discriminate.
  - cbn. unfold f_rows. apply Forall_map, Forall_forall. reflexivity.
  - cbn. lia.
Qed.
Lemma f_obj_ok t ns mp : construct (f_setup t ns mp) = Ok (f_obj t ns mp).
Proof.
  destruct (construct_total (f_setup t ns mp) [mkhp "a" (KFloat n0 n1 false)]) as (p0 & E).
  - apply f_setup_ok. - reflexivity. - discriminate. - repeat constructor. - discriminate.
  - intro rows. do 2 eexists. refine (conj eq_refl (conj _ _)); apply map_length.
  - unfold f_obj. rewrite E. reflexivity.
Qed.
Definition f_values (ns : nat) : list Q := map Qred (possible_split_vals (N:=QNum) ns).

Lemma f_grid_worse : setup_ok (f_setup f_grid 1 1) /\ more_choice (f_setup f_grid 1 1) (f_setup f_grid 3 1) /\
  construct (f_setup f_grid 1 1) = Ok (f_obj f_grid 1 1) /\ construct (f_setup f_grid 3 1) = Ok (f_obj f_grid 3 1) /\
  (exists p' ids, partition (f_obj f_grid 1 1) 2 = (p', Ok ids) /\ leaf_total p' ids = ((49 # 2)%Q, [2; 1; 1])) /\
  (exists p' ids, partition (f_obj f_grid 3 1) 2 = (p', Ok ids) /\ leaf_total p' ids = ((81 # 2)%Q, [1; 1; 2])).
Proof.
  refine (conj (f_setup_ok _ _ _) (conj _ (conj (f_obj_ok _ _ _) (conj (f_obj_ok _ _ _) (conj _ _))))).
  - refine (conj eq_refl (conj eq_refl (conj eq_refl (conj eq_refl (conj eq_refl (conj (le_n _) (conj _ (fun h H => H)))))))).
    assert (E1 : possible_split_vals (N:=QNum) 1 = [1#2]) by (vm_compute; reflexivity).
    assert (E3 : possible_split_vals (N:=QNum) 3 = [1#4; 1#2; 3#4]) by (vm_compute; reflexivity).
    cbn [su_splits f_setup]. rewrite E1, E3. intros v [<-|[]]. right. left. reflexivity.
  - apply (run_check (f_obj f_grid 1 1) 2 leaf_total). vm_compute. reflexivity.
  - apply (run_check (f_obj f_grid 3 1) 2 leaf_total). vm_compute. reflexivity.
Qed.
Lemma f_size_worse : setup_ok (f_setup f_size 3 2) /\ more_choice (f_setup f_size 3 2) (f_setup f_size 3 1) /\
  construct (f_setup f_size 3 2) = Ok (f_obj f_size 3 2) /\ construct (f_setup f_size 3 1) = Ok (f_obj f_size 3 1) /\
  (exists p' ids, partition (f_obj f_size 3 2) 2 = (p', Ok ids) /\ leaf_total p' ids = ((5 # 1)%Q, [2; 2; 2])) /\
  (exists p' ids, partition (f_obj f_size 3 1) 2 = (p', Ok ids) /\ leaf_total p' ids = ((253 # 2)%Q, [1; 2; 3])).
Proof.
  refine (conj (f_setup_ok _ _ _) (conj _ (conj (f_obj_ok _ _ _) (conj (f_obj_ok _ _ _) (conj _ _))))).
  - refine (conj eq_refl (conj eq_refl (conj eq_refl (conj eq_refl (conj eq_refl (conj _ (conj (fun v H => H) (fun h H => H)))))))). cbn. lia.
  - apply (run_check (f_obj f_size 3 2) 2 leaf_total). vm_compute. reflexivity.
  - apply (run_check (f_obj f_size 3 1) 2 leaf_total). vm_compute. reflexivity.
Qed.
(** four split values and nine on the example space *)
Lemma finer_example : setup_ok (ex_setup (N:=RNum)) /\ (exists p, reaches (ex_setup (N:=RNum)) p) /\
  more_choice (ex_setup (N:=RNum)) (mksetup ex_cs ex_predict (SelOne (SName "a")) ex_rows 3 9 1 None) /\
  exists q, reaches (mksetup (N:=RNum) ex_cs ex_predict (SelOne (SName "a")) ex_rows 3 9 1 None) q.
Proof.
  refine (conj ex_setup_ok (conj ex_reaches (conj _ _))).
  - refine (conj eq_refl (conj eq_refl (conj eq_refl (conj eq_refl (conj eq_refl (conj (le_n _) (conj _ (fun h H => H)))))))).
    apply split_values_divide. exists 2. reflexivity.
  - destruct (construct_total (mksetup (N:=RNum) ex_cs ex_predict (SelOne (SName "a")) ex_rows 3 9 1 None) [mkhp "a" (KFloat n0 n1 false)]) as (p0 & E).
    + exact ex_setup_ok. + reflexivity. + discriminate. + repeat constructor. + discriminate. + apply ex_batch.
    + exists p0, p0, []. split; [exact E|reflexivity].
Qed.
