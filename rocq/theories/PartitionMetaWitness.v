(** PartitionMetaWitness.v - computed cases for C86-C89. *)
From Coq Require Import QArith.
From Flocq Require Import Core.Core IEEE754.BinarySingleNaN.
From Verif Require Import Base Num NumLaws NumpyModel ConfigSpaceModel UtilsModel IceModel PartitionModel PartitionSpec
  PartitionProofs PartitionProofs2 PartitionProofs3 PartitionMeta Witness.
Local Open Scope string_scope.
Local Open Scope nat_scope.
Local Open Scope list_scope.

(** names of the hyperparameters in the conditions of every leaf *)
Definition split_names {N : Num} (p : dtp N) (ids : list nat) : list (option (list string)) :=
  map (fun id => option_map (fun nd => map (fun c => hp_name (c_hp c)) (n_conds nd)) (deref p id)) ids.

Section W.
Variables fe fln fr : b64 -> b64.
Notation BN := (B64 fe fln fr).
(** mean 0, standard deviation = last coordinate, which may not be split *)
Definition m_cs : cspace BN := map (fun n => mkhp n (KFloat (n0 : BN) n1 false)) ["a"; "b"; "c"; "s"].
Definition m_predict : predictor BN := fun rows => Ok (map (fun _ => n0) rows, map (fun r => nth 3 r n0) rows).
Definition m_setup (rows : list (list BN)) (f : predictor BN) : setup BN := mksetup m_cs f (SelOne (SName "a")) rows 1 1 1 (Some (SelOne (SName "s"))).
Definition lo : b64 := fl 1 (-2).
Definition hi : b64 := fl 3 (-2).
Definition the_obj (s : setup BN) : dtp BN := match construct s with Ok p => p | Err _ => mkdtp [] [] [] 0 0 [] [] end.

(** ** the order of the samples (C87) *)
Definition m_rows1 : list (list BN) :=
  [[lo; lo; hi; fl 1 (-4)]; [lo; lo; lo; fl 7 (-4)]; [lo; lo; lo; fl 6 (-4)]; [lo; hi; lo; fl 1 (-4)]; [lo; hi; hi; fl 1 (-4)]].
Definition m_rows2 : list (list BN) :=
  [[lo; hi; lo; fl 1 (-4)]; [lo; lo; lo; fl 7 (-4)]; [lo; lo; lo; fl 6 (-4)]; [lo; lo; hi; fl 1 (-4)]; [lo; hi; hi; fl 1 (-4)]].
Lemma m_perm : Permutation m_rows1 m_rows2.
Proof.
  unfold m_rows1, m_rows2. generalize [lo; lo; hi; fl 1 (-4)] [lo; lo; lo; fl 7 (-4)] [lo; lo; lo; fl 6 (-4)] [lo; hi; lo; fl 1 (-4)] [lo; hi; hi; fl 1 (-4)].
  intros a b c d e. change ([a; b; c; d; e]) with ([a] ++ ([b; c] ++ [d]) ++ [e]). change [d; b; c; a; e] with ([d] ++ ([b; c] ++ [a]) ++ [e]).
  rewrite !app_assoc. apply Permutation_app_tail. cbn. 
  transitivity [a; d; b; c]. { apply perm_skip. transitivity ([d] ++ [b; c]). { change [b; c; d] with ([b; c] ++ [d]). apply Permutation_app_comm. } reflexivity. }
  transitivity [d; a; b; c]. { apply perm_swap. } apply perm_skip. change [a; b; c] with ([a] ++ [b; c]). change [b; c; a] with ([b; c] ++ [a]). apply Permutation_app_comm.
Qed.
Lemma m_order : 
  construct (m_setup m_rows1 m_predict) = Ok (the_obj (m_setup m_rows1 m_predict)) /\
  construct (with_samples (m_setup m_rows1 m_predict) m_rows2) = Ok (the_obj (m_setup m_rows2 m_predict)) /\
  (exists q ids, partition (the_obj (m_setup m_rows1 m_predict)) 1 = (q, Ok ids) /\ split_names q ids = [Some ["c"]; Some ["c"]]) /\
  (exists q ids, partition (the_obj (m_setup m_rows2 m_predict)) 1 = (q, Ok ids) /\ split_names q ids = [Some ["b"]; Some ["b"]]).
Proof.
  split; [apply obj_ok; vm_compute; reflexivity|]. split; [apply (obj_ok (m_setup m_rows2 m_predict)); vm_compute; reflexivity|].
  split; [apply (run_check (the_obj (m_setup m_rows1 m_predict)) 1 split_names)|apply (run_check (the_obj (m_setup m_rows2 m_predict)) 1 split_names)]; vm_compute; reflexivity.
Qed.

(** ** constant variances: a split increases the loss (C10, C89) *)
Definition m_third : b64 := fl 5404319552844595 (-54).  (* 0.3 *)
Definition m_rows3 : list (list BN) :=
  [[lo; lo; lo; m_third]; [lo; lo; lo; m_third]; [lo; lo; lo; m_third]; [lo; hi; lo; m_third]].
Definition m_const : predictor BN := fun rows => Ok (map (fun _ => n0) rows, map (fun _ => m_third : BN) rows).
(** the references of the leaves, read *)
Fixpoint read_all (p : dtp BN) (ids : list nat) : option (list (dnode BN)) :=
  match ids with
  | [] => Some []
  | id :: t => match deref p id, read_all p t with Some nd, Some l => Some (nd :: l) | _, _ => None end
  end.
Lemma read_all_ok p ids l : read_all p ids = Some l -> Forall2 (fun id nd => deref p id = Some nd) ids l.
Proof.
  revert l. induction ids as [|id ids IH]; intros l H; cbn in H; [injection H as <-; constructor|].
  destruct (deref p id) as [nd|] eqn:E; [|discriminate]. destruct (read_all p ids) as [l'|]; [|discriminate]. injection H as <-. constructor; auto.
Qed.
Definition total_loss (l : list (dnode BN)) : BN := nsum (map (fun nd => region_loss (n_region nd)) l).
Lemma m_increase : let s := m_setup m_rows3 m_const in construct s = Ok (the_obj s) /\
    exists root q ids leaves, deref (the_obj s) 0 = Some root /\ partition (the_obj s) 1 = (q, Ok ids) /\
    Forall2 (fun id nd => deref q id = Some nd) ids leaves /\
    neqb (region_loss (n_region root)) (n0 : BN) = true /\ nlt (region_loss (n_region root)) (total_loss leaves) = true.
Proof.
  intro s. split; [apply obj_ok; vm_compute; reflexivity|].
  assert (E : match deref (the_obj s) 0, partition (the_obj s) 1 with
    | Some root, (q, Ok ids) => match read_all q ids with
      | Some leaves => neqb (region_loss (n_region root)) (n0 : BN) && nlt (region_loss (n_region root)) (total_loss leaves)
      | None => false end
    | _, _ => false end = true) by (vm_compute; reflexivity).
  destruct (deref (the_obj s) 0) as [root|]; [|discriminate]. destruct (partition (the_obj s) 1) as [q [ids|]]; [|discriminate].
  destruct (read_all q ids) as [leaves|] eqn:RL; [|discriminate]. apply andb_true_iff in E.
  exists root, q, ids, leaves. repeat split; try tauto. apply read_all_ok. exact RL.
Qed.

(** ** a large unit (C88) *)
Definition m_rows4 : list (list BN) := [[lo; lo; lo; fl 1 (-2)]; [lo; lo; lo; fl 1 (-2)]; [lo; hi; lo; fl 3 (-2)]; [lo; hi; lo; fl 3 (-2)]].
Definition m_big : predictor BN := fun rows => Ok (map (fun _ => n0) rows, map (fun r => nmul (fl 1 600 : BN) (nth 3 r n0)) rows).
Lemma m_scaled :
  construct (m_setup m_rows4 m_predict) = Ok (the_obj (m_setup m_rows4 m_predict)) /\
  construct (with_surrogate (m_setup m_rows4 m_predict) m_big) = Ok (the_obj (m_setup m_rows4 m_big)) /\
  (exists q ids, partition (the_obj (m_setup m_rows4 m_predict)) 1 = (q, Ok ids) /\ split_names q ids = [Some ["b"]; Some ["b"]]) /\
  (exists q ids, partition (the_obj (m_setup m_rows4 m_big)) 1 = (q, Ok ids) /\ split_names q ids = [Some []]).
Proof.
  split; [apply obj_ok; vm_compute; reflexivity|]. split; [apply (obj_ok (m_setup m_rows4 m_big)); vm_compute; reflexivity|].
  split; [apply (run_check (the_obj (m_setup m_rows4 m_predict)) 1 split_names)|apply (run_check (the_obj (m_setup m_rows4 m_big)) 1 split_names)]; vm_compute; reflexivity.
Qed.
End W.
