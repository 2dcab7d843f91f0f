(** RoundLeavesExamples.v - computed cases for C121. *)
From Coq Require Import Reals Lra.
From Flocq Require Import Core.Core IEEE754.BinarySingleNaN.
From Verif Require Import Base Num NumLaws NumpyModel ConfigSpaceModel UtilsModel IceModel PartitionModel PartitionSpec
  PartitionProofs PartitionProofs2 PartitionProofs3 B64Proofs RoundSpec RoundProofs RoundExamples RoundLeavesSpec Witness PartitionMetaWitness.
Local Open Scope string_scope.
Local Open Scope nat_scope.
Local Open Scope list_scope.

Section E.
Variables fe fln fr : b64 -> b64.
Notation BN := (B64 fe fln fr).
(** mean and deviation are 0.1 everywhere *)
Definition even_predict : predictor BN := fun rows => Ok (map (fun _ => r_tenth fe fln fr) rows, map (fun _ => r_tenth fe fln fr) rows).
Definition even_setup : setup BN := m_setup fe fln fr (m_rows1 fe fln fr) even_predict.
Definition even_obj : dtp BN := match construct even_setup with Ok p => p | Err _ => mkdtp [] [] [] 0 0 [] [] end.
Definition mc_at (p : dtp BN) (id : nat) : BN := match deref p id with Some nd => mean_confidence (n_region nd) | None => n0 end.
Definition pdp_at (p : dtp BN) (id : nat) : BN := match deref p id with Some nd => nth 0 (region_pdp_y (n_region nd)) n0 | None => n0 end.
Definition len_at (p : dtp BN) (id : nat) : nat := match deref p id with Some nd => region_len (n_region nd) | None => 0 end.
Lemma even_obj_ok : construct even_setup = Ok even_obj.
Proof. unfold even_obj. apply (obj_ok even_setup). vm_compute. reflexivity. Qed.
(** the root and a leaf with two curves have exactly 0.1, the leaf with three curves has more, in both averages *)
Lemma even_run : exists p' ids, partition even_obj 1 = (p', Ok ids) /\
  (ids, map (len_at p') (0 :: ids), map (fun id => (neqb (n:=BN) (mc_at p' id) (r_tenth fe fln fr), neqb (n:=BN) (pdp_at p' id) (r_tenth fe fln fr))) (0 :: ids),
   map (fun id => (nlt (n:=BN) (mc_at p' 0) (mc_at p' id), nlt (n:=BN) (pdp_at p' 0) (pdp_at p' id))) ids)
  = ([2; 1], [5; 2; 3], [(true, true); (true, true); (false, false)], [(false, false); (true, true)]).
Proof.
  apply (run_check even_obj 1 (fun p' ids => (ids, map (len_at p') (0 :: ids), map (fun id => (neqb (n:=BN) (mc_at p' id) (r_tenth fe fln fr), neqb (n:=BN) (pdp_at p' id) (r_tenth fe fln fr))) (0 :: ids),
   map (fun id => (nlt (n:=BN) (mc_at p' 0) (mc_at p' id), nlt (n:=BN) (pdp_at p' 0) (pdp_at p' id))) ids))).
  vm_compute. reflexivity.
Qed.
Lemma even_ok : setup_ok even_setup.
Proof. split; [|split]; [cbn; repeat constructor; cbn; intuition discriminate|cbn; repeat constructor|cbn; lia]. Qed.
Lemma even_no_nan : no_nan even_setup.
Proof.
  unfold no_nan. cbn [even_setup m_setup su_samples]. unfold m_rows1.
  repeat (apply Forall_cons; [repeat (apply Forall_cons; [apply fin_ordinary; vm_compute; reflexivity|]); apply Forall_nil|]). apply Forall_nil.
Qed.
Lemma even_fits : means_fit 1%R even_setup /\ deviations_fit 1%R even_setup.
Proof.
  split; intros rows means stds E; cbn in E; injection E as E1 E2; [subst means|subst stds]; rewrite Forall_map; apply Forall_forall; intros row _; apply small_fits; vm_compute; reflexivity.
Qed.
Lemma even_meets : setup_ok even_setup /\ no_nan even_setup /\ (Z.of_nat (su_splits even_setup) < 2 ^ 52)%Z /\ 1 <= su_minpts even_setup /\ su_samples even_setup <> [] /\
  reaches even_setup even_obj /\ means_fit 1%R even_setup /\ deviations_fit 1%R even_setup /\ (Z.of_nat (length (su_samples even_setup)) < 2 ^ 49)%Z.
Proof.
  refine (conj even_ok (conj even_no_nan (conj _ (conj _ (conj _ (conj _ (conj (proj1 even_fits) (conj (proj2 even_fits) _)))))))); [cbn; lia|cbn; lia|discriminate| |cbn; lia].
  exists even_obj, []. split; [exact even_obj_ok|reflexivity].
Qed.
End E.
