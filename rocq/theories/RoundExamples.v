(** RoundExamples.v - computed cases for C111 and C112. *)
From Coq Require Import Reals Lra.
From Flocq Require Import Core.Core IEEE754.BinarySingleNaN.
From Verif Require Import Base Num NumLaws NumpyModel ConfigSpaceModel UtilsModel IceModel PartitionModel PartitionSpec
  PartitionProofs PartitionProofs2 PartitionProofs3 B64Proofs RoundSpec RoundProofs Witness PartitionMetaWitness.
Local Open Scope string_scope.
Local Open Scope nat_scope.
Local Open Scope list_scope.

Section E.
Variables fe fln fr : b64 -> b64.
Notation BN := (B64 fe fln fr).

(** ** sums of the same numbers that differ *)
Definition r_tenth : BN := fl 7205759403792794 (-56).  (* 0.1 *)
Definition r_row : list BN := [n1; r_tenth; r_tenth; r_tenth].
Definition r_pairs : BN := nadd (nadd n1 r_tenth) (nadd r_tenth r_tenth).
Lemma r_pairs_added : added 2 r_row r_pairs.
Proof.
  apply (added_both 1 1 [n1; r_tenth] [r_tenth; r_tenth]); apply (added_both 0 0 [_] [_]); apply added_one.
Qed.
Lemma small_fits (x : BN) : is_finite (x : b64) = true -> nle (nofZ (-1)) x = true -> nle x n1 = true -> fits fe fln fr 1 x.
Proof.
  intros F L U. split; [exact F|]. destruct (ofZ_exact fe fln fr (-1) ltac:(lia)) as [F1 V1]. destruct (ofZ_exact fe fln fr 1 ltac:(lia)) as [F2 V2].
  change (Bleb (nofZ (-1) : BN) (x : b64) = true) in L. change (Bleb (x : b64) (nofZ 1 : BN) = true) in U. unfold B64Proofs.val, B64Proofs.fin in *.
  rewrite (Bleb_correct 53 1024 _ _ F1 F) in L. rewrite (Bleb_correct 53 1024 _ _ F F2) in U.
  destruct (Rle_bool_spec (B2R (nofZ (-1) : BN)) (B2R (x : b64))) as [A|A]; [|discriminate L].
  destruct (Rle_bool_spec (B2R (x : b64)) (B2R (nofZ 1 : BN))) as [B|B]; [|discriminate U].
  rewrite V1 in A. rewrite V2 in B. apply Rabs_le. lra.
Qed.
Lemma r_row_fits : Forall (fits fe fln fr 1) r_row.
Proof. unfold r_row. do 4 (apply Forall_cons; [apply small_fits; vm_compute; reflexivity|]). apply Forall_nil. Qed.
Lemma r_differ : neqb (ndiv r_pairs (nofZ 4)) (nmean r_row) = false.
Proof. vm_compute. reflexivity. Qed.

(** ** a tree: the deviation is 3/4 where b is above 1/2 and 1/4 elsewhere *)
Definition r_step : predictor BN := fun rows => Ok (map (fun _ => n0) rows, map (fun r => if nlt (fl 1 (-1) : BN) (nth 1 r n0) then hi : BN else lo) rows).
Definition r_setup : setup BN := m_setup fe fln fr (m_rows1 fe fln fr) r_step.
Lemma r_setup_ok : setup_ok r_setup.
Proof.
  split; [|split].
  - cbn. repeat constructor; cbn; intuition discriminate.
  - cbn. repeat constructor.
  - cbn. lia.
Qed.
Lemma r_setup_fits : deviations_fit 1%R r_setup.
Proof.
  intros rows means stds E. cbn in E. injection E as _ <-. rewrite Forall_map. apply Forall_forall. intros row _.
  destruct (Bltb _ _); apply small_fits; vm_compute; reflexivity.
Qed.
Lemma r_run : exists p q c a b l r, construct r_setup = Ok p /\ reaches r_setup q /\ q = fst (partition p 1) /\ nth_error (d_heap q) 0 = Some c /\
  n_left c = Some a /\ n_right c = Some b /\ deref q a = Some l /\ deref q b = Some r /\
  region_len (n_region (n_node c)) = 5 /\ width (r_v (n_region (n_node c))) = 1 /\
  (region_len (n_region l), region_len (n_region r)) = (3, 2) /\ map (fun x => hp_name (c_hp x)) (n_conds l) = ["b"].
Proof.
  set (p := the_obj fe fln fr r_setup).
  assert (C : construct r_setup = Ok p) by (apply obj_ok; vm_compute; reflexivity).
  set (q := fst (partition p 1)).
  assert (H : match nth_error (d_heap q) 0 with Some c => match n_left c, n_right c with Some a, Some b => match deref q a, deref q b with Some l, Some r =>
    (region_len (n_region (n_node c)), width (r_v (n_region (n_node c))), (region_len (n_region l), region_len (n_region r)), map (fun x => hp_name (c_hp x)) (n_conds l)) | _, _ => (0, 0, (0, 0), []) end | _, _ => (0, 0, (0, 0), []) end | None => (0, 0, (0, 0), []) end = (5, 1, (3, 2), ["b"])) by (vm_compute; reflexivity).
  destruct (nth_error (d_heap q) 0) as [c|] eqn:E1; [|discriminate]. destruct (n_left c) as [a|] eqn:E2; [|discriminate]. destruct (n_right c) as [b|] eqn:E3; [|discriminate].
  destruct (deref q a) as [l|] eqn:E4; [|discriminate]. destruct (deref q b) as [r|] eqn:E5; [|discriminate]. injection H as H1 H2 H3 H4 H5.
  exists p, q, c, a, b, l, r. rewrite E2, E3, H3, H4. repeat (split; [try assumption; try reflexivity|]); try assumption.
  exists p, [1]. split; [exact C|reflexivity].
Qed.
Lemma r_slack : (2 * slack 5 1 (2 * (1 * 1)) < bpow radix2 (-40))%R.
Proof.
  unfold slack. change (bpow radix2 (-50)) with (bpow radix2 (-10 + -40)). rewrite bpow_plus. change (bpow radix2 (-10)) with (/ 1024)%R.
  pose proof (bpow_gt_0 radix2 (-40)) as P. revert P. generalize (bpow radix2 (-40)). intros e P. cbn [Nat.mul Nat.add INR]. lra.
Qed.
End E.
