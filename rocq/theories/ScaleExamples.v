(** ScaleExamples.v - concrete cases for C114. *)
From Coq Require Import Reals Lra.
From Flocq Require Import Core.Core IEEE754.BinarySingleNaN.
From Verif Require Import Base Num NumLaws NumpyModel ConfigSpaceModel UtilsModel IceModel PartitionModel PartitionSpec B64Proofs ScaleSpec Witness.
Local Open Scope R_scope.
Local Open Scope string_scope.
Local Open Scope list_scope.

Lemma some_inj {A} (x y : A) : Some x = Some y -> x = y.
Proof. congruence. Qed.
Lemma kfloat_inj {N : Num} (a b a' b' : N) l l' : KFloat a b l = KFloat a' b' l' -> a = a' /\ b = b'.
Proof. intro H. inversion H. auto. Qed.

Section Float.
Variables fe fln fr : b64 -> b64.
Notation BN := (B64 fe fln fr).

Lemma fl_exact m e : (Z.abs m < 2 ^ 53)%Z -> (-1074 <= e)%Z -> (e <= 900)%Z -> fin fe fln fr (Witness.fl m e) /\ val fe fln fr (Witness.fl m e) = F2R (Float radix2 m e).
Proof.
  intros Hm He He'. pose proof (binary_normalize_correct 53 1024 prec53 emax1024 mode_NE m e false) as K. cbv zeta in K.
  assert (F : fmt (F2R (Float radix2 m e))).
  { apply (generic_format_FLT radix2 (-1074) 53). exists (Float radix2 m e); cbn [Fnum Fexp]; [reflexivity|exact Hm|exact He]. }
  change (round _ _ _ (F2R (Float radix2 m e))) with (RN (F2R (Float radix2 m e))) in K. rewrite (RN_generic _ F) in K.
  rewrite Rlt_bool_true in K; [split; apply K|]. rewrite <- F2R_Zabs.
  apply (Rlt_le_trans _ (F2R (Float radix2 (2 ^ 53) e))); [apply F2R_lt; exact Hm|].
  unfold F2R. cbn [Fnum Fexp]. change (IZR (2 ^ 53)) with (bpow radix2 53). rewrite <- bpow_plus. apply bpow_le. lia.
Qed.

(** an axis from -3 to 0.1 (the float next to 1/10) *)
Definition sc_lo : BN := Witness.fl (-3) 0.
Definition sc_up : BN := Witness.fl 7205759403792794 (-56).
Definition sc_hp : hp BN := mkhp "x" (KFloat sc_lo sc_up false).
Definition sc_cs : cspace BN := [sc_hp].
Lemma sc_axis : linear_axis fe fln fr sc_hp sc_lo sc_up.
Proof.
  destruct (fl_exact (-3) 0) as [F1 V1]; [lia|lia|lia|]. destruct (fl_exact 7205759403792794 (-56)) as [F2 V2]; [lia|lia|lia|].
  assert (E1 : val fe fln fr sc_lo = -3) by (unfold sc_lo; rewrite V1; unfold F2R; cbn; lra).
  assert (E2 : val fe fln fr sc_up = 7205759403792794 * / 72057594037927936) by (unfold sc_up; rewrite V2; unfold F2R; cbn; lra).
  assert (B : 4 <= bpow radix2 900) by (apply (Rle_trans _ (bpow radix2 2)); [cbn; lra|apply bpow_le; lia]).
  assert (B0 : bpow radix2 (-1000) <= 1) by (apply (Rle_trans _ (bpow radix2 0)); [apply bpow_le; lia|cbn; lra]).
  split; [reflexivity|]. split; [|split].
  - split; [exact F1|]. rewrite E1. unfold Rabs. destruct (Rcase_abs _); lra.
  - split; [exact F2|]. rewrite E2. rewrite Rabs_pos_eq; lra.
  - rewrite E1, E2. lra.
Qed.
(** the right end of the axis in the array version of unscale is above the upper bound; unscale_float clamps *)
Lemma sc_beyond : exists row : list BN, unscale (A1 [n1]) sc_cs = Ok (A1 row) /\ nlt sc_up (nth 0 row n0) = true /\
  exists u, unscale_float n1 sc_cs sc_hp = Ok u /\ neqb (n:=BN) u sc_up = true.
Proof.
  assert (E : match unscale (A1 [n1 : BN]) sc_cs with Ok (A1 row) => nlt sc_up (nth 0 row n0) | _ => false end = true) by (vm_compute; reflexivity).
  assert (E' : match unscale_float n1 sc_cs sc_hp with Ok u => neqb (n:=BN) u sc_up | _ => false end = true) by (vm_compute; reflexivity).
  destruct (unscale (A1 [n1 : BN]) sc_cs) as [[]|]; try discriminate. eexists. split; [reflexivity|]. split; [exact E|].
  destruct (unscale_float n1 sc_cs sc_hp); try discriminate. eexists. split; [reflexivity|exact E'].
Qed.

(** the space of C03_binary64_refuted with samples away from the split value 1/2 *)
Definition sc_setup : setup BN :=
  mksetup (w_rnd_cs fe fln fr) w_predict (SelOne (SName "a")) [[Witness.fl 1 (-1); Witness.fl 1 (-2)]; [Witness.fl 1 (-1); Witness.fl 3 (-2)]; [Witness.fl 1 0; Witness.fl 1 (-1)]] 2 1 1 None.
Lemma sc_space : linear_space fe fln fr (su_cs sc_setup).
Proof.
  assert (B0 : bpow radix2 (-1000) <= 1) by (apply (Rle_trans _ (bpow radix2 0)); [apply bpow_le; lia|cbn; lra]).
  repeat (apply Forall_cons || apply Forall_nil).
  - exists n0, n1. split; [reflexivity|]. split; [apply (bounded_Z fe fln fr 0); lia|]. split; [apply (bounded_Z fe fln fr 1); lia|].
    change (val fe fln fr n1) with (val fe fln fr (nofZ 1)). change (val fe fln fr n0) with (val fe fln fr (nofZ 0)).
    rewrite (proj2 (ofZ_exact fe fln fr 0 ltac:(lia))), (proj2 (ofZ_exact fe fln fr 1 ltac:(lia))). lra.
  - exists (nofZ 1000), (nofZ 1001). split; [reflexivity|]. split; [apply (bounded_Z fe fln fr 1000); lia|]. split; [apply (bounded_Z fe fln fr 1001); lia|].
    rewrite (proj2 (ofZ_exact fe fln fr 1000 ltac:(lia))), (proj2 (ofZ_exact fe fln fr 1001 ltac:(lia))). lra.
Qed.
Lemma fl_unit m e : (0 <= m < 2 ^ 53)%Z -> (-1074 <= e)%Z -> (e <= 0)%Z -> (m <= 2 ^ (- e))%Z -> unit_coord fe fln fr (Witness.fl m e).
Proof.
  intros Hm He He' Hle. destruct (fl_exact m e ltac:(lia) He ltac:(lia)) as [F V]. split; [exact F|]. rewrite V. split.
  - apply F2R_ge_0. cbn. lia.
  - unfold F2R. cbn [Fnum Fexp]. replace 1 with (bpow radix2 (- e) * bpow radix2 e) by (rewrite <- bpow_plus; replace (- e + e)%Z with 0%Z by lia; reflexivity).
    apply Rmult_le_compat_r; [apply bpow_ge_0|]. rewrite <- (IZR_Zpower radix2 (- e)) by lia. apply IZR_le. exact Hle.
Qed.
Lemma sc_units : Forall (Forall (unit_coord fe fln fr)) (su_samples sc_setup).
Proof. cbn [su_samples sc_setup]. repeat (apply Forall_cons || apply Forall_nil); apply fl_unit; lia. Qed.
Lemma sc_split : forall v : BN, In v (possible_split_vals (N:=BN) 1) -> val fe fln fr v = / 2.
Proof.
  intros v Hv. destruct (fl_exact 1 (-1) ltac:(lia) ltac:(lia) ltac:(lia)) as [Fh Vh].
  assert (E : match possible_split_vals (N:=BN) 1 with [w] => neqb (n:=BN) w (Witness.fl 1 (-1)) && is_finite (w : b64) | _ => false end = true) by (vm_compute; reflexivity).
  destruct (possible_split_vals (N:=BN) 1) as [|w [|]]; try discriminate. destruct Hv as [->|[]]. apply andb_prop in E. destruct E as [E F].
  pose proof (Beqb_correct 53 1024 v (Witness.fl 1 (-1)) F Fh) as C. change (Beqb v (Witness.fl 1 (-1))) with (neqb (n:=BN) v (Witness.fl 1 (-1))) in C. rewrite E in C.
  destruct (Req_bool_spec (B2R (v : b64)) (B2R (Witness.fl 1 (-1)))) as [Q|Q]; [|discriminate].
  change (val fe fln fr v = val fe fln fr (Witness.fl 1 (-1))) in Q. rewrite Q, Vh. unfold F2R. cbn. lra.
Qed.
Lemma sc_clear : Forall (clear_of_splits sc_setup) (su_samples sc_setup).
Proof.
  assert (G : bpow radix2 (-52) <= / 1048576) by (replace (/ 1048576) with (bpow radix2 (-20)) by (cbn; lra); apply bpow_le; lia).
  pose proof (bpow_gt_0 radix2 (-52)) as G0.
  assert (G1 : coord_gap 0 1 <= / 4).
  { unfold coord_gap, bound_size. rewrite Rabs_R0, Rabs_R1, Rmax_right by lra. replace (1 / (1 - 0) + 4) with 5 by field. lra. }
  assert (G2 : coord_gap 1000 1001 <= / 4).
  { unfold coord_gap, bound_size. rewrite !Rabs_pos_eq by lra. rewrite Rmax_right by lra. replace (1001 / (1001 - 1000) + 4) with 1005 by field. lra. }
  assert (V : forall m e, (Z.abs m < 2 ^ 53)%Z -> (-1074 <= e <= 900)%Z -> val fe fln fr (Witness.fl m e) = IZR m * bpow radix2 e).
  { intros m e Hm He. rewrite (proj2 (fl_exact m e Hm ltac:(lia) ltac:(lia))). reflexivity. }
  assert (Z0 : val fe fln fr n0 = 0) by (exact (proj2 (ofZ_exact fe fln fr 0 ltac:(lia)))).
  assert (Z1 : val fe fln fr n1 = 1) by (exact (proj2 (ofZ_exact fe fln fr 1 ltac:(lia)))).
  assert (K1 : val fe fln fr (nofZ 1000) = 1000) by (exact (proj2 (ofZ_exact fe fln fr 1000 ltac:(lia)))).
  assert (K2 : val fe fln fr (nofZ 1001) = 1001) by (exact (proj2 (ofZ_exact fe fln fr 1001 ltac:(lia)))).
  assert (H12 : val fe fln fr (Witness.fl 1 (-1)) = / 2) by (rewrite V by lia; cbn; lra).
  assert (H14 : val fe fln fr (Witness.fl 1 (-2)) = / 4) by (rewrite V by lia; cbn; lra).
  assert (H34 : val fe fln fr (Witness.fl 3 (-2)) = 3 / 4) by (rewrite V by lia; cbn; lra).
  assert (H11 : val fe fln fr (Witness.fl 1 0) = 1) by (rewrite V by lia; cbn; lra).
  cbn [su_samples sc_setup]. repeat (apply Forall_cons || apply Forall_nil); intros j h lo up x v Hj K Hx Hv; apply sc_split in Hv; rewrite Hv;
    (destruct j as [|[|j]]; cbn [su_cs sc_setup w_rnd_cs nth_error] in Hj, Hx; [| |destruct j; discriminate]);
    apply some_inj in Hj; subst h; cbn [hp_kind] in K; apply kfloat_inj in K; destruct K as [<- <-]; apply some_inj in Hx; subst x;
    rewrite ?H12, ?H14, ?H34, ?H11, ?Z0, ?Z1, ?K1, ?K2; lra.
Qed.
Lemma sc_setup_ok : setup_ok sc_setup.
Proof. split; [repeat constructor; cbn; intuition discriminate|]. split; [repeat constructor|]. cbn. repeat split; try lia. Qed.
Definition sc_obj : dtp BN := match construct sc_setup with Ok p => p | Err _ => mkdtp [] [] [] 0 0 [] [] end.
Lemma sc_ok : construct sc_setup = Ok sc_obj.
Proof. unfold sc_obj. apply (obj_ok sc_setup). vm_compute. reflexivity. Qed.
Lemma sc_leaves : exists p' ids, partition sc_obj 1 = (p', Ok ids) /\ reaches sc_setup p' /\
  map (fun id => option_map (fun nd => (region_len (n_region nd), map c_le (n_conds nd),
     map (fun row => match config_of_vector (su_cs sc_setup) row with Ok c => contains (su_cs sc_setup) (n_conds nd) c | Err e => Err e end) (su_samples sc_setup))) (deref p' id)) ids
  = [Some (1, [false], [Ok false; Ok true; Ok false]); Some (2, [true], [Ok true; Ok false; Ok true])]%nat.
Proof.
  destruct (run_check sc_obj 1 (fun p' ids => map (fun id => option_map (fun nd => (region_len (n_region nd), map c_le (n_conds nd),
     map (fun row => match config_of_vector (su_cs sc_setup) row with Ok c => contains (su_cs sc_setup) (n_conds nd) c | Err e => Err e end) (su_samples sc_setup))) (deref p' id)) ids)
    [Some (1, [false], [Ok false; Ok true; Ok false]); Some (2, [true], [Ok true; Ok false; Ok true])]%nat) as (p' & ids & E & Q).
  { vm_compute. reflexivity. }
  exists p', ids. split; [exact E|]. split; [|exact Q]. exists sc_obj, [1%nat]. split; [exact sc_ok|]. unfold run_history. cbn [fold_left]. rewrite E. reflexivity.
Qed.
Lemma sc_reaches : exists p, reaches sc_setup p.
Proof. exists sc_obj, sc_obj, []. split; [exact sc_ok|reflexivity]. Qed.
End Float.
