(** ExperimentProofs2.v - the true partial dependence that visualize_bad_nll draws (C103). *)
From Coq Require Import Reals Lra Lia.
From Coquelicot Require Import Coquelicot.
From Verif Require Import Base Num NumLaws NumpyModel ConfigSpaceModel UtilsModel IceModel PartitionModel RealProofs RealSums SyntheticModel SyntheticSpec SyntheticPd SyntheticProofs NllModel NllSpec NllProofs ExperimentModel.
Local Open Scope R_scope.
Local Open Scope list_scope.

Lemma names_convert (fcs hps : cspace RNum) : NoDup (map hp_name fcs) -> incl hps fcs ->
  convert_hyperparameters (N:=RNum) (SelList (map (fun k => SName (hp_name k)) hps)) fcs = Ok hps.
Proof.
  intros ND I. cbn [convert_hyperparameters]. induction hps as [|k hps IH]; [reflexivity|]. cbn [map mapM sel_item].
  rewrite (proj1 (cs_get_in fcs k ND (I k (or_introl eq_refl)))). cbn [bind]. rewrite IH by (intros x Hx; apply I; right; exact Hx). reflexivity.
Qed.
Lemma not_selected_names h (cs fcs : cspace RNum) : map hp_name fcs = map hp_name cs ->
  map (fun k => SName (N:=RNum) (hp_name k)) (not_selected [h] cs) = map (fun k => SName (N:=RNum) (hp_name k)) (not_selected [h] fcs).
Proof.
  revert fcs. induction cs as [|k cs IH]; intros [|k' fcs] E; try discriminate; [reflexivity|]. injection E as E0 E. specialize (IH fcs E).
  unfold not_selected in *. cbn [filter]. rewrite E0. destruct (negb _); [cbn [map]; rewrite E0; f_equal; exact IH|exact IH].
Qed.

Lemma shift_mean (c A S n : R) : n <> 0 -> c + A + S / n = (n * c + S) / n + (c + A - c).
Proof. intro. field. assumption. Qed.

Section Drawn.
Variables (h : hp RNum) (u : R).
Lemma integral_of (fcs : cspace RNum) : NoDup (map hp_name fcs) -> Forall float_range fcs -> In h fcs -> (2 <= length fcs)%nat ->
  pd_integral fcs (map (fun k => SName (hp_name k)) (not_selected [h] fcs)) = Ok ([h], rsum (map hp_mean (not_selected [h] fcs))) /\
  true_pd fcs h u = (u ^ 4 - 16 * u ^ 2 + 5 * u) / 2 + rsum (map hp_mean (not_selected [h] fcs)).
Proof.
  intros ND FR IN L. assert (NE : not_selected [h] fcs <> []) by exact (sty_others fcs h (mkregion (N:=RNum) [[[]]] [[0]] [[0]]) ND FR IN L (le_n 1) eq_refl eq_refl).
  assert (IC : incl (not_selected [h] fcs) fcs) by (intros k Hk; apply filter_In in Hk; tauto).
  assert (FO : Forall float_range (not_selected [h] fcs)) by (apply Forall_forall; intros k Hk; exact (proj1 (Forall_forall _ _) FR k (IC k Hk))).
  split.
  - unfold pd_integral. rewrite map_length, (names_convert fcs _ ND IC). destruct (not_selected [h] fcs) eqn:E; [congruence|]. cbn [length Nat.eqb negb guard bind].
    rewrite <- E, pd_offset_mean by (rewrite E; exact FO). cbn [bind]. rewrite (not_selected_space fcs h ND IN). reflexivity.
  - unfold true_pd. rewrite (average_ext _ _ (asum fcs)) by (intro b; rewrite stybtang_at; reflexivity).
    rewrite average_sum; [|exact ND|apply nodup_filter; exact ND|exact IC|exact FO].
    f_equal. change (others (not_selected [h] fcs) fcs) with (pd_space fcs (not_selected [h] fcs)). rewrite (not_selected_space fcs h ND IN).
    unfold asum, g. cbn. ring.
Qed.

Theorem drawn_truth_value (cs : cspace RNum) spaces : NoDup (map hp_name cs) -> Forall float_range cs -> In h cs -> (2 <= length cs)%nat -> spaces <> [] ->
  Forall (fun fcs => map hp_name fcs = map hp_name cs /\ Forall float_range fcs /\ In h fcs) spaces ->
  drawn_truth cs h spaces u = Ok (Rmean (map (fun fcs => true_pd fcs h u) spaces) + (true_pd cs h u - (u ^ 4 - 16 * u ^ 2 + 5 * u) / 2)).
Proof.
  intros ND FR IN L NE F. destruct (integral_of cs ND FR IN L) as (EI & ET). unfold drawn_truth.
  assert (EM : mapM (fun fcs => p <- pd_integral fcs (map (fun k => SName (hp_name k)) (not_selected [h] cs)) ;; Ok (snd p)) spaces =
    Ok (map (fun fcs => rsum (map hp_mean (not_selected [h] fcs))) spaces) /\
    map (fun fcs => true_pd fcs h u) spaces = map (fun fcs => (u ^ 4 - 16 * u ^ 2 + 5 * u) / 2 + rsum (map hp_mean (not_selected [h] fcs))) spaces).
  { clear NE. induction F as [|fcs spaces (En & Ff & Hi) F (IH1 & IH2)]; [split; reflexivity|].
    assert (NDf : NoDup (map hp_name fcs)) by (rewrite En; exact ND).
    assert (Lf : (2 <= length fcs)%nat) by (rewrite <- (map_length hp_name), En, map_length; exact L).
    destruct (integral_of fcs NDf Ff Hi Lf) as (E1 & E2). cbn [mapM map]. rewrite (not_selected_names h cs fcs En), E1. cbn [bind snd].
    rewrite <- (not_selected_names h cs fcs En), IH1. cbn [bind]. split; [reflexivity|]. rewrite E2, IH2. reflexivity. }
  destruct EM as (EM & EA). rewrite EM. cbn [bind]. rewrite EI. cbn [bind]. unfold pd_value. cbn [fst snd]. 
  assert (EV : stybtang_value [h] [(hp_name h, VNum (N:=RNum) u)] = Ok ((u ^ 4 - 16 * u ^ 2 + 5 * u) / 2)).
  { change [(hp_name h, VNum (N:=RNum) u)] with (conf_at [h] (fun _ => u)). rewrite stybtang_at. unfold asum, g. cbn. f_equal. ring. }
  rewrite EV. cbn [bind]. f_equal. rewrite EA, ET.
  assert (FL : forall l a, fold_left Rplus l a = a + Rsum l).
  { induction l as [|x l IH]; intro a; cbn [fold_left Rsum]; [lra|]. rewrite IH. lra. }
  rewrite FL, Rplus_0_l. unfold Rmean. rewrite map_length. set (c := (u ^ 4 - 16 * u ^ 2 + 5 * u) / 2).
  assert (SM : Rsum (map (fun fcs => c + rsum (map hp_mean (not_selected [h] fcs))) spaces) = INR (length spaces) * c + Rsum (map (fun fcs => rsum (map hp_mean (not_selected [h] fcs))) spaces)).
  { clear. induction spaces as [|f l IH]; [cbn; lra|]. cbn [map Rsum length]. rewrite IH, S_INR. ring. }
  rewrite SM. apply shift_mean. apply not_0_INR. destruct spaces; [congruence|discriminate].
Qed.
End Drawn.

(** three hyperparameters on [-5, 5], as for_n_dimensions(3) *)
Definition styb3 : cspace RNum := [mkhp "x1" (KFloat (-5 : RNum) (5 : RNum) false); mkhp "x2" (KFloat (-5 : RNum) (5 : RNum) false); mkhp "x3" (KFloat (-5 : RNum) (5 : RNum) false)].
Lemma styb3_ok : NoDup (map hp_name styb3) /\ Forall float_range styb3.
Proof. split; [cbn; repeat constructor; cbn; intuition discriminate|]. repeat constructor; exists (-5), 5, false; (split; [reflexivity|lra]). Qed.
Definition styb3_x1 : hp RNum := mkhp "x1" (KFloat (-5 : RNum) (5 : RNum) false).
Theorem drawn_truth_off u : drawn_truth styb3 styb3_x1 [styb3] u = Ok (true_pd styb3 styb3_x1 u - 25 / 3).
Proof.
  destruct styb3_ok as (ND & FR). rewrite drawn_truth_value; auto; [|left; reflexivity|cbn; lia|discriminate|constructor; [refine (conj eq_refl (conj FR _)); left; reflexivity|constructor]].
  f_equal. unfold Rmean. cbn [map Rsum length INR]. 
  rewrite (proj2 (integral_of styb3_x1 u styb3 ND FR (or_introl eq_refl) ltac:(cbn; lia))).
  unfold styb3_x1. cbn [not_selected filter map existsb styb3 hp_name String.eqb Ascii.eqb Bool.eqb orb negb rsum fold_right]. unfold hp_mean. cbn [hp_kind]. unfold stybtang_integral. field.
Qed.
