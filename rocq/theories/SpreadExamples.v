(** SpreadExamples.v - concrete cases for C115. *)
From Coq Require Import Reals Lra.
From Coquelicot Require Import Coquelicot.
From Verif Require Import Base Num NumLaws NumpyModel ConfigSpaceModel UtilsModel IceModel ListLemmas IceProofs IceProofs2 UtilsProofs
  RealSums IceShapeSpec SyntheticModel SpreadSpec SpreadProofs SpreadSynSpec SpreadIce SpreadGrid SpreadSynthetic.
Local Open Scope R_scope.
Local Open Scope list_scope.

(** the two-dimensional Styblinski-Tang function on its default space, x1 selected, k samples with x2 = 0, 1/(k-1), .., 1 *)
Definition sp1 : hp RNum := mkhp "x1" (KFloat (-5 : RNum) (5 : RNum) false).
Definition sp2 : hp RNum := mkhp "x2" (KFloat (-5 : RNum) (5 : RNum) false).
Definition sp_axes (k : nat) : list (list R) := [[0]; linspace (N:=RNum) (0 : R) (1 : R) k].
Definition sp_alg (k : nat) : algorithm RNum := mkalg (N:=RNum) [sp1; sp2] [sp1] (grid_rows (sp_axes k)) 3.

Lemma sp_rows k row : In row (grid_rows (sp_axes k)) -> length row = 2%nat /\ in_cube row.
Proof.
  intro H. destruct (grid_columns _ _ H) as [L G]. split; [exact L|]. destruct (G 0%nat [0] eq_refl) as (x & Ex & [<-|[]]). destruct (G 1%nat _ eq_refl) as (y & Ey & Hy).
  pose proof (evenly_unit _ _ (linspace_R 0 1 k)) as F. rewrite Forall_forall in F. specialize (F y Hy).
  destruct row as [|x0 [|y0 [|z row]]]; try discriminate L. cbn in Ex, Ey. injection Ex as ->. injection Ey as ->. constructor; [lra|constructor; [lra|constructor]].
Qed.
Lemma sp_spread k : (0 < k)%nat -> spread [(1%nat, k)] (grid_rows (sp_axes k)).
Proof.
  intro Hk. apply grid_spread.
  - unfold sp_axes. apply Forall_cons; [discriminate|apply Forall_cons; [|apply Forall_nil]]. intro E. pose proof (f_equal (@length R) E) as Q. rewrite (proj1 (linspace_R 0 1 k)) in Q. cbn in Q. lia.
  - repeat constructor. intros [].
  - intros j k' [E|[]]. injection E as <- <-. exists (linspace (N:=RNum) (0 : R) (1 : R) k). split; [reflexivity|]. split; [apply (proj1 (linspace_R 0 1 k))|]. apply (evenly_cells _ k). apply linspace_R.
Qed.
Lemma sp_names : NoDup (map hp_name [sp1; sp2]).
Proof. cbn. repeat constructor; cbn; intuition discriminate. Qed.
Lemma sp_linear : Forall linear_float [sp1; sp2].
Proof. apply Forall_cons; [|apply Forall_cons; [|apply Forall_nil]]; exists (-5), 5; (split; [reflexivity|lra]). Qed.
Lemma sp_rest k : rest_of (sp_alg k) [1%nat].
Proof.
  intro j. unfold rest_of, num_features, not_selected. cbn [sp_alg a_cs a_sel length map hp_name sp1]. split.
  - intros [<-|[]]. split; [lia|]. intros h E. injection E as <-. cbn. intros [E|[]]. discriminate E.
  - intros [Hj H]. destruct j as [|[|j]]; [|left; reflexivity|lia]. exfalso. apply (H sp1 eq_refl). left. reflexivity.
Qed.
Lemma sp_rest_names h : In h [sp2] <-> In h [sp1; sp2] /\ ~ In (hp_name h) (map hp_name [sp1]).
Proof.
  split.
  - intros [<-|[]]. split; [right; left; reflexivity|]. cbn. intros [E|[]]. discriminate E.
  - intros [[<-|[<-|[]]] H]; [exfalso; apply H; left; reflexivity|left; reflexivity].
Qed.

(** with k samples the PDP is within 1725 / k of the function that pd_integral gives, at all three grid points *)
Theorem sp_close k (s : list R -> R) : (0 < k)%nat -> exists d, ice_calculate (sp_alg k) false (rowwise (N:=RNum) (exact_model [sp1; sp2]) s) = Ok d /\
  forall g, (g < 3)%nat -> exists row c y p v, nth_error (x_pdp (sp_alg k) d) g = Some row /\ config_of_vector (N:=RNum) [sp1; sp2] row = Ok c /\
    nth_error (y_pdp (sp_alg k) d) g = Some y /\ pd_integral [sp1; sp2] [SName "x2"] = Ok p /\ fst p = [sp1] /\
    (forall c', config_get c' "x1" = config_get c "x1" -> pd_value p c' = Ok v) /\ Rabs (y - v) <= 1725 / INR k.
Proof.
  intro Hk. assert (RC : rect (num_features (sp_alg k)) (a_samples (sp_alg k))) by (apply Forall_forall; intros row H; apply (sp_rows k row H)).
  assert (HC : Forall in_cube (a_samples (sp_alg k))) by (apply Forall_forall; intros row H; apply (sp_rows k row H)).
  destruct (ice_calculate_total (sp_alg k) false (rowwise (N:=RNum) (exact_model [sp1; sp2]) s)) as (d & Hd).
  - exact RC.
  - repeat constructor.
  - discriminate.
  - cbn. lia.
  - intro rows. do 2 eexists. split; [reflexivity|]. rewrite !map_length. auto.
  - exists d. split; [exact Hd|]. intros g Hg.
    destruct (pdp_stybtang (sp_alg k) s d [(1%nat, k)] [SName "x2"] [sp2] (345 / 2) g sp_linear sp_names RC HC Hd) as (row & c & y & p & v & E1 & E2 & E3 & E4 & E5 & E6 & E7).
    + repeat constructor. intros [].
    + exact (sp_rest k).
    + exact (sp_spread k Hk).
    + discriminate.
    + reflexivity.
    + repeat constructor. intros [].
    + exact sp_rest_names.
    + constructor; [|constructor]. apply slope_default. cbn. lra.
    + exact Hg.
    + exists row, c, y, p, v. repeat (split; [assumption|]). pose proof E4 as E4'. cbn in E4'. injection E4' as E4'. rewrite <- E4' in E6 |- *. cbn [fst].
      split; [reflexivity|]. split.
      * intros c' H. apply E6. intros h [<-|[]]. exact H.
      * refine (Rle_trans _ _ _ E7 _). unfold spread_error. cbn. apply Req_le. unfold hp_width. cbn. field. apply not_0_INR. lia.
Qed.
