(** AnalysisExamples.v - two repetitions on k evenly spread samples each (C119). *)
From Coq Require Import Reals Lra Lia.
From Coquelicot Require Import Coquelicot.
From Verif Require Import Base Num NumpyModel ConfigSpaceModel UtilsModel IceModel RealSums PlottingModel DrawModel DrawSpec NllSpec SpreadSpec SpreadProofs SpreadSynSpec SpreadSynthetic SpreadGrid SpreadExamples
  AnalysisModel AnalysisSpec AnalysisProofs.
Local Open Scope R_scope.
Local Open Scope list_scope.

(** the Styblinski-Tang function itself with deviation 0, and the function plus 1 with deviation 2 *)
Definition an_models : list ((list R -> R) * (list R -> R)) :=
  [(exact_model [sp1; sp2], fun _ => 0); (fun row => exact_model [sp1; sp2] row + 1, fun _ => 2)].
Definition an_rep (k : nat) (m : (list R -> R) * (list R -> R)) : repetition RNum :=
  mkrep (N:=RNum) (fun rows => Ok (map (fst m) rows, map (snd m) rows)) (grid_rows (sp_axes k)).
Definition an_reps (k : nat) : list (repetition RNum) := map (an_rep k) an_models.

Lemma an_space : NoDup (map hp_name [sp1; sp2]) /\ Forall linear_float [sp1; sp2] /\ Forall (fun k => slope_at_most k (345 / 2)) [sp1; sp2].
Proof.
  split; [cbn; repeat constructor; cbn; intuition discriminate|]. split.
  - apply Forall_forall. intros h [<-|[<-|[]]]; exists (-5), 5; (split; [reflexivity|lra]).
  - apply Forall_forall. intros h [<-|[<-|[]]]; apply slope_default; cbn; lra.
Qed.
Lemma an_sound k : (0 < k)%nat -> Forall2 (sound_repetition [sp1; sp2]) (an_reps k) an_models.
Proof.
  intro Hk. unfold an_reps. generalize an_models. intro l. induction l as [|m l IH]; constructor; [|exact IH]. split; [reflexivity|]. split.
  - apply Forall_forall. intros row Hr. exact (sp_rows k row Hr).
  - exact (spread_nonempty _ _ (sp_spread k Hk)).
Qed.
Lemma an_deviations k : (0 < k)%nat -> map sqrt (mean_of_averages [sp1; sp2] sp1 3 variance_part (combine (an_reps k) an_models)) = [sqrt 2; sqrt 2; sqrt 2].
Proof.
  intro Hk. pose proof (spread_nonempty _ _ (sp_spread k Hk)) as Ne. unfold mean_of_averages. rewrite map_map.
  assert (A : forall c : R, DrawSpec.average (fun _ : list R => c) (grid_rows (sp_axes k)) = c).
  { intro c. rewrite average_is_mean. apply Rmean_const; [intro Q; apply map_eq_nil in Q; contradiction|]. apply Forall_forall. intros x Hx. apply in_map_iff in Hx. destruct Hx as (? & <- & _). reflexivity. }
  assert (B : forall u, sqrt (Rmean (map (fun q => DrawSpec.average (fun row => variance_part (snd q) (with_value [sp1; sp2] sp1 u row)) (rp_samples (N:=RNum) (fst q))) (combine (an_reps k) an_models))) = sqrt 2).
  { intro u. f_equal. unfold an_reps, an_models. cbn [map combine fst snd rp_samples an_rep variance_part]. unfold variance_part. cbn [snd fst].
    etransitivity; [apply f_equal; apply f_equal2; [exact (A (0 * 0))|apply f_equal2; [exact (A (2 * 2))|reflexivity]]|]. unfold Rmean. cbn. lra. }
  cbn [positions map seq]. rewrite !B. reflexivity.
Qed.

Theorem an_example (blue lightblue black cycle : nat) k : (0 < k)%nat ->
  exists ys ca cb, panel blue lightblue black cycle [sp1; sp2] (SelList [SName "x1"]) 3 (truth_of [sp1; sp2] ["x1"%string]) (an_reps k) = ((ca, cb), Ok tt) /\
    cv_drawn cb = [(cycle, CPlot (N:=RNum) [-5; 0; 5] [sqrt 2; sqrt 2; sqrt 2] None)] /\
    nth_error (cv_drawn ca) 0 = Some (blue, CPlot (N:=RNum) [-5; 0; 5] ys None) /\
    (forall i x y, nth_error [-5; 0; 5] i = Some x -> nth_error ys i = Some y -> Rabs (y - true_pd [sp1; sp2] sp1 x) <= 1 + 1725 / INR k) /\
    figure blue lightblue black cycle [sp1; sp2] (SelList [SName "x1"]) 3 (truth_of [sp1; sp2] ["x1"%string]) [an_reps k; an_reps k] = ([(ca, cb); (ca, cb)], Ok tt) /\
    figure blue lightblue black cycle [sp1; sp2] (SelList [SName "x1"]) 3 (truth_of [sp1; sp2] ["x1"%string]) [an_reps k] = ([(blank, blank)], Err TypeError).
Proof.
  intro Hk. destruct an_space as (ND & F & Sl).
  assert (X : axis_values 3 sp1 = [-5; 0; 5]).
  { unfold axis_values, positions, original, on_axis. cbn [hp_kind sp1 seq map Nat.eqb Nat.sub INR]. f_equal; [lra|]. f_equal; [lra|]. f_equal. lra. }
  destruct (panel_shows blue lightblue black cycle [sp1; sp2] sp1 3 ND F (or_introl eq_refl) ltac:(cbn; lia) ltac:(lia) (an_reps k) an_models (an_sound k Hk) ltac:(discriminate)) as (ca & cb & E & Da & Db).
  rewrite X in Da, Db. rewrite (an_deviations k Hk) in Db. change (hp_name sp1) with "x1"%string in E.
  exists (mean_of_averages [sp1; sp2] sp1 3 mean_part (combine (an_reps k) an_models)), ca, cb. split; [exact E|]. split; [exact Db|]. split; [rewrite Da; reflexivity|]. split; [|split].
  - rewrite <- X. apply (blue_near [sp1; sp2] sp1 3 ND F (or_introl eq_refl) ltac:(cbn; lia) ltac:(lia) (an_reps k) an_models (345 / 2) 1 (1725 / INR k) (an_sound k Hk) ltac:(discriminate) Sl).
    + apply Forall_forall. intros m [<-|[<-|[]]] row _; cbn [fst]; [rewrite Rminus_eq_0, Rabs_R0; lra|]. replace (exact_model [sp1; sp2] row + 1 - exact_model [sp1; sp2] row) with 1 by ring. rewrite Rabs_R1. lra.
    + apply Forall_forall. intros r Hr. apply in_map_iff in Hr. destruct Hr as (m & <- & _). exists [(1%nat, k)]. split; [repeat constructor; intros []|]. split; [|split; [exact (sp_spread k Hk)|]].
      * intro j. cbn [map fst In]. split.
        -- intros [<-|[]]. split; [cbn; lia|discriminate].
        -- intros (A & B). destruct j as [|[|j]]; [exfalso; apply B; reflexivity|left; reflexivity|cbn in A; lia].
      * unfold spread_error. cbn. apply Req_le. unfold hp_width. cbn. field. apply not_0_INR. lia.
  - unfold figure. cbn [panels]. rewrite E. reflexivity.
  - exact (figure_single blue lightblue black cycle [sp1; sp2] sp1 3 ND F (or_introl eq_refl) ltac:(lia) (an_reps k) an_models (an_sound k Hk)).
Qed.
