(** GridPdpExamples.v - concrete cases for C117. *)
From Coq Require Import Permutation Reals Lra.
From Coquelicot Require Import Coquelicot.
From Flocq Require Import Core.
From Verif Require Import Base Num NumLaws NumpyModel ConfigSpaceModel UtilsModel IceModel PartitionModel PartitionSpec SamplerModel SamplerSpec ListLemmas IceProofs IceProofs2 UtilsProofs
  RealProofs RealSums IceReal IceShapeSpec SamplerReal SyntheticModel SpreadSpec SpreadProofs SpreadSynSpec SpreadIce SpreadGrid SpreadSynthetic SpreadExamples
  PartitionProofs6 BoxSpec BoxProofs BoxRegion BoxExamples GridPdpProofs.
Local Open Scope R_scope.
Local Open Scope list_scope.

(** an objective that never raises, and the number of points per axis computed without rounding *)
Definition gp_obj (c : config RNum) : R := match stybtang_value [sp1; sp2] c with Ok v => v | Err _ => 0 end.
Definition gp_steps (n d : nat) : nat := Z.to_nat (Zceil (Rpower (INR n) (/ INR d))).
Definition gp_world : world RNum :=
  mkworld (fun _ c => Ok (JNum (gp_obj c : RNum))) (fun _ _ _ => mkconf [] []) false (fun i => (7 * i + 3)%nat) gp_steps (fun _ _ _ _ => []) (fun _ _ _ => Ok tt) (fun _ _ _ => Ok (mkconf [] []))
    (fun _ => Err ValueError) (fun _ => ""%string) (fun s => s).
Definition gp_new : sampler RNum := sampler_new gp_world KGrid [sp1; sp2] true "k" (fun _ => None).
Lemma gp_steps_k k : (1 <= k)%nat -> w_steps gp_world (k ^ 2) 2 = k.
Proof. intro Hk. cbn [w_steps gp_world]. unfold gp_steps. rewrite root_steps by lia. apply Nat2Z.id. Qed.
Lemma gp_float : Forall float_hp [sp1; sp2].
Proof. apply Forall_cons; [|apply Forall_cons; [|apply Forall_nil]]; exists (-5), 5, false; (split; [reflexivity|]); (split; [lra|discriminate]). Qed.
Lemma gp_lt k : (1 <= k)%nat -> (length (s_cache gp_new) < k ^ 2)%nat.
Proof. intro Hk. cbn. nia. Qed.
(** k * k points of the grid sampler, k arbitrary *)
Theorem gp_close k (sd : list R -> R) : (1 <= k)%nat -> exists s', sample gp_world (k ^ 2) gp_new = (s', Ok tt) /\ Permutation (sX s') (grid_rows (repeat (linspace (N:=RNum) (0 : R) (1 : R) k) 2)) /\
  let a := mkalg (N:=RNum) [sp1; sp2] [sp1] (sX s') 3 in
  exists dt, ice_calculate a false (rowwise (N:=RNum) (exact_model [sp1; sp2]) sd) = Ok dt /\
  forall g, (g < 3)%nat -> exists row c y p v, nth_error (x_pdp a dt) g = Some row /\ config_of_vector (N:=RNum) [sp1; sp2] row = Ok c /\
    nth_error (y_pdp a dt) g = Some y /\ pd_integral [sp1; sp2] [SName "x2"] = Ok p /\ fst p = [sp1] /\
    (forall c', config_get c' "x1" = config_get c "x1" -> pd_value p c' = Ok v) /\ Rabs (y - v) <= 1725 / INR k.
Proof.
  intro Hk. assert (NC : s_cs gp_new <> []) by discriminate.
  destruct (grid_sampler_ok gp_world k gp_new eq_refl eq_refl eq_refl NC gp_float (gp_steps_k k Hk) (gp_lt k Hk) (fun _ _ => eq_refl)) as (s' & E). exists s'. split; [exact E|].
  split; [exact (grid_sampler_full gp_world k gp_new s' eq_refl eq_refl eq_refl NC gp_float (gp_steps_k k Hk) (gp_lt k Hk) E)|]. intro a.
  destruct (ice_calculate_total a false (rowwise (N:=RNum) (exact_model [sp1; sp2]) sd)) as (d & Hd).
  - exact (sampled_rect gp_world k gp_new s' eq_refl eq_refl eq_refl NC gp_float (gp_steps_k k Hk) (gp_lt k Hk) E).
  - repeat constructor.
  - discriminate.
  - cbn. lia.
  - intro rows. do 2 eexists. split; [reflexivity|]. rewrite !map_length. auto.
  - exists d. split; [exact Hd|]. intros g Hg.
    destruct (grid_pdp_stybtang gp_world k gp_new s' eq_refl eq_refl eq_refl NC gp_float (gp_steps_k k Hk) (gp_lt k Hk) E [sp1] 3 sd d [1%nat] [SName "x2"] [sp2] (345 / 2) g sp_linear sp_names Hd) as (row & c & y & p & v & E1 & E2 & E3 & E4 & E5 & E6 & E7).
    + repeat constructor. intros [].
    + exact (sp_rest k).
    + discriminate.
    + reflexivity.
    + repeat constructor. intros [].
    + exact sp_rest_names.
    + constructor; [|constructor]. apply slope_default. cbn. lra.
    + exact Hg.
    + exists row, c, y, p, v. repeat (split; [assumption|]). pose proof E4 as E4'. cbn in E4'. injection E4' as E4'. rewrite <- E4' in E6 |- *. cbn [fst].
      split; [reflexivity|]. split.
      * intros c' H. apply E6. intros h [<-|[]]. exact H.
      * refine (Rle_trans _ _ _ E7 _). cbn. apply Req_le. unfold hp_width. cbn. field. apply not_0_INR. lia.
Qed.
(** a log scale: the normalized coordinates of the points are evenly spaced too *)
Definition gp_log : sampler RNum := sampler_new gp_world KGrid [mkhp "x"%string (KFloat (1 : RNum) (100 : RNum) true); sp2] true "k" (fun _ => None).
Theorem gp_log_full k : (1 <= k)%nat -> exists s', sample gp_world (k ^ 2) gp_log = (s', Ok tt) /\ Permutation (sX s') (grid_rows (repeat (linspace (N:=RNum) (0 : R) (1 : R) k) 2)).
Proof.
  intro Hk. assert (NC : s_cs gp_log <> []) by discriminate.
  assert (F : Forall float_hp (s_cs gp_log)) by (apply Forall_cons; [exists 1, 100, true; split; [reflexivity|split; intros; lra]|exact (Forall_inv_tail gp_float)]).
  assert (LT : (length (s_cache gp_log) < k ^ 2)%nat) by (cbn; nia).
  destruct (grid_sampler_ok gp_world k gp_log eq_refl eq_refl eq_refl NC F (gp_steps_k k Hk) LT (fun _ _ => eq_refl)) as (s' & E). exists s'. split; [exact E|].
  exact (grid_sampler_full gp_world k gp_log s' eq_refl eq_refl eq_refl NC F (gp_steps_k k Hk) LT E).
Qed.
(** a partition on the points of the sampler *)
Definition gp_setup (s : sampler RNum) : setup RNum :=
  mksetup [sp1; sp2] (rowwise (N:=RNum) (exact_model [sp1; sp2]) bx_step) (SelOne (SName "x1")) (sX s) 3 1 1 None.
Lemma gp_sel_rest : forall j, In j [1%nat] <-> (j < length [sp1; sp2])%nat /\ not_selected (N:=RNum) [sp1; sp2] [sp1] j.
Proof. exact (sp_rest 1). Qed.
Theorem gp_partition m : (1 <= m)%nat -> exists s' p0, sample gp_world ((2 * m) ^ 2) gp_new = (s', Ok tt) /\ setup_ok (gp_setup s') /\ construct (gp_setup s') = Ok p0 /\
  forall p id nd, reaches (gp_setup s') p -> deref p id = Some nd ->
    INR (region_len (n_region nd)) = INR ((2 * m) ^ 2) * volume (box_lo [sp1; sp2] (n_conds nd)) (box_up [sp1; sp2] (n_conds nd)) [1%nat].
Proof.
  intro Hm. assert (Hk : (1 <= 2 * m)%nat) by lia. set (k := (2 * m)%nat) in *. assert (NC : s_cs gp_new <> []) by discriminate.
  destruct (grid_sampler_ok gp_world k gp_new eq_refl eq_refl eq_refl NC gp_float (gp_steps_k k Hk) (gp_lt k Hk) (fun _ _ => eq_refl)) as (s' & E). exists s'.
  assert (SO : setup_ok (gp_setup s')).
  { split; [exact sp_names|]. split; [|cbn; lia]. exact (sampled_rect gp_world k gp_new s' eq_refl eq_refl eq_refl NC gp_float (gp_steps_k k Hk) (gp_lt k Hk) E). }
  destruct (PartitionProofs6.construct_total (gp_setup s') [sp1]) as (p0 & E0).
  - exact SO. - reflexivity. - discriminate. - repeat constructor. - discriminate.
  - intro rows. do 2 eexists. refine (conj eq_refl (conj _ _)); apply map_length.
  - exists p0. split; [exact E|]. split; [exact SO|]. split; [exact E0|]. intros p id nd RE HD.
    refine (proj1 (grid_regions gp_world k gp_new s' eq_refl eq_refl eq_refl NC gp_float (gp_steps_k k Hk) (gp_lt k Hk) E (gp_setup s') p (exact_model [sp1; sp2]) bx_step [sp1] m [1%nat] id nd eq_refl eq_refl _ SO RE eq_refl eq_refl _ gp_sel_rest HD)).
    + cbn. unfold k. lia.
    + repeat constructor. intros [].
Qed.
