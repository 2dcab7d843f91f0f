(** Prop_Experiment.v - C103: the numbers of the experiment (examples/main_paper.py). *)
From Coq Require Import Reals Lra Lia.
From Verif Require Import Base Num NumLaws NumpyModel ConfigSpaceModel UtilsModel IceModel PartitionModel PartitionSpec Examples RealProofs RealSums DrawSpec ExperimentModel ExperimentSpec ExperimentProofs ExperimentProofs2 ExperimentExamples SyntheticSpec NllSpec.
Local Open Scope R_scope.
Local Open Scope list_scope.

(** every row is about the incumbent's leaf, whatever was partitioned before it in the loop *)
Theorem C103_rows : forall (s : setup RNum) (h : hp RNum) (lo up : R) lg idx (inc : config RNum),
  setup_ok s -> (1 <= su_minpts s)%nat -> su_samples s <> [] -> float_space (su_cs s) -> (2 <= length (su_cs s))%nat ->
  nth_error (su_cs s) idx = Some h -> hp_kind h = KFloat (lo : RNum) (up : RNum) lg ->
  convert_hyperparameters (su_sel s) (su_cs s) = Ok [h] -> uncertain (su_predict s) -> legal_config (su_cs s) inc ->
  forall n_splits p0, su_nots s = None -> construct s = Ok p0 -> Forall (fun d => 1 <= d)%nat n_splits ->
  exists root rows, deref p0 0 = Some root /\
    experiment (su_cs s) (su_predict s) (su_sel s) (su_samples s) (su_gpa s) (su_splits s) (su_minpts s) inc n_splits =
      Ok (mean_confidence (n_region root) : R, Some (region_nll (su_cs s) h lo up lg idx (n_region root)), rows) /\
    Forall2 (row_is s h lo up lg idx inc) n_splits rows.
Proof. exact experiment_rows. Qed.
Print Assumptions C103_rows.

(** the averages that visualize_bad_nll reports: its delta takes the sums of the first k replications, for every k *)
Theorem C103_averages : forall reps : list (R * R), bad_nll reps =
  (Rmean (map snd reps), Rmean (map fst reps),
   100 * Rmean (map (fun k => (Rsum (map snd (firstn k reps)) - Rsum (map fst (firstn k reps))) / Rabs (Rsum (map snd (firstn k reps)))) (seq 1 (length reps)))).
Proof. exact bad_nll_value. Qed.
Print Assumptions C103_averages.

(** an entry of the table is the mean of the relative gains; all gains positive, then so is the entry *)
Theorem C103_table : forall reps : list (R * R), reps <> [] ->
  table_entry reps = 100 * Rmean (map (fun q => (snd q - fst q) / Rabs (snd q)) reps) /\
  (Forall (fun q => snd q <> 0 /\ fst q < snd q) reps -> 0 < table_entry reps) /\
  (length reps = 1%nat -> snd (bad_nll reps) = table_entry reps).
Proof. exact table_facts. Qed.
Print Assumptions C103_table.

(** that the delta of visualize_bad_nll is the entry of the table for the same replications is refuted *)
Theorem C103_averages_refuted : snd (bad_nll [(1, 2); (3, 2)]) = 25 /\ table_entry [(1, 2); (3, 2)] = 0.
Proof. exact bad_nll_differs. Qed.
Print Assumptions C103_averages_refuted.

(** that a positive entry means that the regions are better on average is refuted *)
Theorem C103_table_refuted : 0 < table_entry [(1, 2); (13, 10)] /\ Rmean (map snd [(1, 2); (13, 10)]) < Rmean (map fst [(1, 2); (13, 10)]).
Proof. exact table_positive. Qed.
Print Assumptions C103_table_refuted.

(** what visualize_bad_nll draws as the true partial dependence of the regions: their mean, shifted by what the other
    hyperparameters of the whole space contribute *)
Theorem C103_drawn_truth : forall (h : hp RNum) (u : R) (cs : cspace RNum) spaces,
  NoDup (map hp_name cs) -> Forall float_range cs -> In h cs -> (2 <= length cs)%nat -> spaces <> [] ->
  Forall (fun fcs => map hp_name fcs = map hp_name cs /\ Forall float_range fcs /\ In h fcs) spaces ->
  drawn_truth cs h spaces u = Ok (Rmean (map (fun fcs => true_pd fcs h u) spaces) + (true_pd cs h u - (u ^ 4 - 16 * u ^ 2 + 5 * u) / 2)).
Proof. exact drawn_truth_value. Qed.
Print Assumptions C103_drawn_truth.

(** that it draws their mean is refuted: with the whole space as the only region it is off by 25/3 everywhere *)
Theorem C103_drawn_truth_refuted : NoDup (map hp_name styb3) /\ Forall float_range styb3 /\ In styb3_x1 styb3 /\
  forall u, drawn_truth styb3 styb3_x1 [styb3] u = Ok (true_pd styb3 styb3_x1 u - 25 / 3).
Proof. exact (conj (proj1 styb3_ok) (conj (proj2 styb3_ok) (conj (or_introl eq_refl) drawn_truth_off))). Qed.
Print Assumptions C103_drawn_truth_refuted.

Example C103_example : setup_ok xp_setup /\ (1 <= su_minpts xp_setup)%nat /\ su_samples xp_setup <> [] /\ float_space (su_cs xp_setup) /\
  nth_error (su_cs xp_setup) 0 = Some (mkhp "a" (KFloat (0 : RNum) (1 : RNum) false)) /\
  convert_hyperparameters (su_sel xp_setup) (su_cs xp_setup) = Ok [mkhp "a" (KFloat (0 : RNum) (1 : RNum) false)] /\
  uncertain (su_predict xp_setup) /\ legal_config (su_cs xp_setup) xp_cfg /\ exists p0, construct xp_setup = Ok p0.
Proof.
  refine (conj xp_ok (conj _ (conj _ (conj xp_float (conj eq_refl (conj eq_refl (conj xp_uncertain (conj xp_legal xp_construct)))))))); [cbn; lia|discriminate].
Qed.
