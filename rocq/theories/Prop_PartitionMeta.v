(** Prop_PartitionMeta.v - how the tree depends on the arguments of the partitioner: C86-C89, and C10 in binary64.

    [with_surrogate s f] and [with_samples s rows] are the arguments [s] with another surrogate or other samples.
    Both objects may have any history. *)
From Coq Require Import Reals QArith Lra.
From Flocq Require Import Core.Core IEEE754.BinarySingleNaN.
From Verif Require Import Base Num NumLaws NumpyModel ConfigSpaceModel UtilsModel IceModel PartitionModel PartitionSpec
  ListLemmas IceProofs IceProofs2 PartitionProofs PartitionProofs2 PartitionProofs3 PartitionProofs6 RealProofs RealSums PartitionReal PartitionReal2
  PartitionMeta PartitionMetaWitness Examples Witness.
Local Open Scope nat_scope.
Local Open Scope list_scope.

(** ** C86: the means do not matter, in any arithmetic *)
Theorem C86_means_do_not_matter : forall (N : Num) (L : order_laws N) (s : setup N) f p p' d,
  (forall rows ms sd ms' sd', su_predict s rows = Ok (ms, sd) -> f rows = Ok (ms', sd') -> sd = sd') ->
  setup_ok s -> reaches s p -> reaches (with_surrogate s f) p' -> 0 < d ->
  exists q q' ids ids' leaves leaves', partition p d = (q, Ok ids) /\ partition p' d = (q', Ok ids') /\
    Forall2 (fun id nd => deref q id = Some nd) ids leaves /\ Forall2 (fun id nd => deref q' id = Some nd) ids' leaves' /\
    Forall2 (fun nd nd' => n_depth nd = n_depth nd' /\ n_conds nd = n_conds nd' /\
      r_x (n_region nd) = r_x (n_region nd') /\ r_v (n_region nd) = r_v (n_region nd') /\
      region_loss (n_region nd) = region_loss (n_region nd')) leaves leaves'.
Proof. exact @means_do_not_matter. Qed.
Print Assumptions C86_means_do_not_matter.

(** the example with means of 7 everywhere: the same four conditions, other means *)
Definition flat_predict : predictor QNum := fun rows => Ok (map (fun _ => 7%Q : QNum) rows, map (fun r => nadd (nth 1 r n0) (ndiv (nth 2 r n0) (nofZ 2))) rows).
Definition exq_flat : dtp QNum := match construct (with_surrogate ex_setup flat_predict) with Ok p => p | Err _ => mkdtp [] [] [] 0 0 [] [] end.
Example C86_example : setup_ok (ex_setup (N:=QNum)) /\ reaches (ex_setup (N:=QNum)) exq /\ reaches (with_surrogate (ex_setup (N:=QNum)) flat_predict) exq_flat /\
  (forall (rows : list (list QNum)) ms sd ms' sd', su_predict (ex_setup (N:=QNum)) rows = Ok (ms, sd) -> flat_predict rows = Ok (ms', sd') -> sd = sd') /\
  (exists q ids, partition exq_flat 2 = (q, Ok ids) /\ map (fun id => option_map (fun nd => (List.length (n_conds nd), hd [] (r_y (n_region nd)))) (deref q id)) ids
     = [Some (2, [7;7;7]%Q); Some (2, [7;7;7]%Q); Some (2, [7;7;7]%Q); Some (2, [7;7;7]%Q)]).
Proof.
  refine (conj ex_setup_ok (conj (exq_reaches []) (conj _ (conj _ _)))).
  - exists exq_flat, []. split; [|reflexivity]. unfold exq_flat. assert (E : is_ok (construct (with_surrogate ex_setup flat_predict)) = true) by (vm_compute; reflexivity).
    destruct (construct (with_surrogate ex_setup flat_predict)); [reflexivity|discriminate].
  - intros rows ms sd ms' sd' E E'. injection E as _ <-. injection E' as _ <-. reflexivity.
  - apply (run_check exq_flat 2 (fun q ids => map (fun id => option_map (fun nd => (List.length (n_conds nd), hd [] (r_y (n_region nd)))) (deref q id)) ids)).
    vm_compute. reflexivity.
Qed.

(** ** C87: the order of the samples does not matter (exact arithmetic) *)
Theorem C87_order_of_samples : forall (s : setup RNum) (mu sd : list R -> R) samples' p p' d,
  (forall rows : list (list RNum), su_predict s rows = Ok (map mu rows, map sd rows)) -> Permutation (su_samples s) samples' ->
  setup_ok s -> reaches s p -> reaches (with_samples s samples') p' -> 0 < d ->
  exists q q' ids ids' leaves leaves', partition p d = (q, Ok ids) /\ partition p' d = (q', Ok ids') /\
    Forall2 (fun id nd => deref q id = Some nd) ids leaves /\ Forall2 (fun id nd => deref q' id = Some nd) ids' leaves' /\
    Forall2 (fun nd nd' : dnode RNum => n_depth nd = n_depth nd' /\ n_conds nd = n_conds nd' /\
      Permutation (curves (n_region nd)) (curves (n_region nd')) /\ region_loss (n_region nd) = region_loss (n_region nd')) leaves leaves'.
Proof. exact order_of_samples. Qed.
Print Assumptions C87_order_of_samples.

(** in binary64 the order of five samples decides which hyperparameter is split *)
Theorem C87_binary64_refuted : forall fe fln fr : b64 -> b64, let s := m_setup fe fln fr (m_rows1 fe fln fr) (m_predict fe fln fr) in
  let s' := with_samples s (m_rows2 fe fln fr) in
  Permutation (su_samples s) (su_samples s') /\ exists p p', construct s = Ok p /\ construct s' = Ok p' /\
  (exists q ids, partition p 1 = (q, Ok ids) /\ split_names q ids = [Some ["c"%string]; Some ["c"%string]]) /\
  (exists q ids, partition p' 1 = (q, Ok ids) /\ split_names q ids = [Some ["b"%string]; Some ["b"%string]]).
Proof. exact (fun fe fln fr => conj (m_perm fe fln fr) (ex_intro _ _ (ex_intro _ _ (m_order fe fln fr)))). Qed.
Print Assumptions C87_binary64_refuted.

(** the example with its six samples in reverse *)
Lemma ex_rev_reaches : exists p', reaches (with_samples (ex_setup (N:=RNum)) (rev ex_rows)) p'.
Proof.
  destruct (construct_total (with_samples (ex_setup (N:=RNum)) (rev ex_rows)) [mkhp "a"%string (KFloat n0 n1 false)]) as (p & E).
  - destruct (ex_setup_ok (N:=RNum)) as (A & B & C). split; [exact A|]. split; [|exact C]. cbn [su_samples with_samples]. apply Forall_rev. exact B.
  - reflexivity. - discriminate. - repeat constructor. - discriminate. - apply ex_batch.
  - exists p, p, []. split; [exact E|reflexivity].
Qed.
Example C87_example : setup_ok (ex_setup (N:=RNum)) /\ (exists p, reaches (ex_setup (N:=RNum)) p) /\
  (exists p', reaches (with_samples (ex_setup (N:=RNum)) (rev ex_rows)) p') /\ Permutation (su_samples (ex_setup (N:=RNum))) (rev ex_rows) /\
  (exists mu sd : list R -> R, forall rows : list (list RNum), su_predict (ex_setup (N:=RNum)) rows = Ok (map mu rows, map sd rows)).
Proof.
  refine (conj ex_setup_ok (conj ex_reaches (conj ex_rev_reaches (conj (Permutation_rev _) _)))). do 2 eexists. intro rows. reflexivity.
Qed.

(** ** C88: the unit and the offset of the variances do not matter (exact arithmetic) *)
Theorem C88_scaled_variances : forall (s : setup RNum) f (a b : R) p p' d, (0 < a)%R ->
  (forall (rows : list (list RNum)) (ms sd ms' sd' : list RNum), su_predict s rows = Ok (ms, sd) -> f rows = Ok (ms', sd') ->
     Forall2 (fun x x' : R => (x' * x' = a * (x * x) + b)%R) sd sd') ->
  setup_ok s -> reaches s p -> reaches (with_surrogate s f) p' -> 0 < d ->
  exists q q' ids ids' leaves leaves', partition p d = (q, Ok ids) /\ partition p' d = (q', Ok ids') /\
    Forall2 (fun id nd => deref q id = Some nd) ids leaves /\ Forall2 (fun id nd => deref q' id = Some nd) ids' leaves' /\
    Forall2 (fun nd nd' : dnode RNum => n_depth nd = n_depth nd' /\ n_conds nd = n_conds nd' /\ r_x (n_region nd) = r_x (n_region nd') /\
      region_loss (n_region nd') = (a * a * region_loss (n_region nd))%R) leaves leaves'.
Proof. exact scaled_variances. Qed.
Print Assumptions C88_scaled_variances.

(** in binary64, standard deviations in a unit 2^600 times smaller: the squares overflow and nothing is split *)
Theorem C88_binary64_refuted : forall fe fln fr : b64 -> b64, let s := m_setup fe fln fr (m_rows4 fe fln fr) (m_predict fe fln fr) in
  let s' := with_surrogate s (fun rows => Ok (map (fun _ => n0) rows, map (fun r => nmul (fl 1 600 : B64 fe fln fr) (nth 3 r n0)) rows)) in
  exists p p', construct s = Ok p /\ construct s' = Ok p' /\
  (exists q ids, partition p 1 = (q, Ok ids) /\ split_names q ids = [Some ["b"%string]; Some ["b"%string]]) /\
  (exists q ids, partition p' 1 = (q, Ok ids) /\ split_names q ids = [Some []]).
Proof. exact (fun fe fln fr => ex_intro _ _ (ex_intro _ _ (m_scaled fe fln fr))). Qed.
Print Assumptions C88_binary64_refuted.

(** the example with doubled standard deviations *)
Definition twice_predict : predictor RNum := fun rows => Ok (map (fun _ => 0%R : RNum) rows, map (fun r => (2 * (nth 1 r 0 + nth 2 r 0 / 2))%R : RNum) rows).
Example C88_example : setup_ok (ex_setup (N:=RNum)) /\ (exists p, reaches (ex_setup (N:=RNum)) p) /\ (exists p', reaches (with_surrogate (ex_setup (N:=RNum)) twice_predict) p') /\
  (forall (rows : list (list RNum)) (ms sd ms' sd' : list RNum), su_predict (ex_setup (N:=RNum)) rows = Ok (ms, sd) -> twice_predict rows = Ok (ms', sd') ->
     Forall2 (fun x x' : R => (x' * x' = 4 * (x * x) + 0)%R) sd sd').
Proof.
  refine (conj ex_setup_ok (conj ex_reaches (conj _ _))).
  - destruct (construct_total (with_surrogate (ex_setup (N:=RNum)) twice_predict) [mkhp "a"%string (KFloat n0 n1 false)]) as (p & E).
    + apply ex_setup_ok. + reflexivity. + discriminate. + repeat constructor. + discriminate.
    + intro rows. do 2 eexists. refine (conj eq_refl (conj _ _)); apply map_length.
    + exists p, p, []. split; [exact E|reflexivity].
  - intros rows ms sd ms' sd' E E'. injection E as _ <-. injection E' as _ <-. induction rows as [|r rows IH]; cbn; constructor; [cbn; field|exact IH].
Qed.

(** ** C89: a deeper tree refines a shallower one *)
Theorem C89_refines : forall (N : Num) (L : order_laws N) (s : setup N) p d d', setup_ok s -> reaches s p -> 0 < d -> d <= d' ->
  exists q q' ids ids' leaves groups, partition p d = (q, Ok ids) /\ partition p d' = (q', Ok ids') /\
    Forall2 (fun id nd => deref q id = Some nd) ids leaves /\ Forall2 (fun id nd => deref q' id = Some nd) ids' (concat groups) /\
    Forall2 (fun nd g => g <> [] /\ Forall (fun nd' => exists more idxs, n_conds nd' = n_conds nd ++ more /\ n_depth nd' = n_depth nd + length more /\
      is_rows (n_region nd) idxs (n_region nd')) g) leaves groups.
Proof. exact @deeper_refines. Qed.
Print Assumptions C89_refines.

(** and never has a larger loss in exact arithmetic: leaf by leaf, and in total *)
Theorem C89_loss : forall (s : setup RNum) p d d', setup_ok s -> reaches s p -> 0 < d -> d <= d' ->
  exists q q' ids ids' leaves groups, partition p d = (q, Ok ids) /\ partition p d' = (q', Ok ids') /\
    Forall2 (fun id nd => deref q id = Some nd) ids leaves /\ Forall2 (fun id nd => deref q' id = Some nd) ids' (concat groups) /\
    Forall2 (fun (nd : dnode RNum) g => (Rsum (map (fun nd' : dnode RNum => region_loss (n_region nd')) g) <= region_loss (n_region nd))%R) leaves groups /\
    (Rsum (map (fun nd' : dnode RNum => region_loss (n_region nd')) (concat groups)) <= Rsum (map (fun nd : dnode RNum => region_loss (n_region nd)) leaves))%R.
Proof. exact deeper_loss. Qed.
Print Assumptions C89_loss.

(** depth 1 has two leaves, depth 2 four: two below each *)
Example C89_example : setup_ok (ex_setup (N:=QNum)) /\ reaches (ex_setup (N:=QNum)) (run_history exq [1]) /\
  (exists q ids, partition (run_history exq [1]) 1 = (q, Ok ids) /\ split_names q ids = [Some ["b"%string]; Some ["b"%string]]) /\
  (exists q ids, partition (run_history exq [1]) 2 = (q, Ok ids) /\ map (option_map (fun l => firstn 1 l)) (split_names q ids) = repeat (Some ["b"%string]) 4 /\ length ids = 4).
Proof.
  refine (conj ex_setup_ok (conj (exq_reaches [1]) (conj _ _))).
  - apply (run_check (run_history exq [1]) 1 split_names). vm_compute. reflexivity.
  - destruct (run_check (run_history exq [1]) 2 (fun q ids => (map (option_map (fun l => firstn 1 l)) (split_names q ids), length ids)) (repeat (Some ["b"%string]) 4, 4)) as (q & ids & E & F).
    { vm_compute. reflexivity. }
    exists q, ids. split; [exact E|]. injection F. auto.
Qed.

(** ** C10 in binary64 *)
(** the surrogate is equally uncertain everywhere (0.3): the root has loss 0, its two children together more *)
Theorem C10_binary64_refuted : forall fe fln fr : b64 -> b64,
  let s := m_setup fe fln fr (m_rows3 fe fln fr) (fun rows => Ok (map (fun _ => n0) rows, map (fun _ => m_third : B64 fe fln fr) rows)) in
  exists p root q ids leaves, construct s = Ok p /\ deref p 0 = Some root /\ partition p 1 = (q, Ok ids) /\
    Forall2 (fun id nd => deref q id = Some nd) ids leaves /\
    neqb (region_loss (n_region root)) (n0 : B64 fe fln fr) = true /\
    nlt (region_loss (n_region root)) (nsum (map (fun nd => region_loss (n_region nd)) leaves)) = true.
Proof. exact (fun fe fln fr => match m_increase fe fln fr with conj A (ex_intro _ root (ex_intro _ q (ex_intro _ ids (ex_intro _ l B)))) =>
  ex_intro _ _ (ex_intro _ root (ex_intro _ q (ex_intro _ ids (ex_intro _ l (conj A B))))) end). Qed.
Print Assumptions C10_binary64_refuted.
