(** Prop_Confidence.v - mean confidence of a region (C102).

    mean_confidence is the mean of the square roots of all variances of the region; the name notwithstanding, large
    values mean little confidence. *)
From Coq Require Import Reals Lra Lia Sorted.
From Verif Require Import Base Num NumLaws NumpyModel ConfigSpaceModel UtilsModel IceModel PartitionModel PartitionSpec RealProofs RealSums PartitionReal
  Examples Witness ConfidenceProofs ConfidenceExamples.
Local Open Scope nat_scope.
Local Open Scope list_scope.

(** ** C102 *)
(** it is the mean of the standard deviations that the surrogate predicts for the region's curves, at every node of the
    tree: [stds] are its predictions for all curves, row after row, G grid points each *)
Theorem C102_value : forall (s : setup RNum) p id nd, setup_ok s -> reaches s p -> deref p id = Some nd ->
  exists root idxs (means stds : list R) G, deref p 0 = Some root /\ su_predict s (concat (r_x (n_region root))) = Ok (means, stds) /\
    length stds = length (su_samples s) * G /\ is_rows (n_region root) idxs (n_region nd) /\
    mean_confidence (n_region nd) = Rmean (concat (map (fun i => map (fun j => Rabs (nth (i * G + j) stds 0%R)) (seq 0 G)) idxs)).
Proof. exact confidence_value. Qed.
Print Assumptions C102_value.

(** the root's is the mean of the leaves', weighted by their sizes; so some leaf is at least and some at most as confident *)
Theorem C102_weighted_mean : forall (s : setup RNum) p d,
  setup_ok s -> 1 <= su_minpts s -> su_samples s <> [] -> reaches s p -> 0 < d ->
  exists p' ids leaves root,
    partition p d = (p', Ok ids) /\ Forall2 (fun id nd => deref p' id = Some nd) ids leaves /\ deref p' 0 = Some root /\
    Forall (fun nd => 0 < region_len (n_region nd)) leaves /\ region_len (n_region root) = length (su_samples s) /\
    Rsum (map (fun nd : dnode RNum => INR (region_len (n_region nd)) * mean_confidence (n_region nd))%R leaves) =
      (INR (region_len (n_region root)) * mean_confidence (n_region root))%R /\
    (exists nd, In nd leaves /\ mean_confidence (n_region nd) <= mean_confidence (n_region root))%R /\
    (exists nd, In nd leaves /\ mean_confidence (n_region root) <= mean_confidence (n_region nd))%R.
Proof. exact confidence_weighted. Qed.
Print Assumptions C102_weighted_mean.

(** it is 0 only without any variance, and its square at most the mean variance, with equality only if all are equal *)
Theorem C102_size : forall r : region RNum, concat (r_v r) <> [] -> Forall (Forall (fun v : R => 0 <= v)%R) (r_v r) ->
  (0 <= mean_confidence r)%R /\ ((mean_confidence r : R) * mean_confidence r <= Rmean (concat (r_v r)))%R /\
  ((mean_confidence r : R) = 0%R <-> Forall (Forall (fun v : R => v = 0%R)) (r_v r)) /\
  (((mean_confidence r : R) * mean_confidence r)%R = Rmean (concat (r_v r)) <-> forall v w : R, In v (concat (r_v r)) -> In w (concat (r_v r)) -> v = w).
Proof. exact confidence_jensen. Qed.
Print Assumptions C102_size.

(** that a split makes the region of the incumbent more confident is refuted (no rounding is involved) *)
Theorem C102_incumbent_refuted : forall fe fln fr : b64 -> b64, construct (mc_setup fe fln fr) = Ok (mc_obj fe fln fr) /\
  exists p' ids, partition (mc_obj fe fln fr) 1 = (p', Ok ids) /\
  (get_incumbent_region p' (mc_cfg fe fln fr), neqb (n:=B64 fe fln fr) (mc_of fe fln fr p' 0) (fl 1 (-1)),
   map (fun id => neqb (n:=B64 fe fln fr) (mc_of fe fln fr p' id) (fl 3 (-2))) ids, ids)
  = (Ok (Some 2), true, [true; false], [2; 1]).
Proof. exact (fun fe fln fr => conj (mc_obj_ok fe fln fr) (mc_incumbent fe fln fr)). Qed.
Print Assumptions C102_incumbent_refuted.

(** that it is the mean standard deviation is refuted in binary64: the square of 2^-600 is 0 *)
Theorem C102_binary64_refuted : forall fe fln fr : b64 -> b64, construct (tiny_setup fe fln fr) = Ok (tiny_obj fe fln fr) /\
  nlt (n:=B64 fe fln fr) n0 (fl 1 (-600)) = true /\ neqb (n:=B64 fe fln fr) (mc_of fe fln fr (tiny_obj fe fln fr) 0) n0 = true.
Proof. exact (fun fe fln fr => conj (tiny_obj_ok fe fln fr) (tiny_zero fe fln fr)). Qed.
Print Assumptions C102_binary64_refuted.

Example C102_example : setup_ok (ex_setup (N:=RNum)) /\ 1 <= su_minpts (ex_setup (N:=RNum)) /\ su_samples (ex_setup (N:=RNum)) <> [] /\
  (exists p, reaches (ex_setup (N:=RNum)) p) /\
  mean_confidence (mkregion (N:=RNum) [[[0%R]; [1%R]]; [[0%R]; [1%R]]] [[0%R; 1%R]; [1%R; 1%R]] [[1%R; 4%R]; [9%R; 4%R]]) = 2%R.
Proof.
  refine (conj ex_setup_ok (conj _ (conj _ (conj ex_reaches _)))); [cbn; lia|discriminate|].
  rewrite mean_confidence_R. cbn [r_v concat app map]. unfold Rmean. cbn [Rsum length INR].
  replace 4%R with (2 * 2)%R by lra. replace 9%R with (3 * 3)%R by lra. rewrite sqrt_1, !sqrt_square by lra. lra.
Qed.
