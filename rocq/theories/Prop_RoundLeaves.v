(** Prop_RoundLeaves.v - C121: leaves and root of a tree in binary64.

    [fin] are the finite floats and [val] the real numbers they stand for; uu = 2^-53, tiny = 2^-1075, [slack] as in C112. *)
From Coq Require Import Reals Lra.
From Flocq Require Import Core.Core IEEE754.BinarySingleNaN.
From Verif Require Import Base Num NumpyModel ConfigSpaceModel UtilsModel IceModel PartitionModel PartitionSpec RealSums B64Proofs RoundSpec RoundProofs RoundLeavesSpec RoundLeaves
  RoundExamples RoundLeavesExamples.
Local Open Scope R_scope.
Local Open Scope list_scope.

(** ** C121 *)
(** the losses of the leaves together are at most that of the root, up to twice the slack of C112 *)
Theorem C121_loss : forall fe fl fr (s : setup (B64 fe fl fr)) p d S,
  setup_ok s -> no_nan s -> (Z.of_nat (su_splits s) < 2 ^ 52)%Z -> (1 <= su_minpts s)%nat -> su_samples s <> [] -> reaches s p -> (0 < d)%nat ->
  deviations_fit S s -> bpow radix2 (-250) <= S <= bpow radix2 199 ->
  exists p' ids leaves root, partition p d = (p', Ok ids) /\ Forall2 (fun id nd => deref p' id = Some nd) ids leaves /\ deref p' 0 = Some root /\
    let n := region_len (n_region root) in let G := width (r_v (n_region root)) in
    n = length (su_samples s) /\ ((Z.of_nat (n * G) < 2 ^ 49)%Z ->
      Forall (fun nd => fin fe fl fr (region_loss (n_region nd))) (root :: leaves) /\
      Rsum (map (fun nd => val fe fl fr (region_loss (n_region nd))) leaves) <= val fe fl fr (region_loss (n_region root)) + 2 * slack n G (2 * (S * S))).
Proof. exact leaves_loss. Qed.
Print Assumptions C121_loss.

(** the PDP of the root is the mean of the PDPs of the leaves, weighted by their sizes, up to rounding *)
Theorem C121_pdp : forall fe fl fr (s : setup (B64 fe fl fr)) p d M S,
  setup_ok s -> no_nan s -> (Z.of_nat (su_splits s) < 2 ^ 52)%Z -> (1 <= su_minpts s)%nat -> su_samples s <> [] -> reaches s p -> (0 < d)%nat ->
  means_fit M s -> M <= bpow radix2 900 -> deviations_fit S s -> bpow radix2 (-250) <= S <= bpow radix2 199 -> (Z.of_nat (length (su_samples s)) < 2 ^ 49)%Z ->
  exists p' ids leaves root, partition p d = (p', Ok ids) /\ Forall2 (fun id nd => deref p' id = Some nd) ids leaves /\ deref p' 0 = Some root /\
    let n := length (su_samples s) in let G := width (r_v (n_region root)) in
    region_len (n_region root) = n /\ (0 < G)%nat /\
    Forall (fun nd => (0 < region_len (n_region nd))%nat /\ length (region_pdp_y (n_region nd)) = G /\ length (region_pdp_v (n_region nd)) = G /\
      Forall (fin fe fl fr) (region_pdp_y (n_region nd)) /\ Forall (fin fe fl fr) (region_pdp_v (n_region nd))) (root :: leaves) /\
    forall g, (g < G)%nat ->
      Rabs (Rsum (map (fun nd : dnode (B64 fe fl fr) => INR (region_len (n_region nd)) * val fe fl fr (nth g (region_pdp_y (n_region nd)) n0)) leaves) / INR n
        - val fe fl fr (nth g (region_pdp_y (n_region root)) n0)) <= 2 * (9/8 * INR (n + 1) * uu * M + tiny) /\
      Rabs (Rsum (map (fun nd : dnode (B64 fe fl fr) => INR (region_len (n_region nd)) * val fe fl fr (nth g (region_pdp_v (n_region nd)) n0)) leaves) / INR n
        - val fe fl fr (nth g (region_pdp_v (n_region root)) n0)) <= 2 * (9/8 * INR (n + 1) * uu * (2 * (S * S)) + tiny).
Proof. exact leaves_pdp. Qed.
Print Assumptions C121_pdp.

(** so is its mean confidence, with a relative error; and some leaf is as confident as the root, up to that error *)
Theorem C121_confidence : forall fe fl fr (s : setup (B64 fe fl fr)) p d S,
  setup_ok s -> no_nan s -> (Z.of_nat (su_splits s) < 2 ^ 52)%Z -> (1 <= su_minpts s)%nat -> su_samples s <> [] -> reaches s p -> (0 < d)%nat ->
  deviations_fit S s -> bpow radix2 (-250) <= S <= bpow radix2 199 ->
  exists p' ids leaves root, partition p d = (p', Ok ids) /\ Forall2 (fun id nd => deref p' id = Some nd) ids leaves /\ deref p' 0 = Some root /\
    let n := length (su_samples s) in let G := width (r_v (n_region root)) in let e := Rmean (map (fun x => sqrt (val fe fl fr x)) (concat (r_v (n_region root)))) in
    let E := 9/8 * INR (n * G + 2) * uu * e + 3 * tiny in
    region_len (n_region root) = n /\ ((Z.of_nat (n * G) < 2 ^ 49)%Z ->
      Forall (fun nd => (0 < region_len (n_region nd))%nat /\ fin fe fl fr (mean_confidence (n_region nd))) (root :: leaves) /\
      Rabs (val fe fl fr (mean_confidence (n_region root)) - e) <= E /\
      Rabs (Rsum (map (fun nd : dnode (B64 fe fl fr) => INR (region_len (n_region nd)) * val fe fl fr (mean_confidence (n_region nd))) leaves) / INR n
        - val fe fl fr (mean_confidence (n_region root))) <= 2 * E /\
      exists nd, In nd leaves /\ val fe fl fr (mean_confidence (n_region nd)) <= val fe fl fr (mean_confidence (n_region root)) + 2 * E).
Proof. exact leaves_confidence. Qed.
Print Assumptions C121_confidence.

(** without the tolerance this is refuted: mean and deviation 0.1 everywhere, five curves; the root has 0.1, one leaf
    has 0.1 as well and the other one more *)
Theorem C121_exact_refuted : forall fe fl fr, construct (even_setup fe fl fr) = Ok (even_obj fe fl fr) /\
  exists p' ids, partition (even_obj fe fl fr) 1 = (p', Ok ids) /\
  (ids, map (len_at fe fl fr p') (0%nat :: ids),
   map (fun id => (neqb (n:=B64 fe fl fr) (mc_at fe fl fr p' id) (r_tenth fe fl fr), neqb (n:=B64 fe fl fr) (pdp_at fe fl fr p' id) (r_tenth fe fl fr))) (0%nat :: ids),
   map (fun id => (nlt (n:=B64 fe fl fr) (mc_at fe fl fr p' 0) (mc_at fe fl fr p' id), nlt (n:=B64 fe fl fr) (pdp_at fe fl fr p' 0) (pdp_at fe fl fr p' id))) ids)
  = ([2; 1]%nat, [5; 2; 3]%nat, [(true, true); (true, true); (false, false)], [(false, false); (true, true)]).
Proof. exact (fun fe fl fr => conj (even_obj_ok fe fl fr) (even_run fe fl fr)). Qed.
Print Assumptions C121_exact_refuted.

(** the same setup meets the hypotheses of the three theorems *)
Example C121_example : forall fe fl fr, let s := even_setup fe fl fr in setup_ok s /\ no_nan s /\ (Z.of_nat (su_splits s) < 2 ^ 52)%Z /\ (1 <= su_minpts s)%nat /\ su_samples s <> [] /\
  reaches s (even_obj fe fl fr) /\ means_fit 1 s /\ deviations_fit 1 s /\ (Z.of_nat (length (su_samples s)) < 2 ^ 49)%Z.
Proof. exact even_meets. Qed.
