(** Prop_Round.v - what rounding can do: averages (C111) and splits (C112), in binary64.

    [fin] are the finite floats and [val] the real numbers they stand for; uu = 2^-53, tiny = 2^-1075.  The parameters
    fe, fl and fr are exp, log and round, which none of this uses. *)
From Coq Require Import Reals Lra.
From Flocq Require Import Core.Core IEEE754.BinarySingleNaN.
From Verif Require Import Base Num NumpyModel ConfigSpaceModel UtilsModel IceModel PartitionModel PartitionSpec IceProofs PartitionProofs
  RealSums PartitionReal2 B64Proofs RoundSpec RoundProofs RoundLoss RoundMean RoundTree Witness PartitionMetaWitness RoundExamples.
Local Open Scope R_scope.
Local Open Scope list_scope.

(** ** C111 *)
(** a mean, whatever the order in which the numbers are added, as long as no number goes through more than d additions *)
Theorem C111_mean : forall fe fl fr d (l : list (B64 fe fl fr)) s M, added d l s -> l <> [] ->
  Forall (fin fe fl fr) l -> Forall (fun x => Rabs (val fe fl fr x) <= M) l -> M <= bpow radix2 900 ->
  (Z.of_nat (length l) <= 2 ^ 49)%Z -> (Z.of_nat d < 2 ^ 49)%Z ->
  let m := ndiv s (nofZ (Z.of_nat (length l))) in
  fin fe fl fr m /\
  Rabs (val fe fl fr m - Rmean (map (val fe fl fr) l)) <= 9/8 * INR (S d) * uu * Rmean (map (fun x => Rabs (val fe fl fr x)) l) + tiny.
Proof. exact mean_rounded. Qed.
Print Assumptions C111_mean.
Example C111_example : forall fe fl fr, added 2 (r_row fe fl fr) (r_pairs fe fl fr) /\ Forall (fits fe fl fr 1) (r_row fe fl fr) /\
  neqb (ndiv (r_pairs fe fl fr) (nofZ 4)) (nmean (r_row fe fl fr)) = false.
Proof. exact (fun fe fl fr => conj (r_pairs_added fe fl fr) (conj (r_row_fits fe fl fr) (r_differ fe fl fr))). Qed.

(** the curve of a PDP *)
Theorem C111_pdp : forall fe fl fr (a : algorithm (B64 fe fl fr)) predict d M g m,
  Forall (fun row => length row = num_features a) (a_samples a) -> ice_calculate a false predict = Ok d ->
  (forall rows means stds, predict rows = Ok (means, stds) -> Forall (fits fe fl fr M) means) -> M <= bpow radix2 900 ->
  (0 < num_samples a)%nat -> (Z.of_nat (num_samples a) < 2 ^ 49)%Z -> nth_error (y_pdp a d) g = Some m ->
  fin fe fl fr m /\
  Rabs (val fe fl fr m - Rmean (map (fun row => val fe fl fr (nth g row n0)) (i_y d))) <= 9/8 * INR (num_samples a + 1) * uu * M + tiny.
Proof. exact pdp_rounded. Qed.
Print Assumptions C111_pdp.

(** the curve of a region *)
Theorem C111_region : forall fe fl fr (r : region (B64 fe fl fr)) G M g m,
  r_y r <> [] -> Forall (fun row => length row = G) (r_y r) -> Forall (Forall (fits fe fl fr M)) (r_y r) ->
  M <= bpow radix2 900 -> (Z.of_nat (length (r_y r)) < 2 ^ 49)%Z -> nth_error (region_pdp_y r) g = Some m ->
  fin fe fl fr m /\
  Rabs (val fe fl fr m - Rmean (map (fun row => val fe fl fr (nth g row n0)) (r_y r))) <= 9/8 * INR (length (r_y r) + 1) * uu * M + tiny.
Proof. exact region_pdp_rounded. Qed.
Print Assumptions C111_region.

(** mean_confidence: the error is relative *)
Theorem C111_confidence : forall fe fl fr (r : region (B64 fe fl fr)),
  concat (r_v r) <> [] -> (Z.of_nat (length (concat (r_v r))) < 2 ^ 49)%Z ->
  Forall (Forall (fun x => fin fe fl fr x /\ 0 <= val fe fl fr x <= bpow radix2 1000)) (r_v r) ->
  let k := length (concat (r_v r)) in let e := Rmean (map (fun x => sqrt (val fe fl fr x)) (concat (r_v r))) in
  fin fe fl fr (mean_confidence r) /\ Rabs (val fe fl fr (mean_confidence r) - e) <= 9/8 * INR (k + 2) * uu * e + 3 * tiny.
Proof. exact confidence_rounded. Qed.
Print Assumptions C111_confidence.

(** ** C112 *)
(** the loss of a region, whatever the order of the additions *)
Theorem C112_loss : forall fe fl fr d1 d2 (v : list (list (B64 fe fl fr))) a G M, some_loss d1 d2 v a ->
  Forall (fun row => length row = G) v -> Forall (Forall (fits fe fl fr M)) v ->
  bpow radix2 (-500) <= M <= bpow radix2 400 ->
  (Z.of_nat (length v) <= 2 ^ 49)%Z -> (Z.of_nat (length v * G) <= 2 ^ 49)%Z -> (Z.of_nat d1 < 2 ^ 49)%Z -> (Z.of_nat d2 <= 2 ^ 49)%Z ->
  fin fe fl fr a /\
  Rabs (val fe fl fr a - within_variance G (real_rows fe fl fr v)) <= INR (length v * G) * INR (d1 + d2 + 3) * bpow radix2 (-50) * (M * M) /\
  Rabs (val fe fl fr a) <= 9 * INR (length v * G) * (M * M).
Proof. exact loss_rounded. Qed.
Print Assumptions C112_loss.
(** the loss of the model is one of these *)
Theorem C112_model_loss : forall (N : Num) (r : region N) G, Forall (fun row => length row = G) (r_v r) ->
  some_loss (length (r_v r)) (length (r_v r) * G) (r_v r) (region_loss r).
Proof. exact @loss_some. Qed.
Print Assumptions C112_model_loss.

(** whatever the order of the additions, a split whose computed loss is not larger than that of another one is nearly as good *)
Theorem C112_any_order : forall fe fl fr cs (nd l r l' r' : dnode (B64 fe fl fr)) h v h' v' G M d1 d2 x y x' y',
  let n := length (r_v (n_region nd)) in
  wf_region (length cs) (n_region nd) -> known cs h -> known cs h' ->
  split_at_value cs nd h v = Ok (l, r) -> split_at_value cs nd h' v' = Ok (l', r') ->
  Forall (fun row => length row = G) (r_v (n_region nd)) -> Forall (Forall (fits fe fl fr M)) (r_v (n_region nd)) ->
  bpow radix2 (-500) <= M <= bpow radix2 400 ->
  (Z.of_nat n < 2 ^ 49)%Z -> (Z.of_nat (n * G) <= 2 ^ 49)%Z -> (Z.of_nat d1 < 2 ^ 49)%Z -> (Z.of_nat d2 <= 2 ^ 49)%Z ->
  loss_within d1 d2 (r_v (n_region l)) x -> loss_within d1 d2 (r_v (n_region r)) y ->
  loss_within d1 d2 (r_v (n_region l')) x' -> loss_within d1 d2 (r_v (n_region r')) y' ->
  nlt (nadd x' y') (nadd x y) = false ->
  true_loss G l + true_loss G r <= true_loss G l' + true_loss G r' + 2 * slack_within d1 d2 n G M.
Proof. exact any_order_near_best. Qed.
Print Assumptions C112_any_order.

(** every split that a region is offered: its computed loss is a number close to the true one; a split never increases
    the true loss, and the computed one only by rounding *)
Theorem C112_offered : forall fe fl fr (s : setup (B64 fe fl fr)) p S id nd l r,
  setup_ok s -> reaches s p -> deviations_fit S s -> bpow radix2 (-250) <= S <= bpow radix2 199 ->
  deref p id = Some nd -> let n := region_len (n_region nd) in let G := width (r_v (n_region nd)) in (Z.of_nat (n * G) < 2 ^ 49)%Z ->
  offered s nd l r ->
  fin fe fl fr (split_total (l, r)) /\
  Rabs (val fe fl fr (split_total (l, r)) - (true_loss G l + true_loss G r)) <= slack n G (2 * (S * S)) /\
  true_loss G l + true_loss G r <= true_loss G nd /\
  val fe fl fr (split_total (l, r)) <= val fe fl fr (region_loss (n_region nd)) + 2 * slack n G (2 * (S * S)).
Proof. exact offered_rounded. Qed.
Print Assumptions C112_offered.

(** the split that is made is as good as every other one that the settings allow, up to twice the slack *)
Theorem C112_near_best : forall fe fl fr (s : setup (B64 fe fl fr)) p S,
  setup_ok s -> reaches s p -> deviations_fit S s -> bpow radix2 (-250) <= S <= bpow radix2 199 ->
  forall id c a b l r, nth_error (d_heap p) id = Some c -> n_left c = Some a -> n_right c = Some b -> deref p a = Some l -> deref p b = Some r ->
  let n := region_len (n_region (n_node c)) in let G := width (r_v (n_region (n_node c))) in (Z.of_nat (n * G) < 2 ^ 49)%Z ->
  offered s (n_node c) l r /\
  forall l' r', offered s (n_node c) l' r' -> true_loss G l + true_loss G r <= true_loss G l' + true_loss G r' + 2 * slack n G (2 * (S * S)).
Proof. exact split_near_best. Qed.
Print Assumptions C112_near_best.

(** a split that is better than all others by more than twice the slack is the one that is made *)
Theorem C112_clear_best : forall fe fl fr (s : setup (B64 fe fl fr)) p S,
  setup_ok s -> reaches s p -> deviations_fit S s -> bpow radix2 (-250) <= S <= bpow radix2 199 ->
  forall id c a b l r, nth_error (d_heap p) id = Some c -> n_left c = Some a -> n_right c = Some b -> deref p a = Some l -> deref p b = Some r ->
  let n := region_len (n_region (n_node c)) in let G := width (r_v (n_region (n_node c))) in (Z.of_nat (n * G) < 2 ^ 49)%Z ->
  forall l' r', offered s (n_node c) l' r' ->
    (forall l2 r2, offered s (n_node c) l2 r2 -> (l2, r2) = (l', r') \/ true_loss G l' + true_loss G r' + 2 * slack n G (2 * (S * S)) < true_loss G l2 + true_loss G r2) ->
    (l, r) = (l', r').
Proof. exact clear_best_chosen. Qed.
Print Assumptions C112_clear_best.

(** no region stays whole because of its numbers: with deviations in this range a leaf is at the depth asked for, has
    one curve, or the settings allow no split of it *)
Theorem C112_stop : forall fe fl fr (s : setup (B64 fe fl fr)) p S d,
  setup_ok s -> reaches s p -> deviations_fit S s -> bpow radix2 (-250) <= S <= bpow radix2 199 -> (0 < d)%nat ->
  exists p' ids leaves, partition p d = (p', Ok ids) /\
    Forall2 (fun id nd => deref p' id = Some nd) ids leaves /\
    Forall (fun nd => (Z.of_nat (region_len (n_region nd) * width (r_v (n_region nd))) < 2 ^ 49)%Z ->
      n_depth nd = d \/ (region_len (n_region nd) <= 1)%nat \/ forall l r, ~ offered s nd l r) leaves.
Proof. exact stop_reason_finite. Qed.
Print Assumptions C112_stop.

(** five curves whose deviation depends on b, split at b: the slack is below 2^-40 *)
Example C112_example : forall fe fl fr, let s := r_setup fe fl fr in setup_ok s /\ deviations_fit 1 s /\
  (exists p q c a b l r, construct s = Ok p /\ reaches s q /\ q = fst (partition p 1) /\ nth_error (d_heap q) 0 = Some c /\
    n_left c = Some a /\ n_right c = Some b /\ deref q a = Some l /\ deref q b = Some r /\
    region_len (n_region (n_node c)) = 5%nat /\ width (r_v (n_region (n_node c))) = 1%nat /\
    (region_len (n_region l), region_len (n_region r)) = (3, 2)%nat /\ map (fun x => hp_name (c_hp x)) (n_conds l) = ["b"%string]) /\
  2 * slack 5 1 (2 * (1 * 1)) < bpow radix2 (-40).
Proof. exact (fun fe fl fr => conj (r_setup_ok fe fl fr) (conj (r_setup_fits fe fl fr) (conj (r_run fe fl fr) r_slack))). Qed.
