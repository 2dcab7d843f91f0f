(** MmdModel.v - Sampler.maximum_mean_discrepancy (pyPDP/sampler/__init__.py:167-193) and
    median_distance_between_points (pyPDP/utils/utils.py:187-193), over the reals; None is nan. *)
From Verif Require Import Base Num.
From Coq Require Import Reals.
Local Open Scope R_scope.

(** np.sum over the reals: utils/utils.py:190, sampler/__init__.py:186-188 *)
Fixpoint rtotal (l : list R) : R := match l with [] => 0 | x :: t => x + rtotal t end.
(** np.sum(np.square(a - b)): utils.py:189-190 *)
Definition sqdist (x y : list R) : R := rtotal (map (fun p => (fst p - snd p) ^ 2) (combine x y)).
(** distances[distances != 0], rows in order: utils.py:188-192 *)
Definition all_distances (X : list (list R)) : list R := concat (map (fun x => map (fun y => sqrt (sqdist y x)) X) X).
(** distances[distances != 0]: utils/utils.py:192 *)
Definition nonzero_distances (X : list (list R)) : list R := filter (fun d => if Req_EM_T d 0 then false else true) (all_distances X).
(** np.sort, one value: np.median at utils/utils.py:192 *)
Fixpoint rinsert (x : R) (l : list R) : list R :=
  match l with [] => [x] | y :: t => if Rle_dec x y then x :: y :: t else y :: rinsert x t end.
(** the values in order, as np.median needs them: utils/utils.py:192 *)
Definition rsort (l : list R) : list R := fold_right rinsert [] l.
(** np.median: nan for no value, the middle one, or the mean of the two in the middle:
    utils/utils.py:192 *)
Definition np_median (l : list R) : option R :=
  let s := rsort l in let n := length l in
  if Nat.eqb n 0 then None
  else if Nat.odd n then Some (nth (Nat.div2 n) s 0)
  else Some ((nth (Nat.div2 n - 1) s 0 + nth (Nat.div2 n) s 0) / 2).
(** utils.py:187-193 *)
Definition median_distance (X : list (list R)) : option R := np_median (nonzero_distances X).

(** sklearn's RBF(length_scale)(X): exp(-0.5 * squared distance of X / length_scale), the diagonal
    filled with 1: sampler/__init__.py:181-183 *)
Definition rbf_entry (l : R) (x y : list R) : R := exp (- (1 / 2) * sqdist (map (fun t => t / l) x) (map (fun t => t / l) y)).
(** the rows with their numbers: the diagonal of rbf(X) and of np.eye, sampler/__init__.py:183, 186-187 *)
Definition enum {A} (X : list A) : list (nat * A) := combine (seq 0 (length X)) X.
(** covariances = rbf(X): sampler/__init__.py:181-183 *)
Definition rbf (l : R) (X : list (list R)) : list (list R) :=
  map (fun p => map (fun q => if Nat.eqb (fst p) (fst q) then 1 else rbf_entry l (snd p) (snd q)) (enum X)) (enum X).
(** np.sum((1 - np.eye(n)) * M): sampler/__init__.py:186-187 *)
Definition off_diagonal (M : list (list R)) : R :=
  rtotal (map (fun p => rtotal (map (fun q => (1 - (if Nat.eqb (fst p) (fst q) then 1 else 0)) * snd q) (enum (snd p)))) (enum M)).
(** M[:n, :n], M[n:, n:], M[:n, n:]: sampler/__init__.py:186 *)
Definition block_ll (n : nat) (M : list (list R)) : list (list R) := map (firstn n) (firstn n M).
(** M[n:, n:]: sampler/__init__.py:187 *)
Definition block_gg (n : nat) (M : list (list R)) : list (list R) := map (skipn n) (skipn n M).
(** M[:n, n:]: sampler/__init__.py:188 *)
Definition block_lg (n : nat) (M : list (list R)) : list (list R) := map (skipn n) (firstn n M).
(** a / b; nan when both are 0 (the numerator is 0 whenever b is): sampler/__init__.py:186 *)
Definition div_nan (a : R) (b : R) : option R := if Req_EM_T b 0 then None else Some (a / b).

(** maximum_mean_discrepancy: sampler/__init__.py:167-193, on the samples and the uniform
    configurations.  Without samples, or with fewer than two uniform configurations
    (sample_configuration(1) returns a bare configuration), np.concatenate or transpose raises *)
Definition mmd (X U : list (list R)) : res (option R) :=
  _ <- guard (Nat.leb 1 (length X) && Nat.leb 2 (length U)) ValueError ;;
  match median_distance (X ++ U) with
  | None => Ok None
  | Some l =>
      let cov := rbf l (X ++ U) in
      let n := length X in let m := length U in
      let term2 := off_diagonal (block_gg n cov) / (INR m * (INR m - 1)) in
      let term3 := rtotal (concat (block_lg n cov)) * 2 / (INR n * INR m) in
      Ok (match div_nan (off_diagonal (block_ll n cov)) (INR n * (INR n - 1)) with
          | None => None
          | Some term1 => let s := term1 + term2 - term3 in Some (if Rlt_dec s 0 then 0 else sqrt s)
          end)
  end.
