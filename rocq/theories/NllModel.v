(** NllModel.v - Region.negative_log_likelihood and delta_nll (pyPDP/algorithms/partitioner/__init__.py:62-99),
    over the reals; None is nan. *)
From Verif Require Import Base Num NumpyModel ConfigSpaceModel UtilsModel IceModel PartitionModel SyntheticModel.
From Coq Require Import Reals.
Local Open Scope R_scope.

(** what is used of a blackbox function: its space and pd_integral, which returns a function on a
    reduced space (blackbox_functions/__init__.py:10-28, 66-74) *)
Record truefn := mktf { tf_space : cspace RNum; tf_pd : list (hp RNum) -> res (cspace RNum * (config RNum -> res R)) }.
(** StyblinskiTang: synthetic_functions.py:127-163 *)
Definition stybtang_fn (cs : cspace RNum) : truefn :=
  mktf cs (fun hps => p <- pd_integral cs (map (fun h => SHp h) hps) ;; Ok (fst p, pd_value p)).
(** the other functions: blackbox_functions/__init__.py:27-28 *)
Definition other_fn (cs : cspace RNum) : truefn := mktf cs (fun _ => Err NotImplementedError).

(** scipy.stats.norm.logpdf(x, loc, scale): nan unless scale > 0 (partitioner/__init__.py:92) *)
Definition logpdf (x loc scale : R) : option R :=
  if Rlt_dec 0 scale then Some (- (((x - loc) / scale) ^ 2) / 2 - ln (sqrt (2 * PI)) - ln scale) else None.
(** np.mean: nan for an empty array or with a nan in it (partitioner/__init__.py:93) *)
Fixpoint all_some {A} (l : list (option A)) : option (list A) :=
  match l with
  | [] => Some []
  | o :: t => match o, all_some t with Some x, Some r => Some (x :: r) | _, _ => None end
  end.
(** np.mean(log_prob): partitioner/__init__.py:93 *)
Definition mean_nan (l : list (option R)) : option R :=
  match all_some l with Some (x :: t) => Some (nmean (N:=RNum) (x :: t)) | _ => None end.

(** not_selected_hp: partitioner/__init__.py:68-73 *)
Definition not_selected (sel : list (hp RNum)) (space : cspace RNum) : list (hp RNum) :=
  filter (fun h => negb (existsb (String.eqb (hp_name h)) (map hp_name sel))) space.
(** true_y[i]: partitioner/__init__.py:77-81 *)
Definition true_value (cs : cspace RNum) (h : hp RNum) (idx : nat) (r : region RNum) (p : cspace RNum * (config RNum -> res R)) (i : nat) : res R :=
  curve <- py_nth (r_x r) 0 ;;
  row <- py_nth curve i ;;
  x <- py_nth row idx ;;
  u <- unscale_float (N:=RNum) x cs h ;;
  bb_call (N:=RNum) (snd p) (fst p) [(hp_name h, VNum (N:=RNum) u)].
(** negative_log_likelihood: partitioner/__init__.py:62-94 *)
Definition nll (cs : cspace RNum) (sel : list (hp RNum)) (r : region RNum) (f : truefn) : res (option R) :=
  let num_grid_points := width (r_x r) in
  h <- py_nth sel 0 ;;
  idx <- cs_idx cs (hp_name h) ;;
  p <- tf_pd f (not_selected sel (tf_space f)) ;;
  true_y <- mapM (true_value cs h idx r p) (seq 0 num_grid_points) ;;
  let pdp_y_points := region_pdp_y (N:=RNum) r in
  let pdp_y_std := map sqrt (region_pdp_v (N:=RNum) r) in
  let log_prob := map (fun q => logpdf (fst q) (fst (snd q)) (snd (snd q))) (combine true_y (combine pdp_y_points pdp_y_std)) in
  Ok (option_map Ropp (mean_nan log_prob)).
(** delta_nll: partitioner/__init__.py:96-99, with calculate_log_delta (utils.py:196-197); also None
    when the root has NLL 0 (numpy gives nan or an infinity) *)
Definition log_delta (a root : option R) : option R :=
  match a, root with
  | Some x, Some y => if Req_EM_T y 0 then None else Some (calculate_log_delta (N:=RNum) x y)
  | _, _ => None
  end.
(** delta_nll: partitioner/__init__.py:96-99 *)
Definition delta_nll (cs : cspace RNum) (sel : list (hp RNum)) (r full : region RNum) (f : truefn) : res (option R) :=
  a <- nll cs sel r f ;; root <- nll cs sel full f ;; Ok (log_delta a root).
