(** UtilsModel.v - pyPDP/utils/utils.py *)
From Verif Require Import Base Num NumpyModel ConfigSpaceModel.

Section Utils.
Context {N : Num}.

(** scale_float: pyPDP/utils/utils.py:58-73 *)
Definition scale_float (value : N) (cs : cspace N) (h : hp N) : res N :=
  cs_hp <- cs_get cs (hp_name h) ;;
  log <- hp_log cs_hp ;;
  lower <- hp_lower cs_hp ;;
  upper <- hp_upper cs_hp ;;
  let normalized :=
    if log : bool then
      ndiv (nsub (nln value) (nln lower)) (nsub (nln upper) (nln lower))
    else ndiv (nsub value lower) (nsub upper lower) in
  Ok (np_maximum n0 (np_minimum n1 normalized)).

(** unscale_float: pyPDP/utils/utils.py:76-90 *)
Definition unscale_float (normalized : N) (cs : cspace N) (h : hp N) : res N :=
  cs_hp <- cs_get cs (hp_name h) ;;
  log <- hp_log cs_hp ;;
  lower <- hp_lower cs_hp ;;
  upper <- hp_upper cs_hp ;;
  let value :=
    if log : bool then
      nexp (nadd (nmul normalized (nsub (nln upper) (nln lower))) (nln lower))
    else nadd (nmul normalized (nsub upper lower)) lower in
  Ok (np_minimum upper (np_maximum lower value)).

(** The unscaler lambdas of unscale: pyPDP/utils/utils.py:100-107 (numerical case). *)
Definition unscaler (lower upper : N) (log : bool) (x : N) : N :=
  if log then
    np_minimum upper (np_maximum lower
      (nexp (nadd (nmul x (nsub (nln upper) (nln lower))) (nln lower))))
  else nadd (nmul x (nsub upper lower)) lower.

(** float arrays with 1, 2, 3 dimensions, or more (pyPDP/utils/utils.py:114-121) *)
Inductive ndarray := A1 (x : list N) | A2 (x : list (list N)) | A3 (x : list (list (list N))) | AMore.

(** One iteration of the loop pyPDP/utils/utils.py:99-121 for column [i], reading from [x]
    and writing to [x_copy].  On a float array the categorical case
    [[hp.choices[k] for k in values]] (line 109) raises TypeError as soon as it
    looks at one entry: a float is not a valid tuple index, a scalar is not
    iterable, a row is not an index. *)
Definition unscale_col1 (h : hp N) (i : nat) (x copy : list N) : res (list N) :=
  match hp_kind h with
  | KFloat _ _ _ | KInt _ _ _ =>
    lo <- hp_lower h ;; up <- hp_upper h ;; lg <- hp_log h ;;
    v <- py_nth x i ;; Ok (set_nth i (unscaler lo up lg v) copy)
  | _ => Err TypeError
  end.
(** column i of a two-dimensional array: pyPDP/utils/utils.py:116-117 *)
Definition unscale_col2 (h : hp N) (i : nat) (x copy : list (list N)) : res (list (list N)) :=
  match hp_kind h with
  | KFloat _ _ _ | KInt _ _ _ =>
    lo <- hp_lower h ;; up <- hp_upper h ;; lg <- hp_log h ;;
    mapM (fun rc => v <- py_nth (fst rc) i ;; Ok (set_nth i (unscaler lo up lg v) (snd rc)))
         (combine x copy)
  | KCat _ => match x with [] => Ok copy | _ => Err TypeError end
  | _ => Err TypeError
  end.
(** column i of a three-dimensional array: pyPDP/utils/utils.py:118-119 *)
Definition unscale_col3 (h : hp N) (i : nat) (x copy : list (list (list N))) : res (list (list (list N))) :=
  match hp_kind h with
  | KFloat _ _ _ | KInt _ _ _ => mapM (fun mc => unscale_col2 h i (fst mc) (snd mc)) (combine x copy)
  | KCat _ => match x with [] => Ok copy | _ => Err TypeError end
  | _ => Err TypeError
  end.

(** unscale: pyPDP/utils/utils.py:93-122 *)
Definition unscale (x : ndarray) (cs : cspace N) : res ndarray :=
  let cols := combine cs (seq 0 (List.length cs)) in
  match x with
  | A1 a => r <- foldM (fun c hi => unscale_col1 (fst hi) (snd hi) a c) cols a ;; Ok (A1 r)
  | A2 a => r <- foldM (fun c hi => unscale_col2 (fst hi) (snd hi) a c) cols a ;; Ok (A2 r)
  | A3 a => r <- foldM (fun c hi => unscale_col3 (fst hi) (snd hi) a c) cols a ;; Ok (A3 r)
  | AMore => match cs with
             | [] => Ok AMore
             | h :: _ => match hp_kind h with
                         | KFloat _ _ _ | KInt _ _ _ => Err RuntimeError (* plain Exception, line 121 *)
                         | _ => Err TypeError end
             end
  end.

(** get_stds: pyPDP/utils/utils.py:125-131 *)
Definition get_stds (stds variances : option (list N)) : res (list N) :=
  match stds, variances with
  | None, None | Some _, Some _ => Err RuntimeError
  | None, Some v => Ok (map nsqrt v)
  | Some s, None => Ok s
  end.

(** Arguments selecting hyperparameters (pyPDP/utils/typing.py:5): a name, a
    hyperparameter, an iterable mixing both, something else, or None. *)
Inductive selitem := SName (s : string) | SHp (h : hp N) | SOther.
(** None, one of them, or an iterable: pyPDP/utils/utils.py:136-155, 212-222 *)
Inductive selection := SelNone | SelOne (i : selitem) | SelList (l : list selitem).

(** one element of the iterable: pyPDP/utils/utils.py:149-154, 216-221 *)
Definition sel_item (cs : cspace N) (i : selitem) : res (hp N) :=
  match i with
  | SName s => cs_get cs s
  | SHp h => Ok h
  | SOther => Err TypeError
  end.

(** get_hyperparameters: pyPDP/utils/utils.py:134-155 *)
Definition get_hyperparameters (s : selection) (cs : cspace N) : res (list (hp N)) :=
  match s with
  | SelNone => Ok cs
  | SelOne (SHp h) => Ok [h]
  | SelOne (SName n) => h <- cs_get cs n ;; Ok [h]
  | SelOne SOther => Err TypeError   (* not iterable *)
  | SelList l => mapM (sel_item cs) l
  end.

(** convert_hyperparameters: pyPDP/utils/utils.py:200-222 *)
Definition convert_hyperparameters (s : selection) (cs : cspace N) : res (list (hp N)) :=
  match s with
  | SelNone => Err TypeError
  | SelOne SOther => Err TypeError
  | SelOne i => mapM (sel_item cs) [i]
  | SelList l => mapM (sel_item cs) l
  end.

(** get_selected_idx: pyPDP/utils/utils.py:50-55 *)
Definition get_selected_idx (hps : list (hp N)) (cs : cspace N) : res (list nat) :=
  mapM (fun h => cs_idx cs (hp_name h)) hps.

(** np.logspace(log10 a, log10 b, num) = 10 ** linspace, with log10 x = ln x / ln 10
    and 10 ** y = exp (y * ln 10). pyPDP/utils/utils.py:178 *)
Definition nlog10 (x : N) : N := ndiv (nln x) (nln (nofZ 10)).
(** 10 ** y in np.logspace: pyPDP/utils/utils.py:178 *)
Definition npow10 (y : N) : N := nexp (nmul y (nln (nofZ 10))).
(** np.logspace: pyPDP/utils/utils.py:178 *)
Definition logspace (a b : N) (num : nat) : list N := map npow10 (linspace a b num).

(** get_uniform_distributed_ranges: pyPDP/utils/utils.py:158-184 *)
Definition get_ranges (cs : list (hp N)) (samples_per_axis : nat) (scaled : bool) : res (list (list N)) :=
  mapM (fun h =>
    _ <- guard (is_numerical h) AssertionError ;;
    if scaled then Ok (linspace n0 n1 samples_per_axis)
    else
      lg <- hp_log h ;; lo <- hp_lower h ;; up <- hp_upper h ;;
      if (lg : bool) then Ok (logspace (nlog10 lo) (nlog10 up) samples_per_axis)
      else Ok (linspace lo up samples_per_axis)) cs.

(** calculate_log_delta: pyPDP/utils/utils.py:196-197 *)
Definition nabs (x : N) : N := if nlt x n0 then nsub n0 x else x.
(** calculate_log_delta: pyPDP/utils/utils.py:196-197 *)
Definition calculate_log_delta (nll nll_root : N) : N :=
  ndiv (nsub nll_root nll) (nabs nll_root).

End Utils.

Arguments ndarray : clear implicits.
Arguments selitem : clear implicits.
Arguments selection : clear implicits.
