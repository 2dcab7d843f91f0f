(** PlottingModel.v - pyPDP/utils/plotting.py: the shape of a grid of figures and the state of an axis. *)
From Coq Require Import Reals.
From Flocq Require Import Core.Core IEEE754.BinarySingleNaN.
From Verif Require Import Base Num ConfigSpaceModel.

(** ** as_quadratic_shape_as_possible_for_n_figures: plotting.py:303-308 *)
(** the loop: plotting.py:305-307; [k] values of h are left *)
Fixpoint shape_loop (k : nat) (h w n : Z) : option (Z * Z) :=
  match k with
  | O => None
  | S k' => if (n <=? h * w)%Z then Some (w, h) else shape_loop k' (h + 1)%Z w n
  end.
(** plotting.py:303-308; [ceil_sqrt] is int(np.ceil(np.sqrt(n))) (plotting.py:304) *)
Definition quadratic_shape (ceil_sqrt : Z -> res Z) (n : Z) : res (Z * Z) :=
  w <- ceil_sqrt n ;;
  match shape_loop (Z.to_nat w) 1 w n with Some p => Ok p | None => Err ValueError end.

(** int(np.ceil(np.sqrt(n))) in exact arithmetic; np.sqrt of a negative number is nan and int(nan)
    raises ValueError: plotting.py:304 *)
Definition real_ceil_sqrt (n : Z) : res Z := if (n <? 0)%Z then Err ValueError else Ok (Zceil (sqrt (IZR n))).
(** np.ceil of a finite binary64, as an integer: plotting.py:304 *)
Definition b64_of_Z (z : Z) : b64 := @binary_normalize 53 1024 prec53 emax1024 mode_NE z 0 false.
(** np.ceil and int: plotting.py:304 *)
Definition b64_ceil (x : b64) : Z := let t := Btrunc x in if Bltb (b64_of_Z t) x then (t + 1)%Z else t.
(** int(np.ceil(np.sqrt(n))) as computed (an int becomes a float64; n < 2^63, numpy's range): plotting.py:304 *)
Definition b64_ceil_sqrt (n : Z) : res Z :=
  let s := @Bsqrt 53 1024 prec53 emax1024 mode_NE (b64_of_Z n) in
  if is_nan s then Err ValueError else Ok (b64_ceil s).

(** ** check_and_set_axis: plotting.py:41-96 *)
Section Axis.
Context {N : Num}.
(** what check_and_set_axis reads and writes of a matplotlib axis; a limit that was never set is None
    (chosen by matplotlib); set_xscale is taken to leave the limits alone: plotting.py:41-97 *)
Record axis := mkaxis {
  ax_xlabel : string; ax_ylabel : string;
  ax_xlog : bool; ax_ylog : bool;
  ax_xlim : option N * option N; ax_ylim : option N * option N }.
(** a new axis, before check_and_set_axis (plotting.py:41) is called on it *)
Definition fresh_axis : axis := mkaxis "" "" false false (None, None) (None, None).
(** ax.set_xlabel, ax.set_ylabel: plotting.py:66-67, 84-85 *)
Definition set_labels (ax : axis) (x y : string) : axis := mkaxis x y (ax_xlog ax) (ax_ylog ax) (ax_xlim ax) (ax_ylim ax).
(** matplotlib's set_xlim/set_ylim: a limit <= 0 is ignored on a logarithmic axis: plotting.py:69-73, 88-96 *)
Definition new_lim (lg : bool) (old : option N * option N) (lower upper : N) : option N * option N :=
  (if lg && nle lower n0 then fst old else Some lower, if lg && nle upper n0 then snd old else Some upper).
(** scale and limits of x: plotting.py:70-73, 89-92 *)
Definition set_x_bounds (set_bounds : bool) (ax : axis) (h : hp N) : axis :=
  if set_bounds && is_numerical h then
    match hp_lower h, hp_upper h, hp_log h with
    | Ok lo, Ok up, Ok lg =>
        let lg' := lg || ax_xlog ax in
        mkaxis (ax_xlabel ax) (ax_ylabel ax) lg' (ax_ylog ax) (new_lim lg' (ax_xlim ax) lo up) (ax_ylim ax)
    | _, _, _ => ax
    end
  else ax.
(** scale and limits of y: plotting.py:93-96 *)
Definition set_y_bounds (set_bounds : bool) (ax : axis) (h : hp N) : axis :=
  if set_bounds && is_numerical h then
    match hp_lower h, hp_upper h, hp_log h with
    | Ok lo, Ok up, Ok lg =>
        let lg' := lg || ax_ylog ax in
        mkaxis (ax_xlabel ax) (ax_ylabel ax) (ax_xlog ax) lg' (ax_xlim ax) (new_lim lg' (ax_ylim ax) lo up)
    | _, _, _ => ax
    end
  else ax.
(** plotting.py:41-96: the axis after the call, and the result *)
Definition check_and_set_axis (ax : axis) (hps : list (hp N)) (set_bounds : bool) (ylabel : string) : axis * res unit :=
  match hps with
  | [h] =>
      if negb (String.eqb (ax_xlabel ax) "") && negb (String.eqb (ax_xlabel ax) (hp_name h)) then (ax, Err ValueError)
      else if negb (String.eqb (ax_ylabel ax) "") && negb (String.eqb (ax_ylabel ax) ylabel) then (ax, Err ValueError)
      else (set_x_bounds set_bounds (set_labels ax (hp_name h) ylabel) h, Ok tt)
  | [h1; h2] =>
      if negb (String.eqb (ax_xlabel ax) "" && String.eqb (ax_ylabel ax) "")
         && negb (String.eqb (ax_xlabel ax) (hp_name h1) && String.eqb (ax_ylabel ax) (hp_name h2)) then (ax, Err ValueError)
      else (set_y_bounds set_bounds (set_x_bounds set_bounds (set_labels ax (hp_name h1) (hp_name h2)) h1) h2, Ok tt)
  | _ => (ax, Ok tt)
  end.
(** a call on an axis, and a history of calls; a call that raises leaves the axis it returns: plotting.py:41 *)
Record axcall := mkcall { ac_hps : list (hp N); ac_bounds : bool; ac_ylabel : string }.
(** one call of check_and_set_axis: plotting.py:41-96 *)
Definition ax_step (ax : axis) (c : axcall) : axis := fst (check_and_set_axis ax (ac_hps c) (ac_bounds c) (ac_ylabel c)).
(** several calls on one axis: plotting.py:41-96 *)
Definition ax_run (ax : axis) (cs : list axcall) : axis := fold_left ax_step cs ax.
End Axis.
Arguments axis : clear implicits.
Arguments axcall : clear implicits.
