(** SyntheticModel.v - pyPDP/blackbox_functions/{__init__,synthetic_functions}.py.

    config_space_nd is generic in the numbers.  The functions use sin, cos, pi, exp and sqrt; they are
    modelled over the reals (rounding of numpy is not modelled). *)
From Verif Require Import Base Num NumpyModel ConfigSpaceModel UtilsModel.
From Coq Require Import Reals DecimalString.

(** ** pyPDP/blackbox_functions/__init__.py *)
Section Space.
Context {N : Num}.

(** str(i) of a natural number, as in f"{variable_prefix}{i + 1}" (blackbox_functions/__init__.py:106) *)
Definition dec (i : nat) : string := NilEmpty.string_of_uint (Nat.to_uint i).

(** a scalar or an iterable (blackbox_functions/__init__.py:79-81, 96-101) *)
Inductive param (A : Type) := PScalar (a : A) | PIter (l : list A).
Arguments PScalar {A} a.
Arguments PIter {A} l.
(** [value] * dimensions for a scalar: blackbox_functions/__init__.py:96-101 *)
Definition expand {A} (d : Z) (p : param A) : list A :=
  match p with PScalar a => repeat a (Z.to_nat d) | PIter l => l end.

(** CSH.UniformFloatHyperparameter(name, lower, upper, log): raises ValueError unless lower < upper
    and, with log, 0 < lower (contract of ConfigSpace): blackbox_functions/__init__.py:110 *)
Definition float_hp_new (name : string) (lo up : N) (lg : bool) : res (hp N) :=
  if negb (nlt lo up) then Err ValueError
  else if lg && negb (nlt n0 lo) then Err ValueError
  else Ok (mkhp name (KFloat lo up lg)).
(** the loop body: blackbox_functions/__init__.py:106-110 *)
Definition nd_hp (name : string) (lo up : N) (lg : bool) : res (hp N) :=
  if neqb lo up then Ok (mkhp name (KConst (VNum lo))) else float_hp_new name lo up lg.
(** cs.add_hyperparameter: an existing name raises.  The order of list(cs.values()) is chosen by
    ConfigSpace; the model keeps the order of insertion and the theorems look hyperparameters up by name:
    blackbox_functions/__init__.py:111, synthetic_functions.py:152 *)
Definition add_hp (cs : cspace N) (h : hp N) : res (cspace N) :=
  if existsb (fun g => String.eqb (hp_name g) (hp_name h)) cs then Err ValueError else Ok (cs ++ [h]).
(** for i, (low, high, is_log) in enumerate(zip(lower, upper, log)): blackbox_functions/__init__.py:105-111 *)
Fixpoint nd_loop (prefix : string) (i : nat) (lo up : list N) (lg : list bool) (cs : cspace N) : res (cspace N) :=
  match lo, up, lg with
  | l :: lo', u :: up', b :: lg' =>
      h <- nd_hp (prefix ++ dec (i + 1)) l u b ;;
      cs' <- add_hp cs h ;;
      nd_loop prefix (S i) lo' up' lg' cs'
  | _, _, _ => Ok cs
  end.
(** config_space_nd: blackbox_functions/__init__.py:77-112; [dimensions] is an integer (:94-95) *)
Definition config_space_nd (dimensions : Z) (lower upper : param N) (log : param bool) (prefix : string) : res (cspace N) :=
  nd_loop prefix 0 (expand dimensions lower) (expand dimensions upper) (expand dimensions log) [].

(** BlackboxFunctionND.for_n_dimensions: blackbox_functions/__init__.py:41-48, with the class
    attributes _default_lower, _default_upper and log *)
Definition for_n_dimensions (def_lo def_up : N) (log : bool) (dimensions : Z) (lower upper : option (param N)) : res (cspace N) :=
  config_space_nd dimensions (match lower with Some p => p | None => PScalar def_lo end)
    (match upper with Some p => p | None => PScalar def_up end) (PScalar log) "x".

(** CS.Configuration(config_space, values=kwargs) in BlackboxFunction.__call__
    (blackbox_functions/__init__.py:16-17): no unknown names, a legal value for every hyperparameter *)
Definition cval_eqb' (a b : cval N) : bool :=
  match a, b with VNum x, VNum y => neqb x y | VStr s, VStr t => String.eqb s t | _, _ => false end.
(** is_legal of a hyperparameter (contract of ConfigSpace), used by CS.Configuration(.., values=..):
    blackbox_functions/__init__.py:17 *)
Definition legal_value (h : hp N) (v : cval N) : bool :=
  match hp_kind h, v with
  | KFloat lo up _, VNum x => nle lo x && nle x up
  | KInt lo up _, VNum x => neqb (nround x) x && nle (nofZ lo) x && nle x (nofZ up)
  | KCat ch, _ => existsb (cval_eqb' v) ch
  | KConst c, _ => cval_eqb' v c
  | _, _ => false
  end.
(** CS.Configuration(self.config_space, values=kwargs): blackbox_functions/__init__.py:17 *)
Definition make_configuration (cs : cspace N) (kwargs : config N) : res (config N) :=
  _ <- guard (forallb (fun p => existsb (fun h => String.eqb (hp_name h) (fst p)) cs) kwargs) ValueError ;;
  mapM (fun h => match config_get kwargs (hp_name h) with
                 | Some v => if legal_value h v then Ok (hp_name h, v) else Err ValueError
                 | None => Err ValueError
                 end) cs.
(** BlackboxFunction.__call__: blackbox_functions/__init__.py:16-18 *)
Definition bb_call {A} (value : config N -> res A) (cs : cspace N) (kwargs : config N) : res A :=
  c <- make_configuration cs kwargs ;; value c.

(** numbers of a configuration: list(config.values()) in numpy, and config[name]: synthetic_functions.py:16, 21, 39, 73, 97-98, 119 *)
Definition cnum (v : cval N) : res N := match v with VNum x => Ok x | VStr _ => Err TypeError end.
(** list(config.values()): synthetic_functions.py:16, 21 *)
Definition config_values (c : config N) : res (list N) := mapM (fun p => cnum (snd p)) c.
(** config[name]: synthetic_functions.py:39, 73, 97-98, 119 *)
Definition config_item (c : config N) (name : string) : res N :=
  match config_get c name with Some v => cnum v | None => Err KeyError end.
(** [config[f"x{i + 1}"] for i in range(d)]: synthetic_functions.py:39, 73 *)
Definition config_xs (c : config N) (d : nat) : res (list N) := mapM (fun i => config_item c (String.append "x" (dec (i + 1)))) (seq 0 d).
End Space.
Arguments PScalar {A} a.
Arguments PIter {A} l.

(** ** pyPDP/blackbox_functions/synthetic_functions.py *)
Section Functions.
Local Open Scope R_scope.
Notation conf := (config RNum).
Notation space := (cspace RNum).

(** np.sum: synthetic_functions.py:16, 21, 45, 75-76, 121 *)
Definition rsum (l : list R) : R := fold_right Rplus 0 l.

(** Square.value_from_config: synthetic_functions.py:14-16 *)
Definition square_value (c : conf) : res R := l <- config_values (N:=RNum) c ;; Ok (rsum (map (fun x : R => x ^ 2) l)).
(** NegativeSquare.value_from_config: synthetic_functions.py:19-21 *)
Definition negative_square_value (c : conf) : res R := l <- config_values (N:=RNum) c ;; Ok (1 - rsum (map (fun x : R => x ^ 2) l)).

(** Levy.value_from_config: synthetic_functions.py:38-49, on w = 1 + (x - 1) / 4; w[0] of an empty array raises *)
Definition levy_w (x : R) : R := 1 + (x - 1) / 4.
(** one entry of term2: synthetic_functions.py:44 *)
Definition levy_term2 (w : R) : R := (w - 1) ^ 2 * (1 + 10 * sin (PI * w + 1) ^ 2).
(** term3: synthetic_functions.py:47 *)
Definition levy_term3 (w : R) : R := (w - 1) ^ 2 * (1 + sin (2 * PI * w) ^ 2).
(** the value from x: synthetic_functions.py:41-49 *)
Definition levy_of (x : list R) : res R :=
  let w := map levy_w x in
  w0 <- py_nth w 0 ;;
  wl <- py_nth w (length w - 1) ;;
  Ok (sin (PI * w0) ^ 2 + rsum (map levy_term2 (removelast w)) + levy_term3 wl).
(** Levy.value_from_config: synthetic_functions.py:38-49 *)
Definition levy_value (ndim : nat) (c : conf) : res R := x <- config_xs (N:=RNum) c ndim ;; levy_of x.

(** Ackley.value_from_config: synthetic_functions.py:64-78 with a = 20, b = 0.2, c = 2 pi; for
    d = 0 numpy gives nan, here 0 / 0 = 0: the theorems ask for d >= 1 *)
Definition ackley_of (x : list R) : R :=
  let d := INR (length x) in
  let term1 := exp (- (2 / 10) * sqrt (rsum (map (fun t => t ^ 2) x) / d)) in
  let term2 := exp (rsum (map (fun t => cos (2 * PI * t) / d) x)) in
  - 20 * term1 - term2 + 20 + exp 1.
(** Ackley.value_from_config: synthetic_functions.py:71-78 *)
Definition ackley_value (ndim : nat) (c : conf) : res R := x <- config_xs (N:=RNum) c ndim ;; Ok (ackley_of x).

(** CrossInTray.value_from_config: synthetic_functions.py:96-101; the base of ** 0.1 is >= 1 *)
Definition crossintray_of (x1 x2 : R) : R :=
  let term1 := Rabs (sin x1 * sin x2 * exp (Rabs (100 - sqrt (x1 ^ 2 + x2 ^ 2) / PI))) + 1 in
  - (1 / 10000) * Rpower term1 (1 / 10).
(** CrossInTray.value_from_config: synthetic_functions.py:96-101 *)
Definition crossintray_value (c : conf) : res R :=
  x1 <- config_item (N:=RNum) c "x1" ;; x2 <- config_item (N:=RNum) c "x2" ;; Ok (crossintray_of x1 x2).

(** StyblinskiTang.value_from_config: synthetic_functions.py:118-121 *)
Definition stybtang_of (x : list R) : R := rsum (map (fun t => t ^ 4 - 16 * t ^ 2 + 5 * t) x) / 2.
(** StyblinskiTang.value_from_config: synthetic_functions.py:118-121 *)
Definition stybtang_value (cs : space) (c : conf) : res R :=
  x <- mapM (fun h => config_item (N:=RNum) c (hp_name h)) cs ;; Ok (stybtang_of x).

(** _styblinski_tang_integral: synthetic_functions.py:123-125 *)
Definition stybtang_integral (x : R) : R := 5 / 10 * (2 / 10 * x ^ 5 - 16 / 3 * x ^ 3 + 25 / 10 * x ^ 2).

(** the loop over the hyperparameters: synthetic_functions.py:138-145 *)
Definition pd_offset (hps : list (hp RNum)) : res R :=
  foldM (fun off h =>
    _ <- guard (is_numerical h) AssertionError ;;
    lower <- hp_lower (N:=RNum) h ;;
    upper <- hp_upper (N:=RNum) h ;;
    Ok (off + (stybtang_integral upper - stybtang_integral lower) / (upper - lower))) hps 0.
(** the reduced space: synthetic_functions.py:147-152 *)
Definition pd_space (cs : space) (hps : list (hp RNum)) : space :=
  filter (fun h => negb (existsb (String.eqb (hp_name h)) (map hp_name hps))) cs.
(** pd_integral: synthetic_functions.py:127-163 - the reduced space and the offset; the function
    is [pd_value] *)
Definition pd_integral (cs : space) (args : list (selitem RNum)) : res (space * R) :=
  _ <- guard (negb (Nat.eqb (length args) 0)) ValueError ;;
  hps <- convert_hyperparameters (N:=RNum) (SelList args) cs ;;
  off <- pd_offset hps ;;
  Ok (pd_space cs hps, off).
(** integral(config): synthetic_functions.py:156-157 *)
Definition pd_value (p : space * R) (c : conf) : res R := v <- stybtang_value (fst p) c ;; Ok (v + snd p).
End Functions.
