(** ConfigSpaceModel.v - hyperparameters, configuration spaces, configurations.

    ConfigSpace is an external library (pinned in /repo/setup.py); the
    definitions below are the part of its behaviour that pyPDP relies on.
    Line references are to the uses in /repo. *)
From Verif Require Import Base Num.

Section ConfigSpace.
Context {N : Num}.

(** Values held by a configuration.
    What config[name] gives: pyPDP/sampler/__init__.py:223, 228,
    pyPDP/blackbox_functions/synthetic_functions.py:97-98 *)
Inductive cval := VNum (x : N) | VStr (s : string).

(** Kinds of hyperparameters: UniformFloat, UniformInteger, Categorical,
    Constant and any other (e.g. Ordinal).  pyPDP distinguishes
    NumericalHyperparameter / Categorical / Constant: pyPDP/utils/utils.py:100-112. *)
Inductive hpkind :=
| KFloat (lower upper : N) (log : bool)
| KInt (lower upper : Z) (log : bool)
| KCat (choices : list cval)
| KConst (v : cval)
| KOther.

(** CSH.Hyperparameter, as far as pyPDP looks at it: its name and class, pyPDP/utils/utils.py:63, 100-112 *)
Record hp := mkhp { hp_name : string; hp_kind : hpkind }.

(** [list(cs.values())], in order.  e.g. pyPDP/utils/utils.py:99, 138, 171 *)
Definition cspace := list hp.

(** isinstance(hp, CSH.NumericalHyperparameter), e.g. pyPDP/utils/utils.py:100 *)
Definition is_numerical (h : hp) : bool :=
  match hp_kind h with KFloat _ _ _ | KInt _ _ _ => true | _ => false end.

(** hp.lower, hp.upper, hp.log: only numerical hyperparameters have them;
    e.g. pyPDP/utils/utils.py:64-66, 82-84 *)
Definition hp_lower (h : hp) : res N :=
  match hp_kind h with
  | KFloat l _ _ => Ok l | KInt l _ _ => Ok (nofZ l) | _ => Err AttributeError end.
(** hp.upper: pyPDP/utils/utils.py:66, 84, 107 *)
Definition hp_upper (h : hp) : res N :=
  match hp_kind h with
  | KFloat _ u _ => Ok u | KInt _ u _ => Ok (nofZ u) | _ => Err AttributeError end.
(** hp.log: pyPDP/utils/utils.py:64, 82, 101 *)
Definition hp_log (h : hp) : res bool :=
  match hp_kind h with
  | KFloat _ _ b | KInt _ _ b => Ok b | _ => Err AttributeError end.

(** cs[name], e.g. pyPDP/utils/utils.py:63, 81, 144 *)
Fixpoint cs_get (cs : cspace) (name : string) : res hp :=
  match cs with
  | [] => Err KeyError
  | h :: t => if String.eqb (hp_name h) name then Ok h else cs_get t name
  end.

(** cs.get_idx_by_hyperparameter_name(name), e.g. pyPDP/utils/utils.py:53 *)
Fixpoint cs_idx (cs : cspace) (name : string) : res nat :=
  match cs with
  | [] => Err KeyError
  | h :: t => if String.eqb (hp_name h) name then Ok 0
              else i <- cs_idx t name ;; Ok (S i)
  end.

(** CS.Configuration: active hyperparameters with their values.
    As used at pyPDP/sampler/random_sampler.py:25 and pyPDP/algorithms/partitioner/decision_tree_partitioner.py:47 *)
Definition config := list (string * cval).
(** configuration.get(name), None when absent (inactive):
    pyPDP/algorithms/partitioner/decision_tree_partitioner.py:47 *)
Fixpoint config_get (c : config) (name : string) : option cval :=
  match c with
  | [] => None
  | (n, v) :: t => if String.eqb n name then Some v else config_get t name
  end.

(** Contract of UniformFloatHyperparameter._transform: vector entry -> value,
    NaN means inactive.
    Behind CS.Configuration(.., vector=..): pyPDP/sampler/__init__.py:105,
    pyPDP/algorithms/partitioner/random_forest_partitioner.py:110 *)
Definition float_transform (lower upper : N) (log : bool) (x : N) : N :=
  let v := if log
           then nexp (nadd (nmul x (nsub (nln upper) (nln lower))) (nln lower))
           else nadd (nmul x (nsub upper lower)) lower in
  np_maximum lower (np_minimum upper v).
(** Contract of UniformIntegerHyperparameter._transform: the float transform on
    [lower - 0.49999, upper + 0.49999], then rounding.
    Same uses: pyPDP/sampler/__init__.py:105, pyPDP/algorithms/partitioner/random_forest_partitioner.py:110 *)
Definition int_margin : N := ndiv (nofZ 49999) (nofZ 100000).
(** the transform itself; same uses: pyPDP/sampler/__init__.py:105, random_forest_partitioner.py:110 *)
Definition int_transform (lower upper : Z) (log : bool) (x : N) : N :=
  nround (float_transform (nsub (nofZ lower) int_margin) (nadd (nofZ upper) int_margin) log x).

(** Categorical entries are the integer index of the choice.
    Same uses: pyPDP/sampler/__init__.py:105, random_forest_partitioner.py:110 *)
Fixpoint cat_choice (choices : list cval) (k : Z) (x : N) : option cval :=
  match choices with
  | [] => None
  | c :: t => if neqb (nofZ k) x then Some c else cat_choice t (k + 1) x
  end.

(** one entry of a vector, by the class of the hyperparameter; None for NaN (inactive).  Same uses:
    pyPDP/sampler/__init__.py:105, random_forest_partitioner.py:110 *)
Definition hp_transform (h : hp) (x : N) : res (option cval) :=
  if negb (neqb x x) then Ok None else
  match hp_kind h with
  | KFloat l u b => Ok (Some (VNum (float_transform l u b x)))
  | KInt l u b => Ok (Some (VNum (int_transform l u b x)))
  | KCat ch => match cat_choice ch 0 x with Some v => Ok (Some v) | None => Err ValueError end
  | KConst v => Ok (Some v)
  | KOther => Err NotImplementedError
  end.

(** CS.Configuration(cs, vector=x): used at
    pyPDP/algorithms/partitioner/random_forest_partitioner.py:110 and
    pyPDP/sampler/__init__.py:105 *)
Fixpoint config_of_vector (cs : cspace) (x : list N) : res config :=
  match cs, x with
  | [], [] => Ok []
  | h :: t, v :: vs =>
      o <- hp_transform h v ;;
      rest <- config_of_vector t vs ;;
      Ok (match o with Some c => (hp_name h, c) :: rest | None => rest end)
  | _, _ => Err ValueError
  end.

End ConfigSpace.

Arguments cval : clear implicits.
Arguments hpkind : clear implicits.
Arguments hp : clear implicits.
Arguments cspace : clear implicits.
Arguments config : clear implicits.
