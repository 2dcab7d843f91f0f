(** ConditionModel.v - SplitCondition as a class of its own: decision_tree_partitioner.py:16-67.

    PartitionModel.v has the conditions that split_at_value makes (a normalized float and a flag);
    here the constructor takes what its signature allows. *)
From Verif Require Import Base Num NumpyModel ConfigSpaceModel UtilsModel.

Section Condition.
Context {N : Num}.

(** a value or a normalized value (decision_tree_partitioner.py:20-21, Optional[Any]): a float
    (np.float64 is one), an int, a string.  Other objects are not modelled. *)
Inductive pyval := PFloat (x : N) | PInt (z : Z) | PStr (s : string).

(** the object: decision_tree_partitioner.py:30-32 *)
Record splitcond := mksplit { sc_hp : hp N; sc_norm : pyval; sc_le : option bool }.

(** scale_float(value, cs, hp) of any object: utils/utils.py:58-73, called at
    decision_tree_partitioner.py:27.  np.log of a string and string - float raise TypeError, after cs[hp.name] and
    cs_hp.log have been evaluated. *)
Definition scale_any (v : pyval) (cs : cspace N) (h : hp N) : res N :=
  match v with
  | PFloat x => scale_float x cs h
  | PInt z => scale_float (nofZ z) cs h
  | PStr _ => g <- cs_get cs (hp_name h) ;; _ <- hp_log g ;; Err TypeError
  end.

(** isinstance(v, float): decision_tree_partitioner.py:29, 41, 48 *)
Definition is_float (v : pyval) : bool := match v with PFloat _ => true | _ => false end.

(** SplitCondition.__init__: decision_tree_partitioner.py:17-32; [cs] stands for the copy that
    ConfigSpaceHolder.__init__ makes *)
Definition split_new (cs : cspace N) (h : hp N) (value normalized : option pyval) (less_equal : option bool) : res splitcond :=
  _ <- guard (match value, normalized with None, None => false | _, _ => true end) AssertionError ;;
  _ <- guard (match value, normalized with Some _, Some _ => false | _, _ => true end) AssertionError ;;
  n <- match normalized, value with
       | Some n, _ => Ok n
       | None, Some v => x <- scale_any v cs h ;; Ok (PFloat x)
       | None, None => Err AssertionError
       end ;;
  _ <- guard (negb (is_float n) || match less_equal with Some _ => true | None => false end) AssertionError ;;
  Ok (mksplit h n less_equal).

(** value: decision_tree_partitioner.py:39-44 *)
Definition split_value (cs : cspace N) (c : splitcond) : res pyval :=
  match sc_norm c with
  | PFloat x => u <- unscale_float x cs (sc_hp c) ;; Ok (PFloat u)
  | v => Ok v
  end.

(** a == b for a value of a condition and the result of configuration.get(..), None when it is absent:
    decision_tree_partitioner.py:54.  Numbers are compared by value; a number never equals a string *)
Definition py_equal (v : pyval) (w : option (cval N)) : bool :=
  match v, w with
  | PFloat x, Some (VNum y) => neqb x y
  | PInt z, Some (VNum y) => neqb (nofZ z) y
  | PStr s, Some (VStr t) => String.eqb s t
  | _, _ => false
  end.

(** is_satisfied: decision_tree_partitioner.py:46-54; comparing None or a string with a float raises TypeError;
    a flag that is None counts as false (line 49) *)
Definition split_satisfied (cs : cspace N) (c : splitcond) (cfg : config N) : res bool :=
  let config_value := config_get cfg (hp_name (sc_hp c)) in
  v <- split_value cs c ;;
  match v with
  | PFloat u => match config_value with
                | Some (VNum x) => Ok (match sc_le c with Some true => nle x u | _ => nlt u x end)
                | _ => Err TypeError
                end
  | _ => Ok (py_equal v config_value)
  end.

(** c.less_equal = b: the attribute can be assigned to (decision_tree_partitioner.py:32) *)
Definition set_flag (b : option bool) (c : splitcond) : splitcond := mksplit (sc_hp c) (sc_norm c) b.

(** f"{value}": decision_tree_partitioner.py:65, 67; [show] is str of a float *)
Definition show_value (show : N -> string) (show_int : Z -> string) (v : pyval) : string :=
  match v with PFloat x => show x | PInt z => show_int z | PStr s => s end.
(** __str__: decision_tree_partitioner.py:56-67 *)
Definition split_str (show : N -> string) (show_int : Z -> string) (cs : cspace N) (c : splitcond) : res string :=
  v <- split_value cs c ;;
  let s := show_value show show_int v in
  let name := hp_name (sc_hp c) in
  Ok (match sc_le c with
      | Some true => "SplitCondition(" ++ name ++ " <= " ++ s ++ ")"
      | Some false => "SplitCondition(" ++ name ++ " > " ++ s ++ ")"
      | None => "SplitCondition(" ++ s ++ " in " ++ name ++ ")"
      end)%string.
End Condition.
Arguments pyval : clear implicits.
Arguments splitcond : clear implicits.
