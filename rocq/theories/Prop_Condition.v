(** Prop_Condition.v - split conditions with any arguments (C82). *)
From Coq Require Import Reals QArith Lra.
From Flocq Require Import Core.Core IEEE754.BinarySingleNaN.
From Verif Require Import Base Num NumLaws NumpyModel ConfigSpaceModel UtilsModel PartitionModel ConditionModel ConditionSpec RealProofs Witness ConditionProofs.
Local Open Scope list_scope.

(** ** C82 *)
(** exactly one of value and normalized_value; a value is a number and its hyperparameter has a range; a float needs
    the flag *)
Theorem C82_arguments : forall (N : Num) (cs : cspace N) h value normalized le, (exists c, split_new cs h value normalized le = Ok c) <->
  (exists n, value = None /\ normalized = Some n /\ (is_float n = true -> le <> None)) \/
  (exists v x g, value = Some v /\ normalized = None /\ number v = Some x /\ cs_get cs (hp_name h) = Ok g /\ is_numerical g = true /\ le <> None).
Proof. exact @split_new_ok. Qed.
Print Assumptions C82_arguments.

Theorem C82_errors : forall (N : Num) (cs : cspace N) h value normalized le e, split_new cs h value normalized le = Err e ->
  e = AssertionError \/ (exists v, value = Some v /\ normalized = None /\
    ((e = KeyError /\ cs_get cs (hp_name h) = Err KeyError) \/ (exists g, cs_get cs (hp_name h) = Ok g /\
      ((e = AttributeError /\ is_numerical g = false) \/ (e = TypeError /\ is_numerical g = true /\ number v = None))))).
Proof. exact @split_new_errors. Qed.
Print Assumptions C82_errors.

(** over the reals a value is kept (moved to the nearer bound when it is outside of the range), printed, and
    compared with *)
Theorem C82_by_value : forall (cs : cspace RNum) h g lo up lg (v : pyval RNum) (x : R) b show show_int,
  cs_get cs (hp_name h) = Ok g -> hp_is g lo up lg -> good_bounds lo up lg -> number v = Some (x : RNum) -> (lg = true -> (0 < x)%R) ->
  exists c, split_new cs h (Some v) None (Some b) = Ok c /\
    let t := Rmin up (Rmax lo x) in
    split_value cs c = Ok (PFloat (N:=RNum) t) /\
    split_str show show_int cs c = Ok ("SplitCondition(" ++ hp_name h ++ (if b then " <= " else " > ") ++ show t ++ ")")%string /\
    forall cfg (z : R), config_get cfg (hp_name h) = Some (VNum (N:=RNum) z) ->
      exists s, split_satisfied cs c cfg = Ok s /\ (s = true <-> if b then (z <= t)%R else (t < z)%R).
Proof. exact split_by_value. Qed.
Print Assumptions C82_by_value.

(** in binary64 it is not kept: an integer hyperparameter from 0 to 49, the condition "<= 1" and a configuration with
    the value 1 *)
Theorem C82_by_value_refuted : forall fe fln fr : b64 -> b64, exists c u,
  split_new [w_int fe fln fr] (w_int fe fln fr) (Some (PInt 1)) None (Some true) = Ok c /\
  split_value [w_int fe fln fr] c = Ok (PFloat u) /\ nlt u (nofZ (n:=B64 fe fln fr) 1) = true /\
  config_get (w_one fe fln fr) (hp_name (w_int fe fln fr)) = Some (VNum (nofZ (n:=B64 fe fln fr) 1)) /\
  hp_kind (w_int fe fln fr) = KInt 0 49 false /\ split_satisfied [w_int fe fln fr] c (w_one fe fln fr) = Ok false.
Proof. exact split_value_lost. Qed.
Print Assumptions C82_by_value_refuted.

(** the same arguments with the two flags: exactly one of the two conditions holds *)
Theorem C82_complementary : forall (N : Num), order_laws N -> forall (cs : cspace N) h value normalized c1 c2 u cfg x,
  split_new cs h value normalized (Some true) = Ok c1 -> split_new cs h value normalized (Some false) = Ok c2 ->
  split_value cs c1 = Ok (PFloat u) -> ordinary u -> config_get cfg (hp_name h) = Some (VNum x) -> ordinary x ->
  exists b, split_satisfied cs c1 cfg = Ok b /\ split_satisfied cs c2 cfg = Ok (negb b).
Proof. exact @split_complementary. Qed.
Print Assumptions C82_complementary.

(** a string or an integer as normalized value: the condition is equality with the entry of the configuration, whatever
    the flag, false when there is none, and never raises *)
Theorem C82_choice : forall (N : Num) (cs : cspace N) h n le, is_float n = false -> exists c, split_new cs h None (Some n) le = Ok c /\
  forall cfg, exists b, split_satisfied cs c cfg = Ok b /\
    (b = true <-> exists w, config_get cfg (hp_name h) = Some w /\ same_value n w).
Proof. exact @split_choice. Qed.
Print Assumptions C82_choice.

(** a float for a hyperparameter without a range (a choice that is a float): can be made, never be evaluated *)
Theorem C82_float_choice : forall (N : Num) (cs : cspace N) h g x b, cs_get cs (hp_name h) = Ok g -> is_numerical g = false ->
  exists c, split_new cs h None (Some (PFloat x)) (Some b) = Ok c /\ (forall cfg, split_satisfied cs c cfg = Err AttributeError) /\ split_value cs c = Err AttributeError.
Proof. exact @split_float_choice. Qed.
Print Assumptions C82_float_choice.

(** the conditions of the trees of C01-C16 are the ones made with a normalized float and a flag *)
Theorem C82_in_trees : forall (N : Num) (cs : cspace N) h x b, exists c, split_new cs h None (Some (PFloat x)) (Some b) = Ok c /\
  forall cfg, split_satisfied cs c cfg = is_satisfied cs (mkcond h x b) cfg.
Proof. exact @split_as_cond. Qed.
Print Assumptions C82_in_trees.

(** assigning True or False to less_equal gives the condition that the constructor makes with that flag; assigning None to the flag of a float
    condition, which the constructor rejects, leaves it acting as ">" and printing "in" *)
Theorem C82_flag_assigned : forall (N : Num) (cs : cspace N) h value normalized le le' c,
  split_new cs h value normalized (Some le) = Ok c -> split_new cs h value normalized (Some le') = Ok (set_flag (Some le') c).
Proof. exact @split_flag_assigned. Qed.
Print Assumptions C82_flag_assigned.
Theorem C82_flag_cleared : forall (N : Num) (cs : cspace N) (c : splitcond N) x cfg show show_int, sc_norm c = PFloat x ->
  split_satisfied cs (set_flag None c) cfg = split_satisfied cs (set_flag (Some false) c) cfg /\
  forall u, unscale_float x cs (sc_hp c) = Ok u ->
    split_str show show_int cs (set_flag None c) = Ok ("SplitCondition(" ++ show u ++ " in " ++ hp_name (sc_hp c) ++ ")")%string.
Proof. exact @split_flag_cleared. Qed.
Print Assumptions C82_flag_cleared.

(** a hyperparameter from -5 to 5 with the value 3, and with 7; a categorical one *)
Definition sx : hp RNum := mkhp "x1"%string (KFloat (N:=RNum) (-5)%R 5%R false).
Example C82_example : cs_get [sx] (hp_name sx) = Ok sx /\ hp_is sx (-5) 5 false /\ good_bounds (-5) 5 false /\
  number (PInt (N:=RNum) 3) = Some (IZR 3 : RNum) /\ Rmin 5 (Rmax (-5) (IZR 3)) = 3%R /\ Rmin 5 (Rmax (-5) 7) = 5%R.
Proof.
  refine (conj eq_refl (conj (or_introl eq_refl) (conj _ (conj eq_refl _)))); [split; [lra|discriminate]|].
  split; [rewrite Rmax_right, Rmin_right by lra; reflexivity|rewrite Rmax_right, Rmin_left by lra; reflexivity].
Qed.
Definition sc : hp QNum := mkhp "kernel"%string (KCat (N:=QNum) [VStr "rbf"; VStr "linear"]).
Example C82_example_choice : exists c, split_new [sc] sc None (Some (PStr "rbf")) None = Ok c /\
  split_satisfied [sc] c [("kernel"%string, VStr "rbf")] = Ok true /\ split_satisfied [sc] c [("kernel"%string, VStr "linear")] = Ok false /\
  split_satisfied [sc] c [] = Ok false /\
  split_str (fun _ => ""%string) (fun _ => ""%string) [sc] c = Ok "SplitCondition(rbf in kernel)"%string /\
  split_new [sc] sc (Some (PStr "rbf")) None None = Err AttributeError.
Proof. eexists. repeat split. Qed.
Definition sq : hp QNum := mkhp "x1"%string (KFloat (N:=QNum) 0%Q 10%Q false).
Example C82_example_flag : exists c, split_new [sq] sq None (Some (PFloat (N:=QNum) (1#2)%Q)) (Some true) = Ok c /\
  split_satisfied [sq] c [("x1"%string, VNum (N:=QNum) 3%Q)] = Ok true /\
  split_satisfied [sq] (set_flag (Some false) c) [("x1"%string, VNum (N:=QNum) 3%Q)] = Ok false /\
  split_satisfied [sq] (set_flag None c) [("x1"%string, VNum (N:=QNum) 3%Q)] = Ok false /\
  split_satisfied [sq] (set_flag None c) [("x1"%string, VNum (N:=QNum) 7%Q)] = Ok true /\
  split_new [sq] sq None (Some (PFloat (N:=QNum) (1#2)%Q)) None = Err AssertionError.
Proof. eexists. repeat split. Qed.
