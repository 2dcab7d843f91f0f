(** SyntheticSpec.v - vocabulary for the properties of the synthetic functions (C51-C53, C81). *)
From Verif Require Import Base Num ConfigSpaceModel SyntheticModel.
From Coq Require Import Reals.
From Coquelicot Require Import Coquelicot.
Local Open Scope R_scope.

(** a value for every hyperparameter, and the configuration of a space that carries them *)
Definition assignment := string -> R.
Definition assign (a : assignment) (name : string) (t : R) : assignment := fun n => if String.eqb n name then t else a n.
Definition conf_at (cs : cspace RNum) (a : assignment) : config RNum := map (fun h => (hp_name h, VNum (N:=RNum) (a (hp_name h)))) cs.

(** the average of [F] over the ranges of the hyperparameters in [hps] (iterated normalized
    Riemann integrals), the others fixed as in [a] *)
Fixpoint average (hps : list (hp RNum)) (F : assignment -> R) (a : assignment) : R :=
  match hps with
  | [] => F a
  | h :: rest => match hp_kind h with
                 | KFloat lo up _ => RInt (fun t => average rest F (assign a (hp_name h) t)) lo up / (up - lo)
                 | _ => 0
                 end
  end.
Definition float_range (h : hp RNum) : Prop := exists (lo up : R) lg, hp_kind h = KFloat (lo : RNum) (up : RNum) lg /\ lo < up.

(** position [k] of a parameter: the value itself, or the k-th of the iterable *)
Definition param_at {A} (d : Z) (p : param A) (k : nat) : option A :=
  match p with PScalar a => if k <? Z.to_nat d then Some a else None | PIter l => nth_error l k end.
(** how many positions it has *)
Definition param_len {A} (d : Z) (p : param A) : nat := match p with PScalar _ => Z.to_nat d | PIter l => length l end.

(** ** values (C81) *)
(** f 0 + .. + f (n - 1) *)
Fixpoint sum_upto (n : nat) (f : nat -> R) : R := match n with O => 0 | S k => sum_upto k f + f k end.
(** x_1 .. x_d of a configuration: the entry named x(i + 1) is [x i] *)
Definition coordinates (c : config RNum) (d : nat) (x : nat -> R) : Prop :=
  forall i, (i < d)%nat -> config_get c (String.append "x" (dec (i + 1))) = Some (VNum (N:=RNum) (x i)).
(** the k-th entry of a configuration is [x k] *)
Definition entries (c : config RNum) (x : nat -> R) : Prop :=
  forall k p, nth_error c k = Some p -> snd p = VNum (N:=RNum) (x k).
(** the entry of the k-th hyperparameter is [x k] *)
Definition entries_of (cs : cspace RNum) (c : config RNum) (x : nat -> R) : Prop :=
  forall k h, nth_error cs k = Some h -> config_get c (hp_name h) = Some (VNum (N:=RNum) (x k)).
