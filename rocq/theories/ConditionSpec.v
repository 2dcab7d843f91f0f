(** ConditionSpec.v - vocabulary for the properties of split conditions (C82). *)
From Verif Require Import Base Num ConfigSpaceModel ConditionModel.

(** the number that is given *)
Definition number {N : Num} (v : pyval N) : option N := match v with PFloat x => Some x | PInt z => Some (nofZ z) | PStr _ => None end.
(** what configuration.get gives, as the string or number of a condition *)
Definition same_value {N : Num} (v : pyval N) (w : cval N) : Prop :=
  match v, w with PStr s, VStr t => s = t | PInt z, VNum y => neqb (nofZ z) y = true | PFloat x, VNum y => neqb x y = true | _, _ => False end.
