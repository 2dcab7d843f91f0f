(** MetaSpec.v - the words used in the properties of the numbers derived from trees (C120). *)
From Coq Require Import Reals ZArith.
From Verif Require Import Base Num RealSums.
Local Open Scope R_scope.
Local Open Scope list_scope.

(** a line of the file: number of trees (None for the decision tree), mean confidence of the root and of the region; None is nan *)
Definition record : Type := option Z * option R * option R.
Definition key_dec (a b : option Z) : {a = b} + {a <> b}.
Proof. decide equality. apply Z.eq_dec. Defined.
Definition records_of (key : option Z) (l : list record) : list record :=
  filter (fun r => if key_dec (fst (fst r)) key then true else false) l.
(** both numbers are there and the first is not 0 *)
Definition usable (r : record) : Prop := exists base mc, snd (fst r) = Some base /\ snd r = Some mc /\ base <> 0.
(** by how much the region is more certain than the root, in percent of the root *)
Definition reduction (r : record) : R :=
  match r with (_, Some base, Some mc) => 100 * ((base - mc) / Rabs base) | _ => 0 end.
(** mean and standard deviation of numbers *)
Definition deviation (l : list R) : R := sqrt (Rmean (map (fun x => (x - Rmean l) ^ 2) l)).
(** the point for the lines [g]: nan as soon as one line is not usable *)
Definition is_point (g : list record) (pt : option R * option R) : Prop :=
  (Forall usable g /\ pt = (Some (Rmean (map reduction g)), Some (deviation (map reduction g)))) \/
  (Exists (fun r => ~ usable r) g /\ pt = (None, None)).
