(** SigmaSpec.v - the words of C124. *)
From Coq Require Import Reals.
Local Open Scope R_scope.

(** [f s] comes as close to [l] as wanted for small s > 0 *)
Definition tends (f : R -> R) (l : R) : Prop := forall e, 0 < e -> exists d, 0 < d /\ forall s, 0 < s < d -> Rabs (f s - l) < e.
(** no jump at 0 *)
Definition no_jump (f : R -> R) : Prop := tends f (f 0).
