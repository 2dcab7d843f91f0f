(** CacheTextSpec.v - vocabulary for C95. *)
From Coq Require Import Ascii.
From Verif Require Import Base Num ConfigSpaceModel SamplerModel.

(** every value is what [f] returns at the configuration beside it *)
Definition values_of {N : Num} (f : config N -> res (json N)) (cs : list (conf N)) (ys : list (json N)) : Prop :=
  Forall2 (fun c y => f (c_vals c) = Ok y) cs ys.

(** decimal digits *)
Definition is_digit (c : Ascii.ascii) : bool := (Nat.leb 48 (Ascii.nat_of_ascii c) && Nat.leb (Ascii.nat_of_ascii c) 57)%bool.
(** an opening parenthesis *)
Definition not_paren (c : Ascii.ascii) : bool := negb (Ascii.eqb c "("%char).
(** all characters of a text *)
Fixpoint all_chars (p : Ascii.ascii -> bool) (s : string) : bool :=
  match s with EmptyString => true | String c t => (p c && all_chars p t)%bool end.
(** the text has a first character, and it does not satisfy [p] *)
Definition starts_outside (p : Ascii.ascii -> bool) (s : string) : Prop := exists c r, s = String c r /\ p c = false.
(** names of classes as they appear in texts: no parenthesis, and no digit at the start *)
Definition class_name (s : string) : Prop := starts_outside is_digit s /\ all_chars not_paren s = true.
