(** IceSeqSpec.v - vocabulary for C96 and C97. *)
From Verif Require Import Base Num ConfigSpaceModel UtilsModel IceModel IceSeqModel.

Section Spec.
Context {N : Num}.
Notation cv := (curve N (list (list N)) (list N) (list N)).

(** a [for] loop over the object from item [i] on: the curves seen, the object afterwards, and how
    the loop ended (Python's protocol for objects with __getitem__ and without __iter__) *)
Inductive for_loop : ice N -> Z -> list cv -> ice N -> res unit -> Prop :=
| loop_end o i o' : ice_getitem o i = (o', Err IndexError) -> for_loop o i [] o' (Ok tt)
| loop_raise o i o' e : ice_getitem o i = (o', Err e) -> e <> IndexError -> for_loop o i [] o' (Err e)
| loop_next o i o1 c cs o2 r : ice_getitem o i = (o1, Ok c) -> for_loop o1 (i + 1) cs o2 r -> for_loop o i (c :: cs) o2 r.

(** the curve holds row [k] of the three arrays, and belongs to the algorithm [a] *)
Definition is_row (a : algorithm N) (x : list (list (list N))) (y v : list (list N)) (k : nat) (c : cv) : Prop :=
  nth_error x k = Some (cv_x c) /\ nth_error y k = Some (cv_y c) /\ nth_error v k = Some (cv_v c) /\
  cv_cs c = a_cs a /\ cv_sel c = a_sel a.

(** position [k] of [n] lies in the slice [a:b]; negative ends count from the end of the array *)
Definition from_start (n : nat) (z : Z) : Z := if (z <? 0)%Z then (z + Z.of_nat n)%Z else z.
Definition in_slice (n : nat) (a b : option Z) (k : nat) : bool :=
  ((match a with Some z => from_start n z <=? Z.of_nat k | None => true end) &&
   (match b with Some z => Z.of_nat k <? from_start n z | None => true end))%Z%bool.
(** the elements at such positions, in order *)
Definition sliced {A} (a b : option Z) (l : list A) : list A :=
  map snd (filter (fun p => in_slice (length l) a b (fst p)) (combine (seq 0 (length l)) l)).
End Spec.
