(** Base.v - Python-like results (exceptions as values) and list helpers. *)
From Coq Require Export String.
From Coq Require Export Arith ZArith Lia Bool Permutation List.
Export ListNotations.
Local Open Scope list_scope.

(** The exception classes that the modelled code can raise.
    [ObjError] stands for any exception raised by user code (the objective
    function or the surrogate model); [OutOfFuel] is an artefact of the model
    which the theorems show to be unreachable. *)
Inductive err :=
| AssertionError | ValueError | TypeError | KeyError | IndexError
| AttributeError | NotImplementedError | RuntimeError | ZeroDivisionError
| ObjError | OutOfFuel.

Inductive res (A : Type) := Ok (a : A) | Err (e : err).
Arguments Ok {A} a.
Arguments Err {A} e.

Definition bind {A B} (m : res A) (k : A -> res B) : res B :=
  match m with Ok a => k a | Err e => Err e end.

Notation "x <- m ;; k" := (bind m (fun x => k))
  (at level 61, m at next level, right associativity).
Notation "' p <- m ;; k" := (bind m (fun p => k))
  (at level 61, p pattern, m at next level, right associativity).

(** Python [assert cond] *)
Definition guard (b : bool) (e : err) : res unit := if b then Ok tt else Err e.

(** [xs = [f(x) for x in l]] - the first exception propagates. *)
Fixpoint mapM {A B} (f : A -> res B) (l : list A) : res (list B) :=
  match l with
  | [] => Ok []
  | x :: xs => bind (f x) (fun y => bind (mapM f xs) (fun ys => Ok (y :: ys)))
  end.

(** [for x in l: s = f(s, x)] - the first exception propagates. *)
Fixpoint foldM {A S} (f : S -> A -> res S) (l : list A) (s : S) : res S :=
  match l with
  | [] => Ok s
  | x :: xs => bind (f s x) (fun s' => foldM f xs s')
  end.

Definition is_ok {A} (m : res A) : bool := match m with Ok _ => true | Err _ => false end.

(** [l[i]] for a list, IndexError when out of range (non-negative index). *)
Definition py_nth {A} (l : list A) (i : nat) : res A :=
  match nth_error l i with Some x => Ok x | None => Err IndexError end.

(** numpy boolean mask selection on the first axis: [xs[mask]]. *)
Fixpoint mask_select {A} (mask : list bool) (xs : list A) : list A :=
  match mask, xs with
  | b :: bs, x :: xs' => if b then x :: mask_select bs xs' else mask_select bs xs'
  | _, _ => []
  end.

(** list update [l[i] = x]; out of range leaves the list alone. *)
Fixpoint set_nth {A} (i : nat) (x : A) (l : list A) : list A :=
  match l, i with
  | [], _ => []
  | _ :: t, 0 => x :: t
  | h :: t, S j => h :: set_nth j x t
  end.
