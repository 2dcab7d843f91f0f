(** IceSeqModel.v - ICE objects as sequences of curves: indexing, slices and loops
    (pyPDP/algorithms/ice.py:18-38, 179-190).  No proofs here.

    Contracts: numpy indexing of the first axis by an integer (negative ones count from the end,
    IndexError outside) and by a slice without step (clipped, never raises); Python's loop over an
    object without __iter__ asks for items 0, 1, 2, ... until IndexError; @dataclass on a class
    without annotated names in its body (see below). *)
From Coq Require Import DecimalString.
From Verif Require Import Base Num NumpyModel ConfigSpaceModel UtilsModel IceModel.

Section Seq.
Context {N : Num}.

(** array[i] on the first axis (numpy; pyPDP/algorithms/ice.py:186-188) *)
Definition row_at {A} (l : list A) (i : Z) : res A :=
  let n := Z.of_nat (List.length l) in
  if ((0 <=? i) && (i <? n))%Z then py_nth l (Z.to_nat i)
  else if ((- n <=? i) && (i <? 0))%Z then py_nth l (Z.to_nat (i + n))
  else Err IndexError.
(** an end of a slice, clipped (Python's slice.indices; pyPDP/algorithms/ice.py:186-188) *)
Definition clip (n : nat) (z : Z) : nat :=
  Z.to_nat (Z.min (Z.of_nat n) (if (z <? 0)%Z then Z.max 0 (z + Z.of_nat n) else z)).
(** array[a:b] on the first axis, a view (numpy; pyPDP/algorithms/ice.py:186-188) *)
Definition rows_between {A} (l : list A) (a b : option Z) : list A :=
  let n := List.length l in
  let lo := match a with Some z => clip n z | None => 0 end in
  let hi := match b with Some z => clip n z | None => n end in
  firstn (hi - lo) (skipn lo l).

(** f"ICE-Curve[{idx}]" for an integer: pyPDP/algorithms/ice.py:189 *)
Definition item_name (i : Z) : string := ("ICE-Curve[" ++ NilEmpty.string_of_int (Z.to_int i) ++ "]")%string.
(** str of one end of a slice: pyPDP/algorithms/ice.py:189 *)
Definition end_text (z : option Z) : string := match z with Some z => NilEmpty.string_of_int (Z.to_int z) | None => "None" end.
(** f"ICE-Curve[{idx}]" for a slice: pyPDP/algorithms/ice.py:189 *)
Definition slice_name (a b : option Z) : string :=
  ("ICE-Curve[slice(" ++ end_text a ++ ", " ++ end_text b ++ ", None)]")%string.

(** An ICECurve: pyPDP/algorithms/ice.py:32-37.  [X], [Y], [V] are the types of its arrays:
    rows for ice[i], stacks of rows for ice[a:b] (nothing checks the shape). *)
Record curve (X Y V : Type) := mkcv { cv_cs : cspace N; cv_sel : list (hp N); cv_x : X; cv_y : Y; cv_v : V; cv_name : string }.
Arguments mkcv {X Y V}. Arguments cv_cs {X Y V}. Arguments cv_sel {X Y V}. Arguments cv_x {X Y V}. Arguments cv_y {X Y V}. Arguments cv_v {X Y V}. Arguments cv_name {X Y V}.
(** ICECurve.__init__: pyPDP/algorithms/ice.py:20-37 *)
Definition curve_new {X Y V} (cs : cspace N) (sel : list (hp N)) (x : X) (y : Y) (v : V) (name : string) : res (curve X Y V) :=
  sel' <- convert_hyperparameters (SelList (map SHp sel)) cs ;; Ok (mkcv cs sel' x y v name).

(** len(ice): pyPDP/algorithms/ice.py:179-180 *)
Definition ice_len (o : ice N) : nat := num_samples (ic_alg o).

(** ICE.__getitem__, with what it does to the three arrays: each is read and indexed in turn, then
    the curve is built.  pyPDP/algorithms/ice.py:182-190 *)
Definition ice_item {X Y V} (at_x : list (list (list N)) -> res X) (at_y at_v : list (list N) -> res Y) (name : string)
    (build : X -> Y -> Y -> string -> res V) (o : ice N) : ice N * res V :=
  match read_x o with
  | (o1, Err e) => (o1, Err e)
  | (o1, Ok x) =>
    match at_x x with
    | Err e => (o1, Err e)
    | Ok xi =>
      match read_y o1 with
      | (o2, Err e) => (o2, Err e)
      | (o2, Ok y) =>
        match at_y y with
        | Err e => (o2, Err e)
        | Ok yi =>
          match read_v o2 with
          | (o3, Err e) => (o3, Err e)
          | (o3, Ok v) => (o3, vi <- at_v v ;; build xi yi vi name)
          end
        end
      end
    end
  end.
(** ice[i]: pyPDP/algorithms/ice.py:182-190 *)
Definition ice_getitem (o : ice N) (i : Z) : ice N * res (curve (list (list N)) (list N) (list N)) :=
  ice_item (fun x => row_at x i) (fun y => row_at y i) (fun v => row_at v i) (item_name i)
    (fun x y v name => curve_new (a_cs (ic_alg o)) (a_sel (ic_alg o)) x y v name) o.
(** ice[a:b]: pyPDP/algorithms/ice.py:182-190 *)
Definition ice_getslice (o : ice N) (a b : option Z) : ice N * res (curve (list (list (list N))) (list (list N)) (list (list N))) :=
  ice_item (fun x => Ok (rows_between x a b)) (fun y => Ok (rows_between y a b)) (fun v => Ok (rows_between v a b)) (slice_name a b)
    (fun x y v name => curve_new (a_cs (ic_alg o)) (a_sel (ic_alg o)) x y v name) o.

(** ** @dataclass *)
(** The fields of a dataclass are the annotated names in the body of the class.  ICECurve has none
    (its annotations are on attributes inside __init__, which do not count):
    pyPDP/algorithms/ice.py:18-37.  A field is given by how its values are compared. *)
Definition curve_fields {X Y V} : list (curve X Y V -> curve X Y V -> bool) := [].
(** the __eq__ that @dataclass generates compares the tuples of the fields: pyPDP/algorithms/ice.py:18 *)
Definition curve_eq {X Y V} (c d : curve X Y V) : bool := forallb (fun f => f c d) curve_fields.
(** [c in l] for a list or, through the loop, for an ICE object (Python; pyPDP/algorithms/ice.py:18, 182) *)
Definition curve_in {X Y V} (c : curve X Y V) (l : list (curve X Y V)) : bool := existsb (fun d => curve_eq d c) l.
(** [l.index(c)] (Python; pyPDP/algorithms/ice.py:18) *)
Fixpoint curve_index {X Y V} (c : curve X Y V) (l : list (curve X Y V)) : res nat :=
  match l with [] => Err ValueError | d :: t => if curve_eq d c then Ok 0 else k <- curve_index c t ;; Ok (S k) end.
(** [l.remove(c)] (Python; pyPDP/algorithms/ice.py:18) *)
Fixpoint curve_remove {X Y V} (c : curve X Y V) (l : list (curve X Y V)) : res (list (curve X Y V)) :=
  match l with [] => Err ValueError | d :: t => if curve_eq d c then Ok t else r <- curve_remove c t ;; Ok (d :: r) end.
End Seq.
Arguments curve : clear implicits.
Arguments mkcv {N X Y V}. Arguments cv_cs {N X Y V}. Arguments cv_sel {N X Y V}. Arguments cv_x {N X Y V}. Arguments cv_y {N X Y V}. Arguments cv_v {N X Y V}. Arguments cv_name {N X Y V}.
