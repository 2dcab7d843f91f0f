(** TwinSpec.v - vocabulary for C101: two spaces whose hyperparameters correspond by position and nothing else. *)
From Verif Require Import Base Num ConfigSpaceModel UtilsModel IceModel PartitionModel ForestModel.

Section Spec.
Context {N : Num}.
Variables cs cs' : cspace N.

(** as many hyperparameters, with distinct names in either space; names, kinds, ranges and scales may differ *)
Definition same_size : Prop := length cs = length cs' /\ NoDup (map hp_name cs) /\ NoDup (map hp_name cs').
(** the hyperparameters at the same position *)
Definition twin (h h' : hp N) : Prop := exists i, nth_error cs i = Some h /\ nth_error cs' i = Some h'.
(** the same selection in either space, made with names or hyperparameters *)
Inductive twin_item : selitem N -> selitem N -> Prop :=
| twin_name h h' : twin h h' -> twin_item (SName (hp_name h)) (SName (hp_name h'))
| twin_hp h h' : twin h h' -> twin_item (SHp h) (SHp h')
| twin_other : twin_item SOther SOther.
Inductive twin_selection : selection N -> selection N -> Prop :=
| twin_none : twin_selection SelNone SelNone
| twin_one i i' : twin_item i i' -> twin_selection (SelOne i) (SelOne i')
| twin_list l l' : Forall2 twin_item l l' -> twin_selection (SelList l) (SelList l').
Definition twin_nots (n n' : option (selection N)) : Prop :=
  match n, n' with None, None => True | Some s, Some s' => twin_selection s s' | _, _ => False end.

(** the same split: at the same normalized value, of the hyperparameters at the same position *)
Definition twin_cond (c c' : cond N) : Prop := twin (c_hp c) (c_hp c') /\ c_val c = c_val c' /\ c_le c = c_le c'.
(** the same node: depth, curves, splits on the way to it *)
Definition twin_node (nd nd' : dnode N) : Prop :=
  n_depth nd = n_depth nd' /\ n_region nd = n_region nd' /\ Forall2 twin_cond (n_conds nd) (n_conds nd').
(** the same tree: the nodes correspond one to one and have the same parents and children; the same leaves *)
Definition twin_tree (t t' : dtp N) : Prop :=
  d_leaves t = d_leaves t' /\
  Forall2 (fun c c' => twin_node (n_node c) (n_node c') /\ n_parent c = n_parent c' /\ n_left c = n_left c' /\ n_right c = n_right c') (d_heap t) (d_heap t').
End Spec.

(** both calls succeed with related results, or raise the same exception *)
Definition both {A B} (rel : A -> B -> Prop) (r : res A) (r' : res B) : Prop :=
  match r, r' with Ok a, Ok b => rel a b | Err e, Err e' => e = e' | _, _ => False end.
(** both are there and related, or none is *)
Definition opt_rel {A B} (R : A -> B -> Prop) (x : option A) (y : option B) : Prop := match x, y with Some a, Some b => R a b | None, None => True | _, _ => False end.
