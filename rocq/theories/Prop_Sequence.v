(** Prop_Sequence.v - ICE objects as sequences of curves (C96, C97). *)
From Coq Require Import QArith.
From Verif Require Import Base Num NumpyModel ConfigSpaceModel UtilsModel IceModel IceProofs IceProofs2 IceSeqModel IceSeqSpec IceSeqProofs Witness.
Local Open Scope nat_scope.
Local Open Scope list_scope.

(** ** C96 *)
(** ice[i] after any history: row i of the three arrays, counted from the end for negative i; IndexError outside *)
Theorem C96_item : forall (N : Num) (a : algorithm N) p ops i, rect (num_features a) (a_samples a) ->
  let o := fst (ice_run_ops (ice_new a p) ops) in
  match read_x o with
  | (o1, Ok x) => exists y v, read_y o1 = (o1, Ok y) /\ read_v o1 = (o1, Ok v) /\
      (forall k, k < ice_len o -> (i = Z.of_nat k \/ i = Z.of_nat k - Z.of_nat (ice_len o))%Z ->
         exists c, ice_getitem o i = (o1, Ok c) /\ is_row a x y v k c /\ cv_name c = item_name i) /\
      ((i < - Z.of_nat (ice_len o) \/ Z.of_nat (ice_len o) <= i)%Z -> ice_getitem o i = (o1, Err IndexError))
  | (o1, Err e) => ice_getitem o i = (o1, Err e)
  end.
Proof. exact @item_any. Qed.
Print Assumptions C96_item.

(** a loop visits every curve once, in order, with one name each; if the calculation raises, so does the loop,
    except that an IndexError ends it silently *)
Theorem C96_loop : forall (N : Num) (a : algorithm N) p ops, rect (num_features a) (a_samples a) ->
  let o := fst (ice_run_ops (ice_new a p) ops) in
  match read_x o with
  | (o1, Ok x) => exists cs y v, read_y o1 = (o1, Ok y) /\ read_v o1 = (o1, Ok v) /\ length cs = ice_len o /\
      (forall l o' r, for_loop o 0 l o' r <-> l = cs /\ o' = o1 /\ r = Ok tt) /\
      (forall k c, nth_error cs k = Some c -> is_row a x y v k c /\ cv_name c = item_name (Z.of_nat k))
  | (o1, Err e) => forall l o' r, for_loop o 0 l o' r <-> l = [] /\ o' = o1 /\ r = (match e with IndexError => Ok tt | _ => Err e end)
  end.
Proof. exact @loop_any. Qed.
Print Assumptions C96_loop.

Theorem C96_names : forall i j, item_name i = item_name j -> i = j.
Proof. exact item_names. Qed.
Print Assumptions C96_names.

(** ice[a:b] never raises of its own: it is an ICECurve whose arrays hold the rows of the slice, one dimension too many *)
Theorem C96_slice : forall (N : Num) (a : algorithm N) p ops lo hi,
  let o := fst (ice_run_ops (ice_new a p) ops) in
  match read_x o with
  | (o1, Ok x) => exists y v, read_y o1 = (o1, Ok y) /\ read_v o1 = (o1, Ok v) /\
      ice_getslice o lo hi = (o1, Ok (mkcv (a_cs a) (a_sel a) (sliced lo hi x) (sliced lo hi y) (sliced lo hi v) ("ICE-Curve[slice(" ++ end_text lo ++ ", " ++ end_text hi ++ ", None)]")%string))
  | (o1, Err e) => ice_getslice o lo hi = (o1, Err e)
  end.
Proof. exact @slice_any. Qed.
Print Assumptions C96_slice.

Lemma pair_eq {A B} (p : A * B) a b : fst p = a -> snd p = b -> p = (a, b).
Proof. destruct p. cbn. congruence. Qed.
(** "a loop that does not raise visits len(ice) curves" fails: centered curves without grid points *)
Theorem C96_all_visited_refuted : exists (a : algorithm QNum) (p : predictor QNum) ops o',
  let o := fst (ice_run_ops (ice_new a p) ops) in
  rect (num_features a) (a_samples a) /\ batch_predictor p /\ sel_known (a_cs a) (a_sel a) /\ for_loop o 0 [] o' (Ok tt) /\ ice_len o = 2.
Proof.
  exists (mkalg (a_cs w_cen_alg) (a_sel w_cen_alg) (a_samples w_cen_alg) 0), (fun rows => Ok (map (fun _ => n0) rows, map (fun _ => n0) rows)), [OCenter true].
  eexists (fst (ice_getitem _ 0)). cbv zeta. refine (conj _ (conj _ (conj _ (conj _ _)))).
  - repeat constructor.
  - intro rows. eexists _, _. split; [reflexivity|]. rewrite !map_length. auto.
  - repeat constructor.
  - apply loop_end. apply pair_eq; [reflexivity|vm_compute; reflexivity].
  - reflexivity.
Qed.
Print Assumptions C96_all_visited_refuted.

(** two samples: the last curve, the one before the first, and slices *)
Definition y_of (r : ice QNum * res (curve QNum (list (list QNum)) (list QNum) (list QNum))) : option (list Q * string) :=
  match r with (_, Ok c) => Some (cv_y c : list Q, cv_name c) | _ => None end.
Example C96_example : let o := ice_new w_cen_alg w_cen_predict in rect (num_features w_cen_alg) (a_samples w_cen_alg) /\ ice_len o = 2 /\
  y_of (ice_getitem o (-1)) = Some ([3#4; 7#4]%Q, "ICE-Curve[-1]"%string) /\ y_of (ice_getitem o 1) = Some ([3#4; 7#4]%Q, "ICE-Curve[1]"%string) /\
  y_of (ice_getitem o (-3)) = None /\
  (match ice_getslice o (Some (-1)%Z) None with (_, Ok c) => Some (cv_y c : list (list Q), cv_name c) | _ => None end) = Some ([[3#4; 7#4]%Q], "ICE-Curve[slice(-1, None, None)]"%string) /\
  sliced (Some 1%Z) (Some (-1)%Z) [10; 11; 12; 13; 14] = [11; 12; 13] /\ sliced None (Some 100%Z) [10; 11] = [10; 11] /\ sliced (Some 3%Z) (Some 1%Z) [10; 11; 12; 13] = [].
Proof. split; [repeat constructor|]. vm_compute. auto 10. Qed.

(** ** C97 *)
(** every two curves are equal, every curve is "in" every non-empty list, list.index finds the first, list.remove removes the first *)
Theorem C97_all_equal : forall (N : Num) (X Y V : Type) (c d : curve N X Y V) l,
  curve_eq c d = true /\ (curve_in c l = true <-> l <> []) /\
  curve_index c (d :: l) = Ok 0 /\ curve_remove c (d :: l) = Ok l.
Proof. exact @all_equal. Qed.
Print Assumptions C97_all_equal.

(** "equal curves have equal values" fails for the two curves of one ICE object *)
Theorem C97_values_refuted : exists (o o1 : ice QNum) c d, ice_getitem o 0 = (o1, Ok c) /\ ice_getitem o 1 = (o1, Ok d) /\
  curve_eq c d = true /\ cv_y c <> cv_y d /\ cv_x c <> cv_x d /\ cv_name c <> cv_name d.
Proof.
  pose (o := ice_new w_cen_alg w_cen_predict). pose (get i := match snd (ice_getitem o i) with Ok c => c | Err _ => mkcv [] [] [] [] [] EmptyString end).
  exists o, (fst (ice_getitem o 0)), (get 0%Z), (get 1%Z).
  split; [apply pair_eq; [reflexivity|vm_compute; reflexivity]|]. split; [apply pair_eq; [reflexivity|vm_compute; reflexivity]|]. split; [reflexivity|].
  assert (Y : cv_y (get 0%Z) <> cv_y (get 1%Z)) by (vm_compute; discriminate). assert (X : cv_x (get 0%Z) <> cv_x (get 1%Z)) by (vm_compute; discriminate).
  assert (M : cv_name (get 0%Z) <> cv_name (get 1%Z)) by (vm_compute; discriminate). exact (conj Y (conj X M)).
Qed.
Print Assumptions C97_values_refuted.
