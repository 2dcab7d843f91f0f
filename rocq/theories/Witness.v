(** Witness.v - concrete counterexamples (computed) used by the [_refuted] theorems. *)
From Coq Require Import QArith.
From Flocq Require Import Core.Core IEEE754.BinarySingleNaN.
From Verif Require Import Base Num NumLaws NumpyModel ConfigSpaceModel UtilsModel IceModel PartitionModel PartitionSpec.
Local Open Scope string_scope.
Local Open Scope nat_scope.
Local Open Scope list_scope.

(** the float m * 2^e *)
Definition fl (m e : Z) : b64 := @binary_normalize 53 1024 prec53 emax1024 mode_NE m e false.

Lemma obj_ok {N : Num} (s : setup N) : is_ok (construct s) = true ->
  construct s = Ok (match construct s with Ok p => p | Err _ => mkdtp [] [] [] 0 0 [] [] end).
Proof. destruct (construct s); [reflexivity|discriminate]. Qed.
Lemma run_check {N : Num} {A} (p : dtp N) d (f : dtp N -> list nat -> A) (x : A) :
  (match partition p d with (p', Ok ids) => Some (f p' ids) | _ => None end) = Some x ->
  exists p' ids, partition p d = (p', Ok ids) /\ f p' ids = x.
Proof. destruct (partition p d) as [p' [ids|e]]; [|discriminate]. intro E. inversion E. eauto. Qed.

Section W.
Variables fe fln fr : b64 -> b64.
Notation BN := (B64 fe fln fr).

(** predictions that do not look at the number format: mean 0, std = second coordinate *)
Definition w_predict {N : Num} : predictor N := fun rows => Ok (map (fun _ => n0) rows, map (fun r => nth 1 r n0) rows).

(** ** NaN coordinates (C01) *)
Definition w_nan_cs : cspace BN := [mkhp "a" (KFloat (n0 : BN) n1 false); mkhp "b" (KFloat (n0 : BN) n1 false)].
Definition w_nan : setup BN :=
  mksetup w_nan_cs w_predict (SelOne (SName "a")) [[fl 1 (-1); fl 1 (-2)]; [fl 1 (-1); B754_nan]; [fl 1 (-1); fl 3 (-2)]] 2 1 1 None.
Definition w_nan_obj : dtp BN := match construct w_nan with Ok p => p | Err _ => mkdtp [] [] [] 0 0 [] [] end.
Lemma w_nan_ok : construct w_nan = Ok w_nan_obj.
Proof. unfold w_nan_obj. apply (obj_ok w_nan). vm_compute. reflexivity. Qed.
Lemma w_nan_lost : exists p' ids, partition w_nan_obj 1 = (p', Ok ids) /\
  map (fun id => option_map (fun nd => region_len (n_region nd)) (deref p' id)) ids = [Some 1; Some 1].
Proof.
  apply (run_check w_nan_obj 1 (fun p' ids => map (fun id => option_map (fun nd => region_len (n_region nd)) (deref p' id)) ids)).
  vm_compute. reflexivity.
Qed.

(** ** binary64 rounding: curve and configuration in different leaves (C03) *)
Definition w_rnd_x : b64 := fl (2 ^ 52 + 1) (-53).      (* 0.5 + 2^-53 *)
Definition w_rnd_cs : cspace BN := [mkhp "a" (KFloat (n0 : BN) n1 false); mkhp "b" (KFloat (nofZ (n:=BN) 1000) (nofZ (n:=BN) 1001) false)].
Definition w_rnd : setup BN :=
  mksetup w_rnd_cs w_predict (SelOne (SName "a")) [[fl 1 (-1); fl 1 (-2)]; [fl 1 (-1); w_rnd_x]] 2 1 1 None.
Definition w_rnd_obj : dtp BN := match construct w_rnd with Ok p => p | Err _ => mkdtp [] [] [] 0 0 [] [] end.
Lemma w_rnd_ok : construct w_rnd = Ok w_rnd_obj.
Proof. unfold w_rnd_obj. apply (obj_ok w_rnd). vm_compute. reflexivity. Qed.
Definition w_rnd_cfg : config BN := match config_of_vector w_rnd_cs [fl 1 (-1); w_rnd_x] with Ok c => c | Err _ => [] end.
Lemma w_rnd_cfg_ok : config_of_vector w_rnd_cs [fl 1 (-1); w_rnd_x] = Ok w_rnd_cfg.
Proof.
  unfold w_rnd_cfg. assert (E : is_ok (config_of_vector w_rnd_cs [fl 1 (-1); w_rnd_x]) = true) by (vm_compute; reflexivity).
  destruct (config_of_vector w_rnd_cs [fl 1 (-1); w_rnd_x]); [reflexivity|discriminate].
Qed.

(** the leaf with the curve whose coordinate is the sample's does not contain the configuration; the other one does *)
Lemma w_rnd_mismatch : exists p' ids, partition w_rnd_obj 1 = (p', Ok ids) /\
  map (fun id => option_map (fun nd => (map (fun m => neqb (n:=BN) (nth 1 (nth 0 m []) n0) w_rnd_x) (r_x (n_region nd)),
                                        contains w_rnd_cs (n_conds nd) w_rnd_cfg)) (deref p' id)) ids
  = [Some ([true], Ok false); Some ([false], Ok true)].
Proof.
  apply (run_check w_rnd_obj 1 (fun p' ids => map (fun id => option_map (fun nd => (map (fun m => neqb (n:=BN) (nth 1 (nth 0 m []) n0) w_rnd_x) (r_x (n_region nd)),
                                        contains w_rnd_cs (n_conds nd) w_rnd_cfg)) (deref p' id)) ids)).
  vm_compute. reflexivity.
Qed.

(** ** unscale_float is not injective in binary64 (C29) *)
Definition w_b : hp BN := mkhp "b" (KFloat (nofZ (n:=BN) 1000) (nofZ (n:=BN) 1001) false).
Lemma w_not_injective : exists u u' v,
  unscale_float (N:=BN) (fl 1 (-1)) w_rnd_cs w_b = Ok u /\ unscale_float (N:=BN) w_rnd_x w_rnd_cs w_b = Ok u' /\
  scale_float (N:=BN) u' w_rnd_cs w_b = Ok v /\
  nlt (n:=BN) (fl 1 (-1)) w_rnd_x = true /\ neqb (n:=BN) u u' = true /\ neqb (n:=BN) v w_rnd_x = false.
Proof.
  do 3 eexists. refine (conj eq_refl (conj eq_refl (conj eq_refl (conj _ (conj _ _))))); vm_compute; reflexivity.
Qed.
End W.

(** ** integer hyperparameters: exact arithmetic, still a mismatch (C03) *)
Definition w_int_cs : cspace QNum := [mkhp "a" (KFloat (0#1 : QNum) (1#1 : QNum) false); mkhp "k" (KInt 0 3 false)].
(** the ConfigSpace vectors of k = 0 and k = 1 *)
Definition w_int_rows : list (list QNum) := [[1#2; 49999#399998]; [1#2; 149999#399998]].
Definition w_int : setup QNum := mksetup w_int_cs w_predict (SelOne (SName "a")) w_int_rows 2 2 1 None.
Definition w_int_obj : dtp QNum := match construct w_int with Ok p => p | Err _ => mkdtp [] [] [] 0 0 [] [] end.
Lemma w_int_ok : construct w_int = Ok w_int_obj.
Proof. unfold w_int_obj. apply (obj_ok w_int). vm_compute. reflexivity. Qed.
Definition w_int_cfg : config QNum := [("a", VNum (1#2 : QNum)); ("k", VNum (1#1 : QNum))].
(** the configuration that ConfigSpace builds from the second row has a = 1/2 and k = 1 *)
Lemma w_int_cfg_ok : exists c a k, config_of_vector w_int_cs [1#2; 149999#399998] = Ok c /\
  config_get c "a" = Some (VNum a) /\ config_get c "k" = Some (VNum k) /\ neqb (n:=QNum) a (1#2) = true /\ neqb (n:=QNum) k (1#1) = true.
Proof. do 3 eexists. refine (conj eq_refl (conj eq_refl (conj eq_refl (conj _ _)))); vm_compute; reflexivity. Qed.
(** the curve with first coordinate 149999/399998 and the configuration are in different leaves *)
Lemma w_int_mismatch : exists p' ids, partition w_int_obj 1 = (p', Ok ids) /\
  map (fun id => option_map (fun nd : dnode QNum => (map (fun m => neqb (n:=QNum) (nth 1 (nth 0 m []) (0#1)) (149999#399998)) (r_x (n_region nd)),
                                        contains w_int_cs (n_conds nd) w_int_cfg)) (deref p' id)) ids
  = [Some ([true], Ok false); Some ([false], Ok true)].
Proof.
  apply (run_check w_int_obj 1 (fun p' ids => map (fun id => option_map (fun nd : dnode QNum => (map (fun m => neqb (n:=QNum) (nth 1 (nth 0 m []) (0#1)) (149999#399998)) (r_x (n_region nd)),
                                        contains w_int_cs (n_conds nd) w_int_cfg)) (deref p' id)) ids)).
  vm_compute. reflexivity.
Qed.

(** ** from_ICE of a centered ICE (C16) *)
Definition w_cen_predict : predictor QNum := fun rows => Ok (map (fun r => Qred (nth 0 r (0#1) + nth 1 r (0#1))%Q) rows, map (fun r => nth 1 r (0#1)) rows).
Definition w_cen_alg : algorithm QNum := mkalg w_int_cs [mkhp "a" (KFloat (0#1 : QNum) (1#1 : QNum) false)] [[1#2; 1#4]; [1#2; 3#4]] 2.
Definition w_cen_ice : ice QNum := fst (ice_run_ops (ice_new w_cen_alg w_cen_predict) [OCenter true; OReadY]).
Definition ys (d : res (list (list QNum))) : list (list Q) := match d with Ok y => y | Err _ => [] end.
Definition root_y (d : res (dtp QNum)) : list (list Q) :=
  match d with Ok p => match deref p 0 with Some r => r_y (n_region r) | None => [] end | Err _ => [] end.
Lemma w_centered_ignored :
  is_ok (dt_from_ice w_cen_ice 1 1 None) = true /\
  ys (snd (read_y w_cen_ice)) = [[0#1; 1#1]; [0#1; 1#1]]%Q /\
  root_y (dt_from_ice w_cen_ice 1 1 None) = [[1#4; 5#4]; [3#4; 7#4]]%Q.
Proof. refine (conj _ (conj _ _)); vm_compute; reflexivity. Qed.

(** ** a space with a categorical hyperparameter: the tree splits on it and membership raises (C15) *)
Definition w_cat_cs : cspace QNum := [mkhp "a" (KFloat (0#1 : QNum) (1#1 : QNum) false); mkhp "k" (KCat [VStr "x"; VStr "y"])].
Definition w_cat : setup QNum := mksetup w_cat_cs w_predict (SelOne (SName "a")) [[1#2; 0#1]; [1#2; 1#1]] 2 1 1 None.
Definition w_cat_obj : dtp QNum := match construct w_cat with Ok p => p | Err _ => mkdtp [] [] [] 0 0 [] [] end.
Lemma w_cat_ok : construct w_cat = Ok w_cat_obj.
Proof. unfold w_cat_obj. apply (obj_ok w_cat). vm_compute. reflexivity. Qed.
Definition w_cat_cfg : config QNum := [("a", VNum (1#2 : QNum)); ("k", VStr "x")].
Lemma w_cat_raises : exists p' ids, partition w_cat_obj 1 = (p', Ok ids) /\
  (map (fun id => option_map (fun nd : dnode QNum => (map (fun c => hp_name (c_hp c)) (n_conds nd), contains w_cat_cs (n_conds nd) w_cat_cfg)) (deref p' id)) ids,
   get_incumbent_region p' w_cat_cfg)
  = ([Some (["k"], Err AttributeError); Some (["k"], Err AttributeError)], Err AttributeError).
Proof.
  apply (run_check w_cat_obj 1 (fun p' ids => (map (fun id => option_map (fun nd : dnode QNum => (map (fun c => hp_name (c_hp c)) (n_conds nd), contains w_cat_cs (n_conds nd) w_cat_cfg)) (deref p' id)) ids,
   get_incumbent_region p' w_cat_cfg))).
  vm_compute. reflexivity.
Qed.

(** ** the arrays of one PDP can stem from different calculations (C60) *)
Definition w_pdp : pdp QNum := pdp_new w_cen_alg w_cen_predict.
Definition w_predict2 : predictor QNum := fun rows => Ok (map (fun _ => 5#1) rows, map (fun _ => 2#1) rows).
(** the two kinds of one-dimensional arrays, tagged *)
Definition arr (o : pdp_out QNum) : option (bool * list Q) :=
  match o with POY (Ok l) => Some (true, l) | POV (Ok l) => Some (false, l) | _ => None end.
Lemma w_pdp_mixed :
  map arr (snd (pdp_run w_pdp [PY; PIce (ORefit w_predict2); PIce OReset; PV; PY])) =
    [Some (true, [1#2; 3#2]); None; None; Some (false, [4#1; 4#1]); Some (true, [1#2; 3#2])].
Proof. vm_compute. reflexivity. Qed.
