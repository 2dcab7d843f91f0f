(** ConfidenceExamples.v - witnesses for C102. *)
From Coq Require Import ZArith.
From Flocq Require Import IEEE754.BinarySingleNaN.
From Verif Require Import Base Num NumLaws NumpyModel ConfigSpaceModel UtilsModel IceModel PartitionModel PartitionSpec Witness.
Local Open Scope nat_scope.
Local Open Scope list_scope.
Local Open Scope string_scope.

Section W.
Variables fe fln fr : b64 -> b64.
Notation BN := (B64 fe fln fr).
(** two samples with b = 1/4 and b = 3/4; the standard deviation is b *)
Definition mc_setup : setup BN :=
  mksetup (w_nan_cs fe fln fr) w_predict (SelOne (SName "a")) [[fl 1 (-1); fl 1 (-2)]; [fl 1 (-1); fl 3 (-2)]] 2 1 1 None.
Definition mc_obj : dtp BN := match construct mc_setup with Ok p => p | Err _ => mkdtp [] [] [] 0 0 [] [] end.
Lemma mc_obj_ok : construct mc_setup = Ok mc_obj.
Proof. unfold mc_obj. apply (obj_ok mc_setup). vm_compute. reflexivity. Qed.
Definition mc_cfg : config BN := [("a", VNum (fl 1 (-1) : BN)); ("b", VNum (fl 3 (-2) : BN))].
Definition mc_of (p : dtp BN) (id : nat) : BN := match deref p id with Some nd => mean_confidence (n_region nd) | None => n0 end.
(** the region of the incumbent has mean confidence 3/4, the root 1/2 *)
Lemma mc_incumbent : exists p' ids, partition mc_obj 1 = (p', Ok ids) /\
  (get_incumbent_region p' mc_cfg, neqb (n:=BN) (mc_of p' 0) (fl 1 (-1)), map (fun id => neqb (n:=BN) (mc_of p' id) (fl 3 (-2))) ids, ids)
  = (Ok (Some 2), true, [true; false], [2; 1]).
Proof.
  apply (run_check mc_obj 1 (fun p' ids => (get_incumbent_region p' mc_cfg, neqb (n:=BN) (mc_of p' 0) (fl 1 (-1)), map (fun id => neqb (n:=BN) (mc_of p' id) (fl 3 (-2))) ids, ids))).
  vm_compute. reflexivity.
Qed.

(** a standard deviation of 2^-600 everywhere *)
Definition tiny_predict : predictor BN := fun rows => Ok (map (fun _ => n0) rows, map (fun _ => fl 1 (-600)) rows).
Definition tiny_setup : setup BN := mksetup (w_nan_cs fe fln fr) tiny_predict (SelOne (SName "a")) [[fl 1 (-1); fl 1 (-2)]] 2 1 1 None.
Definition tiny_obj : dtp BN := match construct tiny_setup with Ok p => p | Err _ => mkdtp [] [] [] 0 0 [] [] end.
Lemma tiny_obj_ok : construct tiny_setup = Ok tiny_obj.
Proof. unfold tiny_obj. apply (obj_ok tiny_setup). vm_compute. reflexivity. Qed.
Lemma tiny_zero : nlt (n:=BN) n0 (fl 1 (-600)) = true /\ neqb (n:=BN) (mc_of tiny_obj 0) n0 = true.
Proof. split; vm_compute; reflexivity. Qed.
End W.
