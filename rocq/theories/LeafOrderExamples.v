(** LeafOrderExamples.v - a setup in which only one hyperparameter may be split. *)
From Coq Require Import QArith.
From Verif Require Import Base Num NumLaws NumpyModel ConfigSpaceModel UtilsModel IceModel PartitionModel PartitionSpec
  ListLemmas IceProofs PartitionProofs PartitionProofs2 PartitionProofs3 Examples LeafOrderSpec.
Local Open Scope string_scope.
Local Open Scope nat_scope.
Local Open Scope list_scope.

(** ex_setup with "c" excluded from splitting *)
Definition lo_setup : setup QNum :=
  mksetup ex_cs ex_predict (SelOne (SName "a")) ex_rows 3 4 1 (Some (SelOne (SName "c"))).
Definition lo_obj : dtp QNum := match construct lo_setup with Ok p => p | Err _ => mkdtp [] [] [] 0 0 [] [] end.
Lemma lo_ok : construct lo_setup = Ok lo_obj.
Proof. unfold lo_obj. assert (E : is_ok (construct lo_setup) = true) by (vm_compute; reflexivity).
  destruct (construct lo_setup); [reflexivity|discriminate]. Qed.
Lemma lo_reaches : reaches lo_setup lo_obj.
Proof. exists lo_obj, []. split; [exact lo_ok|reflexivity]. Qed.
Lemma lo_setup_ok : setup_ok lo_setup.
Proof.
  refine (conj _ (conj _ _)).
  - cbn. repeat constructor; cbn; intuition discriminate.
  - cbn. repeat constructor.
  - cbn. lia.
Qed.
Lemma lo_one : forall h, splittable lo_setup h -> h = mkhp (N:=QNum) "b" (KFloat n0 (nofZ 10) false).
Proof.
  intros h (Hin & H1 & H2). specialize (H1 _ eq_refl). specialize (H2 _ _ eq_refl eq_refl). cbn in Hin, H1, H2.
  destruct Hin as [<-|[<-|[<-|[]]]]; [exfalso; apply H1; left; reflexivity|reflexivity|exfalso; apply H2; left; reflexivity].
Qed.
