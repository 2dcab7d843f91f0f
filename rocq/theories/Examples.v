(** Examples.v - concrete setups used beside the property theorems to show that
    their hypotheses can be met and that the claims are not empty. *)
From Coq Require Import Reals QArith Lra.
From Flocq Require Import Core.Core IEEE754.BinarySingleNaN.
From Verif Require Import Base Num NumLaws NumpyModel ConfigSpaceModel UtilsModel IceModel PartitionModel PartitionSpec
  ListLemmas IceProofs IceProofs2 PartitionProofs PartitionProofs2 PartitionProofs3 PartitionProofs6 RealProofs PartitionReal.
Local Open Scope string_scope.
Local Open Scope nat_scope.
Local Open Scope list_scope.

Section Ex.
Context {N : Num}.
Definition frac (a b : Z) : N := ndiv (nofZ a) (nofZ b).
(** three float hyperparameters; "a" is the selected one *)
Definition ex_cs : cspace N :=
  [mkhp "a" (KFloat n0 n1 false); mkhp "b" (KFloat n0 (nofZ 10) false); mkhp "c" (KFloat n1 (nofZ 5) false)].
Definition ex_rows : list (list N) :=
  [[frac 1 2; frac 1 10; frac 1 5]; [frac 1 4; frac 9 10; frac 3 10]; [frac 1 8; frac 1 5; frac 7 10];
   [frac 3 4; frac 4 5; frac 9 10]; [frac 1 16; frac 1 10; frac 4 5]; [n0; frac 7 10; n1]].
(** mean = a + c, standard deviation = b (uncertain where b is large) plus c/2 *)
Definition ex_predict : predictor N :=
  fun rows => Ok (map (fun r => nadd (nth 0 r n0) (nth 2 r n0)) rows,
                  map (fun r => nadd (nth 1 r n0) (ndiv (nth 2 r n0) (nofZ 2))) rows).
Definition ex_setup : setup N :=
  mksetup ex_cs ex_predict (SelOne (SName "a")) ex_rows 3 4 1 None.

Lemma ex_batch : batch_predictor ex_predict.
Proof. intro rows. do 2 eexists. refine (conj eq_refl (conj _ _)); apply map_length. Qed.
Lemma ex_setup_ok : setup_ok ex_setup.
Proof.
  refine (conj _ (conj _ _)).
  - cbn. repeat constructor; cbn; intuition discriminate.
  - cbn. repeat constructor.
  - cbn. lia.
Qed.
Lemma ex_construct : exists p0, construct ex_setup = Ok p0.
Proof.
  apply (construct_total ex_setup [mkhp "a" (KFloat n0 n1 false)]).
  - apply ex_setup_ok. - reflexivity. - discriminate. - repeat constructor. - discriminate. - apply ex_batch.
Qed.
Lemma ex_reaches : exists p, reaches ex_setup p.
Proof. destruct ex_construct as (p0 & E). exists p0, p0, []. split; [exact E|reflexivity]. Qed.
Lemma ex_all_numerical : all_numerical ex_cs.
Proof. repeat constructor. Qed.
End Ex.

(** the same object over the rationals, where everything can be computed *)
Definition exq : dtp QNum := match construct (ex_setup (N:=QNum)) with Ok p => p | Err _ => mkdtp [] [] [] 0 0 [] [] end.
Lemma exq_ok : construct (ex_setup (N:=QNum)) = Ok exq.
Proof. unfold exq. assert (E : is_ok (construct (ex_setup (N:=QNum))) = true) by (vm_compute; reflexivity).
  destruct (construct (ex_setup (N:=QNum))); [reflexivity|discriminate]. Qed.
Lemma exq_reaches depths : reaches (ex_setup (N:=QNum)) (run_history exq depths).
Proof. exists exq, depths. split; [exact exq_ok|reflexivity]. Qed.
Definition leaf_summary (p : dtp QNum) (ids : list nat) : list (option (nat * list (string * Q * bool))) :=
  map (fun id => option_map (fun nd => (region_len (n_region nd), map (fun c => (hp_name (c_hp c), c_val c, c_le c)) (n_conds nd))) (deref p id)) ids.

Lemma ex_float_space : float_space (ex_cs (N:=RNum)).
Proof.
  repeat constructor.
  - exists 0%R, 1%R, false. split; [reflexivity|]. split; [lra|discriminate].
  - exists 0%R, 10%R, false. split; [reflexivity|]. split; [lra|discriminate].
  - exists 1%R, 5%R, false. split; [reflexivity|]. split; [lra|discriminate].
Qed.
