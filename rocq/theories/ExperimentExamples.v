(** ExperimentExamples.v - a setup that meets the hypotheses of C103. *)
From Coq Require Import Reals Lra Lia.
From Verif Require Import Base Num NumLaws NumpyModel ConfigSpaceModel UtilsModel IceModel PartitionModel PartitionSpec PartitionProofs6 PartitionSpec Examples RealProofs DrawSpec ExperimentModel ExperimentSpec.
Local Open Scope R_scope.
Local Open Scope list_scope.

(** mean = a + c, standard deviation = 1 + b^2 *)
Definition xp_predict : predictor RNum := fun rows => Ok (map (fun r : list R => nth 0 r 0 + nth 2 r 0) rows, map (fun r : list R => 1 + nth 1 r 0 * nth 1 r 0) rows).
Definition xp_setup : setup RNum := mksetup (ex_cs (N:=RNum)) xp_predict (SelOne (SName "a")) (ex_rows (N:=RNum)) 3 4 1 None.
Definition xp_cfg : config RNum := [("a", VNum (N:=RNum) (1/2)); ("b", VNum (N:=RNum) 2); ("c", VNum (N:=RNum) 3)]%string.

Lemma xp_ok : setup_ok xp_setup.
Proof. exact (ex_setup_ok (N:=RNum)). Qed.
Lemma xp_uncertain : uncertain xp_predict.
Proof. intros rows ms sds E. injection E as _ <-. apply Forall_map, Forall_forall. intros r _. nra. Qed.
Lemma xp_float : float_space (ex_cs (N:=RNum)).
Proof.
  repeat constructor.
  - exists 0, 1, false. split; [reflexivity|]. split; [lra|discriminate].
  - exists 0, 10, false. split; [reflexivity|]. split; [lra|discriminate].
  - exists 1, 5, false. split; [reflexivity|]. split; [lra|discriminate].
Qed.
Lemma xp_legal : legal_config (ex_cs (N:=RNum)) xp_cfg.
Proof.
  intros h lo up Hin E. cbn in Hin. destruct Hin as [<-|[<-|[<-|[]]]]; injection E as <- <-; eexists; (split; [reflexivity|]); cbn; lra.
Qed.
Lemma xp_construct : exists p0, construct xp_setup = Ok p0.
Proof.
  apply (construct_total xp_setup [mkhp "a" (KFloat (0 : RNum) (1 : RNum) false)]).
  - apply xp_ok. - reflexivity. - discriminate. - repeat constructor. - discriminate. - intro rows. do 2 eexists. refine (conj eq_refl (conj _ _)); apply map_length.
Qed.
