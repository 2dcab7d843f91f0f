(** FinerSpec.v - vocabulary for C106: settings that leave the partitioner more choice. *)
From Verif Require Import Base Num NumpyModel ConfigSpaceModel UtilsModel IceModel PartitionModel PartitionSpec.

Section S.
Context {N : Num}.
(** same space, surrogate, selection, samples and grid; at least as many candidates and no larger node size *)
Definition more_choice (s s' : setup N) : Prop :=
  su_cs s' = su_cs s /\ su_predict s' = su_predict s /\ su_sel s' = su_sel s /\ su_samples s' = su_samples s /\ su_gpa s' = su_gpa s /\
  su_minpts s' <= su_minpts s /\
  incl (possible_split_vals (N:=N) (su_splits s)) (possible_split_vals (N:=N) (su_splits s')) /\
  forall h, splittable s h -> splittable s' h.
End S.
