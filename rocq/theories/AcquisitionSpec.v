(** AcquisitionSpec.v - the words of C47. *)
From Verif Require Import Base Num NumpyModel ConfigSpaceModel SamplerModel AcquisitionModel.
Local Open Scope list_scope.

Section Spec.
Context {N : Num}.

(** the rows that an argument of an acquisition function stands for, one per configuration or array and in this order *)
Inductive stands_for : xinput N -> list (list N) -> Prop :=
| stands_conf c : stands_for (XConf c) [c_vec c]
| stands_array rows : stands_for (XArr rows) rows
| stands_nil : stands_for (XList []) []
| stands_item c l rows : stands_for (XList l) rows -> stands_for (XList (IConf c :: l)) (c_vec c :: rows)
| stands_row r l rows : stands_for (XList l) rows -> stands_for (XList (IRow r :: l)) (r :: rows).

End Spec.
