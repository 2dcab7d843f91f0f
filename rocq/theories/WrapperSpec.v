(** WrapperSpec.v - vocabulary for the properties of the wrappers (C83, C84). *)
From Verif Require Import Base Num ConfigSpaceModel SamplerModel AcquisitionModel SyntheticModel WrapperModel.
Local Open Scope list_scope.

(** the data of the last fit whose points could be converted to an array *)
Fixpoint last_fit {N : Num} (ops : list (sop N)) : option (list (list N) * list (json N)) :=
  match ops with
  | [] => None
  | o :: t => match last_fit t with
              | Some d => Some d
              | None => match o with
                        | OFit x y => match config_list_to_array x with Ok rows => Some (rows, y) | Err _ => None end
                        | _ => None
                        end
              end
  end.

(** keyword arguments that a space accepts: its names, each with a legal value *)
Definition legal_keywords {N : Num} (cs : cspace N) (kw : config N) : Prop :=
  (forall n, In n (map fst kw) -> In n (map hp_name cs)) /\
  (forall h, In h cs -> exists v, config_get kw (hp_name h) = Some v /\ legal_value h v = true).
(** keyword arguments that it does not accept: an unknown name, a missing one or an illegal value *)
Definition illegal_keywords {N : Num} (cs : cspace N) (kw : config N) : Prop :=
  (exists n, In n (map fst kw) /\ ~ In n (map hp_name cs)) \/
  (exists h, In h cs /\ forall v, config_get kw (hp_name h) = Some v -> legal_value h v = false).
(** the configuration of these keyword arguments *)
Definition config_for {N : Num} (cs : cspace N) (kw c : config N) : Prop :=
  map fst c = map hp_name cs /\ forall n, In n (map hp_name cs) -> config_get c n = config_get kw n.
