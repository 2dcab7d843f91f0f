(** PipelineExamples.v - a sampler and a tree on the space of the examples (C108). *)
From Coq Require Import Reals QArith Lra.
From Verif Require Import Base Num NumLaws NumpyModel ConfigSpaceModel UtilsModel IceModel PartitionModel PartitionSpec RealProofs PartitionReal
  SamplerModel SamplerSpec SamplerProofs2 PipelineSpec PipelineProofs Examples.
Local Open Scope nat_scope.
Local Open Scope list_scope.

Section Pl.
Context {N : Num}.
(** the configurations drawn: the samples of the example, one after the other *)
Definition pl_conf (i : nat) : conf N :=
  let row := nth (Nat.modulo i 6) ex_rows [] in
  mkconf row [("a"%string, VNum (nth 0 row n0)); ("b"%string, VNum (nmul (nofZ 10) (nth 1 row n0))); ("c"%string, VNum (nadd n1 (nmul (nofZ 4) (nth 2 row n0))))].
(** the objective: the value of a *)
Definition pl_obj (k : nat) (c : config N) : res (json N) := match config_get c "a"%string with Some (VNum x) => Ok (JNum x) | _ => Err TypeError end.
Definition pl_world : world N :=
  mkworld pl_obj (fun d _ i => pl_conf (list_sum d + i)) false (fun _ => 0) (fun _ _ => 0) (fun _ _ _ _ => []) (fun _ _ _ => Ok tt) (fun i _ _ => Ok (pl_conf i))
    (fun _ => Err ValueError) (fun _ => ""%string) (fun t => t).
Definition pl_fs : files := fun _ => None.
(** two calls, of four and of two points *)
Definition pl_sampler : sampler N := fst (srun pl_world [OSample 4; OSample 2] (sampler_new pl_world KRandom ex_cs true "k" pl_fs)).
Lemma pl_reached : sreaches pl_world pl_fs pl_sampler.
Proof. unfold pl_sampler. exists KRandom, ex_cs, true, "k"%string, [OSample 4; OSample 2]. reflexivity. Qed.
Lemma pl_ys : exists l, s_ys pl_sampler = map JNum l /\ length l = 6 /\ length (s_configs pl_sampler) = length (s_ys pl_sampler).
Proof. exists (map (fun i => nth 0 (nth i ex_rows []) n0) (seq 0 6)). refine (conj _ (conj _ _)); vm_compute; reflexivity. Qed.
Lemma pl_cs : s_cs pl_sampler = ex_cs.
Proof. reflexivity. Qed.
End Pl.

(** over the rationals: the incumbent has a = 0; the leaves of the tree of depth 2 hold this many of the six points *)
Definition pl_tree : list (list nat) := match partition exq 2 with
  | (q, Ok ids) => [map (fun id => match deref q id with Some nd => length (points_in ex_cs nd (s_configs (pl_sampler (N:=QNum)))) | None => 0 end) ids;
                    match incumbent (pl_sampler (N:=QNum)) with
                    | Ok (Some (c, v)) => match get_incumbent_region q (c_vals c) with Ok (Some id) => [id] | _ => [] end
                    | _ => [] end; ids]
  | _ => [] end.
Definition pl_best : option (list Q) := match incumbent (pl_sampler (N:=QNum)) with Ok (Some (c, v)) => Some (map Qred (v :: c_vec c)) | _ => None end.
Lemma pl_values : pl_tree = [[1; 2; 2; 1]; [3]; [4; 3; 6; 5]] /\ pl_best = Some [0; 0; 7 # 10; 1]%Q /\ length (s_configs (pl_sampler (N:=QNum))) = 6.
Proof. refine (conj _ (conj _ _)); vm_compute; reflexivity. Qed.

(** over the reals the hypotheses hold *)
Lemma pl_conf_total i : total_config (ex_cs (N:=RNum)) (c_vals (pl_conf i)).
Proof. intros h [<-|[<-|[<-|[]]]]; cbn; eexists; (split; [reflexivity|apply R_ordinary]). Qed.
Lemma pl_total : world_total (pl_world (N:=RNum)) ex_cs.
Proof.
  split; [intros d n i; apply pl_conf_total|]. intros i f eta c E. cbn in E. injection E as <-. apply pl_conf_total.
Qed.
