(** ReadyExamples.v - a library whose benchmarks depend on the task and the seed (C110). *)
From Coq Require Import QArith Ascii.
From Verif Require Import Base Num NumpyModel ConfigSpaceModel SamplerModel SamplerSpec SamplerProofs2 SyntheticModel WrapperModel CacheTextModel CacheTextSpec
  SamplerExamples CacheTextExamples ReadyModel ReadySpec.
Local Open Scope nat_scope.
Local Open Scope list_scope.

(** the text after the last dot *)
Fixpoint last_part (cur s : string) : string :=
  match s with
  | EmptyString => cur
  | String c t => if Ascii.eqb c "."%char then last_part "" t else last_part (cur ++ String c "") t
  end.
(** the value is task * x + rng; tasks above 9999 are unknown, BNN is not installed *)
Definition rx_lib (path : string) (args : list Z) (rng : option Z) : res (benchmark QNum) :=
  if String.eqb (last_part "" path) "BNNOnBostonHousing" then Err AttributeError
  else if (9999 <? hd 0 args)%Z then Err ValueError
  else Ok (mkbench (last_part "" path) (fun _ => sx_cs)
    (fun c s => v <- cx_value (fun x => nadd (n := QNum) (nmul (n := QNum) (inject_Z (hd 1%Z args)) x) (inject_Z (match s with Some z => z | None => 0 end))) c ;; Ok [("function_value"%string, v)])).
Lemma rx_honest : honest rx_lib.
Proof.
  intros r b. unfold rx_lib. assert (X : last_part "" (module_of r ++ class_of r) = class_of r) by (destruct r as [s|s|s|s [[|]|]|t s|t s|t s]; reflexivity).
  rewrite X. destruct (String.eqb _ _); [discriminate|]. destruct (_ <? _)%Z; [discriminate|]. intro E. injection E as <-. reflexivity.
Qed.
Definition rx_fun (r : ready) : hpo QNum := match get_ready rx_lib r with Ok p => snd p | Err _ => hpo_new (cx_bench (fun x => x)) None end.
Definition rx_id (r : ready) : ident := ident_of "<class 'RandomSampler'>" "[x]" (Some 0%Z) (hpo_str (rx_fun r)) cx_rest.
Definition rx_run (r : ready) (loads : string -> res (json QNum)) : sampler QNum :=
  let w := with_objective (sx_world None false (fun _ => 0) loads) (hpo_call (rx_fun r)) in
  fst (srun w [OSample 4] (sampler_make w KRandom sx_cs true (rx_id r) sx_fs)).
(** task 4 first, then task 3 of the same class *)
Definition rx_loads (t : string) : res (json QNum) := if String.eqb t "file" then Ok (points_json (rx_run (SVM (Some 4%Z) None) sx_noload)) else Err ValueError.
Definition rx_world : world QNum := sx_world None false (fun _ => 0) rx_loads.
Definition rx_first : sampler QNum := rx_run (SVM (Some 4%Z) None) rx_loads.
Definition rx_second (m : nat) : sampler QNum :=
  let r := SVM (Some 3%Z) None in let w := with_objective rx_world (hpo_call (rx_fun r)) in
  fst (sample w m (sampler_make w KRandom sx_cs true (rx_id r) (sampler_del rx_world rx_first sx_fs))).
Definition rx_alone (m : nat) : sampler QNum :=
  let r := SVM (Some 3%Z) None in let w := with_objective rx_world (hpo_call (rx_fun r)) in
  fst (sample w m (sampler_make w KRandom sx_cs true (rx_id r) sx_fs)).
