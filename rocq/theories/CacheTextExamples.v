(** CacheTextExamples.v - two objectives with one text, over the rationals (C95). *)
From Coq Require Import QArith.
From Verif Require Import Base Num NumpyModel ConfigSpaceModel SamplerModel SamplerSpec SamplerProofs2 SyntheticModel WrapperModel CacheTextModel CacheTextSpec SamplerExamples.
Local Open Scope nat_scope.
Local Open Scope list_scope.

Definition cx_value (f : Q -> Q) (c : config QNum) : res (json QNum) :=
  match c with (_, VNum x) :: _ => Ok (JNum (f x : QNum)) | _ => Err TypeError end.
(** 4 x and 1 - x on the same space, with different names *)
Definition cx_cost : callable QNum := mkcallable (cx_value (fun x => nmul (n := QNum) (4#1)%Q x)) sx_cs (Some "cost"%string).
Definition cx_error : callable QNum := mkcallable (cx_value (fun x => nsub (n := QNum) (1#1)%Q x)) sx_cs (Some "error"%string).
Definition cx_rest : string * string * string * string := ("<class 'EI'>"%string, "{}"%string, "None"%string, "<class 'GP'>"%string).
Definition cx_id (c : callable QNum) : ident := ident_of "<class 'RandomSampler'>" "[x]" (Some 0%Z) (callable_str c) cx_rest.
Definition cx_run (loads : string -> res (json QNum)) : sampler QNum :=
  let w := with_objective (sx_world None false (fun _ => 0) loads) (callable_at cx_cost) in
  fst (srun w [OSample 4] (sampler_make w KRandom sx_cs true (cx_id cx_cost) sx_fs)).
Definition cx_loads (t : string) : res (json QNum) := if String.eqb t "file" then Ok (points_json (cx_run sx_noload)) else Err ValueError.
Definition cx_world : world QNum := sx_world None false (fun _ => 0) cx_loads.
(** a sampler of "cost", and one of "error" constructed after it is gone *)
Definition cx_first : sampler QNum := cx_run cx_loads.
Definition cx_second (m : nat) : sampler QNum :=
  let w := with_objective cx_world (callable_at cx_error) in
  fst (sample w m (sampler_make w KRandom sx_cs true (cx_id cx_error) (sampler_del cx_world cx_first sx_fs))).
(** the same without the file of the first *)
Definition cx_alone (m : nat) : sampler QNum :=
  let w := with_objective cx_world (callable_at cx_error) in
  fst (sample w m (sampler_make w KRandom sx_cs true (cx_id cx_error) sx_fs)).
(** two benchmarks of one class (a task each) *)
Definition cx_bench (f : Q -> Q) : benchmark QNum :=
  mkbench "XGBoostBenchmark" (fun _ => sx_cs) (fun c _ => v <- cx_value f c ;; Ok [("function_value"%string, v)]).
