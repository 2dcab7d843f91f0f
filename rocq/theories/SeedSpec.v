(** SeedSpec.v - seeds without objects: every named space belongs to a stream, identified by the
    first name of that stream (C32, C64). *)
From Verif Require Import Base Md5Model SeedModel.
From Coq Require Import ZArith.
Local Open Scope Z_scope.

(** a named space: its contents, its stream, and where the stream starts *)
Record named (A : Type) := mknamed { n_space : A; n_stream : nat; n_origin : origin }.
Arguments mknamed {A}. Arguments n_space {A}. Arguments n_stream {A}. Arguments n_origin {A}.

Section Spec.
Context {A B : Type}.
Variable draw : A -> origin -> list nat -> nat -> B.
(** sizes asked of stream [r] so far *)
Definition asked (r : nat) (log : list (nat * nat)) : list nat := map snd (filter (fun p => Nat.eqb (fst p) r) log).
Definition start_of (cls : string) (clock : Z) (seed : seedarg) : Z :=
  match seed with SeedInt z => (class_hash cls + z) mod 2 ^ 31 | SeedNone => clock mod 2 ^ 31 | _ => class_hash cls mod 2 ^ 31 end.
(** the names, the samples taken (stream, size) and the spaces seeded from the system *)
Record sstate := mkss { ss_names : list (named A); ss_log : list (nat * nat); ss_entropy : nat }.
Definition spec_step (s : sstate) (op : seedop) : res (sstate * list (nat * B)) :=
  let fresh x o := mkss (ss_names s ++ [mknamed (n_space x) (length (ss_names s)) o]) (ss_log s) in
  match op with
  | OpHolder cls clock seed src =>
      match nth_error (ss_names s) src with
      | None => Err IndexError
      | Some x => Ok (match seed with
                      | SeedTrue => mkss (ss_names s ++ [x]) (ss_log s) (ss_entropy s)
                      | _ => fresh x (Seeded (start_of cls clock seed)) (ss_entropy s)
                      end, [])
      end
  | OpCopy seed src =>
      match nth_error (ss_names s) src with
      | None => Err IndexError
      | Some x => match seed with
                  | None => Ok (fresh x (Entropy (ss_entropy s)) (ss_entropy s + 1)%nat, [])
                  | Some z => if (0 <=? z) && (z <? 2 ^ 32) then Ok (fresh x (Seeded z) (ss_entropy s), []) else Err ValueError
                  end
      end
  | OpSample h n =>
      match nth_error (ss_names s) h with
      | None => Err IndexError
      | Some x => Ok (mkss (ss_names s) (ss_log s ++ [(n_stream x, n)]) (ss_entropy s),
                      [(h, draw (n_space x) (n_origin x) (asked (n_stream x) (ss_log s)) n)])
      end
  end.
Fixpoint spec_run (s : sstate) (ops : list seedop) : res (sstate * list (nat * B)) :=
  match ops with
  | [] => Ok (s, [])
  | op :: rest => match spec_step s op with
                  | Err e => Err e
                  | Ok (s', o) => match spec_run s' rest with Err e => Err e | Ok (s'', o') => Ok (s'', o ++ o') end
                  end
  end.
Definition spec_start (spaces : list A) : sstate :=
  mkss (map (fun p => mknamed (snd p) (fst p) (Given (fst p))) (combine (seq 0 (length spaces)) spaces)) [] 0.

(** the stream of every name a program makes, from the streams of the names before *)
Fixpoint streams (names : list nat) (ops : list seedop) : list nat :=
  match ops with
  | [] => names
  | OpHolder _ _ SeedTrue src :: rest => streams (names ++ [nth src names 0%nat]) rest
  | OpHolder _ _ _ _ :: rest => streams (names ++ [length names]) rest
  | OpCopy _ _ :: rest => streams (names ++ [length names]) rest
  | OpSample _ _ :: rest => streams names rest
  end.
(** the program without the samples of other streams than [r]; [names] are the streams of the names *)
Definition keep_stream (names : list nat) (r : nat) (ops : list seedop) : list seedop :=
  filter (fun op => match op with OpSample h _ => Nat.eqb (nth h names 0%nat) r | _ => true end) ops.
Definition of_stream (names : list nat) (r : nat) (out : list (nat * B)) : list (nat * B) :=
  filter (fun p => Nat.eqb (nth (fst p) names 0%nat) r) out.
End Spec.

(** what a program returns *)
Definition seed_outputs {A B} (draw : A -> origin -> list nat -> nat -> B) (spaces : list A) (ops : list seedop) : res (list (nat * B)) :=
  match seed_run draw (seed_start spaces) ops with Ok (_, out) => Ok out | Err e => Err e end.

(** the classes of the library that hold a configuration space (C64) *)
Definition holder_classes : list string :=
  ["ICE"; "PDP"; "DecisionTreePartitioner"; "RandomForestPartitioner"; "Region"; "DTRegion"; "SplitCondition";
   "RandomSampler"; "GridSampler"; "BayesianOptimizationSampler"; "ExpectedImprovement"; "ProbabilityOfImprovement"; "LowerConfidenceBound";
   "SkLearnPipelineSurrogate"; "GaussianProcessSurrogate";
   "Square"; "NegativeSquare"; "Levy"; "Ackley"; "CrossInTray"; "StyblinskiTang"; "CallableBlackboxFunction"; "HPOBenchBlackbox"]%string.
