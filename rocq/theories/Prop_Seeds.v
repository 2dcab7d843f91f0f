(** Prop_Seeds.v - seeds and ownership of configuration spaces (C32, C64). *)
From Verif Require Import Base Md5Model SeedModel SeedSpec SeedProofs.
From Coq Require Import ZArith.
Local Open Scope Z_scope.
Local Open Scope list_scope.

(** ** C32 *)
(** any program of holders, copies and samples returns what its streams say *)
Theorem C32_streams : forall A B (draw : A -> origin -> list nat -> nat -> B) (spaces : list A) ops,
  seed_outputs draw spaces ops = match spec_run draw (spec_start spaces) ops with Ok (_, out) => Ok out | Err e => Err e end.
Proof. exact @seed_streams. Qed.
Print Assumptions C32_streams.

(** a holder with an integer seed, False or None owns a new space *)
Theorem C32_private : forall A cls clock seed l (w : sworld (A:=A)) o, seed <> SeedTrue -> nth_error (w_heap w) l = Some o ->
  exists w' s, holder_init cls clock seed l w = Ok (w', length (w_heap w)) /\ 0 <= s < 2 ^ 31 /\
    w_heap w' = w_heap w ++ [mkobj (o_space o) (Seeded s) []].
Proof. exact @holder_private. Qed.
Print Assumptions C32_private.

Theorem C32_sampling : forall A B (draw : A -> origin -> list nat -> nat -> B) l n (w : sworld (A:=A)) w' b, sample_space draw l n w = Ok (w', b) ->
  exists o, nth_error (w_heap w) l = Some o /\ nth_error (w_heap w') l = Some (mkobj (o_space o) (o_origin o) (o_calls o ++ [n])) /\
    b = draw (o_space o) (o_origin o) (o_calls o) n /\ forall k, k <> l -> nth_error (w_heap w') k = nth_error (w_heap w) k.
Proof. exact @sample_only. Qed.
Print Assumptions C32_sampling.

(** what a stream returns does not depend on the samples taken from the others *)
Theorem C32_independent : forall A B (draw : A -> origin -> list nat -> nat -> B) (spaces : list A) ops out r, seed_outputs draw spaces ops = Ok out ->
  let names := streams (seq 0 (length spaces)) ops in
  seed_outputs draw spaces (keep_stream names r ops) = Ok (of_stream names r out).
Proof. exact @seed_private. Qed.
Print Assumptions C32_independent.

Theorem C32_shared : forall A cls clock l (w : sworld (A:=A)), holder_init cls clock SeedTrue l w = Ok (w, l).
Proof. exact @holder_shares. Qed.
Print Assumptions C32_shared.

Theorem C32_congruent : forall cls z z', z mod 2 ^ 31 = z' mod 2 ^ 31 <->
  forall (A B : Type) (draw : A -> origin -> list nat -> nat -> B) (spaces : list A) src clock clock' sizes,
    seed_outputs draw spaces (OpHolder cls clock (SeedInt z) src :: map (OpSample (length spaces)) sizes) =
    seed_outputs draw spaces (OpHolder cls clock' (SeedInt z') src :: map (OpSample (length spaces)) sizes).
Proof. exact seed_congruent. Qed.
Print Assumptions C32_congruent.

(** seed=False is not "no seed" but 0 *)
Theorem C32_false : forall cls (A B : Type) (draw : A -> origin -> list nat -> nat -> B) (spaces : list A) src clock clock' ops,
  seed_outputs draw spaces (OpHolder cls clock SeedFalse src :: ops) = seed_outputs draw spaces (OpHolder cls clock' (SeedInt 0) src :: ops).
Proof. exact seed_false. Qed.
Print Assumptions C32_false.

(** a caller's space, a private holder, a sharing holder on it: what was asked of the stream before *)
Example C32_example : seed_outputs (fun (_ : unit) o calls n => (o, calls, n)) [tt]
    [OpHolder "ICE" 0 (SeedInt 5) 0; OpHolder "Region" 0 SeedTrue 0; OpSample 1 3; OpSample 0 2; OpSample 2 4; OpSample 1 1] =
  Ok [(1%nat, (Seeded 24664216, [], 3%nat)); (0%nat, (Given 0, [], 2%nat)); (2%nat, (Given 0, [2%nat], 4%nat)); (1%nat, (Seeded 24664216, [3%nat], 1%nat))].
Proof. vm_compute. reflexivity. Qed.
Example C32_example_streams : streams [0%nat] [OpHolder "ICE" 0 (SeedInt 5) 0; OpHolder "Region" 0 SeedTrue 0] = [0; 1; 0]%nat.
Proof. reflexivity. Qed.

(** ** C64 *)
Theorem C64_classes : forall A c c' clock clock' z l (w : sworld (A:=A)) o, In c holder_classes -> In c' holder_classes -> c <> c' -> nth_error (w_heap w) l = Some o ->
  exists w1 w2 s1 s2, holder_init c clock (SeedInt z) l w = Ok (w1, length (w_heap w)) /\ holder_init c' clock' (SeedInt z) l w = Ok (w2, length (w_heap w)) /\
    nth_error (w_heap w1) (length (w_heap w)) = Some (mkobj (o_space o) (Seeded s1) []) /\
    nth_error (w_heap w2) (length (w_heap w)) = Some (mkobj (o_space o) (Seeded s2) []) /\ s1 <> s2.
Proof. exact @class_states. Qed.
Print Assumptions C64_classes.

(** the states themselves; [digests] lists the digests of hashlib for the classes of [holder_classes] *)
Theorem C64_state : forall A cls d clock z l (w : sworld (A:=A)) o, In (cls, d) digests -> nth_error (w_heap w) l = Some o ->
  exists w', holder_init cls clock (SeedInt z) l w = Ok (w', length (w_heap w)) /\
    nth_error (w_heap w') (length (w_heap w)) = Some (mkobj (o_space o) (Seeded ((d + z) mod 2 ^ 31)) []).
Proof. exact @class_start. Qed.
Print Assumptions C64_state.

(** class_hash is MD5: the digests of hashlib for some names *)
Example C64_example : map class_hash [""; "ICE"; "BayesianOptimizationSampler"]%string =
  [281949768489412648962353822266799178366; 46499450645910497525708328380210370707; 22241202928591573032958205185811911564].
Proof. vm_compute. reflexivity. Qed.
