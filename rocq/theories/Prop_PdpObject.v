(** Prop_PdpObject.v - the arrays of a PDP object are the means of the curves (C26).

    [only_looks]: every operation but setting [centered] of the ICE object and refitting the surrogate. *)
From Coq Require Import Reals QArith.
From Verif Require Import Base Num NumLaws NumpyModel ConfigSpaceModel UtilsModel IceModel ListLemmas IceProofs IceProofs2 RealSums IceReal PdpObjectProofs Examples Prop_Ice.
Local Open Scope nat_scope.
Local Open Scope list_scope.

(** after any reads and resets, in any order, the three arrays are readable and hold the means over the samples *)
Theorem C26_object : forall (a : algorithm RNum) p d ops, NoDup (map hp_name (a_cs a)) -> rect (num_features a) (a_samples a) -> 0 < num_samples a ->
  ice_calculate a false p = Ok d -> Forall only_looks ops -> let s := fst (pdp_run (pdp_new a p) ops) in
  exists xs ys vs, snd (pdp_step s PX) = POX (Ok xs) /\ snd (pdp_step s PY) = POY (Ok ys) /\ snd (pdp_step s PV) = POV (Ok vs) /\
    forall g, g < num_grid_points a ->
      (exists m, nth_error ys g = Some m /\ mean_over (num_samples a) (fun i => at2 (i_y d) i g) m) /\
      (exists m, nth_error vs g = Some m /\ mean_over (num_samples a) (fun i => at2 (i_v d) i g) m) /\
      (exists row, nth_error xs g = Some row /\ forall j, j < num_features a -> exists m, nth_error row j = Some m /\ mean_over (num_samples a) (fun i => at3j (i_x d) i g j) m).
Proof. exact pdp_object_means. Qed.
Print Assumptions C26_object.

(** the object of C26's example: a reset between two reads of the variances *)
Example C26_object_example : NoDup (map hp_name (a_cs (ex_alg RNum))) /\ rect (num_features (ex_alg RNum)) (a_samples (ex_alg RNum)) /\ 0 < num_samples (ex_alg RNum) /\
  (exists d, ice_calculate (ex_alg RNum) false (ex_predict (N:=RNum)) = Ok d) /\ Forall (only_looks (N:=RNum)) [PV; PIce OReset; PIce OReadY; PX] /\
  (let s := fst (pdp_run (pdp_new (ex_alg QNum) ex_predict) [PV; PIce OReset; PIce OReadY; PX]) in
   match snd (pdp_step s PY), snd (pdp_step s PV) with POY (Ok y), POV (Ok v) => (length y, option_map Qred (nth_error y 3), option_map Qred (nth_error v 3)) | _, _ => (0, None, None) end) =
  (9, Some (3#4)%Q, Some (13#800)%Q).
Proof.
  destruct (ex_alg_ok RNum) as (H1 & H2 & _ & H4). refine (conj H1 (conj H2 (conj _ (conj (H4 false) (conj _ _))))); [cbn; lia|repeat (apply Forall_cons; [exact Logic.I|]); apply Forall_nil|vm_compute; reflexivity].
Qed.
