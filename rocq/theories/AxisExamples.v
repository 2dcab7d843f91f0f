(** AxisExamples.v - concrete cases for C113. *)
From Coq Require Import QArith.
From Flocq Require Import Core.Core IEEE754.BinarySingleNaN.
From Verif Require Import Base Num NumLaws NumpyModel ConfigSpaceModel UtilsModel IceModel PartitionModel PartitionSpec IceProofs2 IceShapeSpec GridSpec Examples Witness GridExamples.
Local Open Scope nat_scope.
Local Open Scope list_scope.

Section Float.
Variables fe fln fr : b64 -> b64.
Notation BN := (B64 fe fln fr).
(** the same numbers, one by one *)
Fixpoint same_numbers (l l' : list b64) : bool :=
  match l, l' with [], [] => true | x :: t, y :: t' => neqb (n:=BN) x y && same_numbers t t' | _, _ => false end.
(** quarters are exact; the third of four points is 0.6666666666666666, below 2/3; number 3 of 6 is above 3/5 *)
Lemma ax_values :
  same_numbers (linspace (N:=BN) n0 n1 5) [fl 0 0; fl 1 (-2); fl 1 (-1); fl 3 (-2); fl 1 0] = true /\
  same_numbers (linspace (N:=BN) n0 n1 4) [fl 0 0; fl 6004799503160661 (-54); fl 6004799503160661 (-53); fl 1 0] = true /\
  same_numbers (possible_split_vals (N:=BN) 3) [fl 1 (-2); fl 1 (-1); fl 3 (-2)] = true /\
  same_numbers [nth 3 (linspace (N:=BN) n0 n1 6) n0] [gf_jump] = true.
Proof. split; [|split; [|split]]; vm_compute; reflexivity. Qed.

(** its surrogate plus one *)
Definition ax_mean (r : list BN) : BN := nadd (gr_mean r) n1.
(** the example of C107 with 3 points per axis and with 5 in binary64 *)
Definition ax_data (c : bool) (g : nat) : icedata BN := match ice_calculate (gr_alg BN g) c (rowwise ax_mean ax_mean) with Ok d => d | Err _ => mkice [] [] [] end.
Lemma ax_ok c g : is_ok (ice_calculate (gr_alg BN g) c (rowwise ax_mean ax_mean)) = true -> ice_calculate (gr_alg BN g) c (rowwise ax_mean ax_mean) = Ok (ax_data c g).
Proof. unfold ax_data. destruct (ice_calculate (gr_alg BN g) c (rowwise ax_mean ax_mean)); [reflexivity|discriminate]. Qed.
Lemma ax_runs : ice_calculate (gr_alg BN 3) false (rowwise ax_mean ax_mean) = Ok (ax_data false 3) /\
  ice_calculate (gr_alg BN 5) false (rowwise ax_mean ax_mean) = Ok (ax_data false 5) /\
  same_numbers (nth 0 (i_y (ax_data false 3)) []) [fl 1 0; fl 3 (-1); fl 2 0; fl 2 0; fl 5 (-1); fl 3 0; fl 3 0; fl 7 (-1); fl 4 0] = true /\
  same_numbers (nth 0 (i_y (ax_data true 3)) []) [fl 0 0; fl 1 (-1); fl 1 0; fl 1 0; fl 3 (-1); fl 2 0; fl 2 0; fl 5 (-1); fl 3 0] = true.
Proof. split; [apply ax_ok; vm_compute; reflexivity|]. split; [apply ax_ok; vm_compute; reflexivity|]. split; vm_compute; reflexivity. Qed.

(** a surrogate that predicts an infinite mean: its centered curve starts with NaN *)
Definition ax_inf (r : list BN) : BN := B754_infinity false.
Lemma ax_nan : match ice_calculate (gs_alg BN 3) true (rowwise ax_inf ax_inf) with
  | Ok d => option_map (fun v : BN => is_nan (v : b64)) (at2 (i_y d) 0 0) | Err _ => None end = Some true.
Proof. vm_compute. reflexivity. Qed.
End Float.
