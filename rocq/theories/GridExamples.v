(** GridExamples.v - concrete cases for C107. *)
From Coq Require Import QArith.
From Flocq Require Import Core.Core IEEE754.BinarySingleNaN.
From Verif Require Import Base Num NumLaws NumpyModel ConfigSpaceModel UtilsModel IceModel PartitionModel PartitionSpec IceProofs2 IceShapeSpec GridSpec Examples Witness.
Local Open Scope string_scope.
Local Open Scope nat_scope.
Local Open Scope list_scope.

(** the two selected hyperparameters a and b of the example, mean a + 2b: 3 points per axis and 5 *)
Definition gr_alg (N : Num) (g : nat) : algorithm N := mkalg ex_cs [nth 0 ex_cs (mkhp "" (KFloat n0 n1 false)); nth 1 ex_cs (mkhp "" (KFloat n0 n1 false))] ex_rows g.
Definition gr_mean {N : Num} (r : list N) : N := nadd (nth 0 r n0) (nmul (nofZ 2) (nth 1 r n0)).
Definition gr_first (g : nat) : list Q := match ice_calculate (gr_alg QNum g) false (rowwise gr_mean gr_mean) with Ok d => map Qred (nth 0 (i_y d) []) | Err _ => [] end.
Lemma gr_values : gr_first 3 = [0; 1 # 2; 1; 1; 3 # 2; 2; 2; 5 # 2; 3]%Q /\
  gr_first 5 = [0; 1 # 4; 1 # 2; 3 # 4; 1; 1 # 2; 3 # 4; 1; 5 # 4; 3 # 2; 1; 5 # 4; 3 # 2; 7 # 4; 2; 3 # 2; 7 # 4; 2; 9 # 4; 5 # 2; 2; 9 # 4; 5 # 2; 11 # 4; 3]%Q.
Proof. split; vm_compute; reflexivity. Qed.

(** one selected hyperparameter, mean = its value: 3 points and 4 *)
Definition gs_alg (N : Num) (g : nat) : algorithm N := mkalg [mkhp "a" (KFloat n0 n1 false)] [mkhp "a" (KFloat n0 n1 false)] [[n1]] g.
Definition gs_mean {N : Num} (r : list N) : N := nth 0 r n0.
Definition gs_first (g : nat) : list Q := match ice_calculate (gs_alg QNum g) false (rowwise gs_mean gs_mean) with Ok d => map Qred (nth 0 (i_y d) []) | Err _ => [] end.
Lemma gs_values : gs_first 3 = [0; 1 # 2; 1]%Q /\ gs_first 4 = [0; 1 # 3; 2 # 3; 1]%Q.
Proof. split; vm_compute; reflexivity. Qed.

(** binary64: number 3 of 6 points is 0.6000000000000001, number 9 of 16 points is 0.6 *)
Section Float.
Variables fe fln fr : b64 -> b64.
Notation BN := (B64 fe fln fr).
(** 0.6000000000000001, and a surrogate that jumps there *)
Definition gf_jump : b64 := fl 5404319552844596 (-53).
Definition gf_mean (r : list BN) : BN := if nle (n:=BN) gf_jump (nth 0 r n0) then n1 else n0.
Definition gf_data (g : nat) : icedata BN := match ice_calculate (gs_alg BN g) false (rowwise gf_mean gf_mean) with Ok d => d | Err _ => mkice [] [] [] end.
Lemma gf_ok g : is_ok (ice_calculate (gs_alg BN g) false (rowwise gf_mean gf_mean)) = true -> ice_calculate (gs_alg BN g) false (rowwise gf_mean gf_mean) = Ok (gf_data g).
Proof. unfold gf_data. destruct (ice_calculate (gs_alg BN g) false (rowwise gf_mean gf_mean)); [reflexivity|discriminate]. Qed.
Lemma gf_values : ice_calculate (gs_alg BN 6) false (rowwise gf_mean gf_mean) = Ok (gf_data 6) /\
  ice_calculate (with_gpa (gs_alg BN 6) (refined 3 6)) false (rowwise gf_mean gf_mean) = Ok (gf_data 16) /\
  option_map (fun v => neqb (n:=BN) v n1) (at2 (i_y (gf_data 6)) 0 3) = Some true /\ option_map (fun v => neqb (n:=BN) v n0) (at2 (i_y (gf_data 16)) 0 9) = Some true /\
  nlt (n:=BN) n0 n1 = true.
Proof.
  assert (E : with_gpa (gs_alg BN 6) (refined 3 6) = gs_alg BN 16) by reflexivity. rewrite E. clear E.
  split; [apply gf_ok; vm_compute; reflexivity|]. split; [apply gf_ok; vm_compute; reflexivity|].
  split; [vm_compute; reflexivity|]. split; vm_compute; reflexivity.
Qed.
End Float.
