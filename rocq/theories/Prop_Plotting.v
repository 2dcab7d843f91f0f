(** Prop_Plotting.v - figure grids and axes (C56, C57). *)
From Coq Require Import QArith.
From Verif Require Import Base Num NumLaws ConfigSpaceModel PlottingModel PlottingSpec PlottingProofs PlottingShape.
Local Open Scope nat_scope.
Local Open Scope list_scope.

(** ** C56 *)
Theorem C56_shape : forall n, (1 <= n)%Z -> exists w h, quadratic_shape real_ceil_sqrt n = Ok (w, h) /\ best_shape n w h.
Proof. exact shape_exact. Qed.
Print Assumptions C56_shape.

Theorem C56_no_figure : forall n, (n <= 0)%Z -> quadratic_shape real_ceil_sqrt n = Err ValueError.
Proof. exact shape_exact_none. Qed.
Print Assumptions C56_no_figure.

(** np.sqrt and np.ceil in binary64 *)
Theorem C56_binary64 : forall n, (1 <= n <= 2 ^ 52)%Z -> exists w h, quadratic_shape b64_ceil_sqrt n = Ok (w, h) /\ best_shape n w h.
Proof. exact shape_b64. Qed.
Print Assumptions C56_binary64.

Theorem C56_binary64_no_figure : quadratic_shape b64_ceil_sqrt 0 = Err ValueError.
Proof. exact shape_b64_zero. Qed.
Print Assumptions C56_binary64_no_figure.

(** the bound 2^52 is sharp *)
Theorem C56_binary64_large_refuted : quadratic_shape b64_ceil_sqrt (2 ^ 52 + 1) = Err ValueError.
Proof. exact shape_b64_large. Qed.
Print Assumptions C56_binary64_large_refuted.

Example C56_example : map (fun n => match quadratic_shape b64_ceil_sqrt n with Ok p => p | Err _ => (0, 0)%Z end) [1; 2; 3; 4; 5; 6; 7; 9; 10; 12; 13]%Z
  = [(1, 1); (2, 1); (2, 2); (2, 2); (3, 2); (3, 2); (3, 3); (3, 3); (4, 3); (4, 3); (4, 4)]%Z.
Proof. vm_compute. reflexivity. Qed.

(** ** C57 *)
Theorem C57_raises : forall (N : Num) (ax : axis N) hps b yl,
  (conflict ax hps yl -> check_and_set_axis ax hps b yl = (ax, Err ValueError)) /\
  (~ conflict ax hps yl -> snd (check_and_set_axis ax hps b yl) = Ok tt).
Proof. exact @axis_raises. Qed.
Print Assumptions C57_raises.

Theorem C57_sets : forall (N : Num) (ax : axis N) hps b yl ax', check_and_set_axis ax hps b yl = (ax', Ok tt) ->
  match hps with
  | [h] => ax_xlabel ax' = hp_name h /\ ax_ylabel ax' = yl /\
      dim_after (ax_xlog ax) (ax_xlim ax) (bounds_of b h) (ax_xlog ax') (ax_xlim ax') /\ ax_ylog ax' = ax_ylog ax /\ ax_ylim ax' = ax_ylim ax
  | [h1; h2] => ax_xlabel ax' = hp_name h1 /\ ax_ylabel ax' = hp_name h2 /\
      dim_after (ax_xlog ax) (ax_xlim ax) (bounds_of b h1) (ax_xlog ax') (ax_xlim ax') /\
      dim_after (ax_ylog ax) (ax_ylim ax) (bounds_of b h2) (ax_ylog ax') (ax_ylim ax')
  | _ => ax' = ax
  end.
Proof. exact @axis_sets. Qed.
Print Assumptions C57_sets.

Theorem C57_labels_persist : forall (N : Num) (ax : axis N) cs,
  (ax_xlabel ax <> ""%string -> ax_xlabel (ax_run ax cs) = ax_xlabel ax) /\ (ax_ylabel ax <> ""%string -> ax_ylabel (ax_run ax cs) = ax_ylabel ax).
Proof. exact @labels_persist. Qed.
Print Assumptions C57_labels_persist.

(** with the hyperparameters of one space, scale and limits always belong to the label *)
Theorem C57_one_space : forall (N : Num) (K : string -> option (hpkind N)) cs, positive_logs K -> Forall (from_space K) cs -> let ax := ax_run fresh_axis cs in
  dim_fits K (ax_xlabel ax) (ax_xlog ax) (ax_xlim ax) /\ dim_fits K (ax_ylabel ax) (ax_ylog ax) (ax_ylim ax).
Proof. exact @history_fits. Qed.
Print Assumptions C57_one_space.

Definition px_x : hp QNum := mkhp "x" (KFloat (1#10 : QNum)%Q (10 : QNum)%Q true).
Definition px_y : hp QNum := mkhp "y" (KInt 0 3 false).
Definition px_x' : hp QNum := mkhp "x" (KFloat (0 : QNum)%Q (1 : QNum)%Q false).
Definition px_K (n : string) : option (hpkind QNum) := if String.eqb n "x" then Some (hp_kind px_x) else if String.eqb n "y" then Some (hp_kind px_y) else None.
Definition px_calls : list (axcall QNum) := [mkcall [px_x; px_y] false "Prediction"; mkcall [px_x] true "Prediction"; mkcall [px_y; px_x] true "Prediction"; mkcall [px_x; px_y] true "Prediction"].
Example C57_example : positive_logs px_K /\ Forall (from_space px_K) px_calls /\
  (let ax := ax_run fresh_axis px_calls in ax_xlabel ax = "x"%string /\ ax_ylabel ax = "y"%string /\ ax_xlog ax = true /\ ax_ylog ax = false /\
     exists a b, ax_xlim ax = (Some a, Some b)) /\
  conflict (ax_run fresh_axis px_calls) [px_x] "Prediction".
Proof.
  refine (conj _ (conj _ (conj _ _))).
  - intros n k lo up H. unfold px_K in H. destruct (String.eqb n "x"); [injection H as <-; cbn; intro E; injection E as <- <-; auto|]. destruct (String.eqb n "y"); [injection H as <-; cbn; discriminate|discriminate].
  - repeat constructor; discriminate.
  - refine (conj eq_refl (conj eq_refl (conj eq_refl (conj eq_refl _)))). do 2 eexists. reflexivity.
  - right. split; discriminate.
Qed.
(** two spaces that disagree about x: the axis stays logarithmic and the lower limit 0 is dropped *)
Theorem C57_two_spaces : exists (cs : list (axcall QNum)) (h : hp QNum),
  let ax := ax_run fresh_axis cs in
  In h (concat (map ac_hps cs)) /\ ax_xlabel ax = hp_name h /\ snd (check_and_set_axis ax [h] true "Prediction") = Ok tt /\
  hp_log h = Ok false /\ ax_xlog (fst (check_and_set_axis ax [h] true "Prediction")) = true.
Proof. exact two_spaces. Qed.
Print Assumptions C57_two_spaces.
