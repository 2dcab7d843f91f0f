(** IceShapeWitness.v - computed binary64 cases for C26 and C99. *)
From Coq Require Import QArith Permutation.
From Flocq Require Import Core.Core IEEE754.BinarySingleNaN.
From Verif Require Import Base Num NumLaws NumpyModel ConfigSpaceModel UtilsModel IceModel IceProofs IceProofs2 IceShapeSpec IceShapeProofs Witness.
Local Open Scope nat_scope.
Local Open Scope list_scope.

Definition is_ok {A} (r : res A) : bool := match r with Ok _ => true | Err _ => false end.
Definition data_of {N : Num} (r : res (icedata N)) : icedata N := match r with Ok d => d | Err _ => mkice [] [] [] end.
Lemma data_ok {N : Num} (r : res (icedata N)) : is_ok r = true -> r = Ok (data_of r).
Proof. destruct r; [reflexivity|discriminate]. Qed.

(** ** an interaction whose PDP is flat; a surrogate that looks at the size of the batch *)
Definition q_alg : algorithm QNum :=
  let a := mkhp (N:=QNum) "a"%string (KFloat n0 n1 false) in let b := mkhp (N:=QNum) "b"%string (KFloat n0 n1 false) in mkalg [a; b] [a] [[1#2; 0]; [1#2; 1]]%Q 2.
Definition q_mean (r : list Q) : Q := ((nth 0 r 0 - (1#2)) * (nth 1 r 0 - (1#2)))%Q.
Definition q_run : res (icedata QNum) := ice_calculate q_alg false (rowwise (N:=QNum) q_mean (fun _ => n0)).
Lemma all_zero (l : list Q) g v : forallb (fun v => Qeq_bool v 0) l = true -> nth_error l g = Some v -> (v == 0)%Q.
Proof. intros H E. rewrite forallb_forall in H. apply Qeq_bool_iff, H. exact (nth_error_In _ _ E). Qed.
Lemma two_values (m : option Q) (n : option Q) : (match m, n with Some v, Some w => negb (Qeq_bool v w) | _, _ => false end) = true ->
  exists v w, m = Some v /\ n = Some w /\ ~ (v == w)%Q.
Proof.
  destruct m as [v|], n as [w|]; try discriminate. intro H. exists v, w. refine (conj eq_refl (conj eq_refl _)). intro E. apply Qeq_bool_iff in E. rewrite E in H. discriminate.
Qed.
Theorem flat_pdp_slopes : exists d, ice_calculate q_alg false (rowwise (N:=QNum) q_mean (fun _ => n0)) = Ok d /\
  (forall g v, nth_error (y_pdp q_alg d) g = Some v -> (v == 0)%Q) /\
  exists v w, at2 (i_y d) 0 0 = Some v /\ at2 (i_y d) 0 1 = Some w /\ ~ (v == w)%Q.
Proof.
  exists (data_of q_run). split; [apply (data_ok q_run); vm_compute; reflexivity|]. split.
  - intros g v. apply all_zero. vm_compute. reflexivity.
  - apply two_values. vm_compute. reflexivity.
Qed.
Definition q_batch : predictor QNum := fun rows => Ok (map (fun _ => inject_Z (Z.of_nat (length rows))) rows, map (fun _ => 0%Q) rows).
Definition q_one : list (list QNum) := [[1#2; 0]]%Q.
Lemma other_rows (m n : option (list Q)) : (match m, n with Some (x :: _), Some (y :: _) => negb (Qeq_bool x y) | _, _ => false end) = true -> m <> n.
Proof.
  destruct m as [[|x l]|], n as [[|y l']|]; try discriminate. intros H E. injection E as -> ->. rewrite (proj2 (Qeq_bool_iff y y) (Qeq_refl y)) in H. discriminate.
Qed.
Theorem batch_matters : exists (a : algorithm QNum) rows' (p : predictor QNum) d d' row, batch_predictor p /\
  rect (num_features a) (a_samples a) /\ rect (num_features a) rows' /\ ice_calculate a false p = Ok d /\ ice_calculate (on_samples a rows') false p = Ok d' /\
  nth_error (a_samples a) 0 = Some row /\ nth_error rows' 0 = Some row /\ nth_error (i_y d) 0 <> nth_error (i_y d') 0.
Proof.
  exists q_alg, q_one, q_batch, (data_of (ice_calculate q_alg false q_batch)), (data_of (ice_calculate (on_samples q_alg q_one) false q_batch)), [1#2; 0]%Q.
  split; [intro rows; eexists _, _; split; [reflexivity|]; rewrite !map_length; auto|]. split; [repeat constructor|]. split; [repeat constructor|].
  split; [apply data_ok; vm_compute; reflexivity|]. split; [apply data_ok; vm_compute; reflexivity|]. split; [reflexivity|]. split; [reflexivity|].
  apply other_rows. vm_compute. reflexivity.
Qed.

(** ** binary64 *)
Section W.
Variables fe fln fr : b64 -> b64.
Notation BN := (B64 fe fln fr).
(** 0.1, 0.2 and 0.3 *)
Definition p1 : b64 := fl 3602879701896397 (-55).
Definition p2 : b64 := fl 3602879701896397 (-54).
Definition p3 : b64 := fl 5404319552844595 (-54).
(** hyperparameters a (selected) and b; the mean is b *)
Definition b_alg (rows : list (list BN)) : algorithm BN :=
  let a := mkhp (N:=BN) "a"%string (KFloat n0 n1 false) in let b := mkhp (N:=BN) "b"%string (KFloat n0 n1 false) in mkalg [a; b] [a] rows 1.
Definition b_mean (r : list BN) : BN := nth 1 r n0.
Definition b_rows (l : list b64) : list (list BN) := map (fun x => [n0 : BN; x : BN]) l.
Definition b_run (l : list b64) : res (icedata BN) := ice_calculate (b_alg (b_rows l)) false (rowwise b_mean (fun _ => n0)).
Definition b_data (l : list b64) : icedata BN := match b_run l with Ok d => d | Err _ => mkice [] [] [] end.
Lemma b_ok l : is_ok (b_run l) = true -> b_run l = Ok (b_data l).
Proof. unfold b_data. destruct (b_run l); [reflexivity|discriminate]. Qed.
Lemma b_rect l : rect (num_features (b_alg (b_rows l))) (a_samples (b_alg (b_rows l))).
Proof. apply Forall_map, Forall_forall. reflexivity. Qed.
Definition b_pdp (l : list b64) : list BN := y_pdp (b_alg (b_rows l)) (b_data l).
Lemma b_on l l' : on_samples (b_alg (b_rows l)) (b_rows l') = b_alg (b_rows l').
Proof. reflexivity. Qed.
Lemma b_uses rows : only_uses (not_selected (a_cs (b_alg rows)) (a_sel (b_alg rows))) b_mean.
Proof.
  intros r r' _ K. assert (Q : nth_error r 1 = nth_error r' 1).
  { apply K. intros h Hh. cbn in Hh. injection Hh as <-. cbn. intuition discriminate. }
  unfold b_mean. rewrite <- !nth_default_eq. unfold nth_default. rewrite Q. reflexivity.
Qed.
Lemma b_at l : length (b_pdp l) = 1 -> nth_error (b_pdp l) 0 = Some (nth 0 (b_pdp l) n0).
Proof. intro H. apply nth_error_nth'. lia. Qed.

Theorem order_matters : exists (a : algorithm BN) rows' f s d d' v w, rect (num_features a) (a_samples a) /\ Permutation (a_samples a) rows' /\
    ice_calculate a false (rowwise f s) = Ok d /\ ice_calculate (on_samples a rows') false (rowwise f s) = Ok d' /\
    nth_error (y_pdp a d) 0 = Some v /\ nth_error (y_pdp (on_samples a rows') d') 0 = Some w /\ nlt w v = true.
Proof.
  exists (b_alg (b_rows [p1; p2; p3])), (b_rows [p3; p2; p1]), b_mean, (fun _ => n0), (b_data [p1; p2; p3]), (b_data [p3; p2; p1]), (nth 0 (b_pdp [p1; p2; p3]) n0), (nth 0 (b_pdp [p3; p2; p1]) n0).
  split; [apply b_rect|]. split; [exact (Permutation_rev (b_rows [p1; p2; p3]))|]. rewrite !b_on.
  split; [apply b_ok; vm_compute; reflexivity|]. split; [apply b_ok; vm_compute; reflexivity|].
  split; [apply b_at; vm_compute; reflexivity|]. split; [apply b_at; vm_compute; reflexivity|]. vm_compute. reflexivity.
Qed.
Theorem mean_above : exists (a : algorithm BN) f s d v m, rect (num_features a) (a_samples a) /\ ice_calculate a false (rowwise f s) = Ok d /\
    num_samples a = 3 /\ (forall i, i < 3 -> at2 (i_y d) i 0 = Some v) /\ nth_error (y_pdp a d) 0 = Some m /\ nlt v m = true.
Proof.
  exists (b_alg (b_rows [p1; p1; p1])), b_mean, (fun _ => n0), (b_data [p1; p1; p1]), (p1 : BN), (nth 0 (b_pdp [p1; p1; p1]) n0).
  split; [apply b_rect|]. split; [apply b_ok; vm_compute; reflexivity|]. split; [reflexivity|].
  split.
  { intros i Hi. assert (E : nth_error (b_rows [p1; p1; p1]) i = Some [n0 : BN; p1 : BN]) by (destruct i as [|[|[|i]]]; [reflexivity|reflexivity|reflexivity|lia]).
    assert (ND : NoDup (map hp_name (a_cs (b_alg (b_rows [p1; p1; p1]))))) by (cbn; repeat constructor; cbn; intuition discriminate).
    assert (OK : b_run [p1; p1; p1] = Ok (b_data [p1; p1; p1])) by (apply b_ok; vm_compute; reflexivity).
    refine (proj1 (flat_curves (b_alg (b_rows [p1; p1; p1])) b_mean (fun _ => n0) _ ND (b_rect _) OK) (b_uses _) i 0 _ E _). apply Nat.lt_0_1. }
  split; [apply b_at; vm_compute; reflexivity|]. vm_compute. reflexivity.
Qed.
End W.
