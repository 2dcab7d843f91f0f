(** TwinReal.v - the incumbent's region does not depend on names, ranges and scales either (C101). *)
From Coq Require Import Reals QArith Lra.
From Verif Require Import Base Num NumLaws NumpyModel ConfigSpaceModel UtilsModel IceModel PartitionModel PartitionSpec ForestModel ListLemmas IceProofs
  PartitionProofs PartitionProofs2 PartitionProofs3 PartitionProofs4 PartitionProofs5 RealProofs RealSums PartitionReal Witness TwinSpec TwinProofs.
Local Open Scope R_scope.

(** a condition on the configuration of a vector compares its coordinate with the normalized value *)
Lemma satisfied_coordinate (cs : cspace RNum) (row : list RNum) cfg c j : float_space cs -> NoDup (map hp_name cs) -> length row = length cs ->
  config_of_vector cs row = Ok cfg -> nth_error cs j = Some (c_hp c) -> 0 < c_val c < 1 ->
  is_satisfied cs c cfg = Ok (if c_le c then nle (nth j row n0) (c_val c) else nlt (c_val c) (nth j row n0)).
Proof.
  intros F ND Lr Ec Hj Hv. destruct (config_of_vector_get cs row F ND Lr) as (cfg' & Ec' & Hget). assert (cfg' = cfg) by congruence. subst cfg'.
  pose proof (nth_error_In _ _ Hj) as Hin. pose proof (proj1 (Forall_forall _ _) F _ Hin) as (lo & up & lg & K & G).
  pose proof (Hget j (c_hp c) lo up lg Hj K) as Hcg. rewrite float_transform_R in Hcg.
  assert (Hus : unscale_float (c_val c) cs (c_hp c) = Ok (clamp lo up (raw_unscale lo up lg (c_val c)))).
  { apply (unscale_float_R cs (c_hp c) (c_hp c)); [|left; exact K]. apply cs_get_nodup; assumption. }
  pose proof (transform_side lo up lg (nth j row n0) (c_val c) G Hv) as Side.
  unfold is_satisfied, cond_value. rewrite Hus, Hcg. cbn [bind]. apply f_equal. destruct (c_le c).
  - apply Bool.eq_true_iff_eq. rewrite !R_le_true. exact Side.
  - apply Bool.eq_true_iff_eq. rewrite !R_lt_true. split; intro H.
    + destruct (Rlt_le_dec (c_val c) (nth j row n0)) as [|X]; [assumption|]. exfalso. apply Side in X. exact (Rle_not_lt _ _ X H).
    + destruct (Rlt_le_dec (clamp lo up (raw_unscale lo up lg (c_val c))) (clampmm lo up (raw_unscale lo up lg (nth j row n0)))) as [|X]; [assumption|].
      exfalso. apply Side in X. exact (Rle_not_lt _ _ X H).
Qed.

Section Incumbent.
Variables cs cs' : cspace RNum.
Hypothesis SZ : same_size cs cs'.
Hypothesis F : float_space cs.
Hypothesis F' : float_space cs'.

Lemma twin_contains (row : list RNum) cfg cfg' conds conds' : length row = length cs -> config_of_vector cs row = Ok cfg -> config_of_vector cs' row = Ok cfg' ->
  Forall2 (twin_cond cs cs') conds conds' -> Forall (fun c : cond RNum => 0 < c_val c < 1) conds -> contains cs conds cfg = contains cs' conds' cfg'.
Proof.
  intros Lr Ec Ec' FC HV. destruct SZ as (Lc & ND & ND'). induction FC as [|c c' conds conds' ((j & Hj & Hj') & Ev & El) FC IH]; [reflexivity|].
  inversion HV as [|? ? Hv HV']; subst. cbn [contains].
  rewrite (satisfied_coordinate cs row cfg c j F ND Lr Ec Hj Hv).
  rewrite (satisfied_coordinate cs' row cfg' c' j F' ND' (eq_trans Lr Lc) Ec' Hj' ltac:(rewrite <- Ev; exact Hv)).
  rewrite <- Ev, <- El. cbn [bind]. destruct (if c_le c then _ else _ : bool); [apply IH; assumption|reflexivity].
Qed.
Lemma twin_find (p p' : dtp RNum) (row : list RNum) cfg cfg' ids : tdtp cs cs' p p' -> length row = length cs -> config_of_vector cs row = Ok cfg -> config_of_vector cs' row = Ok cfg' ->
  (forall id nd, deref p id = Some nd -> Forall (fun c : cond RNum => 0 < c_val c < 1) (n_conds nd)) -> find_leaf p ids cfg = find_leaf p' ids cfg'.
Proof.
  intros T Lr Ec Ec' HV. pose proof T as (E1 & E2 & _ & _ & _ & _ & Fh & _). induction ids as [|id ids IH]; [reflexivity|]. cbn [find_leaf].
  pose proof (HV id) as Hid. unfold deref in *. pose proof (Forall2_nth_error _ _ _ id Fh) as Hc.
  destruct (nth_error (d_heap p) id) as [c|], (nth_error (d_heap p') id) as [c'|]; try contradiction; [|reflexivity]. cbn [option_map] in *.
  destruct Hc as ((_ & _ & FC) & _). rewrite E1, E2. rewrite (twin_contains row cfg cfg' _ _ Lr Ec Ec' FC (Hid _ eq_refl)).
  destruct (contains cs' _ cfg') as [[|]|]; cbn; auto.
Qed.
Theorem twin_incumbents (pr : predictor RNum) sel sel' samples gpa ns mp nots nots' p p' ds row :
  twin_selection cs cs' sel sel' -> twin_nots cs cs' nots nots' -> Forall (fun r => length r = length cs) samples -> (1 <= gpa)%nat ->
  dt_new cs pr sel samples gpa ns mp nots = Ok p -> dt_new cs' pr sel' samples gpa ns mp nots' = Ok p' -> length row = length cs ->
  exists c c', config_of_vector cs row = Ok c /\ config_of_vector cs' row = Ok c' /\
    get_incumbent_region (run_history p ds) c = get_incumbent_region (run_history p' ds) c'.
Proof.
  intros Ts Tn RC G1 Hp Hp' Lr. destruct (SZ) as (Lc & ND & ND').
  destruct (config_of_vector_get cs row F ND Lr) as (c & Ec & _). destruct (config_of_vector_get cs' row F' ND' (eq_trans Lr Lc)) as (c' & Ec' & _).
  exists c, c'. refine (conj Ec (conj Ec' _)).
  pose proof (twin_new cs cs' SZ pr sel sel' samples gpa ns mp nots nots' Ts Tn) as T. rewrite Hp, Hp' in T. cbn [both] in T.
  pose proof (twin_history cs cs' SZ p p' ds T) as Td.
  destruct (split_values_inside (mksetup cs pr sel samples gpa ns mp nots) (run_history p ds)) as (sl & nn & _ & _ & HV); [exact (conj ND (conj RC G1))|exists p, ds; exact (conj Hp eq_refl)|].
  unfold get_incumbent_region. pose proof Td as (_ & _ & _ & _ & _ & _ & _ & El). rewrite <- El.
  destruct (d_leaves (run_history p ds)) as [|i is]; [reflexivity|]. apply (twin_find _ _ row); auto.
  intros id nd Hd. eapply Forall_impl; [|exact (HV id nd Hd)]. cbn. tauto.
Qed.
End Incumbent.

(** an integer hyperparameter instead of a float one with the same range: rounding moves the configuration *)
Definition t_float_cs : cspace QNum := [mkhp "a"%string (KFloat (N:=QNum) (0#1)%Q (1#1)%Q false); mkhp "k"%string (KFloat (N:=QNum) (0#1)%Q (3#1)%Q false)].
Definition t_float : setup QNum := mksetup t_float_cs w_predict (SelOne (SName "a"%string)) w_int_rows 2 2 1 None.
Definition t_float_obj : dtp QNum := match construct t_float with Ok p => p | Err _ => mkdtp [] [] [] 0 0 [] [] end.
Definition t_row : list QNum := [(1#2)%Q; (149999#399998)%Q].
Definition t_leaf (cs : cspace QNum) (p : dtp QNum) : res (option nat) := c <- config_of_vector cs t_row ;; get_incumbent_region (run_history p [1%nat]) c.
Theorem integer_twin : same_size w_int_cs t_float_cs /\ construct w_int = Ok w_int_obj /\ construct t_float = Ok t_float_obj /\
  t_leaf w_int_cs w_int_obj = Ok (Some 1%nat) /\ t_leaf t_float_cs t_float_obj = Ok (Some 2%nat).
Proof.
  refine (conj _ (conj w_int_ok (conj _ (conj _ _)))).
  - refine (conj eq_refl (conj _ _)); repeat constructor; cbn; intuition discriminate.
  - unfold t_float_obj. apply (obj_ok t_float). vm_compute. reflexivity.
  - vm_compute. reflexivity.
  - vm_compute. reflexivity.
Qed.
