(** RoundLeaves.v - leaves and root of a tree in binary64 (C121). *)
From Coq Require Import Reals Lra Psatz Permutation Sorted.
From Flocq Require Import Core.Core IEEE754.BinarySingleNaN.
From Verif Require Import Base Num NumLaws NumpyModel ConfigSpaceModel UtilsModel IceModel PartitionModel PartitionSpec
  ListLemmas IceProofs PartitionProofs PartitionProofs2 PartitionProofs3 PartitionProofs4 PartitionProofs5 PartitionProofs6 RealSums RealProofs PartitionReal PartitionReal2 IceReal
  ConfidenceProofs B64Proofs RoundSpec RoundProofs RoundLoss RoundMean RoundTree RoundLeavesSpec.
Local Open Scope R_scope.
Local Open Scope list_scope.

(** ** weighted means with errors *)
Lemma Rsum_abs {A} (f g : A -> R) l : (forall x, In x l -> Rabs (f x) <= g x) -> Rabs (Rsum (map f l)) <= Rsum (map g l).
Proof.
  induction l as [|x l IH]; intro H; cbn [map Rsum]; [rewrite Rabs_R0; lra|]. eapply Rle_trans; [apply Rabs_triang|].
  apply Rplus_le_compat; [apply H; left; reflexivity|apply IH; intros y Hy; apply H; right; exact Hy].
Qed.
Lemma Rsum_minus {A} (f g : A -> R) l : Rsum (map f l) - Rsum (map g l) = Rsum (map (fun x => f x - g x) l).
Proof. induction l as [|x l IH]; cbn [map Rsum]; [lra|]. rewrite <- IH. lra. Qed.
Lemma weighted_errors {A} (w c a e : A -> R) (l : list A) W C T E : 0 < W -> (forall x, In x l -> 0 <= w x) ->
  Rsum (map (fun x => w x * a x) l) = W * T -> (forall x, In x l -> Rabs (c x - a x) <= e x) -> Rsum (map (fun x => w x * e x) l) <= W * E ->
  Rabs (C - T) <= E -> Rabs (Rsum (map (fun x => w x * c x) l) / W - C) <= 2 * E.
Proof.
  intros HW P ST He SE HC.
  assert (D : Rabs (Rsum (map (fun x => w x * c x) l) - W * T) <= W * E).
  { rewrite <- ST, Rsum_minus. eapply Rle_trans; [|exact SE]. apply Rsum_abs. intros x Hx. rewrite <- Rmult_minus_distr_l, Rabs_mult, (Rabs_pos_eq (w x)) by (apply P, Hx).
    apply Rmult_le_compat_l; [apply P, Hx|apply He, Hx]. }
  assert (D2 : Rabs (Rsum (map (fun x => w x * c x) l) / W - T) <= E).
  { replace (Rsum (map (fun x => w x * c x) l) / W - T) with ((Rsum (map (fun x => w x * c x) l) - W * T) * / W) by (field; lra).
    rewrite Rabs_mult, (Rabs_pos_eq (/ W)) by (apply Rlt_le, Rinv_0_lt_compat, HW). apply (Rmult_le_reg_r W); [exact HW|]. rewrite Rmult_assoc, Rinv_l by lra. lra. }
  apply Rabs_le_inv in D2. apply Rabs_le_inv in HC. apply Rabs_le. lra.
Qed.

Lemma rows_map {A B} (f : A -> B) (whole part : list A) idxs :
  Forall2 (fun i m => nth_error whole i = Some m) idxs part -> Forall2 (fun i m => nth_error (map f whole) i = Some m) idxs (map f part).
Proof. induction 1; cbn [map]; constructor; [apply map_nth_error; assumption|assumption]. Qed.
Lemma sizes_total {A} (len : A -> nat) (parts : list (list nat)) (l : list A) n : Forall2 (fun idxs x => len x = length idxs) parts l ->
  Permutation (concat parts) (seq 0 n) -> Rsum (map (fun x => INR (len x)) l) = INR n.
Proof.
  intros F P. apply Permutation_length in P. rewrite seq_length in P. rewrite <- P. clear P. induction F as [|i x parts l E F IH]; [reflexivity|].
  cbn [map Rsum concat]. rewrite app_length, plus_INR, IH, E. reflexivity.
Qed.

Section Leaves.
Variables (fe fl fr : b64 -> b64).
Notation BN := (B64 fe fl fr).
Notation val := (val fe fl fr).
Notation fin := (fin fe fl fr).
Notation fits := (fits fe fl fr).
Notation real_rows := (real_rows fe fl fr).

Definition good (s : setup BN) (G : nat) (nd : dnode BN) : Prop :=
  wf_region (length (su_cs s)) (n_region nd) /\ (0 < region_len (n_region nd))%nat /\
  Forall (fun row => length row = G) (r_y (n_region nd)) /\ Forall (fun row => length row = G) (r_v (n_region nd)) /\
  width (r_v (n_region nd)) = G.

Lemma tree_shape (s : setup BN) p d : setup_ok s -> no_nan s -> (Z.of_nat (su_splits s) < 2 ^ 52)%Z -> (1 <= su_minpts s)%nat -> su_samples s <> [] -> reaches s p -> (0 < d)%nat ->
  exists p' ids leaves root parts G dd sel ns,
    partition p d = (p', Ok ids) /\ Forall2 (fun id nd => deref p' id = Some nd) ids leaves /\ deref p' 0 = Some root /\
    region_len (n_region root) = length (su_samples s) /\ (0 < G)%nat /\
    Permutation (concat parts) (seq 0 (region_len (n_region root))) /\
    Forall2 (fun idxs nd => is_rows (n_region root) idxs (n_region nd)) parts leaves /\
    reach_facts s p' root dd sel ns /\ good s G root /\ Forall (good s G) leaves /\
    Forall (fun nd => derived p' root nd) leaves /\ derived p' root root.
Proof.
  intros SO NN SB MP NE RE Hd. set (OL := B64_order_laws fe fl fr).
  destruct (leaves_partition_curves OL s p d SO NN (splits_ordinary_b64 fe fl fr s SB) RE Hd) as (p' & ids & leaves & root & parts & H1 & H2 & H3 & H4 & H5 & H6 & H7 & H8).
  assert (RE' : reaches s p') by (pose proof (reaches_partition s p d RE) as Q; rewrite H1 in Q; exact Q).
  destruct (reaches_facts OL s p' SO RE') as (root' & dd & sel & ns & F).
  assert (root' = root) by (pose proof (rf_deref _ _ _ _ _ _ F); congruence). subst root'.
  pose proof (inv_wf _ _ (rf_inv _ _ _ _ _ _ F)) as W. rewrite (rf_cs _ _ _ _ _ _ F) in W. destruct (wf_G _ _ W) as (G & G0 & _ & Gy & Gv).
  assert (LV : length (r_v (n_region root)) = length (su_samples s)) by (rewrite (wf_v _ _ W); exact H5).
  assert (N0 : (0 < length (su_samples s))%nat) by (destruct (su_samples s); [congruence|cbn; lia]).
  assert (DL : Forall (fun nd => derived p' root nd) leaves).
  { apply Forall_forall. intros nd Hnd. destruct (Forall2_in_r _ _ _ _ H2 Hnd) as (id & _ & Hid). exact (deref_derived s p' root dd sel ns id nd F Hid). }
  assert (DR : derived p' root root) by exact (deref_derived s p' root dd sel ns 0%nat root F (rf_deref _ _ _ _ _ _ F)).
  exists p', ids, leaves, root, parts, G, dd, sel, ns.
  refine (conj H1 (conj H2 (conj H4 (conj H5 (conj G0 (conj _ (conj H8 (conj F (conj _ (conj _ (conj DL DR))))))))))).
  - unfold region_len. rewrite H5. exact H6.
  - refine (conj W (conj _ (conj Gy (conj Gv _)))); [unfold region_len; rewrite H5; exact N0|].
    revert LV Gv. destruct (r_v (n_region root)) as [|row rest]; intros LV Gv; [exfalso; apply (Nat.lt_irrefl 0); eapply Nat.lt_le_trans; [exact N0|]; apply Nat.eq_le_incl; symmetry; exact LV|]. inversion Gv; subst. reflexivity.
  - assert (SUB : forall (whole part : list (list BN)) idxs, Forall2 (fun i m => nth_error whole i = Some m) idxs part -> Forall (fun row => length row = G) whole -> Forall (fun row => length row = G) part).
    { clear. intros whole part idxs H HG. induction H as [|i m idxs part H F IH]; constructor; [|exact IH]. exact (proj1 (Forall_forall _ _) HG _ (nth_error_In _ _ H)). }
    apply Forall_forall. intros nd Hnd. destruct (Forall2_in_r _ _ _ _ H8 Hnd) as (idxs & _ & (Ix & Iy & Iv)).
    assert (Wn : wf_region (length (su_cs s)) (n_region nd)).
    { rewrite <- (rf_cs _ _ _ _ _ _ F). apply (derived_wf p' root); [apply (inv_wf _ _ (rf_inv _ _ _ _ _ _ F))|exact (proj1 (Forall_forall _ _) DL nd Hnd)]. }
    assert (Ln : (0 < region_len (n_region nd))%nat).
    { destruct (Forall2_in_r _ _ _ _ H2 Hnd) as (id & _ & Hid). destruct (min_points_respected OL s p' SO RE' id nd Hid) as [D0|Hm]; [|lia].
      destruct (regions_are_selections OL s p' SO RE') as (rt & Hr & Hl & K). destruct (K id nd Hid) as (Dc & idx2 & _ & (Rx & _) & Iff).
      assert (In 0%nat idx2).
      { apply Iff. destruct (nth_error (r_x (n_region rt)) 0) as [cv|] eqn:E0; [|apply nth_error_None in E0; lia].
        exists cv. split; [reflexivity|]. assert (E : n_conds nd = []) by (destruct (n_conds nd); [reflexivity|cbn in Dc; lia]). rewrite E. constructor. }
      unfold region_len. rewrite <- (Forall2_length _ _ _ Rx). destruct idx2; [contradiction|cbn; lia]. }
    pose proof (SUB _ _ _ Iv Gv) as Gvn. refine (conj Wn (conj Ln (conj (SUB _ _ _ Iy Gy) (conj Gvn _)))).
    pose proof (wf_v _ _ Wn) as LVn. unfold region_len in Ln. revert LVn Gvn. destruct (r_v (n_region nd)) as [|row rest]; intros LVn Gvn; [exfalso; apply (Nat.lt_irrefl 0); eapply Nat.lt_le_trans; [exact Ln|]; apply Nat.eq_le_incl; symmetry; exact LVn|]. inversion Gvn; subst. reflexivity.
Qed.

(** ** losses *)
Lemma true_parts G (root : dnode BN) parts (leaves : list (dnode BN)) : Forall (fun row => length row = G) (r_v (n_region root)) ->
  Forall2 (fun idxs nd => is_rows (n_region root) idxs (n_region nd)) parts leaves -> Permutation (concat parts) (seq 0 (length (r_v (n_region root)))) ->
  Forall (fun nd => Forall (fun row => length row = G) (r_v (n_region nd))) leaves ->
  Rsum (map (true_loss G) leaves) <= true_loss G root.
Proof.
  intros HG F P FG. set (reg := fun nd : dnode BN => mkregion (N:=RNum) [] [] (real_rows (r_v (n_region nd)))).
  assert (RG : forall nd, Forall (fun row => length row = G) (r_v (n_region nd)) -> Forall (fun row : list R => length row = G) (real_rows (r_v (n_region nd)))).
  { intros nd H. unfold RoundSpec.real_rows. apply Forall_map. eapply Forall_impl; [|exact H]. intros row E. cbv beta. rewrite map_length. exact E. }
  assert (E1 : forall nd, Forall (fun row => length row = G) (r_v (n_region nd)) -> region_loss (reg nd) = true_loss G nd).
  { intros nd H. exact (region_loss_R (reg nd) G (RG nd H)). }
  rewrite <- (E1 root HG). assert (E2 : map (true_loss G) leaves = map (fun r : region RNum => region_loss r) (map reg leaves)).
  { rewrite map_map. apply map_ext_in. intros nd Hnd. symmetry. apply E1. exact (proj1 (Forall_forall _ _) FG nd Hnd). }
  rewrite E2. apply (parts_loss (reg root) parts (map reg leaves) G).
  - exact (RG root HG).
  - clear - F. induction F as [|idxs nd parts leaves (_ & _ & Iv) F IH]; cbn [map]; constructor; [|exact IH]. cbn [reg r_v]. apply rows_map. exact Iv.
  - cbn [reg r_v]. unfold RoundSpec.real_rows. rewrite map_length. exact P.
Qed.

Theorem leaves_loss (s : setup BN) p d S : setup_ok s -> no_nan s -> (Z.of_nat (su_splits s) < 2 ^ 52)%Z -> (1 <= su_minpts s)%nat -> su_samples s <> [] -> reaches s p -> (0 < d)%nat ->
  deviations_fit S s -> bpow radix2 (-250) <= S <= bpow radix2 199 ->
  exists p' ids leaves root, partition p d = (p', Ok ids) /\ Forall2 (fun id nd => deref p' id = Some nd) ids leaves /\ deref p' 0 = Some root /\
    let n := region_len (n_region root) in let G := width (r_v (n_region root)) in
    n = length (su_samples s) /\ ((Z.of_nat (n * G) < 2 ^ 49)%Z ->
      Forall (fun nd => fin (region_loss (n_region nd))) (root :: leaves) /\
      Rsum (map (fun nd => val (region_loss (n_region nd))) leaves) <= val (region_loss (n_region root)) + 2 * slack n G (2 * (S * S))).
Proof.
  intros SO NN SB MP NE RE Hd DF BS. destruct (tree_shape s p d SO NN SB MP NE RE Hd) as (p' & ids & leaves & root & parts & G & dd & sel & ns & H1 & H2 & H3 & H4 & G0 & P & F & RF & GR & GL & DL & DR).
  exists p', ids, leaves, root. refine (conj H1 (conj H2 (conj H3 _))). intros n G'. assert (EG : G' = G) by apply GR. rewrite EG. clear G' EG. split; [exact H4|]. intro Hb.
  set (M := 2 * (S * S)). pose proof (room S BS) as RM. fold M in RM.
  assert (ROW : Forall2 (fun idxs nd => region_len (n_region nd) = length idxs) parts leaves).
  { clear - F. induction F as [|idxs nd parts leaves (Ix & _) F IH]; constructor; [|exact IH]. unfold region_len. symmetry. exact (Forall2_length _ _ _ Ix). }
  pose proof (sizes_total (fun nd : dnode BN => region_len (n_region nd)) parts leaves n ROW P) as TOT.
  assert (SM : forall nd, In nd leaves -> (region_len (n_region nd) <= n)%nat).
  { intros nd Hnd. apply INR_le. rewrite <- TOT. clear - Hnd. induction leaves as [|x l IH]; [contradiction|]. cbn [map Rsum].
    assert (Q : forall l : list (dnode BN), 0 <= Rsum (map (fun x => INR (region_len (n_region x))) l)) by (clear; induction l as [|y l IH]; cbn [map Rsum]; [lra|pose proof (pos_INR (region_len (n_region y))); lra]).
    destruct Hnd as [->|Hnd]; [specialize (Q l); lra|]. specialize (IH Hnd). pose proof (pos_INR (region_len (n_region x))). lra. }
  assert (ONE : forall nd, good s G nd -> derived p' root nd -> (region_len (n_region nd) <= n)%nat ->
    fin (region_loss (n_region nd)) /\ Rabs (val (region_loss (n_region nd)) - true_loss G nd) <= INR (region_len (n_region nd)) * (INR G * INR (n + n * G + 5) * bpow radix2 (-50) * (M * M))).
  { intros nd (W & Ln & Gy & Gv & Gw) De Hle. destruct (cell_fits fe fl fr s p' root dd sel ns nd S SO RF De DF BS) as [_ NF]. fold M in NF. rewrite Gw in NF.
    assert (Q : (region_len (n_region nd) * G <= n * G)%nat) by (apply Nat.mul_le_mono_r; exact Hle).
    destruct (wide fe fl fr nd _ W) as [X1 X2]; [rewrite Gw; lia|]. rewrite Gw in X2.
    destruct (node_loss fe fl fr nd G M NF RM X1 X2) as (A & B & _). split; [exact A|]. eapply Rle_trans; [exact B|].
    assert (EL : length (r_v (n_region nd)) = region_len (n_region nd)) by exact (wf_v _ _ W). rewrite EL, mult_INR, !Rmult_assoc.
    apply Rmult_le_compat_l; [apply pos_INR|]. apply Rmult_le_compat_l; [apply pos_INR|]. apply Rmult_le_compat_r; [|apply le_INR; lia].
    apply Rmult_le_pos; [apply bpow_ge_0|apply Rle_0_sqr]. }
  assert (ES : slack n G M = INR n * (INR G * INR (n + n * G + 5) * bpow radix2 (-50) * (M * M))) by (unfold slack; rewrite mult_INR; ring).
  destruct (ONE root GR DR (Nat.le_refl n)) as [FR BR]. fold n in BR. rewrite <- ES in BR. rewrite Forall_forall in GL, DL. split.
  - constructor; [exact FR|]. apply Forall_forall. intros nd Hnd. exact (proj1 (ONE nd (GL nd Hnd) (DL nd Hnd) (SM nd Hnd))).
  - assert (T : Rsum (map (true_loss G) leaves) <= true_loss G root).
    { destruct GR as (W & _ & _ & Gv & _). apply (true_parts G root parts leaves Gv F); [rewrite (wf_v _ _ W); exact P|]. apply Forall_forall. intros nd Hnd. apply (GL nd Hnd). }
    assert (Q : Rabs (Rsum (map (fun nd => val (region_loss (n_region nd)) - true_loss G nd) leaves)) <= slack n G M).
    { eapply Rle_trans; [apply (Rsum_abs _ (fun nd => (INR G * INR (n + n * G + 5) * bpow radix2 (-50) * (M * M)) * INR (region_len (n_region nd))))|].
      - intros nd Hnd. rewrite Rmult_comm. exact (proj2 (ONE nd (GL nd Hnd) (DL nd Hnd) (SM nd Hnd))).
      - rewrite Rsum_map_scal, TOT, ES. lra. }
    rewrite <- Rsum_minus in Q. apply Rabs_le_inv in Q. apply Rabs_le_inv in BR. lra.
Qed.

(** ** averages *)
Lemma sub_rows {A} (P : A -> Prop) (whole part : list A) idxs : Forall2 (fun i m => nth_error whole i = Some m) idxs part -> Forall P whole -> Forall P part.
Proof. intros H HP. induction H as [|i m idxs part H F IH]; constructor; [|exact IH]. exact (proj1 (Forall_forall _ _) HP _ (nth_error_In _ _ H)). Qed.

(** curves of regions: [c] picks the table, [M] bounds its entries *)
Lemma table_weighted (get : region BN -> list (list BN)) (root : dnode BN) parts (leaves : list (dnode BN)) G g M :
  (0 < G)%nat -> (g < G)%nat -> M <= bpow radix2 900 -> get (n_region root) <> [] -> (Z.of_nat (length (get (n_region root))) < 2 ^ 49)%Z ->
  Forall (fun row => length row = G) (get (n_region root)) -> Forall (Forall (fits M)) (get (n_region root)) ->
  Forall2 (fun idxs nd => Forall2 (fun i m => nth_error (get (n_region root)) i = Some m) idxs (get (n_region nd))) parts leaves ->
  Forall (fun nd => get (n_region nd) <> []) leaves ->
  Permutation (concat parts) (seq 0 (length (get (n_region root)))) ->
  let avg := fun nd : dnode BN => nth g (mean_axis0 (width (get (n_region nd))) (get (n_region nd))) n0 in
  let n := length (get (n_region root)) in
  Forall (fun nd => fin (avg nd)) (root :: leaves) /\
  Rabs (Rsum (map (fun nd => INR (length (get (n_region nd))) * val (avg nd)) leaves) / INR n - val (avg root)) <= 2 * (9/8 * INR (n + 1) * uu * M + tiny).
Proof.
  intros G0 Hg HM NR Hn GR FR FL NL P avg n.
  assert (ROW : Forall2 (fun idxs nd => length (get (n_region nd)) = length idxs) parts leaves).
  { clear - FL. induction FL as [|idxs nd parts leaves I F IH]; constructor; [|exact IH]. symmetry. exact (Forall2_length _ _ _ I). }
  pose proof (sizes_total (fun nd : dnode BN => length (get (n_region nd))) parts leaves n ROW P) as TOT.
  assert (SM : forall nd, In nd leaves -> (length (get (n_region nd)) <= n)%nat).
  { intros nd Hnd. apply INR_le. rewrite <- TOT. clear - Hnd. induction leaves as [|x l IH]; [contradiction|]. cbn [map Rsum].
    assert (Q : forall l : list (dnode BN), 0 <= Rsum (map (fun x => INR (length (get (n_region x)))) l)) by (clear; induction l as [|y l IH]; cbn [map Rsum]; [lra|pose proof (pos_INR (length (get (n_region y)))); lra]).
    destruct Hnd as [->|Hnd]; [specialize (Q l); lra|]. specialize (IH Hnd). pose proof (pos_INR (length (get (n_region x)))). lra. }
  assert (M0 : 0 <= M).
  { destruct (get (n_region root)) as [|row rest]; [contradiction|]. inversion FR as [|? ? F1 _]; subst. inversion GR as [|? ? E1 _]; subst. destruct row as [|x row]; [cbn in Hg; lia|].
    inversion F1 as [|? ? [_ Fx] _]; subst. pose proof (Rabs_pos (val x)). lra. }
  set (exact_of := fun nd : dnode BN => Rmean (map (fun row => val (nth g row n0)) (get (n_region nd)))).
  assert (ONE : forall nd, get (n_region nd) <> [] -> (length (get (n_region nd)) <= n)%nat -> Forall (fun row => length row = G) (get (n_region nd)) -> Forall (Forall (fits M)) (get (n_region nd)) ->
    fin (avg nd) /\ Rabs (val (avg nd) - exact_of nd) <= 9/8 * INR (n + 1) * uu * M + tiny).
  { intros nd NE Hle HG HF. assert (W : width (get (n_region nd)) = G) by (destruct (get (n_region nd)); [congruence|]; inversion HG; subst; reflexivity).
    assert (Ev : nth_error (mean_axis0 (width (get (n_region nd))) (get (n_region nd))) g = Some (avg nd)).
    { apply nth_error_nth'. unfold mean_axis0. rewrite map_length, seq_length, W. exact Hg. }
    assert (X : (Z.of_nat (length (get (n_region nd))) < 2 ^ 49)%Z) by (eapply Z.le_lt_trans; [|exact Hn]; apply inj_le; exact Hle).
    destruct (mean_axis0_rounded fe fl fr (width (get (n_region nd))) (get (n_region nd)) g (avg nd) M NE X HM) as [A B].
    - intros row Hr. rewrite Forall_forall in HF, HG. specialize (HF row Hr). rewrite Forall_forall in HF. apply HF, nth_In. rewrite (HG row Hr). exact Hg.
    - exact Ev.
    - split; [exact A|]. eapply Rle_trans; [exact B|]. apply Rplus_le_compat_r. apply Rmult_le_compat_r; [exact M0|]. apply Rmult_le_compat_r; [pose proof uu_pos; lra|].
      apply Rmult_le_compat_l; [lra|]. apply le_INR. lia. }
  assert (LG : forall nd, In nd leaves -> fin (avg nd) /\ Rabs (val (avg nd) - exact_of nd) <= 9/8 * INR (n + 1) * uu * M + tiny).
  { intros nd Hnd. destruct (Forall2_in_r _ _ _ _ FL Hnd) as (idxs & _ & I). apply ONE; [exact (proj1 (Forall_forall _ _) NL nd Hnd)|exact (SM nd Hnd)|exact (sub_rows _ _ _ _ I GR)|exact (sub_rows _ _ _ _ I FR)]. }
  destruct (ONE root NR (Nat.le_refl _) GR FR) as [FA BA]. split.
  - constructor; [exact FA|]. apply Forall_forall. intros nd Hnd. apply (LG nd Hnd).
  - assert (N0 : 0 < INR n) by (apply lt_0_INR; unfold n; destruct (get (n_region root)); [contradiction|cbn; lia]).
    apply (weighted_errors (fun nd : dnode BN => INR (length (get (n_region nd)))) (fun nd => val (avg nd)) exact_of (fun _ => 9/8 * INR (n + 1) * uu * M + tiny) leaves (INR n) (val (avg root)) (exact_of root)); [exact N0| | | | |exact BA].
    + intros nd _. apply pos_INR.
    + assert (MULT : forall l : list (list BN), l <> [] -> INR (length l) * Rmean (map (fun row => val (nth g row n0)) l) = Rsum (map (fun row => val (nth g row n0)) l)).
      { intros l Hl. unfold Rmean. rewrite map_length. field. apply not_0_INR. destruct l; [contradiction|discriminate]. }
      unfold exact_of. transitivity (Rsum (map (fun nd : dnode BN => Rsum (map (fun row => val (nth g row n0)) (get (n_region nd)))) leaves)).
      { f_equal. apply map_ext_in. intros nd Hnd. apply MULT. exact (proj1 (Forall_forall _ _) NL nd Hnd). }
      transitivity (Rsum (map (fun row => val (nth g row n0)) (get (n_region root)))); [|symmetry; apply MULT; exact NR].
      assert (E2 : map (fun nd : dnode BN => Rsum (map (fun row => val (nth g row n0)) (get (n_region nd)))) leaves =
        map (fun idxs => Rsum (map (fun i => val (nth g (nth i (get (n_region root)) []) n0)) idxs)) parts).
      { clear - FL. induction FL as [|idxs nd parts leaves I F IH]; [reflexivity|]. cbn [map]. rewrite IH. f_equal. clear - I.
        induction I as [|i m idxs part E I IH]; [reflexivity|]. cbn [map Rsum]. rewrite IH, (nth_error_nth_some _ _ _ [] E). reflexivity. }
      rewrite E2. rewrite <- (map_map (map (fun i => val (nth g (nth i (get (n_region root)) []) n0))) Rsum), <- Rsum_concat, <- concat_map.
      rewrite (Rsum_perm _ _ (Permutation_map _ P)). rewrite <- (map_map (fun i => nth i (get (n_region root)) []) (fun row => val (nth g row n0))).
      f_equal. f_equal. apply map_nth_seq. reflexivity.
    + intros nd Hnd. apply (LG nd Hnd).
    + replace (Rsum (map (fun x : dnode BN => INR (length (get (n_region x))) * (9/8 * INR (n + 1) * uu * M + tiny)) leaves))
        with (Rsum (map (fun x : dnode BN => (9/8 * INR (n + 1) * uu * M + tiny) * INR (length (get (n_region x)))) leaves)) by (f_equal; apply map_ext; intro; ring).
      rewrite Rsum_map_scal, TOT. lra.
Qed.

Lemma means_data (s : setup BN) sel dd M : setup_ok s -> means_fit M s ->
  ice_calculate (alg_of s sel) false (su_predict s) = Ok dd -> Forall (Forall (fits M)) (i_y dd).
Proof.
  intros (_ & RC & _) DF E. apply ice_calculate_ok in E. destruct E as (means & stds & _ & Hp & y & t & Hy & Ht & Hv & Ey).
  specialize (DF _ _ _ Hp). apply reshape2_ok in Hy. destruct Hy as (_ & _ & _ & _ & Ec). injection Ey as Ey. rewrite <- Ey.
  rewrite <- Ec in DF. apply Forall_forall. intros row Hr. apply Forall_forall. intros x Hx. rewrite Forall_forall in DF. apply DF. apply in_concat. exists row. auto.
Qed.
Lemma square_nonneg S (x : BN) : bpow radix2 (-250) <= S <= bpow radix2 199 -> fits S x -> 0 <= val (nmul x x).
Proof.
  intros [S1 S2] [Fx Bx]. pose proof (bpow_ge_0 radix2 (-250)) as P0.
  assert (SS2 : S * S <= bpow radix2 398). { replace (bpow radix2 398) with (bpow radix2 199 * bpow radix2 199) by (rewrite <- bpow_plus; reflexivity). apply Rmult_le_compat; lra. }
  assert (BB : Rabs (val x * val x) <= S * S). { rewrite Rabs_mult. pose proof (Rabs_pos (val x)). apply Rmult_le_compat; lra. }
  destruct (mul_ok fe fl fr x x 398 ltac:(lia) Fx Fx ltac:(lra)) as [F E]. rewrite E. apply RN_pos. apply Rle_0_sqr.
Qed.
Lemma data_nonneg (s : setup BN) sel dd S : setup_ok s -> deviations_fit S s -> bpow radix2 (-250) <= S <= bpow radix2 199 ->
  ice_calculate (alg_of s sel) false (su_predict s) = Ok dd -> Forall (Forall (fun x => 0 <= val x)) (i_v dd).
Proof.
  intros (_ & RC & _) DF BS E. apply ice_calculate_ok in E. destruct E as (means & stds & _ & Hp & y & t & _ & Ht & Hv & _).
  specialize (DF _ _ _ Hp). apply reshape2_ok in Ht. destruct Ht as (_ & _ & _ & _ & Ec). rewrite Hv. rewrite <- Ec in DF.
  rewrite Forall_map. apply Forall_forall. intros row Hr. rewrite Forall_map. apply Forall_forall. intros x Hx. apply (square_nonneg S); [exact BS|].
  rewrite Forall_forall in DF. apply DF. apply in_concat. exists row. auto.
Qed.

Theorem leaves_pdp (s : setup BN) p d M S : setup_ok s -> no_nan s -> (Z.of_nat (su_splits s) < 2 ^ 52)%Z -> (1 <= su_minpts s)%nat -> su_samples s <> [] -> reaches s p -> (0 < d)%nat ->
  means_fit M s -> M <= bpow radix2 900 -> deviations_fit S s -> bpow radix2 (-250) <= S <= bpow radix2 199 -> (Z.of_nat (length (su_samples s)) < 2 ^ 49)%Z ->
  exists p' ids leaves root, partition p d = (p', Ok ids) /\ Forall2 (fun id nd => deref p' id = Some nd) ids leaves /\ deref p' 0 = Some root /\
    let n := length (su_samples s) in let G := width (r_v (n_region root)) in
    region_len (n_region root) = n /\ (0 < G)%nat /\
    Forall (fun nd => (0 < region_len (n_region nd))%nat /\ length (region_pdp_y (n_region nd)) = G /\ length (region_pdp_v (n_region nd)) = G /\
      Forall fin (region_pdp_y (n_region nd)) /\ Forall fin (region_pdp_v (n_region nd))) (root :: leaves) /\
    forall g, (g < G)%nat ->
      Rabs (Rsum (map (fun nd : dnode BN => INR (region_len (n_region nd)) * val (nth g (region_pdp_y (n_region nd)) n0)) leaves) / INR n
        - val (nth g (region_pdp_y (n_region root)) n0)) <= 2 * (9/8 * INR (n + 1) * uu * M + tiny) /\
      Rabs (Rsum (map (fun nd : dnode BN => INR (region_len (n_region nd)) * val (nth g (region_pdp_v (n_region nd)) n0)) leaves) / INR n
        - val (nth g (region_pdp_v (n_region root)) n0)) <= 2 * (9/8 * INR (n + 1) * uu * (2 * (S * S)) + tiny).
Proof.
  intros SO NN SB MP NE RE Hd MF HM DF BS HN. destruct (tree_shape s p d SO NN SB MP NE RE Hd) as (p' & ids & leaves & root & parts & G & dd & sel & ns & H1 & H2 & H3 & H4 & G0 & P & F & RF & GR & GL & DL & DR).
  exists p', ids, leaves, root. refine (conj H1 (conj H2 (conj H3 _))). intros n G'. assert (EG : G' = G) by apply GR. rewrite EG. clear G' EG.
  refine (conj H4 (conj G0 _)).
  pose proof (rf_ice _ _ _ _ _ _ RF) as IC. pose proof (rf_root _ _ _ _ _ _ RF) as ER.
  assert (Fy : Forall (Forall (fits M)) (r_y (n_region root))) by (rewrite ER; exact (means_data s sel dd M SO MF IC)).
  assert (Fv : Forall (Forall (fits (2 * (S * S)))) (r_v (n_region root))) by (rewrite ER; exact (data_fits fe fl fr s sel dd S SO DF BS IC)).
  assert (HV : 2 * (S * S) <= bpow radix2 900) by (eapply Rle_trans; [apply (room S BS)|apply bpow_le; lia]).
  assert (LEN : forall nd, good s G nd -> length (r_y (n_region nd)) = region_len (n_region nd) /\ length (r_v (n_region nd)) = region_len (n_region nd)).
  { intros nd (W & _). split; [exact (wf_y _ _ W)|exact (wf_v _ _ W)]. }
  destruct (LEN root GR) as [LY LV]. rewrite H4 in LY, LV.
  assert (N0 : (0 < n)%nat) by (unfold n; destruct (su_samples s); [congruence|cbn; lia]).
  assert (Q : forall (get : region BN -> list (list BN)) B, B <= bpow radix2 900 -> (forall nd, good s G nd -> length (get (n_region nd)) = region_len (n_region nd)) ->
    Forall (fun row => length row = G) (get (n_region root)) -> Forall (Forall (fits B)) (get (n_region root)) ->
    Forall2 (fun idxs nd => Forall2 (fun i m => nth_error (get (n_region root)) i = Some m) idxs (get (n_region nd))) parts leaves -> forall g, (g < G)%nat ->
    let avg := fun nd : dnode BN => nth g (mean_axis0 (width (get (n_region nd))) (get (n_region nd))) n0 in
    Forall (fun nd => fin (avg nd)) (root :: leaves) /\
    Rabs (Rsum (map (fun nd => INR (region_len (n_region nd)) * val (avg nd)) leaves) / INR n - val (avg root)) <= 2 * (9/8 * INR (n + 1) * uu * B + tiny)).
  { intros get B HB LG GG FG FF g Hg avg. rewrite Forall_forall in GL.
    assert (LR : length (get (n_region root)) = n) by (rewrite (LG root GR); exact H4).
    assert (T : Forall (fun nd => fin (avg nd)) (root :: leaves) /\ Rabs (Rsum (map (fun nd => INR (length (get (n_region nd))) * val (avg nd)) leaves) / INR (length (get (n_region root))) - val (avg root)) <= 2 * (9/8 * INR (length (get (n_region root)) + 1) * uu * B + tiny)).
    { apply (table_weighted get root parts leaves G g B G0 Hg HB); [|rewrite LR; exact HN|exact GG|exact FG|exact FF| |rewrite LR; rewrite H4 in P; exact P].
      - intro E. rewrite E in LR. cbn in LR. rewrite <- LR in N0. inversion N0.
      - apply Forall_forall. intros nd Hnd E. pose proof (LG nd (GL nd Hnd)) as X. rewrite E in X. destruct (GL nd Hnd) as (_ & Z & _). rewrite <- X in Z. inversion Z. }
    rewrite LR in T. destruct T as [T1 T2]. split; [exact T1|].
    assert (EM : map (fun nd : dnode BN => INR (region_len (n_region nd)) * val (avg nd)) leaves = map (fun nd => INR (length (get (n_region nd))) * val (avg nd)) leaves).
    { apply map_ext_in. intros nd Hnd. rewrite (LG nd (GL nd Hnd)). reflexivity. }
    rewrite EM. exact T2. }
  assert (FY : Forall2 (fun idxs nd => Forall2 (fun i m => nth_error (r_y (n_region root)) i = Some m) idxs (r_y (n_region nd))) parts leaves)
    by (clear - F; induction F as [|idxs nd parts leaves (_ & I & _) F IH]; constructor; assumption).
  assert (FV : Forall2 (fun idxs nd => Forall2 (fun i m => nth_error (r_v (n_region root)) i = Some m) idxs (r_v (n_region nd))) parts leaves)
    by (clear - F; induction F as [|idxs nd parts leaves (_ & _ & I) F IH]; constructor; assumption).
  pose proof GR as (_ & _ & GRy & GRv & _).
  pose proof (Q (fun r => r_y r) M HM (fun nd H => proj1 (LEN nd H)) GRy Fy FY) as QY. pose proof (Q (fun r => r_v r) (2 * (S * S)) HV (fun nd H => proj2 (LEN nd H)) GRv Fv FV) as QV. clear Q.
  split; [|intros g Hg; split; [apply (QY g Hg)|apply (QV g Hg)]].
  assert (WG : forall (l : list (list BN)) k, length l = k -> (0 < k)%nat -> Forall (fun row => length row = G) l -> width l = G).
  { intros l k E K HG. destruct l as [|row rest]; [cbn in E; lia|]. inversion HG; subst. reflexivity. }
  assert (GA : Forall (good s G) (root :: leaves)) by (constructor; assumption).
  apply Forall_forall. intros nd Hnd. pose proof (proj1 (Forall_forall _ _) GA nd Hnd) as Gn. destruct (LEN nd Gn) as [ly lv]. pose proof Gn as (W & L0 & Gy & Gv & Gw).
  assert (WY : width (r_y (n_region nd)) = G) by exact (WG _ _ ly L0 Gy).
  assert (EY : length (region_pdp_y (n_region nd)) = G) by (unfold region_pdp_y, mean_axis0; rewrite map_length, seq_length; exact WY).
  assert (EV : length (region_pdp_v (n_region nd)) = G) by (unfold region_pdp_v, mean_axis0; rewrite map_length, seq_length; exact Gw).
  refine (conj L0 (conj EY (conj EV (conj _ _)))); apply Forall_forall; intros x Hx; destruct (In_nth _ _ n0 Hx) as (g & Hg & <-).
  - rewrite EY in Hg. exact (proj1 (Forall_forall _ _) (proj1 (QY g Hg)) nd Hnd).
  - rewrite EV in Hg. exact (proj1 (Forall_forall _ _) (proj1 (QV g Hg)) nd Hnd).
Qed.

(** ** mean confidence *)
Theorem leaves_confidence (s : setup BN) p d S : setup_ok s -> no_nan s -> (Z.of_nat (su_splits s) < 2 ^ 52)%Z -> (1 <= su_minpts s)%nat -> su_samples s <> [] -> reaches s p -> (0 < d)%nat ->
  deviations_fit S s -> bpow radix2 (-250) <= S <= bpow radix2 199 ->
  exists p' ids leaves root, partition p d = (p', Ok ids) /\ Forall2 (fun id nd => deref p' id = Some nd) ids leaves /\ deref p' 0 = Some root /\
    let n := length (su_samples s) in let G := width (r_v (n_region root)) in let e := Rmean (map (fun x => sqrt (val x)) (concat (r_v (n_region root)))) in
    let E := 9/8 * INR (n * G + 2) * uu * e + 3 * tiny in
    region_len (n_region root) = n /\ ((Z.of_nat (n * G) < 2 ^ 49)%Z ->
      Forall (fun nd => (0 < region_len (n_region nd))%nat /\ fin (mean_confidence (n_region nd))) (root :: leaves) /\
      Rabs (val (mean_confidence (n_region root)) - e) <= E /\
      Rabs (Rsum (map (fun nd : dnode BN => INR (region_len (n_region nd)) * val (mean_confidence (n_region nd))) leaves) / INR n - val (mean_confidence (n_region root))) <= 2 * E /\
      exists nd, In nd leaves /\ val (mean_confidence (n_region nd)) <= val (mean_confidence (n_region root)) + 2 * E).
Proof.
  intros SO NN SB MP NE RE Hd DF BS. destruct (tree_shape s p d SO NN SB MP NE RE Hd) as (p' & ids & leaves & root & parts & G & dd & sel & ns & H1 & H2 & H3 & H4 & G0 & P & F & RF & GR & GL & DL & DR).
  exists p', ids, leaves, root. refine (conj H1 (conj H2 (conj H3 _))). intros n G'. assert (EG : G' = G) by apply GR. rewrite EG. clear G' EG. intros e E. split; [exact H4|]. intro Hb.
  pose proof (rf_ice _ _ _ _ _ _ RF) as IC. pose proof (rf_root _ _ _ _ _ _ RF) as ER.
  assert (Fv : Forall (Forall (fun x => fin x /\ 0 <= val x <= bpow radix2 1000)) (r_v (n_region root))).
  { rewrite ER. cbn [n_region r_v]. pose proof (data_fits fe fl fr s sel dd S SO DF BS IC) as A. pose proof (data_nonneg s sel dd S SO DF BS IC) as B.
    apply Forall_forall. intros row Hr. apply Forall_forall. intros x Hx. pose proof (proj1 (Forall_forall _ _) (proj1 (Forall_forall _ _) A row Hr) x Hx) as [Fx Bx].
    pose proof (proj1 (Forall_forall _ _) (proj1 (Forall_forall _ _) B row Hr) x Hx) as Nx. cbv beta in Nx. refine (conj Fx (conj Nx _)). pose proof (Rle_abs (val x)).
    destruct (room S BS) as [_ R2]. pose proof (bpow_le radix2 400 1000 ltac:(lia)). lra. }
  assert (FV : Forall2 (fun idxs nd => Forall2 (fun i m => nth_error (r_v (n_region root)) i = Some m) idxs (r_v (n_region nd))) parts leaves)
    by (clear - F; induction F as [|idxs nd parts leaves (_ & _ & I) F IH]; constructor; assumption).
  assert (ROW : Forall2 (fun idxs nd => region_len (n_region nd) = length idxs) parts leaves).
  { clear - F. induction F as [|idxs nd parts leaves (Ix & _) F IH]; constructor; [|exact IH]. unfold region_len. symmetry. exact (Forall2_length _ _ _ Ix). }
  rewrite H4 in P. fold n in P. pose proof (sizes_total (fun nd : dnode BN => region_len (n_region nd)) parts leaves n ROW P) as TOT.
  assert (SM : forall nd, In nd leaves -> (region_len (n_region nd) <= n)%nat).
  { intros nd Hnd. apply INR_le. rewrite <- TOT. clear - Hnd. induction leaves as [|x l IH]; [contradiction|]. cbn [map Rsum].
    assert (Q : forall l : list (dnode BN), 0 <= Rsum (map (fun x => INR (region_len (n_region x))) l)) by (clear; induction l as [|y l IH]; cbn [map Rsum]; [lra|pose proof (pos_INR (region_len (n_region y))); lra]).
    destruct Hnd as [->|Hnd]; [specialize (Q l); lra|]. specialize (IH Hnd). pose proof (pos_INR (region_len (n_region x))). lra. }
  set (ex := fun nd : dnode BN => Rmean (map (fun x => sqrt (val x)) (concat (r_v (n_region nd))))).
  assert (EX0 : forall nd, 0 <= ex nd).
  { intro nd. unfold ex, Rmean. apply Rmult_le_pos.
    - generalize (concat (r_v (n_region nd))). induction l as [|x l IH]; cbn [map Rsum]; [lra|]. pose proof (sqrt_pos (val x)). lra.
    - destruct (concat (r_v (n_region nd))) as [|x l]; [cbn; rewrite Rinv_0; lra|]. left. apply Rinv_0_lt_compat, lt_0_INR. cbn. lia. }
  assert (ONE : forall nd, good s G nd -> (region_len (n_region nd) <= n)%nat -> Forall (Forall (fun x => fin x /\ 0 <= val x <= bpow radix2 1000)) (r_v (n_region nd)) ->
    fin (mean_confidence (n_region nd)) /\ Rabs (val (mean_confidence (n_region nd)) - ex nd) <= 9/8 * INR (n * G + 2) * uu * ex nd + 3 * tiny).
  { intros nd (W & L0 & Gy & Gv & Gw) Hle Hf. assert (EL : length (r_v (n_region nd)) = region_len (n_region nd)) by exact (wf_v _ _ W).
    assert (EC : length (concat (r_v (n_region nd))) = (region_len (n_region nd) * G)%nat) by (rewrite (concat_length_const _ G Gv), EL; reflexivity).
    assert (Q : (region_len (n_region nd) * G <= n * G)%nat) by (apply Nat.mul_le_mono_r; exact Hle).
    destruct (confidence_rounded fe fl fr (n_region nd)) as [A B].
    - intro X. rewrite X in EC. cbn in EC. nia.
    - rewrite EC. lia.
    - exact Hf.
    - split; [exact A|]. eapply Rle_trans; [exact B|]. apply Rplus_le_compat_r. fold (ex nd). apply Rmult_le_compat_r; [apply EX0|]. apply Rmult_le_compat_r; [pose proof uu_pos; lra|].
      apply Rmult_le_compat_l; [lra|]. apply le_INR. rewrite EC. lia. }
  rewrite Forall_forall in GL.
  assert (LL : forall nd, In nd leaves -> fin (mean_confidence (n_region nd)) /\ Rabs (val (mean_confidence (n_region nd)) - ex nd) <= 9/8 * INR (n * G + 2) * uu * ex nd + 3 * tiny).
  { intros nd Hnd. destruct (Forall2_in_r _ _ _ _ FV Hnd) as (idxs & _ & I). apply ONE; [exact (GL nd Hnd)|exact (SM nd Hnd)|exact (sub_rows _ _ _ _ I Fv)]. }
  destruct (ONE root GR ltac:(rewrite H4; apply Nat.le_refl) Fv) as [FR BR]. change (ex root) with e in BR. fold E in BR.
  assert (N0 : (0 < n)%nat) by (unfold n; destruct (su_samples s); [congruence|cbn; lia]). assert (N1 : 0 < INR n) by (apply lt_0_INR; exact N0).
  pose proof GR as (WR & _ & _ & GvR & _). assert (LR : length (r_v (n_region root)) = n) by (rewrite (wf_v _ _ WR); exact H4).
  assert (SUM : Rsum (map (fun nd : dnode BN => INR (region_len (n_region nd)) * ex nd) leaves) = INR n * e).
  { set (rows := real_rows (r_v (n_region root))).
    assert (RG : Forall (fun row : list R => length row = G) rows) by (unfold rows, RoundSpec.real_rows; apply Forall_map; eapply Forall_impl; [|exact GvR]; intros row X; cbv beta; rewrite map_length; exact X).
    assert (EE : forall nd, ex nd = Rmean (map sqrt (concat (real_rows (r_v (n_region nd)))))) by (intro nd; unfold ex, RoundSpec.real_rows; rewrite <- concat_map, map_map; reflexivity).
    assert (EQ : map (fun nd : dnode BN => INR (region_len (n_region nd)) * ex nd) leaves = map (fun idxs => / INR G * Rsum (map (fun i => Rsum (map sqrt (nth i rows []))) idxs)) parts).
    { assert (PN : Forall (fun nd => length (r_v (n_region nd)) = region_len (n_region nd) /\ (0 < region_len (n_region nd))%nat) leaves).
      { apply Forall_forall. intros nd Hnd. destruct (GL nd Hnd) as (W & L & _). split; [exact (wf_v _ _ W)|exact L]. }
      clear - FV RG G0 PN EE. induction FV as [|idxs nd parts leaves I FV IH]; [reflexivity|]. inversion PN as [|? ? [L1 L2] PN']; subst. cbn [map]. f_equal; [|apply IH; assumption].
      pose proof (rows_confidence rows G idxs (real_rows (r_v (n_region nd))) RG G0 (rows_map _ _ _ _ I)) as X. rewrite EE. unfold RoundSpec.real_rows in X at 1. rewrite map_length, L1 in X.
      rewrite X; [unfold Rdiv; ring|]. intros ->. inversion I as [Y Z|]. rewrite <- Z in L1. cbn in L1. rewrite <- L1 in L2. inversion L2. }
    rewrite EQ, Rsum_map_scal. rewrite <- (map_map (map (fun i => Rsum (map sqrt (nth i rows [])))) Rsum), <- Rsum_concat, <- concat_map, (Rsum_perm _ _ (Permutation_map _ P)).
    assert (LRR : length rows = n) by (unfold rows, RoundSpec.real_rows; rewrite map_length; exact LR).
    pose proof (rows_confidence rows G (seq 0 n) rows RG G0) as X. rewrite LRR in X. change e with (ex root). rewrite EE. fold rows. rewrite X; [unfold Rdiv; ring| |].
    - rewrite <- LRR. clear. assert (K : forall pre l : list (list R), Forall2 (fun i m => nth_error (pre ++ l) i = Some m) (seq (length pre) (length l)) l).
      { intros pre m. revert pre. induction m as [|a m IH]; intro pre; cbn [length seq]; [constructor|]. constructor.
        - rewrite nth_error_app2, Nat.sub_diag by lia. reflexivity.
        - replace (S (length pre)) with (length (pre ++ [a])) by (rewrite app_length; cbn; lia). replace (pre ++ a :: m) with ((pre ++ [a]) ++ m) by (rewrite <- app_assoc; reflexivity). apply IH. }
      exact (K [] rows).
    - destruct n; [inversion N0|discriminate]. }
  assert (WM : Rabs (Rsum (map (fun nd : dnode BN => INR (region_len (n_region nd)) * val (mean_confidence (n_region nd))) leaves) / INR n - val (mean_confidence (n_region root))) <= 2 * E).
  { apply (weighted_errors (fun nd : dnode BN => INR (region_len (n_region nd))) (fun nd => val (mean_confidence (n_region nd))) ex (fun nd => 9/8 * INR (n * G + 2) * uu * ex nd + 3 * tiny) leaves (INR n) _ e); [exact N1| |exact SUM| | |exact BR].
    - intros nd _. apply pos_INR.
    - intros nd Hnd. apply (LL nd Hnd).
    - assert (EQ : map (fun x : dnode BN => INR (region_len (n_region x)) * (9/8 * INR (n * G + 2) * uu * ex x + 3 * tiny)) leaves =
        map (fun x => 9/8 * INR (n * G + 2) * uu * (INR (region_len (n_region x)) * ex x) + 3 * tiny * INR (region_len (n_region x))) leaves) by (apply map_ext; intro; ring).
      rewrite EQ, Rsum_map_plus, !Rsum_map_scal, SUM, TOT. unfold E. lra. }
  split; [|split; [exact BR|split; [exact WM|]]].
  - constructor; [split; [rewrite H4; exact N0|exact FR]|]. apply Forall_forall. intros nd Hnd. split; [apply (GL nd Hnd)|apply (LL nd Hnd)].
  - assert (NL : leaves <> []) by (intros ->; cbn in TOT; lra).
    destruct (weighted_mean_between (fun nd : dnode BN => INR (region_len (n_region nd))) (fun nd => val (mean_confidence (n_region nd))) (Rsum (map (fun nd : dnode BN => INR (region_len (n_region nd)) * val (mean_confidence (n_region nd))) leaves) / INR n) leaves NL) as [(nd & Hnd & Le) _].
    + apply Forall_forall. intros nd Hnd. apply lt_0_INR. apply (GL nd Hnd).
    + rewrite TOT. field. lra.
    + exists nd. split; [exact Hnd|]. apply Rabs_le_inv in WM. lra.
Qed.
End Leaves.
