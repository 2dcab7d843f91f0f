(** PlottingProofs.v - axis labels (C57). *)
From Coq Require Import QArith.
From Verif Require Import Base Num ConfigSpaceModel PlottingModel PlottingSpec.
Local Open Scope nat_scope.
Local Open Scope list_scope.

Section Axis.
Context {N : Num}.
Implicit Types ax : axis N.

Lemma x_bounds_labels b ax h : ax_xlabel (set_x_bounds b ax h) = ax_xlabel ax /\ ax_ylabel (set_x_bounds b ax h) = ax_ylabel ax.
Proof. unfold set_x_bounds. destruct (b && is_numerical h); [|auto]. destruct (hp_lower h); [|auto]. destruct (hp_upper h); [|auto]. destruct (hp_log h); auto. Qed.
Lemma y_bounds_labels b ax h : ax_xlabel (set_y_bounds b ax h) = ax_xlabel ax /\ ax_ylabel (set_y_bounds b ax h) = ax_ylabel ax.
Proof. unfold set_y_bounds. destruct (b && is_numerical h); [|auto]. destruct (hp_lower h); [|auto]. destruct (hp_upper h); [|auto]. destruct (hp_log h); auto. Qed.

Lemma pair_neq a b c d : (a, b) <> (c, d) :> string * string <-> negb (String.eqb a c && String.eqb b d) = true.
Proof.
  rewrite negb_true_iff, andb_false_iff, !String.eqb_neq. split; intro H.
  - destruct (string_dec a c) as [->|]; [|auto]. destruct (string_dec b d) as [->|]; [|auto]. congruence.
  - intro E. injection E as -> ->. tauto.
Qed.
Theorem axis_raises ax hps b yl :
  (conflict ax hps yl -> check_and_set_axis ax hps b yl = (ax, Err ValueError)) /\
  (~ conflict ax hps yl -> snd (check_and_set_axis ax hps b yl) = Ok tt).
Proof.
  destruct hps as [|h1 [|h2 [|h3 t]]]; cbn [check_and_set_axis conflict snd]; try (split; [intros []|reflexivity]).
  - split.
    + intros [[A B]|[A B]].
      * apply String.eqb_neq in A. apply String.eqb_neq in B. rewrite A, B. reflexivity.
      * apply String.eqb_neq in A. apply String.eqb_neq in B. rewrite A, B. destruct (negb _ && negb _); reflexivity.
    + intro H. destruct (String.eqb_spec (ax_xlabel ax) ""); destruct (String.eqb_spec (ax_xlabel ax) (hp_name h1)); destruct (String.eqb_spec (ax_ylabel ax) ""); destruct (String.eqb_spec (ax_ylabel ax) yl); cbn [negb andb snd]; try reflexivity; exfalso; apply H; auto.
  - rewrite !pair_neq. split.
    + intros [A B]. rewrite A, B. reflexivity.
    + intro H. destruct (negb (String.eqb (ax_xlabel ax) "" && String.eqb (ax_ylabel ax) "")); [|reflexivity].
      destruct (negb (String.eqb (ax_xlabel ax) (hp_name h1) && String.eqb (ax_ylabel ax) (hp_name h2))); [|reflexivity]. exfalso. apply H. auto.
Qed.

Lemma x_bounds_dim b ax h : dim_after (ax_xlog ax) (ax_xlim ax) (bounds_of b h) (ax_xlog (set_x_bounds b ax h)) (ax_xlim (set_x_bounds b ax h)) /\
  ax_ylog (set_x_bounds b ax h) = ax_ylog ax /\ ax_ylim (set_x_bounds b ax h) = ax_ylim ax.
Proof.
  unfold set_x_bounds, bounds_of, is_numerical, hp_lower, hp_upper, hp_log. destruct b; cbn [andb]; [|cbn; auto]. destruct (hp_kind h); cbn; auto;
  (refine (conj (conj eq_refl _) (conj eq_refl eq_refl)); intro H; unfold new_lim; destruct (log || ax_xlog ax); [destruct H as [-> ->]; reflexivity|reflexivity]).
Qed.
Lemma y_bounds_dim b ax h : dim_after (ax_ylog ax) (ax_ylim ax) (bounds_of b h) (ax_ylog (set_y_bounds b ax h)) (ax_ylim (set_y_bounds b ax h)) /\
  ax_xlog (set_y_bounds b ax h) = ax_xlog ax /\ ax_xlim (set_y_bounds b ax h) = ax_xlim ax.
Proof.
  unfold set_y_bounds, bounds_of, is_numerical, hp_lower, hp_upper, hp_log. destruct b; cbn [andb]; [|cbn; auto]. destruct (hp_kind h); cbn; auto;
  (refine (conj (conj eq_refl _) (conj eq_refl eq_refl)); intro H; unfold new_lim; destruct (log || ax_ylog ax); [destruct H as [-> ->]; reflexivity|reflexivity]).
Qed.
Theorem axis_sets ax hps b yl ax' : check_and_set_axis ax hps b yl = (ax', Ok tt) ->
  match hps with
  | [h] => ax_xlabel ax' = hp_name h /\ ax_ylabel ax' = yl /\
      dim_after (ax_xlog ax) (ax_xlim ax) (bounds_of b h) (ax_xlog ax') (ax_xlim ax') /\ ax_ylog ax' = ax_ylog ax /\ ax_ylim ax' = ax_ylim ax
  | [h1; h2] => ax_xlabel ax' = hp_name h1 /\ ax_ylabel ax' = hp_name h2 /\
      dim_after (ax_xlog ax) (ax_xlim ax) (bounds_of b h1) (ax_xlog ax') (ax_xlim ax') /\
      dim_after (ax_ylog ax) (ax_ylim ax) (bounds_of b h2) (ax_ylog ax') (ax_ylim ax')
  | _ => ax' = ax
  end.
Proof.
  destruct hps as [|h1 [|h2 [|h3 t]]]; cbn [check_and_set_axis]; try congruence.
  - destruct (negb _ && negb _); [discriminate|]. destruct (negb _ && negb _); [discriminate|]. intro E. injection E as <-.
    destruct (x_bounds_labels b (set_labels ax (hp_name h1) yl) h1) as [-> ->]. destruct (x_bounds_dim b (set_labels ax (hp_name h1) yl) h1) as (D & -> & ->). cbn. auto.
  - destruct (negb _ && negb _); [discriminate|]. intro E. injection E as <-. set (ax0 := set_labels ax (hp_name h1) (hp_name h2)). set (ax1 := set_x_bounds b ax0 h1).
    destruct (y_bounds_labels b ax1 h2) as [-> ->]. destruct (x_bounds_labels b ax0 h1) as [X Y]. fold ax1 in X, Y. rewrite X, Y.
    destruct (y_bounds_dim b ax1 h2) as (D2 & -> & ->). destruct (x_bounds_dim b ax0 h1) as (D1 & Yl & Ym). fold ax1 in Yl, Ym, D1. rewrite Yl, Ym in D2.
    refine (conj eq_refl (conj eq_refl (conj D1 D2))).
Qed.

(** histories *)
Lemma step_labels ax c : (ax_xlabel ax <> ""%string -> ax_xlabel (ax_step ax c) = ax_xlabel ax) /\ (ax_ylabel ax <> ""%string -> ax_ylabel (ax_step ax c) = ax_ylabel ax).
Proof.
  unfold ax_step. destruct (check_and_set_axis ax (ac_hps c) (ac_bounds c) (ac_ylabel c)) as [ax' r] eqn:E. cbn [fst].
  destruct (axis_raises ax (ac_hps c) (ac_bounds c) (ac_ylabel c)) as [A B]. rewrite E in A, B. cbn [snd] in B.
  assert (D : conflict ax (ac_hps c) (ac_ylabel c) \/ ~ conflict ax (ac_hps c) (ac_ylabel c)).
  { unfold conflict. destruct (ac_hps c) as [|h1 [|h2 [|h3 t]]]; auto.
    - destruct (string_dec (ax_xlabel ax) ""); destruct (string_dec (ax_xlabel ax) (hp_name h1)); destruct (string_dec (ax_ylabel ax) ""); destruct (string_dec (ax_ylabel ax) (ac_ylabel c)); tauto.
    - destruct (string_dec (ax_xlabel ax) ""); destruct (string_dec (ax_xlabel ax) (hp_name h1)); destruct (string_dec (ax_ylabel ax) ""); destruct (string_dec (ax_ylabel ax) (hp_name h2)); rewrite !pair_neq, !negb_true_iff, !andb_false_iff, !String.eqb_neq; tauto. }
  destruct D as [D|D].
  - apply A in D. injection D as -> _. auto.
  - assert (R := B D). subst r. pose proof (axis_sets _ _ _ _ _ E) as S. destruct (ac_hps c) as [|h1 [|h2 [|h3 t]]]; try (subst ax'; auto).
    + destruct S as (X & Y & _). rewrite X, Y. cbn [conflict] in D. split; intro H.
      * destruct (string_dec (ax_xlabel ax) (hp_name h1)) as [|F]; [auto|]. exfalso. apply D. auto.
      * destruct (string_dec (ax_ylabel ax) (ac_ylabel c)) as [|F]; [auto|]. exfalso. apply D. auto.
    + destruct S as (X & Y & _). rewrite X, Y. cbn [conflict] in D. rewrite !pair_neq in D.
      destruct (String.eqb_spec (ax_xlabel ax) (hp_name h1)); destruct (String.eqb_spec (ax_ylabel ax) (hp_name h2)); cbn in D; auto;
      (split; intro H; exfalso; apply D; (split; [|reflexivity]); apply String.eqb_neq in H; rewrite H; cbn; [reflexivity|]; rewrite andb_false_r; reflexivity).
Qed.
Theorem labels_persist ax cs : (ax_xlabel ax <> ""%string -> ax_xlabel (ax_run ax cs) = ax_xlabel ax) /\ (ax_ylabel ax <> ""%string -> ax_ylabel (ax_run ax cs) = ax_ylabel ax).
Proof.
  revert ax. induction cs as [|c cs IH]; intro ax; cbn [ax_run fold_left]; [auto|]. destruct (step_labels ax c) as [X Y]. destruct (IH (ax_step ax c)) as [X' Y']. unfold ax_run in *. split; intro H.
  - rewrite X' by (rewrite X by exact H; exact H). apply X. exact H.
  - rewrite Y' by (rewrite Y by exact H; exact H). apply Y. exact H.
Qed.

Lemma dim_keeps (K : string -> option (hpkind N)) label (h : hp N) b lg lim lg' lim' : positive_logs K -> K (hp_name h) = Some (hp_kind h) -> (label = ""%string \/ label = hp_name h) ->
  (label = ""%string -> lg = false /\ lim = (None, None)) -> dim_fits K label lg lim -> dim_after lg lim (bounds_of b h) lg' lim' -> dim_fits K (hp_name h) lg' lim'.
Proof.
  intros P HK HL H0 F A. assert (F' : dim_fits K (hp_name h) lg lim) by (destruct HL as [L|<-]; [left; auto|exact F]). unfold dim_after in A. destruct (bounds_of b h) as [[[lo up] c]|] eqn:B.
  - assert (KB : kind_bounds (hp_kind h) = Some (lo, up, c)) by (unfold bounds_of in B; destruct b; [exact B|discriminate]). destruct A as [-> A]. right. exists lo, up, c. rewrite HK.
    assert (LG : c || lg = c). { destruct F' as [[-> _]|(lo' & up' & c' & E & -> & _)]; [apply orb_false_r|]. rewrite HK, KB in E. injection E as _ _ <-. destruct c; reflexivity. }
    rewrite LG in *. refine (conj KB (conj eq_refl _)). apply A. intros ->. exact (P _ _ _ _ HK KB).
  - destruct A as [-> ->]. exact F'.
Qed.
Definition axis_fits K ax : Prop :=
  dim_fits K (ax_xlabel ax) (ax_xlog ax) (ax_xlim ax) /\ dim_fits K (ax_ylabel ax) (ax_ylog ax) (ax_ylim ax) /\
  (ax_xlabel ax = ""%string -> ax_xlog ax = false /\ ax_xlim ax = (None, None)) /\ (ax_ylabel ax = ""%string -> ax_ylog ax = false /\ ax_ylim ax = (None, None)).
Lemma step_fits K ax c : positive_logs K -> from_space K c -> axis_fits K ax -> axis_fits K (ax_step ax c).
Proof.
  intros P FS (FX & FY & EX & EY). destruct (step_labels ax c) as [LX LY]. unfold ax_step in *. destruct (check_and_set_axis ax (ac_hps c) (ac_bounds c) (ac_ylabel c)) as [ax' r] eqn:E. cbn [fst] in *.
  destruct r as [[]|e].
  2:{ assert (ax' = ax) as ->; [|exact (conj FX (conj FY (conj EX EY)))]. unfold check_and_set_axis in E. destruct (ac_hps c) as [|h1 [|h2 [|h3 t]]]; try discriminate.
      - destruct (negb _ && negb _); [congruence|]. destruct (negb _ && negb _); [congruence|discriminate].
      - destruct (negb _ && negb _); [congruence|discriminate]. }
  pose proof (axis_sets _ _ _ _ _ E) as S. unfold from_space in FS. destruct (ac_hps c) as [|h1 [|h2 [|h3 t]]]; try (subst ax'; exact (conj FX (conj FY (conj EX EY)))).
  - destruct S as (X & Y & D & Yl & Ym). apply Forall_inv in FS as [NE KH]. rewrite X in LX. rewrite Y in LY.
    assert (HX : ax_xlabel ax = ""%string \/ ax_xlabel ax = hp_name h1) by (destruct (string_dec (ax_xlabel ax) "") as [?|n]; [auto|right; symmetry; apply LX; exact n]).
    unfold axis_fits. rewrite X, Y, Yl, Ym. refine (conj (dim_keeps K _ _ _ _ _ _ _ P KH HX EX FX D) (conj _ (conj (fun Q => False_ind _ (NE Q)) _))).
    + destruct (string_dec (ax_ylabel ax) "") as [Q|Q]; [left; apply EY; exact Q|]. rewrite (LY Q). exact FY.
    + intro Q. apply EY. destruct (string_dec (ax_ylabel ax) "") as [?|n]; [assumption|]. rewrite <- (LY n). exact Q.
  - destruct S as (X & Y & D1 & D2). pose proof (Forall_inv FS) as [NE KH]. pose proof (Forall_inv (Forall_inv_tail FS)) as [NE2 KH2]. rewrite X in LX. rewrite Y in LY.
    assert (HX : ax_xlabel ax = ""%string \/ ax_xlabel ax = hp_name h1) by (destruct (string_dec (ax_xlabel ax) "") as [?|n]; [auto|right; symmetry; apply LX; exact n]).
    assert (HY : ax_ylabel ax = ""%string \/ ax_ylabel ax = hp_name h2) by (destruct (string_dec (ax_ylabel ax) "") as [?|n]; [auto|right; symmetry; apply LY; exact n]).
    unfold axis_fits. rewrite X, Y. exact (conj (dim_keeps K _ _ _ _ _ _ _ P KH HX EX FX D1) (conj (dim_keeps K _ _ _ _ _ _ _ P KH2 HY EY FY D2) (conj (fun Q => False_ind _ (NE Q)) (fun Q => False_ind _ (NE2 Q))))).
Qed.
Theorem history_fits (K : string -> option (hpkind N)) cs : positive_logs K -> Forall (from_space K) cs -> let ax := ax_run fresh_axis cs in
  dim_fits K (ax_xlabel ax) (ax_xlog ax) (ax_xlim ax) /\ dim_fits K (ax_ylabel ax) (ax_ylog ax) (ax_ylim ax).
Proof.
  intros P F. cbv zeta. assert (G : forall ax, axis_fits K ax -> axis_fits K (ax_run ax cs)).
  { revert F. induction cs as [|c cs IH]; intros F ax H; [exact H|]. cbn [ax_run fold_left]. apply IH; [apply (Forall_inv_tail F)|]. apply step_fits; [exact P|apply (Forall_inv F)|exact H]. }
  destruct (G fresh_axis) as (A & B & _); [|auto]. unfold axis_fits, dim_fits, fresh_axis. cbn. auto 10.
Qed.
End Axis.

(** hyperparameters of two spaces with one name *)
Theorem two_spaces : exists (cs : list (axcall QNum)) (h : hp QNum),
  let ax := ax_run fresh_axis cs in
  In h (concat (map ac_hps cs)) /\ ax_xlabel ax = hp_name h /\ snd (check_and_set_axis ax [h] true "Prediction") = Ok tt /\
  hp_log h = Ok false /\ ax_xlog (fst (check_and_set_axis ax [h] true "Prediction")) = true.
Proof.
  exists [mkcall [mkhp "x" (KFloat (1#10 : QNum)%Q (10 : QNum)%Q true)] true "Prediction"; mkcall [mkhp "x" (KFloat (0 : QNum)%Q (1 : QNum)%Q false)] true "Prediction"].
  exists (mkhp "x" (KFloat (0 : QNum)%Q (1 : QNum)%Q false)). cbv zeta. refine (conj _ (conj eq_refl (conj eq_refl (conj eq_refl eq_refl)))). right. left. reflexivity.
Qed.
