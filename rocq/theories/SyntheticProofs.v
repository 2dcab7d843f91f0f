(** SyntheticProofs.v - the bounds of SyntheticBounds.v at the level of configurations (C52). *)
From Coq Require Import Reals Lra Lia.
From Verif Require Import Base Num ConfigSpaceModel UtilsModel SyntheticModel SyntheticBounds.
Local Open Scope R_scope.
Local Open Scope list_scope.

Lemma mapM_length' {A B} (f : A -> res B) l r : mapM f l = Ok r -> length r = length l.
Proof.
  revert r. induction l as [|x l IH]; cbn; intros r H; [injection H as <-; reflexivity|]. destruct (f x) as [y|]; cbn in H; [|discriminate].
  destruct (mapM f l) as [ys|]; cbn in H; [|discriminate]. injection H as <-. cbn. f_equal. apply IH. reflexivity.
Qed.
Lemma mapM_in {A B} (f : A -> res B) l r : mapM f l = Ok r -> forall y, In y r <-> exists x, In x l /\ f x = Ok y.
Proof.
  revert r. induction l as [|x l IH]; cbn; intros r H; [injection H as <-; split; [intros []|intros (x & [] & _)]|]. destruct (f x) as [z|] eqn:E; cbn in H; [|discriminate].
  destruct (mapM f l) as [zs|]; cbn in H; [|discriminate]. injection H as <-. intro y. split.
  - intros [<-|Hy]; [exists x; auto|]. apply (IH zs eq_refl) in Hy as (u & Hu & Eu). exists u; auto.
  - intros (u & [<-|Hu] & Eu); [left; congruence|right]. apply (IH zs eq_refl). exists u; auto.
Qed.
Lemma mapM_not_err {A B} (f : A -> res B) l r x e : mapM f l = Ok r -> In x l -> f x = Err e -> False.
Proof.
  revert r. induction l as [|y l IH]; intros r E Hin Ex; [destruct Hin|]. cbn [mapM] in E. destruct Hin as [->|Hin]; [rewrite Ex in E; discriminate|].
  destruct (f y) as [z|]; cbn [bind] in E; [|discriminate]. destruct (mapM f l) as [zs|]; cbn [bind] in E; [|discriminate]. exact (IH zs eq_refl Hin Ex).
Qed.
Lemma mapM_total {A B} (f : A -> res B) l : (forall x, In x l -> exists y, f x = Ok y) -> exists r, mapM f l = Ok r.
Proof.
  induction l as [|x l IH]; intro H; [eexists; reflexivity|]. destruct (H x (or_introl eq_refl)) as (y & Ey). destruct IH as (r & Er); [intros u Hu; apply H; right; exact Hu|].
  exists (y :: r). cbn. rewrite Ey. cbn. rewrite Er. reflexivity.
Qed.
Lemma xs_in c d (x : list R) : config_xs (N:=RNum) c d = Ok x -> forall a : R, (forall t, In t x -> t = a) <-> forall i, (i < d)%nat -> config_item (N:=RNum) c (String.append "x" (dec (i + 1))) = Ok a.
Proof.
  intros E a. unfold config_xs in E. pose proof (mapM_in _ _ _ E) as M. split.
  - intros H i Hi. destruct (config_item (N:=RNum) c (String.append "x" (dec (i + 1)))) as [y|] eqn:Ey.
    + f_equal. apply H. apply M. exists i. split; [apply in_seq; lia|exact Ey].
    + exfalso. clear M H. assert (Hin : In i (seq 0 d)) by (apply in_seq; lia). exact (mapM_not_err _ _ _ _ _ E Hin Ey).
  - intros H t Ht. apply M in Ht as (i & Hi & Et). apply in_seq in Hi. rewrite H in Et by lia. congruence.
Qed.
Lemma values_in (c : config RNum) (l : list R) : config_values (N:=RNum) c = Ok l -> ((forall x, In x l -> x = 0) <-> forall n (x : R), In (n, VNum (N:=RNum) x) c -> x = 0).
Proof.
  intro E. pose proof (mapM_in _ _ _ E) as M. split.
  - intros H n x Hx. apply H. apply M. exists (n, VNum (N:=RNum) x). split; [exact Hx|reflexivity].
  - intros H x Hx. apply M in Hx as ((n & v) & Hv & Ex). destruct v as [y|]; cbn in Ex; [|discriminate]. injection Ex as <-. apply (H n). exact Hv.
Qed.

Theorem square_bound (c : config RNum) v : square_value c = Ok v -> 0 <= v /\ (v = 0 <-> forall n (x : R), In (n, VNum (N:=RNum) x) c -> x = 0).
Proof.
  unfold square_value. destruct (config_values (N:=RNum) c) as [l|] eqn:E; intro H; [|discriminate]. apply (f_equal (fun r => match r with Ok z => z | Err _ => 0 end)) in H. cbv beta iota delta [bind] in H. subst v. split; [apply squares_nonneg|].
  rewrite <- (values_in c l E). apply squares_zero.
Qed.
Theorem negative_square_bound (c : config RNum) v : negative_square_value c = Ok v -> v <= 1 /\ (v = 1 <-> forall n (x : R), In (n, VNum (N:=RNum) x) c -> x = 0).
Proof.
  unfold negative_square_value. destruct (config_values (N:=RNum) c) as [l|] eqn:E; intro H; [|discriminate]. apply (f_equal (fun r => match r with Ok z => z | Err _ => 0 end)) in H. cbv beta iota delta [bind] in H. subst v.
  pose proof (squares_nonneg l). split; [lra|]. rewrite <- (values_in c l E), <- squares_zero. split; lra.
Qed.
Theorem levy_bound d (c : config RNum) v : levy_value d c = Ok v ->
  0 <= v /\ (v = 0 <-> forall i, (i < d)%nat -> config_item (N:=RNum) c (String.append "x" (dec (i + 1))) = Ok 1).
Proof.
  unfold levy_value. destruct (config_xs (N:=RNum) c d) as [x|] eqn:E; intro H; [|discriminate]. cbn [bind] in H. rewrite <- (xs_in c d x E 1). apply levy_of_bound. exact H.
Qed.
Theorem ackley_bound d (c : config RNum) v : (1 <= d)%nat -> ackley_value d c = Ok v ->
  0 <= v /\ (v = 0 <-> forall i, (i < d)%nat -> config_item (N:=RNum) c (String.append "x" (dec (i + 1))) = Ok 0).
Proof.
  intro Hd. unfold ackley_value. destruct (config_xs (N:=RNum) c d) as [x|] eqn:E; intro H; [|discriminate]. apply (f_equal (fun r => match r with Ok z => z | Err _ => 0 end)) in H. cbv beta iota delta [bind] in H. subst v. rewrite <- (xs_in c d x E 0). apply ackley_of_bound.
  intros ->. apply mapM_length' in E. rewrite seq_length in E. cbn in E. lia.
Qed.
Theorem stybtang_bound cs (c : config RNum) v : stybtang_value cs c = Ok v -> - (391662 / 10000) * INR (length cs) <= v.
Proof.
  unfold stybtang_value. destruct (mapM _ cs) as [x|] eqn:E; intro H; [|discriminate]. apply (f_equal (fun r => match r with Ok z => z | Err _ => 0 end)) in H. cbv beta iota delta [bind] in H. subst v.
  apply mapM_length' in E. rewrite <- E. apply stybtang_of_bound.
Qed.
(** the functions are defined where the configuration has their hyperparameters *)
Theorem synthetic_total d (c : config RNum) : (forall i, (i < d)%nat -> exists x : R, config_get c (String.append "x" (dec (i + 1))) = Some (VNum (N:=RNum) x)) ->
  ((1 <= d)%nat -> exists v, levy_value d c = Ok v) /\ (exists v, ackley_value d c = Ok v) /\ ((2 <= d)%nat -> exists v, crossintray_value c = Ok v) /\
  levy_value 0 c = Err IndexError.
Proof.
  intro H. assert (H' : forall i, (i < d)%nat -> exists x : R, config_item (N:=RNum) c (String.append "x" (dec (i + 1))) = Ok x).
  { intros i Hi. destruct (H i Hi) as (x & Ex). exists x. unfold config_item. rewrite Ex. reflexivity. }
  destruct (mapM_total (fun i => config_item (N:=RNum) c (String.append "x" (dec (i + 1)))) (seq 0 d)) as (l & El); [intros i Hi; apply in_seq in Hi; apply H'; lia|].
  change (config_xs (N:=RNum) c d = Ok l) in El. unfold levy_value, ackley_value. rewrite El. cbn [bind]. refine (conj _ (conj _ (conj _ eq_refl))).
  - intro Hd. apply mapM_length' in El. rewrite seq_length in El. rewrite levy_of_eq; [eexists; reflexivity|]. intros ->. cbn in El. lia.
  - eexists. reflexivity.
  - intro Hd. destruct (H' 0%nat ltac:(lia)) as (x1 & E1). destruct (H' 1%nat ltac:(lia)) as (x2 & E2). unfold crossintray_value. change (config_item (N:=RNum) c "x1" = Ok x1) in E1. change (config_item (N:=RNum) c "x2" = Ok x2) in E2. rewrite E1. cbn [bind]. rewrite E2. eexists. reflexivity.
Qed.
Theorem crossintray_bound (c : config RNum) v x1 x2 : crossintray_value c = Ok v -> config_item (N:=RNum) c "x1" = Ok x1 -> config_item (N:=RNum) c "x2" = Ok x2 ->
  v < 0 /\ v = crossintray_of x1 x2 /\ v = crossintray_of x2 x1 /\ v = crossintray_of (- x1) x2 /\ v = crossintray_of x1 (- x2) /\
  (-10 <= x1 <= 10 -> -10 <= x2 <= 10 -> crossintray_of (atan (PI * sqrt 2)) (atan (PI * sqrt 2)) <= v).
Proof.
  unfold crossintray_value. intros H E1 E2. rewrite E1 in H. cbn [bind] in H. rewrite E2 in H. assert (E : v = crossintray_of x1 x2) by (cbn [bind] in H; congruence). rewrite E.
  refine (conj (crossintray_neg _ _) (conj eq_refl (conj (crossintray_sym _ _) (conj (eq_sym (crossintray_flip _ _)) (conj _ (crossintray_box x1 x2)))))).
  rewrite (crossintray_sym x1 (- x2)), crossintray_flip. apply crossintray_sym.
Qed.
