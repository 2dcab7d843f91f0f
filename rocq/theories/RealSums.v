(** RealSums.v - sums and means of lists of reals. *)
From Coq Require Import Reals Lra.
From Verif Require Import Base Num NumLaws NumpyModel ListLemmas.
Local Open Scope R_scope.

Global Arguments IZR : simpl never.
Fixpoint Rsum (l : list R) : R := match l with [] => 0 | x :: t => x + Rsum t end.
Definition Rmean (l : list R) : R := Rsum l / INR (length l).

Lemma fold_left_Rplus l a : fold_left Rplus l a = a + Rsum l.
Proof. revert a. induction l as [|x l IH]; intro a; [cbn; ring|]. cbn [fold_left]. rewrite IH. cbn [Rsum]. ring. Qed.
Lemma nsum_R (l : list RNum) : nsum l = Rsum l.
Proof. unfold nsum. change (fold_left Rplus l 0 = Rsum l). rewrite fold_left_Rplus. ring. Qed.
Lemma nmean_R (l : list RNum) : nmean l = Rmean l.
Proof. unfold nmean, Rmean. rewrite nsum_R. cbn. rewrite <- INR_IZR_INZ. reflexivity. Qed.

Lemma Rsum_app l1 l2 : Rsum (l1 ++ l2) = Rsum l1 + Rsum l2.
Proof. induction l1; cbn; [ring|]. rewrite IHl1. ring. Qed.
Lemma Rsum_concat ls : Rsum (concat ls) = Rsum (map Rsum ls).
Proof. induction ls; cbn; [reflexivity|]. rewrite Rsum_app, IHls. reflexivity. Qed.
Lemma Rsum_perm l1 l2 : Permutation l1 l2 -> Rsum l1 = Rsum l2.
Proof. induction 1; cbn; lra. Qed.
Lemma Rsum_map_plus {A} (f g : A -> R) l : Rsum (map (fun x => f x + g x) l) = Rsum (map f l) + Rsum (map g l).
Proof. induction l; cbn; [ring|]. rewrite IHl. ring. Qed.
Lemma Rsum_map_scal {A} c (f : A -> R) l : Rsum (map (fun x => c * f x) l) = c * Rsum (map f l).
Proof. induction l; cbn; [ring|]. rewrite IHl. ring. Qed.
Lemma Rsum_map_minus {A} (f g : A -> R) l : Rsum (map (fun x => f x - g x) l) = Rsum (map f l) - Rsum (map g l).
Proof. induction l; cbn; [ring|]. rewrite IHl. ring. Qed.
Lemma Rsum_map_const {A} c (l : list A) : Rsum (map (fun _ => c) l) = INR (length l) * c.
Proof. induction l; [cbn; ring|]. cbn [map Rsum length]. rewrite IHl, S_INR. ring. Qed.
Lemma Rsum_nonneg l : Forall (fun x => 0 <= x) l -> 0 <= Rsum l.
Proof. induction 1; cbn; lra. Qed.
Lemma Rsum_map_le {A} (f g : A -> R) l : (forall x, In x l -> f x <= g x) -> Rsum (map f l) <= Rsum (map g l).
Proof.
  induction l as [|a l IH]; intro H; cbn; [lra|].
  pose proof (H a (or_introl eq_refl)). assert (Rsum (map f l) <= Rsum (map g l)) by (apply IH; intros; apply H; right; assumption). lra.
Qed.
Lemma Rsum_zero l : Forall (fun x => 0 <= x) l -> (Rsum l = 0 <-> Forall (fun x => x = 0) l).
Proof.
  induction 1 as [|x l Hx Hl IH]; cbn; [split; auto|].
  pose proof (Rsum_nonneg l Hl). split.
  - intro E. assert (x = 0) by lra. assert (Rsum l = 0) by lra. constructor; [assumption|]. apply IH; assumption.
  - intro F. inversion F; subst. assert (Rsum l = 0) by (apply IH; assumption). lra.
Qed.
Lemma Rsum_swap {A B} (f : A -> B -> R) la lb :
  Rsum (map (fun a => Rsum (map (f a) lb)) la) = Rsum (map (fun b => Rsum (map (fun a => f a b) la)) lb).
Proof.
  induction la as [|a la IH]; cbn.
  - induction lb as [|b lb IHb]; cbn in *; [reflexivity|]. rewrite <- IHb. ring.
  - rewrite IH. rewrite <- Rsum_map_plus. reflexivity.
Qed.

Lemma Rmean_mult l : l <> [] -> INR (length l) * Rmean l = Rsum l.
Proof.
  intro H. unfold Rmean. field. apply not_0_INR. destruct l; [congruence|discriminate].
Qed.
Lemma Rmean_bounds l lo up : l <> [] -> Forall (fun x => lo <= x <= up) l -> lo <= Rmean l <= up.
Proof.
  intros Hne H. assert (Hn : 0 < INR (length l)) by (apply lt_0_INR; destruct l; [congruence|cbn; lia]).
  assert (B : INR (length l) * lo <= Rsum l <= INR (length l) * up).
  { clear Hne Hn. induction H as [|x l Hx Hl IH]; [cbn; lra|]. cbn [length Rsum]. rewrite S_INR. lra. }
  rewrite <- (Rmean_mult l Hne) in B. split; apply (Rmult_le_reg_l (INR (length l))); lra.
Qed.
Lemma Rmean_perm l l' : Permutation l l' -> Rmean l = Rmean l'.
Proof. intro H. unfold Rmean. rewrite (Rsum_perm _ _ H), (Permutation_length H). reflexivity. Qed.
Lemma Rmean_const c l : l <> [] -> Forall (fun x => x = c) l -> Rmean l = c.
Proof.
  intros Hne H. apply Rle_antisym; apply (Rmean_bounds l c c Hne); eapply Forall_impl; try exact H; cbn; intros; subst; lra.
Qed.

(** sum of squared deviations *)
Definition ssd (c : R) (l : list R) : R := Rsum (map (fun x => (x - c) * (x - c)) l).
Lemma ssd_app c l l' : ssd c (l ++ l') = ssd c l + ssd c l'.
Proof. unfold ssd. rewrite map_app. apply Rsum_app. Qed.
Lemma ssd_concat c ls : ssd c (concat ls) = Rsum (map (ssd c) ls).
Proof. induction ls; [reflexivity|]. cbn [concat map Rsum]. rewrite ssd_app, IHls. reflexivity. Qed.
Lemma ssd_nonneg c l : 0 <= ssd c l.
Proof. unfold ssd. apply Rsum_nonneg. apply Forall_forall. intros x H. apply in_map_iff in H. destruct H as (y & <- & _). apply Rle_0_sqr. Qed.
Lemma ssd_perm c l l' : Permutation l l' -> ssd c l = ssd c l'.
Proof. intro. apply Rsum_perm, Permutation_map. assumption. Qed.
Lemma ssd_shift c d l : ssd c l = ssd d l + 2 * (d - c) * (Rsum l - INR (length l) * d) + INR (length l) * ((d - c) * (d - c)).
Proof.
  induction l as [|x l IH]; [cbn; ring|]. unfold ssd in *. cbn [map Rsum length] in *.
  rewrite IH, S_INR. ring.
Qed.
Lemma ssd_mean_least c l : ssd (Rmean l) l <= ssd c l.
Proof.
  destruct l as [|x l]; [unfold ssd; cbn; lra|]. rewrite (ssd_shift c (Rmean (x :: l))).
  rewrite Rmean_mult by discriminate. pose proof (pos_INR (length (x :: l))).
  pose proof (Rle_0_sqr (Rmean (x :: l) - c)). unfold Rsqr in *. nra.
Qed.
Lemma ssd_zero l : ssd (Rmean l) l = 0 <-> forall x y, In x l -> In y l -> x = y.
Proof.
  unfold ssd. rewrite Rsum_zero.
  2:{ apply Forall_forall. intros x H. apply in_map_iff in H. destruct H as (y & <- & _). apply Rle_0_sqr. }
  rewrite Forall_map. split.
  - intros H x y Hx Hy. rewrite Forall_forall in H. pose proof (H x Hx) as A. pose proof (H y Hy) as B. cbn in A, B.
    apply Rmult_integral in A, B. lra.
  - intro H. apply Forall_forall. intros x Hx. assert (E : Rmean l = x).
    { apply Rmean_const; [destruct l; [destruct Hx|discriminate]|]. apply Forall_forall. intros y Hy. auto. }
    rewrite E. ring.
Qed.
