(** SpreadGrid.v - full grids are spread evenly (C115). *)
From Coq Require Import Reals Lra.
From Coquelicot Require Import Coquelicot.
From Verif Require Import Base Num ListLemmas RealSums UtilsProofs SpreadSpec SpreadProofs.
Local Open Scope R_scope.
Local Open Scope list_scope.

Lemma flat_map_ext_perm {A B} (f g : A -> list B) l : (forall x, In x l -> Permutation (f x) (g x)) -> Permutation (flat_map f l) (flat_map g l).
Proof. induction l as [|x l IH]; intro H; [constructor|]. cbn. apply Permutation_app; [apply H; left; reflexivity|apply IH; intros; apply H; right; assumption]. Qed.
Lemma flat_map_app_perm {A B} (f g : A -> list B) l : Permutation (flat_map (fun x => f x ++ g x) l) (flat_map f l ++ flat_map g l).
Proof.
  induction l as [|x l IH]; [constructor|]. cbn. rewrite IH. rewrite <- !app_assoc. apply Permutation_app_head. rewrite !app_assoc. apply Permutation_app_tail. apply Permutation_app_comm.
Qed.
Lemma flat_map_nil {A B} (l : list A) : flat_map (fun _ => @nil B) l = [].
Proof. induction l; [reflexivity|assumption]. Qed.
Lemma flat_map_swap {A B C} (f : A -> B -> list C) la lb : Permutation (flat_map (fun a => flat_map (f a) lb) la) (flat_map (fun b => flat_map (fun a => f a b) la) lb).
Proof.
  induction la as [|a la IH]; cbn [flat_map]; [rewrite flat_map_nil; constructor|]. rewrite flat_map_app_perm. apply Permutation_app_head. exact IH.
Qed.
Lemma map_flat_map {A B C} (h : B -> C) (f : A -> list B) l : map h (flat_map f l) = flat_map (fun x => map h (f x)) l.
Proof. induction l as [|x l IH]; [reflexivity|]. cbn. rewrite map_app, IH. reflexivity. Qed.

Lemma grid_by_column : forall axes j axis, nth_error axes j = Some axis ->
  Permutation (grid_rows axes) (flat_map (fun x => grid_rows (set_nth j [x] axes)) axis).
Proof.
  induction axes as [|a axes IH]; intros [|j] axis H; try discriminate H.
  - injection H as ->. cbn [set_nth grid_rows]. apply flat_map_ext_perm. intros x _. cbn. rewrite app_nil_r. apply Permutation_refl.
  - cbn [nth_error] in H. cbn [grid_rows set_nth]. rewrite <- flat_map_swap. apply flat_map_ext_perm. intros y _. rewrite (Permutation_map (cons y) (IH j axis H)). rewrite map_flat_map. apply Permutation_refl.
Qed.
Lemma grid_length axes : length (grid_rows axes) = fold_right Nat.mul 1%nat (map (@length R) axes).
Proof.
  induction axes as [|a axes IH]; [reflexivity|]. cbn [grid_rows map fold_right]. rewrite <- IH. induction a as [|x a IHa]; [reflexivity|]. cbn [flat_map]. rewrite app_length, map_length, IHa. reflexivity.
Qed.
Lemma lengths_set j (x y : R) : forall axes : list (list R), map (@length R) (set_nth j [x] axes) = map (@length R) (set_nth j [y] axes).
Proof. induction j as [|j IH]; intros [|a axes]; cbn; try reflexivity. f_equal. apply IH. Qed.
Lemma grid_columns : forall axes row, In row (grid_rows axes) -> length row = length axes /\ forall j axis, nth_error axes j = Some axis -> exists x, nth_error row j = Some x /\ In x axis.
Proof.
  induction axes as [|a axes IH]; intros row H; cbn in H.
  - destruct H as [<-|[]]. split; [reflexivity|]. intros [|j] axis E; discriminate E.
  - apply in_flat_map in H as (x & Hx & H). apply in_map_iff in H as (r & <- & Hr). destruct (IH r Hr) as [L H]. split; [cbn; f_equal; exact L|].
    intros [|j] axis E; [injection E as <-; exists x; auto|exact (H j axis E)].
Qed.
Lemma grid_nonempty axes : Forall (fun axis => axis <> []) axes -> grid_rows axes <> [].
Proof.
  induction axes as [|a axes IH]; intro F; [discriminate|]. cbn [grid_rows]. pose proof (Forall_inv F) as Ha. specialize (IH (Forall_inv_tail F)). destruct a as [|x a]; [congruence|]. cbn [flat_map].
  destruct (grid_rows axes); [congruence|]. discriminate.
Qed.
Lemma set_nonempty j (x : R) : forall axes, Forall (fun axis => axis <> []) axes -> Forall (fun axis => axis <> []) (set_nth j [x] axes).
Proof. induction j as [|j IH]; intros [|a axes] F; cbn; try constructor; inversion F; subst; auto. discriminate. Qed.
Lemma nth_flat {A B} (f : A -> B) l i y : nth_error (map f l) i = Some y -> exists x, nth_error l i = Some x /\ y = f x.
Proof. rewrite nth_error_map. destruct (nth_error l i) as [x|]; [|discriminate]. intro H. injection H as <-. eauto. Qed.

Theorem grid_spread : forall Jk axes, Forall (fun axis => axis <> []) axes -> NoDup (map fst Jk) ->
  (forall j k, In (j, k) Jk -> exists axis, nth_error axes j = Some axis /\ length axis = k /\ cell_axis axis) -> spread Jk (grid_rows axes).
Proof.
  induction Jk as [|[j k] Jk IH]; intros axes F ND H; [apply grid_nonempty; exact F|]. cbn [spread]. cbn [map fst] in ND. inversion ND as [|? ? Hj ND']; subst.
  destruct (H j k (or_introl eq_refl)) as (axis & Ea & La & Ca). set (parts := map (fun x => grid_rows (set_nth j [x] axes)) axis).
  assert (Hne : axis <> []) by (rewrite Forall_forall in F; apply F; eapply nth_error_In; exact Ea).
  assert (Hk : (0 < k)%nat) by (destruct axis; [congruence|cbn in La; lia]).
  exists parts, (length (grid_rows (set_nth j [0] axes))). refine (conj Hk (conj _ (conj _ (conj _ _)))).
  - pose proof (grid_nonempty _ (set_nonempty j 0 axes F)). destruct (grid_rows (set_nth j [0] axes)); [congruence|cbn; lia].
  - unfold parts. rewrite map_length. exact La.
  - unfold parts. rewrite <- flat_map_concat_map. apply grid_by_column. exact Ea.
  - intros i p Hp. destruct (nth_flat _ _ _ _ Hp) as (x & Hx & ->). assert (Lj : (j < length axes)%nat) by (eapply nth_error_Some_lt; exact Ea).
    refine (conj _ (conj _ _)).
    + rewrite !grid_length. f_equal. apply lengths_set.
    + apply IH; [apply set_nonempty; exact F|exact ND'|]. intros j' k' Hin. destruct (H j' k' (or_intror Hin)) as (axis' & E' & R'). exists axis'. split; [|exact R'].
      rewrite nth_error_set_nth_neq; [exact E'|]. intros ->. apply Hj. apply in_map_iff. exists (j', k'). auto.
    + apply Forall_forall. intros row Hrow. destruct (grid_columns _ _ Hrow) as [_ G]. destruct (G j [x]) as (y & Hy & [<-|[]]); [apply nth_error_set_nth_eq; exact Lj|].
      exists x. split; [exact Hy|]. rewrite <- La. apply Ca. exact Hx.
Qed.
Lemma evenly_cells axis k : evenly 0 1 axis k -> cell_axis axis.
Proof.
  intros [La H] i x Hi. assert (Li : (i < k)%nat) by (rewrite <- La; eapply nth_error_Some_lt; exact Hi). rewrite (H i Li) in Hi. injection Hi as <-. rewrite La.
  destruct (Nat.eqb_spec k 1) as [->|Hk]; [assert (i = 0)%nat by lia; subst i; cbn; lra|].
  assert (P : 0 < INR (k - 1)) by (apply lt_0_INR; lia). assert (B : INR i <= INR (k - 1)) by (apply le_INR; lia). pose proof (pos_INR i) as Q.
  assert (E : INR k = INR (k - 1) + 1) by (rewrite <- S_INR; f_equal; lia). rewrite E, plus_INR. change (INR 1) with 1.
  replace (0 + INR i * ((1 - 0) / INR (k - 1))) with (INR i / INR (k - 1)) by (field; lra). set (n := INR (k - 1)) in *. set (u := INR i) in *. split.
  - apply Rmult_le_compat_l; [exact Q|]. apply Rinv_le_contravar; lra.
  - apply (Rmult_le_reg_r (n * (n + 1))); [nra|]. replace (u / n * (n * (n + 1))) with (u * (n + 1)) by (field; lra). replace ((u + 1) / (n + 1) * (n * (n + 1))) with ((u + 1) * n) by (field; lra). nra.
Qed.
