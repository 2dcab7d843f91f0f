(** DrawProofs.v - lemmas on drawing statements; confidence bands and lines. *)
From Coq Require Import Reals Lra Psatz.
From Verif Require Import Base Num NumLaws ListLemmas NumpyModel ConfigSpaceModel UtilsModel IceModel PartitionModel ForestModel SamplerModel
  AcquisitionModel PlottingModel DrawModel DrawSpec.
Local Open Scope nat_scope.
Local Open Scope list_scope.

Section Monad.
Context {N : Num} {Col : Type}.

Lemma bindD_ok {A B} (m : D A) (k : A -> D B) (c c' : canvas N Col) a : m c = (c', Ok a) -> bindD m k c = k a c'.
Proof. unfold bindD. intros ->. reflexivity. Qed.
Lemma bindD_err {A B} (m : D A) (k : A -> D B) (c c' : canvas N Col) e : m c = (c', Err e) -> bindD m k c = (c', Err e).
Proof. unfold bindD. intros ->. reflexivity. Qed.
Lemma lift_ok {A B} (r : res A) (k : A -> D B) (c : canvas N Col) a : r = Ok a -> bindD (lift r) k c = k a c.
Proof. intros ->. reflexivity. Qed.
Lemma lift_err {A B} (r : res A) (k : A -> D B) (c : canvas N Col) e : r = Err e -> bindD (lift r) k c = (c, Err e).
Proof. intros ->. reflexivity. Qed.
Lemma adds_nil (c : canvas N Col) : adds c [] = c.
Proof. unfold adds. rewrite app_nil_r. destruct c; reflexivity. Qed.
Lemma adds_adds (c : canvas N Col) l l' : adds (adds c l) l' = adds c (l ++ l').
Proof. unfold adds. cbn. rewrite app_assoc. reflexivity. Qed.
Lemma draws_seq (m m' : D unit) l l' : draws (N:=N) (Col:=Col) m l -> draws m' l' -> draws (bindD m (fun _ => m')) (l ++ l').
Proof. intros H H' c. unfold bindD. rewrite H, H', adds_adds. reflexivity. Qed.
Lemma draws_ret : draws (N:=N) (Col:=Col) (ret tt) [].
Proof. intro c. rewrite adds_nil. reflexivity. Qed.
Lemma draws_emit color x : draws (N:=N) (Col:=Col) (emit color x) [(color, x)].
Proof. intro c. reflexivity. Qed.
Lemma forD_draws {A} (l : list A) (f : A -> D unit) g : (forall a, In a l -> draws (N:=N) (Col:=Col) (f a) (g a)) -> draws (forD l f) (flat_map g l).
Proof.
  induction l as [|a l IH]; intro H; cbn [forD flat_map]; [apply draws_ret|].
  apply draws_seq; [apply H; left; reflexivity|apply IH; intros; apply H; right; assumption].
Qed.
Lemma ax_plot_draws color (xs ys : list N) alpha : length xs = length ys ->
  match alpha with Some a => valid_alpha a = true | None => True end -> draws (Col:=Col) (ax_plot color xs ys alpha) [(color, CPlot xs ys alpha)].
Proof.
  intros H Ha c. unfold ax_plot. rewrite (lift_ok _ _ _ tt); [|rewrite H, Nat.eqb_refl; reflexivity].
  destruct alpha as [a|]; [rewrite Ha|]; reflexivity.
Qed.
Lemma ax_fill_draws color (xs lo up : list N) : length xs = length lo -> length lo = length up -> draws (Col:=Col) (ax_fill color xs lo up) [(color, CFill xs lo up)].
Proof. intros H H' c. unfold ax_fill. rewrite (lift_ok _ _ _ tt); [reflexivity|]. rewrite H, H', Nat.eqb_refl. reflexivity. Qed.
Lemma map2_combine {A B C} (f : A -> B -> C) a b : map2 f a b = map (fun p => f (fst p) (snd p)) (combine a b).
Proof. revert b. induction a as [|x a IH]; intros [|y b]; cbn; [reflexivity..|]. rewrite IH. reflexivity. Qed.
Lemma elementwise_eq (f : N -> N -> N) a b : length a = length b -> elementwise f a b = Ok (map (fun p => f (fst p) (snd p)) (combine a b)).
Proof. intro H. unfold elementwise. rewrite H, Nat.eqb_refl, map2_combine. reflexivity. Qed.
Lemma flat_map_single {A B} (f : A -> B) l : flat_map (fun a => [f a]) l = map f l.
Proof. induction l; cbn; congruence. Qed.
End Monad.

(** ** over the reals *)
Section Real.
Context {Col : Type}.
Local Open Scope R_scope.
Implicit Types x means stds : list RNum.

Lemma shifted_length (means stds : list R) f : length means = length stds -> length (shifted means stds f) = length means.
Proof. intro H. unfold shifted. rewrite map_length, combine_length, H. apply Nat.min_id. Qed.
Lemma down_shifted (means stds : list R) (f : R) : length means = length stds ->
  elementwise (N:=RNum) (fun m s => nsub (n:=RNum) m (nmul (n:=RNum) f s)) means stds = Ok (shifted means stds (- f)).
Proof. intro H. rewrite elementwise_eq by exact H. f_equal. apply map_ext. intros [m s]. cbn. ring. Qed.
Lemma up_shifted (means stds : list R) (f : R) : length means = length stds ->
  elementwise (N:=RNum) (fun m s => nadd (n:=RNum) m (nmul (n:=RNum) f s)) means stds = Ok (shifted means stds f).
Proof. intro H. rewrite elementwise_eq by exact H. f_equal. Qed.

Lemma gradients_draw (color : Col) x means stds steps (mx : R) : length x = length means -> length means = length stds ->
  draws (plot_gradients color x means (Some stds) None steps mx)
    (colored color (map (fun i => band x means stds (INR i / INR steps * mx)) (seq 0 steps))).
Proof.
  intros H1 H2 c. unfold plot_gradients. rewrite (lift_ok _ _ _ stds) by reflexivity.
  rewrite (forD_draws _ _ (fun i => [(color, band x means stds (INR i / INR steps * mx))])).
  - rewrite flat_map_single. unfold colored. rewrite map_map. reflexivity.
  - intros i _ c'. cbv zeta. cbn [nmul ndiv nofZ RNum].
    rewrite (lift_ok _ _ _ _ (down_shifted means stds _ H2)), (lift_ok _ _ _ _ (up_shifted means stds _ H2)).
    rewrite <- !INR_IZR_INZ. apply ax_fill_draws; [exact (eq_trans H1 (eq_sym (shifted_length _ _ _ H2)))|exact (eq_trans (shifted_length _ _ _ H2) (eq_sym (shifted_length _ _ _ H2)))].
Qed.
Lemma gradients_variances (color : Col) x means variances steps mx c :
  plot_gradients color x means None (Some variances) steps mx c = plot_gradients color x means (Some (map sqrt variances)) None steps mx c.
Proof. reflexivity. Qed.

Lemma shifted_mono (means stds : list R) f f' : Forall (fun s => 0 <= s) stds -> f <= f' -> Forall2 Rle (shifted means stds f) (shifted means stds f').
Proof.
  intros Hs Hf. unfold shifted. revert means. induction Hs as [|s stds H Hs IH]; intros [|m means]; cbn; try constructor.
  - nra.
  - apply IH.
Qed.
Lemma bands_nested x means stds steps (mx : R) i j : Forall (fun s => 0 <= s) stds -> 0 <= mx -> (i <= j < steps)%nat ->
  inside (band x means stds (INR i / INR steps * mx)) (band x means stds (INR j / INR steps * mx)).
Proof.
  intros Hs Hm [Hij Hj]. do 5 eexists. split; [reflexivity|]. split; [reflexivity|].
  assert (Hst : 0 < INR steps) by (apply lt_0_INR; lia). assert (Hle : INR i <= INR j) by (apply le_INR; exact Hij).
  assert (Hf : INR i / INR steps * mx <= INR j / INR steps * mx).
  { apply Rmult_le_compat_r; [exact Hm|]. unfold Rdiv. apply Rmult_le_compat_r; [left; apply Rinv_0_lt_compat; exact Hst|exact Hle]. }
  split; apply shifted_mono; try assumption; lra.
Qed.
Lemma factor_below (mx : R) steps i : 0 < mx -> (i < steps)%nat -> INR i / INR steps * mx < mx.
Proof.
  intros Hm Hi. assert (Hst : 0 < INR steps) by (apply lt_0_INR; lia). apply lt_INR in Hi.
  assert (INR i / INR steps < 1) by (apply (Rmult_lt_reg_r (INR steps)); [exact Hst|]; unfold Rdiv; rewrite Rmult_assoc, Rinv_l; lra).
  nra.
Qed.

(** sorting *)
Lemma insert_perm (k : R) l : Permutation (insert (N:=RNum) k l) (k :: l).
Proof. induction l as [|y l IH]; cbn; [reflexivity|]. destruct (Rltb y k); [|reflexivity]. rewrite IH. apply perm_swap. Qed.
Lemma sorted_perm (l : list R) : Permutation (py_sorted (N:=RNum) l) l.
Proof. induction l as [|k l IH]; cbn; [reflexivity|]. rewrite insert_perm. constructor. exact IH. Qed.
Lemma insert_ascending (k : R) l : ascending l -> ascending (insert (N:=RNum) k l).
Proof.
  induction l as [|y l IH]; intro H; cbn; [exact I|]. unfold Rltb. destruct (Rlt_dec y k) as [Hl|Hl].
  - destruct l as [|z l]; cbn in *; [split; [lra|exact I]|]. destruct H as [H1 H2]. specialize (IH H2). revert IH. unfold Rltb. destruct (Rlt_dec z k); intros IH.
    + split; [exact H1|exact IH].
    + split; [lra|exact IH].
  - split; [lra|exact H].
Qed.
Lemma sorted_ascending (l : list R) : ascending (py_sorted (N:=RNum) l).
Proof. induction l as [|k l IH]; cbn; [exact I|]. apply insert_ascending, IH. Qed.
Lemma ascending_tail (k : R) l : ascending (k :: l) -> ascending l.
Proof. destruct l; cbn; tauto. Qed.
Lemma ascending_head (k : R) l : ascending (k :: l) -> Forall (fun y => k <= y) l.
Proof.
  revert k. induction l as [|y l IH]; intros k H; [constructor|]. destruct H as [H1 H2]. constructor; [exact H1|].
  eapply Forall_impl; [|apply IH, H2]. cbn. intros; lra.
Qed.
Lemma ascending_cons (k : R) l : Forall (fun y => k <= y) l -> ascending l -> ascending (k :: l).
Proof. destruct l; cbn; [tauto|]. intros H H'. inversion H; subst. split; assumption. Qed.
Lemma filter_ascending p (l : list R) : ascending l -> ascending (filter p l).
Proof.
  induction l as [|k l IH]; intro H; cbn; [exact I|]. destruct (p k); [|apply IH, (ascending_tail k l H)].
  apply ascending_cons; [|apply IH, (ascending_tail k l H)]. pose proof (ascending_head k l H) as F.
  rewrite Forall_forall in *. intros y Hy. apply F. apply filter_In in Hy. tauto.
Qed.
Lemma Permutation_filter' {A} (p : A -> bool) (l l' : list A) : Permutation l l' -> Permutation (filter p l) (filter p l').
Proof.
  induction 1; cbn; [reflexivity| | |etransitivity; eassumption].
  - destruct (p x); [constructor|]; assumption.
  - destruct (p x), (p y); try reflexivity. apply perm_swap.
Qed.

Lemma one_line (color : Col) x means stds (k : R) : length x = length means -> length means = length stds -> 1/5 <= k ->
  draws (let alpha := nmul (n:=RNum) (ndiv (n:=RNum) n1 k) (tenths 2) in
         bindD (lift (elementwise (N:=RNum) (fun m s => nsub (n:=RNum) m (nmul (n:=RNum) k s)) means stds)) (fun lo =>
         bindD (ax_plot color x lo (Some alpha)) (fun _ =>
         bindD (lift (elementwise (N:=RNum) (fun m s => nadd (n:=RNum) m (nmul (n:=RNum) k s)) means stds)) (fun up => ax_plot color x up (Some alpha)))))
    (colored color (line_pair x means stds k)).
Proof.
  intros H1 H2 Hk c. cbv zeta.
  assert (Ea : nmul (n:=RNum) (ndiv (n:=RNum) n1 k) (tenths 2) = 1 / (5 * k)) by (unfold tenths; cbn; field; lra).
  rewrite Ea. rewrite (lift_ok _ _ _ _ (down_shifted means stds k H2)).
  assert (Va : valid_alpha (N:=RNum) (1 / (5 * k)) = true).
  { unfold valid_alpha. cbn. unfold Rleb. assert (0 <= 1 / (5 * k)) by (unfold Rdiv; rewrite Rmult_1_l; left; apply Rinv_0_lt_compat; lra).
    assert (1 / (5 * k) <= 1) by (apply (Rmult_le_reg_r (5 * k)); [lra|]; unfold Rdiv; rewrite Rmult_assoc, Rinv_l; lra).
    destruct (Rle_dec 0 (1 / (5 * k))), (Rle_dec (1 / (5 * k)) 1); try reflexivity; lra. }
  rewrite (bindD_ok _ _ _ (adds c [(color, CPlot (N:=RNum) x (shifted means stds (- k)) (Some (1 / (5 * k))))]) tt).
  - rewrite (lift_ok _ _ _ _ (up_shifted means stds k H2)).
    rewrite (ax_plot_draws color x (shifted means stds k) (Some (1 / (5 * k))) (eq_trans H1 (eq_sym (shifted_length _ _ _ H2))) Va).
    rewrite adds_adds. reflexivity.
  - apply (ax_plot_draws color x (shifted means stds (- k)) (Some (1 / (5 * k))) (eq_trans H1 (eq_sym (shifted_length _ _ _ H2))) Va).
Qed.
Lemma has_zero_spec (l : list R) : has_zero (N:=RNum) l = true <-> In 0 l.
Proof.
  unfold has_zero. rewrite existsb_exists. split.
  - intros (k & Hk & E). cbn in E. unfold Reqb in E. destruct (Req_EM_T k 0); [subst; exact Hk|discriminate].
  - intro H. exists 0. split; [exact H|]. cbn. unfold Reqb. destruct (Req_EM_T 0 0); [reflexivity|lra].
Qed.
Lemma lines_loop (color : Col) x means stds (ks : list R) : length x = length means -> length means = length stds ->
  (forall k, In k ks -> k = 0 \/ 1/5 <= k) ->
  draws (forD ks (fun k => if neqb (n:=RNum) k n0 then ret tt else
    let alpha := nmul (n:=RNum) (ndiv (n:=RNum) n1 k) (tenths 2) in
    bindD (lift (elementwise (N:=RNum) (fun m s => nsub (n:=RNum) m (nmul (n:=RNum) k s)) means stds)) (fun lo =>
         bindD (ax_plot color x lo (Some alpha)) (fun _ =>
         bindD (lift (elementwise (N:=RNum) (fun m s => nadd (n:=RNum) m (nmul (n:=RNum) k s)) means stds)) (fun up => ax_plot color x up (Some alpha))))))
    (colored color (flat_map (line_pair x means stds) (nonzero ks))).
Proof.
  intros H1 H2 Hk.
  replace (colored color (flat_map (line_pair x means stds) (nonzero ks))) with
    (flat_map (fun k => if Reqb k 0 then [] else colored color (line_pair x means stds k)) ks).
  - apply forD_draws. intros k Hin. change (neqb (n:=RNum) k n0) with (Reqb k 0). unfold Reqb. destruct (Req_EM_T k 0) as [E|E].
    + apply draws_ret.
    + apply one_line; try assumption. destruct (Hk k Hin); [contradiction|assumption].
  - clear Hk. induction ks as [|k ks IH]; [reflexivity|]. cbn [flat_map nonzero filter]. unfold nonzero in IH. rewrite IH. destruct (Reqb k 0); reflexivity.
Qed.
Lemma mean_draws (color : Col) (l : list R) x means : length x = length means ->
  draws (if has_zero (N:=RNum) l then ax_plot color x means (Some (tenths (N:=RNum) 3)) else ret tt) (colored color (mean_line l x means)).
Proof.
  intros H1. unfold mean_line. change (existsb (fun k => Reqb k 0) l) with (has_zero (N:=RNum) l). destruct (has_zero (N:=RNum) l).
  - apply (ax_plot_draws color x means (Some (tenths (N:=RNum) 3)) H1). unfold valid_alpha, tenths. cbn. unfold Rleb. destruct (Rle_dec 0 (3/10)), (Rle_dec (3/10) 1); try reflexivity; lra.
  - apply draws_ret.
Qed.
Lemma lines_draw (color : Col) x means stds (ki : kiter RNum) : length x = length means -> length means = length stds ->
  (forall k, In k (rest_of ki) -> k = 0 \/ 1/5 <= k) ->
  draws (plot_lines color x means (Some stds) None ki)
    (colored color (mean_line (kiter_list ki) x means ++ flat_map (line_pair x means stds) (nonzero (py_sorted (N:=RNum) (rest_of ki))))).
Proof.
  intros H1 H2 Hk c. unfold plot_lines. rewrite (lift_ok _ _ _ stds) by reflexivity. unfold colored. rewrite map_app.
  apply (draws_seq _ (forD _ _)); [apply mean_draws, H1|]. apply lines_loop; try assumption. intros k Hin. apply Hk.
  apply (Permutation_in _ (sorted_perm _) Hin).
Qed.
(** for iterables that can be read again *)
Lemma lines_tuple (color : Col) x means stds (l : list R) : length x = length means -> length means = length stds ->
  (forall k, In k l -> k = 0 \/ 1/5 <= k) ->
  exists ks, Permutation ks (nonzero l) /\ ascending ks /\
    draws (plot_lines color x means (Some stds) None (KTuple (N:=RNum) l)) (colored color (mean_line l x means ++ flat_map (line_pair x means stds) ks)).
Proof.
  intros H1 H2 Hk. exists (nonzero (py_sorted (N:=RNum) l)). split; [apply Permutation_filter', sorted_perm|].
  split; [apply filter_ascending, sorted_ascending|]. apply (lines_draw color x means stds (KTuple (N:=RNum) l)); assumption.
Qed.
(** a small factor *)
Lemma lines_small (color : Col) x means stds (k : R) (c : canvas RNum Col) : length x = length means -> length means = length stds ->
  0 < k < 1/5 -> plot_lines color x means (Some stds) None (KTuple (N:=RNum) [k]) c = (c, Err ValueError).
Proof.
  intros H1 H2 Hk. unfold plot_lines. rewrite (lift_ok _ _ _ stds) by reflexivity.
  assert (Hz : Reqb k 0 = false) by (unfold Reqb; destruct (Req_EM_T k 0); [lra|reflexivity]).
  cbn [kiter_list has_zero existsb rest_of py_sorted fold_right insert forD]. change (neqb (n:=RNum) k n0) with (Reqb k 0). rewrite Hz. cbn [orb].
  rewrite (bindD_ok _ _ c c tt) by reflexivity. apply bindD_err.
  rewrite (lift_ok _ _ _ _ (down_shifted means stds k H2)). apply bindD_err. unfold ax_plot.
  rewrite (lift_ok _ _ _ tt); [|rewrite shifted_length, H1, Nat.eqb_refl by exact H2; reflexivity]. apply lift_err.
  unfold valid_alpha, tenths, guard. cbn. unfold Rleb. assert (1 < 1 / k * (2 / 10)).
  { apply (Rmult_lt_reg_r k); [lra|]. replace (1 / k * (2 / 10) * k) with (1/5) by (field; lra). lra. }
  destruct (Rle_dec (1 / k * (2 / 10)) 1); [lra|]. destruct (Rle_dec 0 _); reflexivity.
Qed.
(** iterators without 0 *)
Lemma lines_iterator (color : Col) x means stds (l : list R) : ~ In 0 l -> draws (plot_lines color x means (Some stds) None (KOnce (N:=RNum) l)) [].
Proof.
  intros H c. unfold plot_lines. rewrite (lift_ok _ _ _ stds) by reflexivity. cbn [kiter_list rest_of].
  assert (E : has_zero (N:=RNum) l = false) by (destruct (has_zero (N:=RNum) l) eqn:E; [apply has_zero_spec in E; contradiction|reflexivity]).
  assert (A : after_zero (N:=RNum) l = []).
  { clear -E. induction l as [|k l IH]; [reflexivity|]. cbn in *. destruct (Reqb k 0); [discriminate|]. apply IH, E. }
  rewrite E, A, adds_nil. reflexivity.
Qed.
Lemma after_zero_app (pre post : list R) : ~ In 0 pre -> after_zero (N:=RNum) (pre ++ 0 :: post) = post.
Proof.
  induction pre as [|k pre IH]; intro H; cbn.
  - unfold Reqb. destruct (Req_EM_T 0 0); [reflexivity|lra].
  - unfold Reqb. destruct (Req_EM_T k 0) as [E|E]; [exfalso; apply H; left; exact E|]. apply IH. intro Hp. apply H. right. exact Hp.
Qed.
Lemma lines_iterator_zero (color : Col) x means stds (pre post : list R) : length x = length means -> length means = length stds ->
  ~ In 0 pre -> (forall k, In k post -> k = 0 \/ 1/5 <= k) ->
  exists ks, Permutation ks (nonzero post) /\ ascending ks /\
    draws (plot_lines color x means (Some stds) None (KOnce (N:=RNum) (pre ++ 0 :: post)))
      (colored color (CPlot (N:=RNum) x means (Some (3/10)) :: flat_map (line_pair x means stds) ks)).
Proof.
  intros H1 H2 Hp Hk. exists (nonzero (py_sorted (N:=RNum) post)). split; [apply Permutation_filter', sorted_perm|].
  split; [apply filter_ascending, sorted_ascending|].
  pose proof (lines_draw color x means stds (KOnce (N:=RNum) (pre ++ 0 :: post)) H1 H2) as L. cbn [rest_of kiter_list] in L. rewrite (after_zero_app pre post Hp) in L.
  specialize (L Hk). unfold mean_line in L. change (existsb (fun k => Reqb k 0) (pre ++ 0 :: post)) with (has_zero (N:=RNum) (pre ++ 0 :: post)) in L. replace (has_zero (N:=RNum) (pre ++ 0 :: post)) with true in L; [exact L|].
  symmetry. apply has_zero_spec. apply in_or_app. right. left. reflexivity.
Qed.
End Real.

(** which of stds and variances is given *)
Section Choice.
Context {N : Num} {Col : Type}.
Lemma confidence_choice (color : Col) (x means s v : list N) steps mx ki (c : canvas N Col) :
  plot_gradients color x means (Some s) (Some v) steps mx c = (c, Err RuntimeError) /\
  plot_gradients color x means None None steps mx c = (c, Err RuntimeError) /\
  plot_lines color x means (Some s) (Some v) ki c = (c, Err RuntimeError) /\
  plot_lines color x means None None ki c = (c, Err RuntimeError) /\
  plot_gradients color x means None (Some v) steps mx c = plot_gradients color x means (Some (map nsqrt v)) None steps mx c /\
  plot_lines color x means None (Some v) ki c = plot_lines color x means (Some (map nsqrt v)) None ki c.
Proof. repeat split. Qed.
End Choice.
