(** DrawProofs2.v - boxes, functions and surrogate models. *)
From Coq Require Import Reals Lra Psatz.
From Verif Require Import Base Num NumLaws ListLemmas NumpyModel ConfigSpaceModel UtilsModel IceModel PartitionModel ForestModel SamplerModel
  AcquisitionModel PlottingModel IceProofs DrawModel DrawSpec DrawProofs.
Local Open Scope nat_scope.
Local Open Scope list_scope.

Section Gen.
Context {N : Num} {Col : Type}.
Local Notation DU := (D (N:=N) (Col:=Col) unit).

Lemma axis_result (ax : axis N) hps b yl : (exists ax', check_and_set_axis ax hps b yl = (ax', Ok tt)) \/ (exists e, check_and_set_axis ax hps b yl = (ax, Err e)).
Proof.
  unfold check_and_set_axis. destruct hps as [|h1 [|h2 [|h3 t]]]; try (left; eexists; reflexivity).
  - destruct (_ && _); [right; eexists; reflexivity|]. destruct (_ && _); [right; eexists; reflexivity|left; eexists; reflexivity].
  - destruct (_ && _); [right; eexists; reflexivity|left; eexists; reflexivity].
Qed.
Lemma set_axis_draws (m : DU) hps b yl l : draws (N:=N) (Col:=Col) m l -> plots (bindD (set_axis hps b yl) (fun _ => m)) hps b yl l.
Proof.
  intros H [ax dr]. unfold bindD, set_axis. cbn [cv_axis cv_drawn].
  destruct (axis_result ax hps b yl) as [[ax' E]|[e E]]; rewrite E; [rewrite H; reflexivity|reflexivity].
Qed.
Definition errs (m : DU) (e : err) : Prop := forall c : canvas N Col, m c = (c, Err e).
Lemma set_axis_errs (m : DU) hps b yl e : errs m e -> fails (bindD (set_axis hps b yl) (fun _ => m)) hps b yl e.
Proof.
  intros H [ax dr]. unfold bindD, set_axis. cbn [cv_axis cv_drawn].
  destruct (axis_result ax hps b yl) as [[ax' E]|[e' E]]; rewrite E; [rewrite H; reflexivity|reflexivity].
Qed.
Lemma draws_lift {A} (r : res A) (k : A -> DU) a l : r = Ok a -> draws (N:=N) (Col:=Col) (k a) l -> draws (bindD (lift r) k) l.
Proof. intros -> H c. apply H. Qed.
Lemma errs_lift {A} (r : res A) (k : A -> DU) a e : r = Ok a -> errs (k a) e -> errs (bindD (lift r) k) e.
Proof. intros -> H c. apply H. Qed.
Lemma errs_here {A} (r : res A) (k : A -> DU) e : r = Err e -> errs (bindD (lift r) k) e.
Proof. intros -> c. reflexivity. Qed.
Lemma draws_bind (m m' : DU) l l' l'' : draws (N:=N) (Col:=Col) m l -> draws m' l' -> l'' = l ++ l' -> draws (bindD m (fun _ => m')) l''.
Proof. intros H H' ->. apply draws_seq; assumption. Qed.
Lemma plots_lift {A} (r : res A) (k : A -> DU) a hps b yl l : r = Ok a -> plots (Col:=Col) (k a) hps b yl l -> plots (bindD (lift r) k) hps b yl l.
Proof. intros -> H c. apply H. Qed.
Lemma fails_lift {A} (r : res A) (k : A -> DU) a hps b yl e : r = Ok a -> fails (Col:=Col) (k a) hps b yl e -> fails (bindD (lift r) k) hps b yl e.
Proof. intros -> H c. apply H. Qed.

(** ** plot_config_space *)
Lemma box1 (color : Col) cs sel (alpha : N) h lo up : get_hyperparameters sel cs = Ok [h] -> is_numerical h = true -> extent h = Some (lo, up) -> valid_alpha alpha = true ->
  plots (plot_config_space color cs sel alpha) [h] false "Prediction" (colored color [CVline lo; CVline up; CVspan lo up alpha]).
Proof.
  intros E Hn He Ha. unfold plot_config_space. apply (plots_lift _ _ _ _ _ _ _ E). apply set_axis_draws.
  assert (B : hp_lower h = Ok lo /\ hp_upper h = Ok up).
  { unfold extent, is_numerical, hp_lower, hp_upper in *. destruct (hp_kind h); try discriminate; injection He as <- <-; auto. }
  destruct B as [B1 B2]. apply (draws_lift _ _ tt); [rewrite Hn; reflexivity|]. apply (draws_lift _ _ lo _ B1). apply (draws_lift _ _ up _ B2).
  eapply draws_bind; [apply draws_emit| |reflexivity]. eapply draws_bind; [apply draws_emit| |reflexivity].
  apply (draws_lift _ _ tt); [rewrite Ha; reflexivity|]. apply draws_emit.
Qed.
Lemma box1_not_numerical (color : Col) cs sel (alpha : N) h : get_hyperparameters sel cs = Ok [h] -> is_numerical h = false ->
  fails (plot_config_space color cs sel alpha) [h] false "Prediction" AssertionError.
Proof.
  intros E Hn. unfold plot_config_space. apply (fails_lift _ _ _ _ _ _ _ E). apply set_axis_errs. apply errs_here. rewrite Hn. reflexivity.
Qed.
Lemma box_other (color : Col) cs sel (alpha : N) hps : get_hyperparameters sel cs = Ok hps -> length hps <> 1 -> length hps <> 2 ->
  forall c, plot_config_space color cs sel alpha c = (c, Err NotImplementedError).
Proof.
  intros E H1 H2 c. unfold plot_config_space. rewrite (lift_ok _ _ _ _ E). destruct hps as [|h1 [|h2 [|h3 t]]]; cbn in H1, H2; try lia; destruct c; reflexivity.
Qed.
Definition is_const (h : hp N) : bool := match hp_kind h with KConst _ => true | _ => false end.
Lemma box_side_eq h alpha : box_side h alpha = match extent h with Some (lo, up) => Ok (lo, up, if is_const h then n1 else alpha) | None => Err TypeError end.
Proof. unfold box_side, extent, is_const, hp_lower, hp_upper. destruct (hp_kind h) as [| | |[]|]; reflexivity. Qed.
Lemma box2 (color : Col) cs sel (alpha : N) h1 h2 x1 x2 y1 y2 : get_hyperparameters sel cs = Ok [h1; h2] ->
  extent h1 = Some (x1, x2) -> extent h2 = Some (y1, y2) ->
  let a := if is_const h1 || is_const h2 then n1 else alpha in valid_alpha a = true ->
  plots (plot_config_space color cs sel alpha) [h1; h2] false "Prediction" (colored color [CRect x1 x2 y1 y2 a]).
Proof.
  intros E H1 H2 a Ha. unfold plot_config_space. apply (plots_lift _ _ _ _ _ _ _ E). apply set_axis_draws.
  eapply draws_lift; [rewrite box_side_eq, H1; reflexivity|]. cbn [fst snd].
  eapply draws_lift; [rewrite box_side_eq, H2; reflexivity|]. cbn [fst snd].
  assert (A : (if is_const h2 then n1 else if is_const h1 then n1 else alpha) = a) by (unfold a; destruct (is_const h1), (is_const h2); reflexivity).
  rewrite A. apply (draws_lift _ _ tt); [rewrite Ha; reflexivity|]. apply draws_emit.
Qed.
Lemma box2_type (color : Col) cs sel (alpha : N) h1 h2 : get_hyperparameters sel cs = Ok [h1; h2] -> extent h1 = None \/ extent h2 = None ->
  fails (plot_config_space color cs sel alpha) [h1; h2] false "Prediction" TypeError.
Proof.
  intros E H. unfold plot_config_space. apply (fails_lift _ _ _ _ _ _ _ E). apply set_axis_errs.
  destruct (extent h1) as [[x1 x2]|] eqn:E1.
  - destruct H as [H|H]; [discriminate|]. eapply errs_lift; [rewrite box_side_eq, E1; reflexivity|]. apply errs_here. rewrite box_side_eq, H. reflexivity.
  - apply errs_here. rewrite box_side_eq, E1. reflexivity.
Qed.

Lemma box_errors (color : Col) cs sel (alpha : N) hps : get_hyperparameters sel cs = Ok hps ->
  match hps with
  | [h] => is_numerical h = false -> fails (plot_config_space color cs sel alpha) hps false "Prediction" AssertionError
  | [h1; h2] => extent h1 = None \/ extent h2 = None -> fails (plot_config_space color cs sel alpha) hps false "Prediction" TypeError
  | _ => forall c, plot_config_space color cs sel alpha c = (c, Err NotImplementedError)
  end.
Proof.
  intro E. destruct hps as [|h1 [|h2 [|h3 t]]].
  - apply (box_other color cs sel alpha [] E); cbn; lia.
  - apply box1_not_numerical, E.
  - apply box2_type, E.
  - apply (box_other color cs sel alpha _ E); cbn; lia.
Qed.

(** ** plot_function *)
Lemma filter_keeps (cs l : list (hp N)) : keeps not_constant cs l -> filter (fun h => negb (is_constant h)) cs = l.
Proof.
  induction 1 as [|a l l' P _ IH|a l l' P _ IH]; cbn; [reflexivity| |]; unfold is_constant at 1; unfold not_constant in P; destruct (hp_kind a); cbn; try rewrite IH; tauto.
Qed.
Lemma constants_spec (cs : cspace N) n v : In (n, v) (constants_of cs) <-> exists h, In h cs /\ hp_name h = n /\ hp_kind h = KConst v.
Proof.
  unfold constants_of. rewrite in_flat_map. split.
  - intros (h & Hh & H). exists h. destruct (hp_kind h) eqn:K; cbn in H; try tauto. destruct H as [H|[]]. injection H as <- <-. auto.
  - intros (h & Hh & <- & K). exists h. rewrite K. cbn. auto.
Qed.
Lemma mapM_total {A B} (f : A -> res B) g l : (forall a, In a l -> f a = Ok (g a)) -> mapM f l = Ok (map g l).
Proof.
  induction l as [|a l IH]; intro H; [reflexivity|]. cbn [mapM map]. rewrite (H a) by (left; reflexivity). cbn. rewrite IH; [reflexivity|].
  intros; apply H; right; assumption.
Qed.
Lemma function1 (color : Col) (f : config N -> res N) cs n p x g : keeps not_constant cs [p] -> get_ranges [p] n false = Ok [x] ->
  (forall v, In v x -> f ((hp_name p, VNum v) :: constants_of cs) = Ok (g v)) ->
  plots (plot_function color f cs n) [p] true "Prediction" [(color, CPlot x (map g x) None)].
Proof.
  intros K R Hf. unfold plot_function. rewrite (filter_keeps _ _ K). apply (plots_lift _ _ tt); [reflexivity|]. apply (plots_lift _ _ tt); [reflexivity|].
  apply (plots_lift _ _ _ _ _ _ _ R). apply (plots_lift _ _ x); [reflexivity|]. apply set_axis_draws.
  apply (draws_lift _ _ (map g x)); [apply mapM_total, Hf|]. apply ax_plot_draws; [rewrite map_length; reflexivity|exact I].
Qed.
Lemma mesh_combine (x y : list N) : combine (mesh_flat_x x y) (mesh_flat_y x y) = flat_map (fun v => map (fun u => (u, v)) x) y.
Proof.
  unfold mesh_flat_x, mesh_flat_y. induction y as [|v y IH]; [reflexivity|]. cbn [map concat flat_map].
  assert (C : forall (a b c d : list N), length a = length b -> combine (a ++ c) (b ++ d) = combine a b ++ combine c d).
  { induction a as [|q a IHa]; intros [|r b] c d Hl; cbn in *; try discriminate; [reflexivity|]. rewrite IHa by congruence. reflexivity. }
  rewrite C by (rewrite repeat_length; reflexivity). rewrite IH. f_equal. clear. induction x as [|u x IH]; [reflexivity|]. cbn. rewrite IH. reflexivity.
Qed.
Lemma grid_reshape (g : N -> N -> N) (x y : list N) :
  reshape2 n0 (map (fun v => g (fst v) (snd v)) (flat_map (fun v => map (fun u => (u, v)) x) y)) (length y) (length x)
    = Ok (map (fun v => map (fun u => g u v) x) y).
Proof.
  rewrite <- (reshape2_concat n0 (map (fun v => map (fun u => g u v) x) y) (length y) (length x)).
  - f_equal. induction y as [|v y IH]; [reflexivity|]. cbn. rewrite map_app, IH, map_map. reflexivity.
  - apply map_length.
  - rewrite Forall_map. apply Forall_forall. intros v _. apply map_length.
Qed.
Lemma ax_mesh_draws (color : Col) (x y : list N) (g : N -> N -> N) :
  draws (ax_mesh color x y (map (fun v => map (fun u => g u v) x) y)) [(color, CMesh x y (map (fun v => map (fun u => g u v) x) y))].
Proof.
  unfold ax_mesh. apply (draws_lift _ _ tt); [|apply draws_emit]. rewrite map_length, Nat.eqb_refl. cbn [andb].
  replace (forallb _ _) with true; [reflexivity|]. symmetry. apply forallb_forall. intros r Hr. apply in_map_iff in Hr. destruct Hr as (v & <- & _).
  rewrite map_length. apply Nat.eqb_refl.
Qed.
Lemma function2 (color : Col) (f : config N -> res N) cs n p q x y (g : N -> N -> N) : keeps not_constant cs [p; q] -> get_ranges [p; q] n false = Ok [x; y] ->
  (forall u v, In u x -> In v y -> f ((hp_name p, VNum u) :: (hp_name q, VNum v) :: constants_of cs) = Ok (g u v)) ->
  plots (plot_function color f cs n) [p; q] true "Prediction" [(color, CMesh x y (map (fun v => map (fun u => g u v) x) y))].
Proof.
  intros K R Hf. unfold plot_function. rewrite (filter_keeps _ _ K). apply (plots_lift _ _ tt); [reflexivity|]. apply (plots_lift _ _ tt); [reflexivity|].
  apply (plots_lift _ _ _ _ _ _ _ R). apply (plots_lift _ _ x); [reflexivity|]. apply set_axis_draws.
  apply (draws_lift _ _ y); [reflexivity|]. rewrite mesh_combine.
  eapply draws_lift; [apply (mapM_total _ (fun v => g (fst v) (snd v)))|].
  - intros [u v] H. apply in_flat_map in H. destruct H as (v' & Hv & H). apply in_map_iff in H. destruct H as (u' & E & Hu). injection E as -> ->. apply Hf; assumption.
  - eapply draws_lift; [apply grid_reshape|]. apply ax_mesh_draws.
Qed.
Lemma function_count (color : Col) (f : config N -> res N) cs n l (c : canvas N Col) : keeps not_constant cs l -> length l = 0 \/ 2 < length l ->
  plot_function color f cs n c = (c, Err ValueError).
Proof.
  intros K H. unfold plot_function. rewrite (filter_keeps _ _ K). destruct l as [|p [|q [|r t]]]; cbn in H; try lia; reflexivity.
Qed.
Lemma mapM_one_error {A B} (f : A -> res B) e l : (forall a, f a = Err e \/ exists b, f a = Ok b) -> Exists (fun a => f a = Err e) l -> mapM f l = Err e.
Proof.
  intros T. induction 1 as [a l H|a l H IH]; cbn [mapM]; [rewrite H; reflexivity|]. destruct (T a) as [->|[b ->]]; [reflexivity|]. cbn. rewrite IH. reflexivity.
Qed.
Lemma ranges_categorical (l : list (hp N)) n : Exists (fun h => is_numerical h = false) l -> get_ranges l n false = Err AssertionError.
Proof.
  intro H. apply mapM_one_error.
  - intro h. unfold is_numerical, hp_log, hp_lower, hp_upper. destruct (hp_kind h) as [? ? lg|? ? lg| | |]; cbn; try (left; reflexivity); right; destruct lg; eexists; reflexivity.
  - eapply Exists_impl; [|exact H]. cbn. intros h ->. reflexivity.
Qed.
Lemma function_categorical (color : Col) (f : config N -> res N) cs n l (c : canvas N Col) : keeps not_constant cs l -> length l = 1 \/ length l = 2 ->
  Exists (fun h => is_numerical h = false) l -> plot_function color f cs n c = (c, Err AssertionError).
Proof.
  intros K H Hc. unfold plot_function. rewrite (filter_keeps _ _ K), (ranges_categorical l n Hc). destruct l as [|p [|q [|r t]]]; cbn in H; try lia; reflexivity.
Qed.
Lemma function_errors (color : Col) (f : config N -> res N) cs n l (c : canvas N Col) : keeps not_constant cs l ->
  (length l = 0 \/ 2 < length l -> plot_function color f cs n c = (c, Err ValueError)) /\
  (length l = 1 \/ length l = 2 -> Exists (fun h => is_numerical h = false) l -> plot_function color f cs n c = (c, Err AssertionError)).
Proof. intro K. split; [apply function_count, K|apply function_categorical, K]. Qed.
End Gen.

(** ** over the reals: axis values *)
From Verif Require Import PartitionSpec RealProofs RealSums UtilsProofs UtilsProofs2.
Section Reals.
Context {Col : Type}.
Local Open Scope R_scope.
Lemma positions_length n : length (positions n) = n.
Proof. unfold positions. rewrite map_length, seq_length. reflexivity. Qed.
Lemma evenly_eq lo up l n : evenly lo up l n -> l = map (fun u => lo + u * (up - lo)) (positions n).
Proof.
  intros [L E]. apply list_eq_nth_error. intro i. destruct (Nat.lt_ge_cases i n) as [Hi|Hi].
  - rewrite E by exact Hi. unfold positions. rewrite map_map, nth_error_map_seq by exact Hi. f_equal. destruct (Nat.eqb n 1); [ring|]. unfold Rdiv. ring.
  - rewrite (proj2 (nth_error_None l i)) by lia. symmetry. apply nth_error_None. rewrite map_length, positions_length. lia.
Qed.
Lemma linspace_positions n : linspace (N:=RNum) 0 1 n = positions n.
Proof.
  rewrite (evenly_eq _ _ _ _ (linspace_R 0 1 n)). rewrite <- (map_id (positions n)) at 2. apply map_ext. intro. ring.
Qed.
Lemma original_is h lo up lg u : hp_is h lo up lg -> original h u = on_axis lo up lg u.
Proof. unfold original. intros [->|(l & u' & -> & -> & ->)]; reflexivity. Qed.
Lemma numerical_is h : is_numerical h = true -> exists lo up lg, hp_is h lo up lg.
Proof.
  unfold is_numerical, hp_is. destruct (hp_kind h) as [lo up lg|lo up lg| | |] eqn:E; try discriminate; intros _.
  - exists lo, up, lg. left. reflexivity.
  - exists (IZR lo), (IZR up), lg. right. eauto.
Qed.
Lemma sound_good h lo up lg : sound_bounds h -> hp_is h lo up lg -> good_bounds lo up lg.
Proof. unfold sound_bounds, good_bounds. intros S [E|(l & u & E & -> & ->)]; rewrite E in S; exact S. Qed.
Lemma sound_all (cs : cspace RNum) : Forall sound_bounds cs -> bounds_good cs.
Proof.
  intros S h lo up lg Hin E1 E2 E3. rewrite Forall_forall in S. specialize (S h Hin). unfold sound_bounds, hp_lower, hp_upper, hp_log in *.
  destruct (hp_kind h); try discriminate; inversion E1; inversion E2; inversion E3; subst; exact S.
Qed.
Lemma range_is h n (lo up : R) lg l : good_bounds lo up lg -> hp_is h lo up lg ->
  (if lg then evenly (ln lo) (ln up) (on_log_axis l) n else evenly lo up l n) -> (lg = true -> Forall (fun x => 0 < x) l) -> l = axis_values n h.
Proof.
  intros G Hi E P. unfold axis_values. destruct lg.
  - apply evenly_eq in E. unfold on_log_axis in E. specialize (P eq_refl).
    assert (L : map exp (map ln l) = l). { clear -P. induction P as [|x l H _ IH]; [reflexivity|]. cbn. rewrite exp_ln by exact H. rewrite IH. reflexivity. }
    rewrite <- L, E, map_map. apply map_ext. intro u. rewrite (original_is h _ _ _ u Hi). reflexivity.
  - rewrite (evenly_eq _ _ _ _ E). apply map_ext. intro u. rewrite (original_is h _ _ _ u Hi). reflexivity.
Qed.
Lemma ranges_values (hps : list (hp RNum)) n : Forall (fun h => is_numerical h = true) hps -> Forall sound_bounds hps ->
  get_ranges hps n false = Ok (map (axis_values n) hps).
Proof.
  intros Hn Hs. apply mapM_total. intros h Hin. rewrite Forall_forall in Hn, Hs. specialize (Hn h Hin). specialize (Hs h Hin).
  rewrite Hn. cbn [guard bind]. destruct (numerical_is h Hn) as (lo & up & lg & Hi). pose proof (sound_good h lo up lg Hs Hi) as G.
  pose proof (ranges_spec [h] n false) as S. unfold get_ranges in S. cbn [mapM] in S. rewrite Hn in S.
  destruct (hp_is_fields h lo up lg Hi) as (E1 & E2 & E3). rewrite E1, E2, E3 in *. cbn [guard bind] in *.
  destruct lg; specialize (S _ eq_refl); inversion S as [|? ? ? ? S1 _]; subst; destruct S1 as (_ & _ & S1); specialize (S1 lo up _ Hi G); destruct S1 as (S1 & _); apply f_equal.
  - apply (range_is h n lo up true); try assumption. intros _. apply Forall_forall. intros x Hx. unfold logspace in Hx. apply in_map_iff in Hx. destruct Hx as (w & <- & _). apply exp_pos.
  - apply (range_is h n lo up false); try assumption. discriminate.
Qed.
Lemma function1_R (color : Col) (f : config RNum -> res RNum) cs n p (g : R -> R) : keeps not_constant cs [p] -> is_numerical p = true -> sound_bounds p ->
  (forall v : R, f ((hp_name p, VNum (v : RNum)) :: constants_of cs) = Ok (g v : RNum)) ->
  plots (plot_function color f cs n) [p] true "Prediction" [(color, CPlot (axis_values n p) (map g (axis_values n p)) None)].
Proof.
  intros K Hn Hs Hf. apply (function1 (N:=RNum) color f cs n p (axis_values n p) g K); [|intros v _; apply Hf].
  apply (ranges_values [p] n); repeat constructor; assumption.
Qed.
Lemma function2_R (color : Col) (f : config RNum -> res RNum) cs n p q (g : R -> R -> R) : keeps not_constant cs [p; q] ->
  is_numerical p = true -> sound_bounds p -> is_numerical q = true -> sound_bounds q ->
  (forall u v : R, f ((hp_name p, VNum (u : RNum)) :: (hp_name q, VNum (v : RNum)) :: constants_of cs) = Ok (g u v : RNum)) ->
  plots (plot_function color f cs n) [p; q] true "Prediction" [(color, CMesh (axis_values n p) (axis_values n q) (table g (axis_values n p) (axis_values n q)))].
Proof.
  intros K Hn Hs Hn' Hs' Hf. apply (function2 (N:=RNum) color f cs n p q (axis_values n p) (axis_values n q) g K); [|intros u v _ _; apply Hf].
  apply (ranges_values [p; q] n); repeat constructor; assumption.
Qed.

(** ** surrogate models *)
Lemma nth_map_lt {A B} (f : A -> B) l i d d' : (i < length l)%nat -> nth i (map f l) d' = f (nth i l d).
Proof. intro H. rewrite (nth_indep _ d' (f d)) by (rewrite map_length; exact H). apply map_nth. Qed.
Lemma entry_xx (l : list RNum) a b : (a < length l)%nat -> entry (N:=RNum) (mesh_xx l) a b = nth b l (0 : RNum).
Proof. intro H. unfold entry, mesh_xx. rewrite (nth_map_lt _ l a (0 : RNum)) by exact H. reflexivity. Qed.
Lemma entry_yy (l : list RNum) a b : (a < length l)%nat -> (b < length l)%nat -> entry (N:=RNum) (mesh_yy l) a b = nth a l (0 : RNum).
Proof. intros H H'. unfold entry, mesh_yy. rewrite (nth_map_lt _ l a (0 : RNum)) by exact H. apply (nth_map_lt (fun _ => nth a l (0 : RNum)) l b (0 : RNum) _ H'). Qed.
Lemma map_via_seq {A} (f : R -> A) (l : list R) : map f l = map (fun i => f (nth i l 0)) (seq 0 (length l)).
Proof.
  apply list_eq_nth_error. intro i. rewrite nth_error_map. destruct (Nat.lt_ge_cases i (length l)) as [H|H].
  - rewrite nth_error_map_seq by exact H. rewrite (nth_error_nth' l 0 H). reflexivity.
  - rewrite (proj2 (nth_error_None l i)) by lia. symmetry. apply nth_error_None. rewrite map_length, seq_length. lia.
Qed.
Lemma mesh_rows_eq (l : list R) : mesh_rows (N:=RNum) l = flat_map (fun x => map (fun y => [x; y]) l) l.
Proof.
  unfold mesh_rows. rewrite !flat_map_concat_map. f_equal. rewrite (map_via_seq (fun x => map (fun y => [x; y]) l) l). apply map_ext_in. intros b Hb. apply in_seq in Hb.
  rewrite (map_via_seq (fun y => [nth b l 0; y]) l). apply map_ext_in. intros a Ha. apply in_seq in Ha.
  rewrite entry_xx by (apply Ha). rewrite entry_yy by (apply Ha || apply Hb). reflexivity.
Qed.
Lemma transpose_table (g : R -> R -> R) (l : list R) : transpose_sq (N:=RNum) (length l) (map (fun x => map (fun y => g x y) l) l) = table g l l.
Proof.
  unfold transpose_sq, table. rewrite (map_via_seq (fun y => map (fun x => g x y) l) l). apply map_ext_in. intros i Hi. apply in_seq in Hi.
  rewrite (map_via_seq (fun x => g x (nth i l 0)) l). apply map_ext_in. intros j Hj. apply in_seq in Hj.
  unfold entry. rewrite (nth_map_lt _ l j 0) by apply Hj. rewrite (nth_map_lt _ l i 0) by apply Hi. reflexivity.
Qed.
Variable predict : predictor RNum.
Variables mu sd : list R -> R.
Hypothesis pointwise : forall rows : list (list RNum), predict rows = Ok (map mu rows, map sd rows).
Lemma surrogate_means1 (color lc gc : Col) h n : is_numerical h = true -> sound_bounds h ->
  plots (surrogate_plot false color lc gc predict [h] n) [h] true "Prediction" [(color, CPlot (axis_values n h) (map (fun u => mu [u]) (positions n)) None)].
Proof.
  intros Hn Hs. unfold surrogate_plot. apply (plots_lift _ _ tt); [reflexivity|]. apply set_axis_draws.
  eapply draws_lift; [apply (ranges_values [h] n); repeat constructor; assumption|]. rewrite linspace_positions, pointwise.
  eapply draws_lift; [reflexivity|]. apply (draws_lift _ _ (axis_values n h)); [reflexivity|]. cbn [fst]. rewrite map_map. unfold plot_line.
  apply ax_plot_draws; [|exact I]. unfold axis_values. rewrite !map_length. reflexivity.
Qed.
Lemma surrogate_2 (std : bool) (color lc gc : Col) h h' n : is_numerical h = true -> sound_bounds h -> is_numerical h' = true -> sound_bounds h' ->
  plots (surrogate_plot std color lc gc predict [h; h'] n) [h; h'] true "Prediction"
    [(color, CMesh (axis_values n h) (axis_values n h') (table (fun u v => (if std then sd else mu) [u; v]) (positions n) (positions n)))].
Proof.
  intros Hn Hs Hn' Hs'. unfold surrogate_plot. apply (plots_lift _ _ tt); [reflexivity|]. apply set_axis_draws.
  eapply draws_lift; [apply (ranges_values [h; h'] n); repeat constructor; assumption|]. rewrite linspace_positions, pointwise.
  apply (draws_lift _ _ (axis_values n h)); [reflexivity|]. apply (draws_lift _ _ (axis_values n h')); [reflexivity|].
  eapply draws_lift; [reflexivity|]. cbn [fst snd].
  set (m := if std then sd else mu).
  assert (Z : reshape2 (n0 (N:=RNum)) (if std then map sd (mesh_rows (N:=RNum) (positions n)) else map mu (mesh_rows (N:=RNum) (positions n))) (length (positions n)) (length (positions n))
    = Ok (map (fun x => map (fun y => m [x; y]) (positions n)) (positions n))).
  { etransitivity; [|apply (reshape2_concat (n0 (N:=RNum)) (map (fun x => map (fun y => m [x; y]) (positions n)) (positions n)))].
    - apply (f_equal (fun q => reshape2 (n0 (N:=RNum)) q (length (positions n)) (length (positions n)))).
      transitivity (map m (mesh_rows (N:=RNum) (positions n))); [unfold m; destruct std; reflexivity|].
      rewrite mesh_rows_eq. rewrite flat_map_concat_map, concat_map, !map_map. apply f_equal. apply map_ext. intro x. rewrite map_map. reflexivity.
    - apply map_length.
    - rewrite Forall_map. apply Forall_forall. intros v _. apply map_length. }
  eapply draws_lift; [exact Z|]. rewrite (transpose_table (fun x y => m [x; y])).
  unfold ax_mesh. apply (draws_lift _ _ tt); [|apply draws_emit]. unfold axis_values, table. rewrite !map_length, Nat.eqb_refl. cbn [andb].
  replace (forallb _ _) with true; [reflexivity|]. symmetry. apply forallb_forall. intros r Hr. apply in_map_iff in Hr. destruct Hr as (v & <- & _).
  rewrite map_length. apply Nat.eqb_refl.
Qed.
Lemma positive_factors : forall k, In k [1; 2] -> k = 0 \/ 1/5 <= k.
Proof. intros k [<-|[<-|[]]]; right; lra. Qed.
Lemma default_lines (color : Col) (x means stds : list RNum) : length x = length means -> length means = length stds ->
  draws (plot_lines color x means (Some stds) None (KTuple (N:=RNum) [1; 2])) (colored color (line_pair x means stds 1 ++ line_pair x means stds 2)).
Proof.
  intros H1 H2. pose proof (lines_draw color x means stds (KTuple (N:=RNum) [1; 2]) H1 H2 positive_factors) as L.
  cbn [kiter_list rest_of] in L. unfold mean_line in L.
  assert (E1 : Reqb 1 0 = false) by (unfold Reqb; destruct (Req_EM_T 1 0); [lra|reflexivity]).
  assert (E2 : Reqb 2 0 = false) by (unfold Reqb; destruct (Req_EM_T 2 0); [lra|reflexivity]).
  assert (E3 : Rltb 2 1 = false) by (unfold Rltb; destruct (Rlt_dec 2 1); [lra|reflexivity]).
  cbn in L. unfold nonzero in L. rewrite E3 in L. cbn in L. rewrite E1, E2 in L. exact L.
Qed.
Lemma surrogate_confidences1 (color lc gc : Col) h n : is_numerical h = true -> sound_bounds h ->
  let x := axis_values n h in let m := map (fun u => mu [u]) (positions n) in let s := map (fun u => sd [u]) (positions n) in
  plots (surrogate_plot true color lc gc predict [h] n) [h] true "Prediction"
    (colored gc (map (fun i => band x m s (INR i / INR 100 * (3/2))) (seq 0 100)) ++ colored lc (line_pair x m s 1 ++ line_pair x m s 2)).
Proof.
  intros Hn Hs x m s. unfold surrogate_plot. apply (plots_lift _ _ tt); [reflexivity|]. apply set_axis_draws.
  eapply draws_lift; [apply (ranges_values [h] n); repeat constructor; assumption|]. rewrite linspace_positions, pointwise.
  eapply draws_lift; [reflexivity|]. apply (draws_lift _ _ x); [reflexivity|]. cbn [fst snd]. rewrite !map_map.
  assert (L1 : length x = length m) by (unfold x, m, axis_values; rewrite !map_length; reflexivity).
  assert (L2 : length m = length s) by (unfold s, m; rewrite !map_length; reflexivity).
  apply draws_seq; [apply (gradients_draw gc x m s 100 (3/2) L1 L2)|apply (default_lines lc x m s L1 L2)].
Qed.
Lemma surrogate_many (std : bool) (color lc gc : Col) cs n (c : canvas RNum Col) : (3 <= length cs)%nat -> surrogate_plot std color lc gc predict cs n c = (c, Err AssertionError).
Proof.
  intro H. unfold surrogate_plot. replace (Nat.ltb (length cs) 3) with false; [reflexivity|]. symmetry. apply Nat.ltb_ge. exact H.
Qed.
End Reals.

(** ** plot_config_space over the reals *)
Section Boxes.
Context {Col : Type}.
Local Open Scope R_scope.
Lemma valid_alpha_R (a : R) : 0 <= a <= 1 -> valid_alpha (N:=RNum) a = true.
Proof. intros H. unfold valid_alpha. cbn. unfold Rleb. destruct (Rle_dec 0 a), (Rle_dec a 1); try reflexivity; lra. Qed.
Lemma box1_R (color : Col) cs sel (alpha : RNum) h lo up : get_hyperparameters sel cs = Ok [h] -> is_numerical h = true -> extent h = Some (lo, up) -> 0 <= alpha <= 1 ->
  plots (plot_config_space color cs sel alpha) [h] false "Prediction" (colored color [CVline lo; CVline up; CVspan lo up alpha]).
Proof. intros. apply box1; try assumption. apply valid_alpha_R. assumption. Qed.
Lemma box2_R (color : Col) cs sel (alpha : RNum) h1 h2 x1 x2 y1 y2 : get_hyperparameters sel cs = Ok [h1; h2] ->
  extent h1 = Some (x1, x2) -> extent h2 = Some (y1, y2) -> 0 <= alpha <= 1 ->
  exists a : RNum, (not_constant h1 /\ not_constant h2 -> a = alpha) /\ (~ (not_constant h1 /\ not_constant h2) -> a = 1) /\
    plots (plot_config_space color cs sel alpha) [h1; h2] false "Prediction" (colored color [CRect x1 x2 y1 y2 a]).
Proof.
  intros E H1 H2 Ha. exists (if is_const h1 || is_const h2 then 1 else alpha).
  assert (K : forall h : hp RNum, (is_const h = true -> ~ not_constant h) /\ (is_const h = false -> not_constant h)).
  { intro h. unfold is_const, not_constant. destruct (hp_kind h); split; try discriminate; tauto. }
  destruct (K h1) as [A1 B1], (K h2) as [A2 B2]. refine (conj _ (conj _ _)).
  - intros [N1 N2]. destruct (is_const h1); [exfalso; apply A1; auto|]. destruct (is_const h2); [exfalso; apply A2; auto|]. reflexivity.
  - intro Hn. destruct (is_const h1); [reflexivity|]. destruct (is_const h2); [reflexivity|]. exfalso. apply Hn. auto.
  - apply (box2 (N:=RNum)); try assumption. apply (valid_alpha_R (if is_const h1 || is_const h2 then 1 else alpha)). destruct (_ || _); lra.
Qed.
(** an alpha outside 0..1 *)
Lemma box1_alpha (color : Col) cs sel (alpha : RNum) h lo up (c : canvas RNum Col) : get_hyperparameters sel cs = Ok [h] -> is_numerical h = true -> extent h = Some (lo, up) ->
  ~ (0 <= alpha <= 1) -> snd (check_and_set_axis (cv_axis c) [h] false "Prediction") = Ok tt -> snd (plot_config_space color cs sel alpha c) = Err ValueError.
Proof.
  intros E Hn He Ha Hx. unfold plot_config_space. rewrite (lift_ok _ _ _ _ E). unfold set_axis. unfold bindD at 1.
  destruct (check_and_set_axis (cv_axis c) [h] false "Prediction") as [ax r]. cbn [snd] in Hx. rewrite Hx.
  assert (B : hp_lower h = Ok lo /\ hp_upper h = Ok up).
  { unfold extent, is_numerical, hp_lower, hp_upper in *. destruct (hp_kind h); try discriminate; injection He as <- <-; auto. }
  destruct B as [B1 B2]. rewrite Hn, B1, B2. cbn. assert (V : valid_alpha (N:=RNum) alpha = false).
  { unfold valid_alpha. cbn. unfold Rleb. destruct (Rle_dec 0 alpha), (Rle_dec alpha 1); try reflexivity; lra. }
  rewrite V. reflexivity.
Qed.
End Boxes.
