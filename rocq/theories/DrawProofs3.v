(** DrawProofs3.v - samplers, acquisition functions and plot_full_bayesian. *)
From Coq Require Import Reals Lra Psatz.
From Verif Require Import Base Num NumLaws ListLemmas NumpyModel ConfigSpaceModel UtilsModel IceModel PartitionModel ForestModel SamplerModel
  AcquisitionModel PlottingModel PlottingSpec PlottingProofs DrawModel DrawSpec DrawProofs DrawProofs2.
Local Open Scope nat_scope.
Local Open Scope list_scope.

Section Shows.
Context {N : Num} {Col : Type}.
Lemma plots_shows (m : D (N:=N) (Col:=Col) unit) hps b yl l : plots m hps b yl l -> shows m hps yl l.
Proof.
  intros P c Hc. specialize (P c). destruct (axis_raises (cv_axis c) hps b yl) as [_ A]. specialize (A Hc).
  destruct (check_and_set_axis (cv_axis c) hps b yl) as [ax r] eqn:E. cbn [snd] in A. subst r. rewrite P.
  eexists. split; [reflexivity|]. split; [reflexivity|]. cbn [cv_axis]. pose proof (axis_sets _ _ _ _ _ E) as S. unfold conflict.
  destruct hps as [|h1 [|h2 [|h3 t]]]; try tauto. destruct S as (-> & -> & _). intros [_ H]; apply H; reflexivity.
Qed.
Lemma shows_seq (m m' : D (N:=N) (Col:=Col) unit) hps yl l l' : shows m hps yl l -> shows m' hps yl l' -> shows (bindD m (fun _ => m')) hps yl (l ++ l').
Proof.
  intros H H' c Hc. destruct (H c Hc) as (c1 & E1 & D1 & C1). destruct (H' c1 C1) as (c2 & E2 & D2 & C2).
  exists c2. split; [rewrite (bindD_ok _ _ _ _ _ E1); exact E2|]. split; [rewrite D2, D1, app_assoc; reflexivity|exact C2].
Qed.
Lemma draws_shows (m : D (N:=N) (Col:=Col) unit) hps yl l : draws m l -> shows m hps yl l.
Proof. intros H c Hc. exists (adds c l). split; [apply H|]. split; [reflexivity|exact Hc]. Qed.
Lemma shows_lift {A} (r : res A) (k : A -> D (N:=N) (Col:=Col) unit) a hps yl l : r = Ok a -> shows (k a) hps yl l -> shows (bindD (lift r) k) hps yl l.
Proof. intros -> H c Hc. apply (H c Hc). Qed.
Lemma fresh_no_conflict hps yl : ~ conflict (N:=N) fresh_axis hps yl.
Proof. unfold conflict. destruct hps as [|h1 [|h2 [|h3 t]]]; cbn; tauto. Qed.
End Shows.

Section S.
Context {Col : Type}.
Variable argsort : list RNum -> list nat.
Hypothesis Sorts : sorts argsort.

Lemma num_value_spec (c : conf RNum) n v : has_value n c v -> num_value c n = Ok v.
Proof. unfold has_value, num_value. intros ->. reflexivity. Qed.
Lemma mapM_Forall2 {A B} (f : A -> res B) l l' : Forall2 (fun a b => f a = Ok b) l l' -> mapM f l = Ok l'.
Proof. induction 1 as [|a b l l' H _ IH]; [reflexivity|]. cbn [mapM]. rewrite H, IH. reflexivity. Qed.
Lemma Forall2_length' {A B} (P : A -> B -> Prop) l l' : Forall2 P l l' -> length l = length l'.
Proof. induction 1; cbn; congruence. Qed.
Lemma take_order (l : list RNum) order : (forall i, In i order -> i < length l) -> take l order = Ok (map (fun i => nth i l (0%R : RNum)) order).
Proof. intro H. apply mapM_total. intros i Hi. apply py_nth_ok. apply nth_error_nth'. apply H, Hi. Qed.
Lemma combine_seq (x y : list RNum) : length x = length y -> map (fun i => (nth i x (0%R : RNum), nth i y (0%R : RNum))) (seq 0 (length x)) = combine x y.
Proof.
  revert y. induction x as [|a x IH]; intros [|b y] H; cbn in H; try discriminate; [reflexivity|]. cbn [length seq map combine]. f_equal.
  rewrite <- seq_shift, map_map. apply IH. injection H as H. exact H.
Qed.
Lemma combine_maps {A B C} (f : A -> B) (g : A -> C) l : combine (map f l) (map g l) = map (fun a => (f a, g a)) l.
Proof. induction l; cbn; congruence. Qed.
Lemma sorted_points (x y : list RNum) : length x = length y ->
  exists xs ys, take x (argsort x) = Ok xs /\ take y (argsort x) = Ok ys /\ left_to_right (combine x y) xs ys.
Proof.
  intro L. destruct (Sorts x) as [P A].
  assert (B : forall i, In i (argsort x) -> i < length x) by (intros i Hi; apply (Permutation_in _ P), in_seq in Hi; exact (proj2 Hi)).
  do 2 eexists. split; [apply take_order, B|]. split; [apply take_order; intros i Hi; rewrite <- L; apply B, Hi|].
  split; [rewrite !map_length; reflexivity|]. split; [exact A|]. etransitivity; [|rewrite <- (combine_seq x y L); reflexivity].
  rewrite combine_maps. apply Permutation_map, P.
Qed.
Lemma left_length points xs ys : left_to_right points xs ys -> length xs = length ys.
Proof. intros [H _]. exact H. Qed.

(** ** Sampler.plot *)
Lemma sampler_one (color : Col) sel (s : sampler RNum) h xs ys : get_hyperparameters sel (s_cs s) = Ok [h] ->
  Forall2 (has_value (hp_name h)) (s_configs s) xs -> s_ys s = map (fun y : RNum => JNum y) ys -> length (s_configs s) = length (s_ys s) ->
  exists xs' ys', left_to_right (combine xs ys) xs' ys' /\
    plots (sampler_plot argsort color sel s) [h] true "Prediction" [(color, CPlot (N:=RNum) xs' ys' None)].
Proof.
  intros E Hx Hy HL. assert (L : length xs = length ys).
  { rewrite <- (Forall2_length' _ _ _ Hx), HL, Hy, map_length. reflexivity. }
  destruct (sorted_points xs ys L) as (xs' & ys' & T1 & T2 & LR). exists xs', ys'. split; [exact LR|].
  unfold sampler_plot. apply (plots_lift _ _ _ _ _ _ _ E). apply set_axis_draws.
  eapply draws_lift; [apply mapM_Forall2; eapply Forall2_impl'; [|exact Hx]; intros c v; apply num_value_spec|].
  cbv zeta. apply (draws_lift _ _ _ _ T1). apply (draws_lift _ _ ys).
  { rewrite Hy. clear. induction ys as [|y ys IH]; [reflexivity|]. cbn [map mapM jnum bind]. rewrite IH. reflexivity. }
  apply (draws_lift _ _ _ _ T2). apply ax_plot_draws; [apply (left_length _ _ _ LR)|exact I].
Qed.
Lemma sampler_two (color : Col) sel (s : sampler RNum) h1 h2 xs ys : get_hyperparameters sel (s_cs s) = Ok [h1; h2] -> s_configs s <> [] ->
  Forall2 (has_value (hp_name h1)) (s_configs s) xs -> Forall2 (has_value (hp_name h2)) (s_configs s) ys ->
  plots (sampler_plot argsort color sel s) [h1; h2] true "Prediction" [(color, CScatter xs ys)].
Proof.
  intros E Hne Hx Hy. unfold sampler_plot. apply (plots_lift _ _ _ _ _ _ _ E). apply set_axis_draws.
  assert (Q : mapM (fun c => a <- num_value c (hp_name h1) ;; b <- num_value c (hp_name h2) ;; Ok (a, b)) (s_configs s) = Ok (combine xs ys)).
  { revert ys Hy. induction Hx as [|c x cs xs H Hx IH]; intros ys Hy; inversion Hy as [|c' y cs' ys' H' Hy']; subst; [reflexivity|].
    cbn [mapM]. rewrite (num_value_spec _ _ _ H), (num_value_spec _ _ _ H'). cbn [bind]. destruct cs as [|c2 cs].
    - inversion Hx; subst. inversion Hy'; subst. reflexivity.
    - rewrite (IH ltac:(discriminate) ys' Hy'). reflexivity. }
  apply (draws_lift _ _ _ _ Q). assert (L : length xs = length ys) by (rewrite <- (Forall2_length' _ _ _ Hx), <- (Forall2_length' _ _ _ Hy); reflexivity).
  apply (draws_lift _ _ tt).
  - rewrite combine_length, L, Nat.min_id. destruct ys; [|reflexivity]. inversion Hy; subst. exfalso. apply Hne. symmetry. assumption.
  - assert (F : map fst (combine xs ys) = xs /\ map snd (combine xs ys) = ys).
    { clear -L. revert ys L. induction xs as [|x xs IH]; intros [|y ys] L; cbn in *; try discriminate; [auto|]. destruct (IH ys) as [-> ->]; [congruence|auto]. }
    destruct F as [-> ->]. apply draws_emit.
Qed.
Lemma sampler_two_empty (color : Col) sel (s : sampler RNum) h1 h2 : get_hyperparameters sel (s_cs s) = Ok [h1; h2] -> s_configs s = [] ->
  fails (sampler_plot argsort color sel s) [h1; h2] true "Prediction" ValueError.
Proof.
  intros E H. unfold sampler_plot. apply (fails_lift _ _ _ _ _ _ _ E). apply set_axis_errs. rewrite H. apply (errs_lift _ _ []); [reflexivity|]. apply errs_here. reflexivity.
Qed.
Lemma sampler_many (color : Col) sel (s : sampler RNum) hps (c : canvas RNum Col) : get_hyperparameters sel (s_cs s) = Ok hps -> length hps <> 1 -> length hps <> 2 ->
  sampler_plot argsort color sel s c = (c, Err NotImplementedError).
Proof.
  intros E H1 H2. unfold sampler_plot. rewrite (lift_ok _ _ _ _ E). destruct hps as [|h1 [|h2 [|h3 t]]]; cbn in H1, H2; try lia; destruct c; reflexivity.
Qed.

(** ** AcquisitionFunction.plot *)
Lemma acq_one_plot (color color' : Col) (show : bool) (call : xinput RNum -> res (list RNum)) (value : conf RNum -> R) (optimum : drawn RNum -> res (element RNum)) cs sel h l xs d' o n0 v0 rest :
  get_hyperparameters sel cs = Ok [h] -> (forall c, call (XConf c) = Ok [value c : RNum]) -> l <> [] ->
  Forall2 (has_value (hp_name h)) l xs -> optimum d' = Ok (EConf o) -> c_vals o = (n0, VNum v0) :: rest ->
  exists xs' ys', left_to_right (combine xs (map value l)) xs' ys' /\
    plots (acq_plot argsort color color' show call optimum cs sel (DList l) d') [h] true "Acquisition"
      ([(color, CFill (N:=RNum) xs' ys' (map (fun _ => 0%R) ys')); (color, CPlot (N:=RNum) xs' ys' None)] ++
       if show then [(color', CPlot (N:=RNum) [v0] [value o] None)] else []).
Proof.
  intros E Hc Hl Hx Ho Hv. assert (L : length xs = length (map value l)) by (rewrite map_length; symmetry; apply (Forall2_length' _ _ _ Hx)).
  destruct (sorted_points xs (map value l) L) as (xs' & ys' & T1 & T2 & LR). exists xs', ys'. split; [exact LR|].
  unfold acq_plot. apply (plots_lift _ _ _ _ _ _ _ E). apply set_axis_draws.
  apply (draws_lift _ _ (map (fun c => [value c]) l)).
  { cbn [elements]. clear -Hc. induction l as [|c l IH]; [reflexivity|]. cbn [map mapM acq_one]. rewrite Hc, IH. reflexivity. }
  apply (draws_lift _ _ (map (fun x => [x]) xs)).
  { cbn [elements]. clear -Hx. apply mapM_Forall2. induction Hx as [|c x l xs H _ IH]; constructor; [|exact IH]. cbn [mapM element_value]. rewrite (num_value_spec _ _ _ H). reflexivity. }
  apply (draws_lift _ _ _ _ Ho). cbv zeta.
  assert (C1 : concat (map (fun x : RNum => [x]) xs) = xs) by (clear; induction xs as [|q r IH]; [reflexivity|cbn [map concat app]; rewrite IH; reflexivity]).
  assert (C2 : concat (map (fun c => [value c]) l) = map value l) by (clear; induction l as [|q r IH]; [reflexivity|cbn [map concat app]; rewrite IH; reflexivity]).
  rewrite C1. apply (draws_lift _ _ tt).
  { destruct xs; [inversion Hx; subst; contradiction|reflexivity]. }
  apply (draws_lift _ _ _ _ T1). apply (draws_lift _ _ ys'); [etransitivity; [apply (f_equal (fun q => take q (argsort xs))); exact C2|exact T2]|].
  eapply draws_bind; [apply ax_fill_draws; [apply (left_length _ _ _ LR)|rewrite map_length; reflexivity]| |reflexivity].
  eapply draws_bind; [apply ax_plot_draws; [apply (left_length _ _ _ LR)|exact I]| |reflexivity].
  destruct show; [|apply draws_ret]. apply (draws_lift _ _ v0); [unfold first_value; rewrite Hv; reflexivity|].
  apply (draws_lift _ _ [value o]); [apply Hc|]. apply (draws_lift _ _ tt); [reflexivity|]. apply ax_plot_draws; [reflexivity|exact I].
Qed.

(** ** plot_full_bayesian *)
Variable predict : predictor RNum.
Variables mu sd : list R -> R.
Hypothesis pointwise : forall rows : list (list RNum), predict rows = Ok (map mu rows, map sd rows).
Variable call : xinput RNum -> res (list RNum).
Variable value : conf RNum -> R.
Hypothesis call_one : forall c, call (XConf c) = Ok [value c : RNum].
Variable optimum : drawn RNum -> res (element RNum).
Variables blue lightblue red green : Col.

Lemma bayesian_x1 (s : sampler RNum) h xs ys l ls d2 d3 o2 v2 rest o3 v3 : s_cs s = [h] -> hp_name h = "x1"%string -> is_numerical h = true -> sound_bounds h ->
  Forall2 (has_value "x1") (s_configs s) xs -> s_ys s = map (fun y : RNum => JNum y) ys -> length (s_configs s) = length (s_ys s) ->
  l <> [] -> Forall2 (has_value "x1") l ls -> optimum d2 = Ok (EConf o2) -> c_vals o2 = ("x1"%string, VNum v2) :: rest ->
  optimum d3 = Ok (EConf o3) -> has_value "x1" o3 v3 ->
  exists cf ca xs' ys' ls' lv',
    plot_full_bayesian argsort blue lightblue red green predict call optimum s (DList l) d2 d3 = ((cf, ca), Ok tt) /\
    left_to_right (combine xs ys) xs' ys' /\ left_to_right (combine ls (map value l)) ls' lv' /\
    (let x := axis_values 100 h in let m := map (fun u => mu [u]) (positions 100) in let s := map (fun u => sd [u]) (positions 100) in
     cv_drawn cf = [(blue, CPlot (N:=RNum) x m None)] ++
       (colored lightblue (map (fun i => band x m s (INR i / INR 100 * (3/2))) (seq 0 100)) ++ colored blue (line_pair x m s 1 ++ line_pair x m s 2)) ++
       [(red, CPlot (N:=RNum) xs' ys' None)]) /\
    cv_drawn ca = ([(green, CFill (N:=RNum) ls' lv' (map (fun _ => 0%R) lv')); (green, CPlot (N:=RNum) ls' lv' None)] ++
       [(red, CPlot (N:=RNum) [v2] [value o2] None)]) ++ [(red, CPlot (N:=RNum) [0%R] [v3] None)].
Proof.
  intros Ecs Hn Hnum Hs Hx Hy HL Hl Hls Ho2 Hv2 Ho3 Hv3.
  assert (G : get_hyperparameters (SelOne (SName "x1")) (s_cs s) = Ok [h]).
  { rewrite Ecs. cbn. rewrite Hn. reflexivity. }
  rewrite <- Hn in Hx, Hls.
  destruct (sampler_one red (SelOne (SName "x1")) s h xs ys G Hx Hy HL) as (xs' & ys' & LR & P3).
  pose proof G as G'. rewrite Ecs in G'.
  destruct (acq_one_plot green red true call value optimum [h] (SelOne (SName "x1")) h l ls d2 o2 "x1"%string v2 rest G' call_one Hl Hls Ho2 Hv2) as (ls' & lv' & LR' & P4).
  pose proof (surrogate_means1 predict mu sd pointwise blue blue lightblue h 100 Hnum Hs) as P1.
  pose proof (surrogate_confidences1 predict mu sd pointwise blue blue lightblue h 100 Hnum Hs) as P2. cbv zeta in P2.
  destruct (shows_seq _ _ _ _ _ _ (plots_shows _ _ _ _ _ P1) (shows_seq _ _ _ _ _ _ (plots_shows _ _ _ _ _ P2) (plots_shows _ _ _ _ _ P3)) blank (fresh_no_conflict _ _)) as (cf & E1 & D1 & _).
  assert (S4 : shows (bindD (lift (optimum d3)) (fun opt => bindD (lift (element_value opt "x1")) (fun v => ax_plot red [n0 (N:=RNum)] [v] None))) [h] "Acquisition" [(red, CPlot (N:=RNum) [0%R] [v3] None)]).
  { apply (shows_lift _ _ _ _ _ _ Ho3). apply (shows_lift _ _ v3); [apply (num_value_spec _ _ _ Hv3)|]. apply draws_shows. apply ax_plot_draws; [reflexivity|exact I]. }
  destruct (shows_seq _ _ _ _ _ _ (plots_shows _ _ _ _ _ P4) S4 blank (fresh_no_conflict _ _)) as (ca & E2 & D2 & _).
  exists cf, ca, xs', ys', ls', lv'. refine (conj _ (conj LR (conj LR' (conj D1 D2)))).
  unfold plot_full_bayesian. rewrite Ecs. rewrite E1. rewrite E2. reflexivity.
Qed.
Lemma bayesian_two (s : sampler RNum) h1 h2 d1 d2 d3 : s_cs s = [h1; h2] -> hp_name h1 = "x1"%string -> hp_name h2 <> ""%string -> hp_name h2 <> "Prediction"%string ->
  is_numerical h1 = true -> sound_bounds h1 -> is_numerical h2 = true -> sound_bounds h2 ->
  snd (plot_full_bayesian argsort blue lightblue red green predict call optimum s d1 d2 d3) = Err ValueError.
Proof.
  intros Ecs Hn H0 HP Hn1 Hs1 Hn2 Hs2. unfold plot_full_bayesian. rewrite Ecs.
  pose proof (surrogate_2 predict mu sd pointwise false blue blue lightblue h1 h2 100 Hn1 Hs1 Hn2 Hs2) as P1.
  pose proof (surrogate_2 predict mu sd pointwise true blue blue lightblue h1 h2 100 Hn1 Hs1 Hn2 Hs2) as P2.
  assert (L : forall c, ~ conflict (cv_axis c) [h1; h2] "Prediction" -> forall c', surrogate_plot true blue blue lightblue predict [h1; h2] 100 c = (c', Ok tt) ->
    ax_xlabel (cv_axis c') = "x1"%string /\ ax_ylabel (cv_axis c') = hp_name h2).
  { intros c Hc c' E. rewrite (P2 c) in E. destruct (check_and_set_axis (cv_axis c) [h1; h2] true "Prediction") as [ax r] eqn:EA. destruct r as [u|e]; [|discriminate].
    pose proof (f_equal fst E) as Ec. cbn [fst] in Ec. rewrite <- Ec. cbn [cv_axis]. destruct u. pose proof (axis_sets _ _ _ _ _ EA) as (A & B & _). rewrite A, B, Hn. auto. }
  destruct (plots_shows _ _ _ _ _ P1 blank (fresh_no_conflict _ _)) as (c1 & E1 & _ & C1). rewrite (bindD_ok _ _ _ _ _ E1).
  destruct (plots_shows _ _ _ _ _ P2 c1 C1) as (c2 & E2 & _ & _). rewrite (bindD_ok _ _ _ _ _ E2). destruct (L c1 C1 c2 E2) as [LX LY].
  unfold sampler_plot. rewrite (lift_ok _ _ _ [h1]); [|rewrite Ecs; cbn; rewrite Hn; reflexivity].
  assert (SA : set_axis [h1] true "Prediction" c2 = (c2, Err ValueError)).
  { unfold set_axis. rewrite (proj1 (axis_raises (cv_axis c2) [h1] true "Prediction")); [destruct c2; reflexivity|]. right. rewrite LY. auto. }
  rewrite (bindD_err _ _ _ _ _ SA). reflexivity.
Qed.
Lemma bayesian_many (s : sampler RNum) d1 d2 d3 : 3 <= length (s_cs s) ->
  plot_full_bayesian argsort blue lightblue red green predict call optimum s d1 d2 d3 = ((blank, blank), Err AssertionError).
Proof. intro H. unfold plot_full_bayesian. rewrite (bindD_err _ _ _ _ _ (surrogate_many predict false blue blue lightblue (s_cs s) 100 blank H)). reflexivity. Qed.
Lemma bayesian_name (s : sampler RNum) h d1 d2 d3 : s_cs s = [h] -> hp_name h <> "x1"%string -> is_numerical h = true -> sound_bounds h ->
  snd (plot_full_bayesian argsort blue lightblue red green predict call optimum s d1 d2 d3) = Err KeyError.
Proof.
  intros Ecs Hn Hnum Hs. unfold plot_full_bayesian. rewrite Ecs.
  pose proof (surrogate_means1 predict mu sd pointwise blue blue lightblue h 100 Hnum Hs) as P1.
  pose proof (surrogate_confidences1 predict mu sd pointwise blue blue lightblue h 100 Hnum Hs) as P2. cbv zeta in P2.
  destruct (plots_shows _ _ _ _ _ P1 blank (fresh_no_conflict _ _)) as (c1 & E1 & _ & C1). rewrite (bindD_ok _ _ _ _ _ E1).
  destruct (plots_shows _ _ _ _ _ P2 c1 C1) as (c2 & E2 & _ & _). rewrite (bindD_ok _ _ _ _ _ E2).
  unfold sampler_plot. rewrite (lift_err _ _ _ KeyError); [reflexivity|]. rewrite Ecs. cbn. rewrite (proj2 (String.eqb_neq _ _) Hn). reflexivity.
Qed.
End S.

(** an argsort: insertion of the indices *)
Fixpoint put (l : list R) (i : nat) (o : list nat) : list nat :=
  match o with [] => [i] | j :: t => if Rle_dec (nth i l 0%R) (nth j l 0%R) then i :: o else j :: put l i t end.
Definition insertion_argsort (l : list RNum) : list nat := fold_right (put l) [] (seq 0 (length l)).
Lemma put_perm l i o : Permutation (put l i o) (i :: o).
Proof.
  induction o as [|j t IH]; [reflexivity|]. cbn [put]. destruct (Rle_dec _ _); [reflexivity|].
  rewrite IH. apply perm_swap.
Qed.
Lemma put_ascending (l : list R) i o : ascending (map (fun k => nth k l 0%R) o) -> ascending (map (fun k => nth k l 0%R) (put l i o)).
Proof.
  induction o as [|j t IH]; intro A; [exact I|]. cbn [put]. destruct (Rle_dec _ _) as [H|H]; [exact (conj H A)|].
  assert (A' : ascending (map (fun k => nth k l 0%R) t)) by (destruct t; [exact I|exact (proj2 A)]).
  specialize (IH A'). assert (H' : (nth j l 0 <= nth i l 0)%R) by (apply Rlt_le, Rnot_le_lt; exact H).
  destruct t as [|k t]; [exact (conj H' I)|]. cbn [put] in IH |- *.
  destruct (Rle_dec (nth i l 0%R) (nth k l 0%R)); cbn [map] in IH |- *; [exact (conj H' IH)|exact (conj (proj1 A) IH)].
Qed.
Lemma insertion_sorts : sorts insertion_argsort.
Proof.
  intro l. assert (G : forall is, Permutation (fold_right (put l) [] is) is /\ ascending (map (fun i => nth i l 0%R) (fold_right (put l) [] is))).
  { induction is as [|i t [P A]]; [split; [reflexivity|exact I]|].
    cbn [fold_right]. split; [rewrite put_perm; apply perm_skip, P|apply put_ascending, A]. }
  exact (G (seq 0 (length l))).
Qed.

(** ** the star of AcquisitionFunction.plot *)
Lemma star_elsewhere : exists (cs : cspace RNum) sel h l d' o (v : RNum) (call : xinput RNum -> res (list RNum)) (optimum : drawn RNum -> res (element RNum)) c (x y : R),
  get_hyperparameters sel cs = Ok [h] /\ optimum d' = Ok (EConf o) /\ has_value (hp_name h) o v /\
  (forall argsort, sorts argsort -> snd (acq_plot argsort "g"%string "r"%string true call optimum cs sel (DList l) d' blank) = Ok tt /\
     last (cv_drawn (fst (acq_plot argsort "g"%string "r"%string true call optimum cs sel (DList l) d' blank))) (""%string, c) = ("r"%string, CPlot (N:=RNum) [x] [y] None)) /\
  x <> v.
Proof.
  set (o := mkconf (N:=RNum) [(1/10)%R; (2/10)%R] [("a"%string, VNum (1%R : RNum)); ("b"%string, VNum (2%R : RNum))]).
  set (ha := mkhp (N:=RNum) "a" (KFloat (0%R : RNum) (10%R : RNum) false)). set (hb := mkhp (N:=RNum) "b" (KFloat (0%R : RNum) (10%R : RNum) false)).
  exists [ha; hb], (SelOne (SName "b")), hb, [o], (DList [o]), o, (2%R : RNum), (fun _ => Ok [5%R : RNum]), (fun _ => Ok (EConf o)), (CScatter (N:=RNum) [] []), 1%R, 5%R.
  refine (conj eq_refl (conj eq_refl (conj eq_refl (conj _ _)))); [|lra].
  intros argsort HS.
  destruct (acq_one_plot argsort HS "g"%string "r"%string true (fun _ => Ok [5%R : RNum]) (fun _ => 5%R) (fun _ => Ok (EConf o)) [ha; hb] (SelOne (SName "b")) hb [o] [2%R] (DList [o]) o "a"%string 1%R
    [("b"%string, VNum (2%R : RNum))]) as (xs & ys & _ & P).
  - reflexivity.
  - reflexivity.
  - discriminate.
  - repeat constructor.
  - reflexivity.
  - reflexivity.
  - destruct (plots_shows _ _ _ _ _ P blank (fresh_no_conflict _ _)) as (c' & E & D & _). rewrite E. split; [reflexivity|].
    cbn [fst]. rewrite D. reflexivity.
Qed.
