(** SamplerProofs4.v - grid samplers (C34, C42), origin of the configurations, replay (C38, C41), random streams (C63). *)
From Verif Require Import Base Num NumLaws NumpyModel ConfigSpaceModel SamplerModel SamplerSpec ListLemmas SamplerProofs SamplerProofs2 SamplerProofs3.
From Coq Require Import Permutation FinFun.
Local Open Scope nat_scope.
Local Open Scope list_scope.

(** ** shuffling *)
Lemma swap_perm {A} i j (l : list A) : Permutation l (swap i j l).
Proof.
  unfold swap. destruct (nth_error l i) as [a|] eqn:Ei; [|reflexivity]. destruct (nth_error l j) as [b|] eqn:Ej; [|reflexivity].
  pose proof (nth_error_Some_lt _ _ _ Ei) as Li. pose proof (nth_error_Some_lt _ _ _ Ej) as Lj.
  apply Permutation_nth_error. split; [rewrite !set_nth_length; reflexivity|].
  exists (fun n => if Nat.eqb n i then j else if Nat.eqb n j then i else n). split.
  - intros x y. destruct (Nat.eqb_spec x i), (Nat.eqb_spec y i), (Nat.eqb_spec x j), (Nat.eqb_spec y j); subst; congruence.
  - intro n. destruct (Nat.eqb_spec n i) as [->|Hi].
    + rewrite nth_error_set_nth_eq by (rewrite set_nth_length; exact Li). congruence.
    + rewrite nth_error_set_nth_neq by congruence. destruct (Nat.eqb_spec n j) as [->|Hj]; [rewrite nth_error_set_nth_eq by exact Lj; congruence|].
      rewrite nth_error_set_nth_neq by congruence. reflexivity.
Qed.

Section P.
Context {N : Num}.
Implicit Types (s : sampler N).
Variable w : world N.

Lemma shuffle_from_perm {A} i : forall pos (l : list A), Permutation l (shuffle_from w i pos l).
Proof. induction i as [|i IH]; intros pos l; cbn [shuffle_from]; [reflexivity|]. eapply Permutation_trans; [apply swap_perm|apply IH]. Qed.
Lemma shuffle_perm {A} pos (l : list A) : Permutation l (shuffle w pos l).
Proof. apply shuffle_from_perm. Qed.

(** ** grid samplers: an invariant *)
Section GridInv.
Variable P : sampler N -> Prop.
Hypothesis P_grid : forall s g p, P s -> grid_product w (s_cs s) (w_steps w p (length (s_cs s))) = Ok g ->
  P (set_grid (Some (shuffle w (s_rpos s) g)) (s_rpos s + length g) s).
Hypothesis P_tail : forall s c g, P s -> s_grid s = Some (c :: g) -> P (set_grid (Some g) (s_rpos s) s).
Hypothesis P_point : forall s c g, P s -> s_cache s = [] -> s_grid s = Some (c :: g) -> existsb (conf_eqb c) (s_configs s) = false ->
  let r := w_obj w (s_calls s) (c_vals c) in
  let s1 := log (EObj c r) (set_calls (S (s_calls s)) (set_points (s_configs s ++ [c]) (s_ys s) (set_grid (Some g) (s_rpos s) s))) in
  match r with Ok y => P (set_points (s_configs s ++ [c]) (s_ys s ++ [y]) s1) | Err e => P s1 end.
Hypothesis P_replay : forall s c y t, P s -> s_cache s = (c, y) :: t -> P (set_points (s_configs s ++ [c]) (s_ys s ++ [y]) (set_cache t s)).
Hypothesis P_drop : forall s, P s -> P (set_cache [] s).

Lemma grid_loop_inv fuel : forall e s, s_cache s = [] -> P s -> P (fst (grid_loop w fuel e s)).
Proof.
  induction fuel as [|fuel IH]; intros e s C H; cbn [grid_loop]; destruct (e <=? slen s); try exact H. destruct (s_grid s) as [[|c g]|] eqn:Eg; try exact H.
  destruct (existsb _ _) eqn:Ex.
  - apply IH; [exact C|]. apply P_tail with c; assumption.
  - unfold bindM, upd, call_obj. cbn [s_calls set_grid set_points set_calls s_configs s_ys log]. pose proof (P_point s c g H C Eg Ex) as K. cbv zeta in K.
    destruct (w_obj _ _ _) as [y|er]; [|exact K]. apply IH; [exact C|exact K].
Qed.
Lemma make_grid_inv e s : P s -> P (fst (make_grid w e s)).
Proof.
  intro H. unfold make_grid. pose proof (P_grid s) as HG. destruct (s_cs s) as [|h t] eqn:Ec; [exact H|].
  destruct (grid_product _ _ _) as [g|er] eqn:Eg; [|exact H]. apply (HG g e); assumption.
Qed.
Lemma make_grid_cache e s : s_cache (fst (make_grid w e s)) = s_cache s.
Proof. unfold make_grid. destruct (s_cs s); [reflexivity|]. destruct (grid_product _ _ _); reflexivity. Qed.
Lemma grid_sample_inv n s : s_cache s = [] -> P s -> P (fst (grid_sample w n s)).
Proof.
  intros C H. unfold grid_sample. set (m := match s_grid s with None => _ | Some g => _ end).
  assert (HM : P (fst (m s)) /\ s_cache (fst (m s)) = []).
  { unfold m. destruct (s_grid s); [destruct (_ <? _); [|exact (conj H C)]|]; (split; [apply make_grid_inv, H|rewrite make_grid_cache; exact C]). }
  unfold bindM at 1. destruct (m s) as [s1 [u|e]]; [|exact (proj1 HM)]. unfold bindM, get. apply grid_loop_inv; apply HM.
Qed.
Lemma grid_replay_inv n : forall s, P s -> P (fst (replay n s)).
Proof.
  induction n as [|n IH]; intros s H; cbn [replay]; [exact H|]. destruct (s_cache s) as [|[c y] t] eqn:E; [exact H|].
  specialize (IH _ (P_replay s c y t H E)). unfold bindM, append, upd, ret. cbn [s_configs s_ys set_cache].
  destruct (replay n _) as [s' [k|e]]; exact IH.
Qed.
Lemma grid_op_inv n s : s_kind s = KGrid -> P s -> P (fst (sample w n s)).
Proof.
  intros K H. unfold sample. rewrite K.
  assert (E : P (fst (sample_base w n s))).
  { unfold sample_base. rewrite K. destruct (Nat.ltb_spec (length (s_cache s)) (slen s + n)) as [Hd|Hd].
    - unfold bindM. assert (R : replay n (set_cache [] s) = (set_cache [] s, Ok 0)) by (destruct n; reflexivity). rewrite R.
      destruct (0 <? n); [|apply P_drop, H]. cbn [sample_new]. apply grid_sample_inv; [reflexivity|apply P_drop, H].
    - pose proof (grid_replay_inv n s H) as R. unfold bindM. rewrite replay_all in * by lia. cbn beta iota. rewrite Nat.ltb_irrefl. exact R. }
  unfold bindM. destruct (sample_base w n s) as [s' [u|e]]; exact E.
Qed.
Hypothesis P_reset : forall s, P s -> P (set_points [] [] s).
Lemma grid_run_inv ops : forall s, s_kind s = KGrid -> P s -> P (fst (srun w ops s)).
Proof.
  induction ops as [|op ops IH]; intros s K H; [exact H|]. cbn [srun].
  assert (H1 : P (fst (sstep w op s))).
  { destruct op; cbn [sstep]; [apply grid_op_inv; assumption|apply P_reset, H|apply P_drop, H|rewrite K; exact H]. }
  pose proof (stat_step w op s) as St. destruct (sstep w op s) as [s1 r]. unfold static in St. cbn in St, H1. injection St as K1 _ _ _.
  specialize (IH s1 ltac:(congruence) H1). destruct (srun w ops s1). exact IH.
Qed.
End GridInv.

(** ** C34 *)
Section GridPair.
Variable init : list (conf N * json N).
Definition gpair s : Prop := incl (s_cache s) init /\
  (obj_failures (s_trace s) = 0 -> Forall2 (pair_ok w init (s_calls s)) (s_configs s) (s_ys s)).
Lemma gpair_run ops s : s_kind s = KGrid -> gpair s -> gpair (fst (srun w ops s)).
Proof.
  apply grid_run_inv.
  - intros s0 g p H _. exact H.
  - intros s0 c g H _. exact H.
  - intros s0 c g [H1 H2] C _ _. cbv zeta. destruct (w_obj w (s_calls s0) (c_vals c)) as [y|e] eqn:E.
    + split; [exact H1|]. cbn. intro Z. apply Forall2_app.
      * eapply F2_impl; [|exact (H2 Z)]. intros a b K. eapply pair_mono; [exact K|lia].
      * constructor; [|constructor]. left. exists (s_calls s0). split; [lia|exact E].
    + split; [exact H1|]. cbn. discriminate.
  - intros s0 c y t [H1 H2] E. rewrite E in H1. split; [intros x Hx; apply H1; right; exact Hx|]. cbn. intro Z. apply Forall2_app; [exact (H2 Z)|].
    constructor; [|constructor]. right. apply H1. left; reflexivity.
  - intros s0 [H1 H2]. split; [intros x Hx; destruct Hx|exact H2].
  - intros s0 [H1 H2]. split; [exact H1|]. intro. constructor.
Qed.
End GridPair.
Theorem grid_paired fs s : sreaches w fs s -> s_kind s = KGrid -> obj_failures (s_trace s) = 0 ->
  length (s_ys s) = length (s_configs s) /\ Forall2 (came_from w fs s) (s_configs s) (s_ys s).
Proof.
  intros (k & cs & mn & key & ops & ->) HK. set (s0 := sampler_new w k cs mn key fs) in *.
  pose proof (stat_run w ops s0) as Hst. unfold static in Hst. injection Hst as E1 E2 E3 E4. intro Z.
  assert (H : gpair (load_cache w cs (fs key)) (fst (srun w ops s0))).
  { apply gpair_run; [exact (eq_trans (eq_sym E1) HK)|]. split; [intros x Hx; exact Hx|intro; constructor]. }
  destruct H as [_ H]. specialize (H Z). split; [symmetry; eapply Forall2_length; exact H|]. unfold came_from. rewrite E2, E4. exact H.
Qed.
(** every failure of the objective leaves one configuration without a value *)
Lemma grid_count_sample n s : s_kind s = KGrid ->
  length (s_configs (fst (sample w n s))) + length (s_ys s) + obj_failures (s_trace s) =
  length (s_ys (fst (sample w n s))) + length (s_configs s) + obj_failures (s_trace (fst (sample w n s))).
Proof.
  intro K.
  apply (grid_op_inv (fun s' => length (s_configs s') + length (s_ys s) + obj_failures (s_trace s) = length (s_ys s') + length (s_configs s) + obj_failures (s_trace s'))); [| | | | |exact K|lia].
  - intros s0 g p H _. exact H.
  - intros s0 c g H _. exact H.
  - intros s0 c g H _ _ _. cbv zeta. destruct (w_obj w (s_calls s0) (c_vals c)) as [y|e]; cbn; rewrite !app_length; cbn; lia.
  - intros s0 c y t H _. cbn. rewrite !app_length. cbn. lia.
  - intros s0 H. exact H.
Qed.
Definition samples_only (op : sop) : Prop := match op with OReset => False | _ => True end.
Theorem grid_count fs k cs mn key ops s : k = KGrid -> Forall samples_only ops -> s = fst (srun w ops (sampler_new w k cs mn key fs)) ->
  length (s_configs s) = length (s_ys s) + obj_failures (s_trace s).
Proof.
  intros -> F ->. assert (G : forall ops s, Forall samples_only ops -> s_kind s = KGrid -> length (s_configs s) = length (s_ys s) + obj_failures (s_trace s) ->
    length (s_configs (fst (srun w ops s))) = length (s_ys (fst (srun w ops s))) + obj_failures (s_trace (fst (srun w ops s)))).
  { clear F ops. induction ops as [|op ops IH]; intros s F K H; [exact H|]. cbn [srun]. inversion F; subst.
    pose proof (stat_step w op s) as St.
    assert (H1 : length (s_configs (fst (sstep w op s))) = length (s_ys (fst (sstep w op s))) + obj_failures (s_trace (fst (sstep w op s)))).
    { destruct op; cbn [sstep].
      - pose proof (grid_count_sample n s K). lia.
      - destruct H2.
      - exact H.
      - rewrite K. exact H. }
    destruct (sstep w op s) as [s1 r]. unfold static in St. cbn in St, H1. injection St as K1 _ _ _. specialize (IH s1 H3 ltac:(congruence) H1). destruct (srun w ops s1). exact IH. }
  apply G; [exact F|reflexivity|reflexivity].
Qed.
(** the call that raised was the last one, its configuration is the last of the list *)
Theorem grid_failure n s s' e : s_kind s = KGrid -> sample w n s = (s', Err e) -> 
  (exists c t, s_trace s' = EObj c (Err e) :: t /\ exists l, s_configs s' = l ++ [c]) \/ obj_failures (s_trace s') = obj_failures (s_trace s).
Proof.
  intros K E.
  assert (LP : forall fuel ex s1, match grid_loop w fuel ex s1 with
     | (s2, Ok _) => obj_failures (s_trace s2) = obj_failures (s_trace s1)
     | (s2, Err e) => (exists c t, s_trace s2 = EObj c (Err e) :: t /\ exists l, s_configs s2 = l ++ [c]) \/ obj_failures (s_trace s2) = obj_failures (s_trace s1) end).
  { induction fuel as [|fuel IH]; intros ex s1; cbn [grid_loop]; destruct (ex <=? slen s1); auto. destruct (s_grid s1) as [[|c g]|]; auto.
    destruct (existsb _ _).
    - exact (IH ex (set_grid (Some g) (s_rpos s1) s1)).
    - unfold bindM, upd, call_obj. cbn [s_calls set_grid set_points set_calls s_configs s_ys log]. destruct (w_obj _ _ _) as [y|er].
      + match goal with |- context [grid_loop w fuel ex ?x] => exact (IH ex x) end.
      + left. exists c. eexists. split; [reflexivity|]. exists (s_configs s1). reflexivity. }
  unfold sample in E. rewrite K in E.
  assert (B : match sample_base w n s with (s2, Ok _) => obj_failures (s_trace s2) = obj_failures (s_trace s)
     | (s2, Err e) => (exists c t, s_trace s2 = EObj c (Err e) :: t /\ exists l, s_configs s2 = l ++ [c]) \/ obj_failures (s_trace s2) = obj_failures (s_trace s) end).
  { unfold sample_base. rewrite K. set (s1 := if _ <? _ then _ else _). assert (T1 : s_trace s1 = s_trace s) by (unfold s1; destruct (_ <? _); reflexivity).
    unfold bindM at 1. assert (RT : forall n s0, s_trace (fst (replay n s0)) = s_trace s0 /\ is_ok (snd (replay n s0)) = true).
    { clear. induction n as [|n IH]; intro s0; cbn [replay]; [auto|]. destruct (s_cache s0) as [|[c y] t]; [auto|]. unfold bindM, append, upd, ret.
      match goal with |- context [replay n ?x] => destruct (IH x) as [A1 A2]; destruct (replay n x) as [s' [k|e]] end; [|discriminate]. split; [exact A1|reflexivity]. }
    destruct (RT n s1) as [R1 R2]. destruct (replay n s1) as [s2 [k|e1]]; [|discriminate]. cbn in R1. destruct (k <? n); [|cbn; congruence].
    cbn [sample_new]. rewrite <- T1, <- R1. clear - LP. unfold grid_sample. set (m := match s_grid s2 with None => _ | Some g => _ end).
    assert (HM : s_trace (fst (m s2)) = s_trace s2).
    { unfold m. destruct (s_grid s2); [destruct (_ <? _); [|reflexivity]|]; (unfold make_grid; destruct (s_cs s2); [reflexivity|]; destruct (grid_product _ _ _); reflexivity). }
    unfold bindM at 1. destruct (m s2) as [s3 [u|e]]; cbn in HM; [|right; congruence]. unfold bindM, get. rewrite <- HM. apply LP. }
  unfold bindM in E. destruct (sample_base w n s) as [s2 [u|e2]]; [discriminate|]. inversion E; subst. exact B.
Qed.

(** ** C42 *)
Lemma existsb_false {A} (f : A -> bool) l : existsb f l = false -> Forall (fun x => f x = false) l.
Proof. induction l as [|a l IH]; cbn; [constructor|]. intro H. apply orb_false_iff in H. destruct H. constructor; auto. Qed.
Section Distinct.
Hypothesis Sym : eq_symmetric (N:=N).
Lemma cval_eqb_sym (a b : cval N) : cval_eqb a b = cval_eqb b a.
Proof. destruct a, b; cbn; auto. apply String.eqb_sym. Qed.
Lemma conf_eqb_sym (a b : conf N) : conf_eqb a b = conf_eqb b a.
Proof.
  unfold conf_eqb. generalize (c_vals a) (c_vals b). induction c as [|[n v] x IH]; intros [|[m u] y]; cbn; try reflexivity.
  rewrite String.eqb_sym, cval_eqb_sym, IH. reflexivity.
Qed.
Lemma distinct_app_l (l m : list (conf N)) : distinct (l ++ m) -> distinct l.
Proof. induction l as [|c l IH]; cbn; [auto|]. intros [H1 H2]. apply Forall_app in H1. split; [apply H1|apply IH, H2]. Qed.
Lemma distinct_app_r (l m : list (conf N)) : distinct (l ++ m) -> distinct m.
Proof. induction l as [|c l IH]; cbn; [auto|]. intros [H1 H2]. apply IH, H2. Qed.
Lemma distinct_snoc (l : list (conf N)) c : distinct l -> Forall (fun d => conf_eqb c d = false) l -> distinct (l ++ [c]).
Proof.
  induction l as [|a l IH]; cbn; intros H F; [repeat constructor|]. inversion F; subst. destruct H as [H1 H4]. split; [|apply IH; assumption].
  apply Forall_app. split; [exact H1|]. constructor; [|constructor]. split; [rewrite conf_eqb_sym; assumption|assumption].
Qed.
Definition all_distinct s : Prop := distinct (s_configs s ++ map fst (s_cache s)).
Lemma distinct_run ops s : s_kind s = KGrid -> all_distinct s -> all_distinct (fst (srun w ops s)).
Proof.
  apply grid_run_inv; unfold all_distinct; clear s ops.
  - intros s g p H _. exact H.
  - intros s c g H _. exact H.
  - intros s c g H C _ E. cbv zeta. assert (D : distinct ((s_configs s ++ [c]) ++ map fst (s_cache s))).
    { rewrite C in *. cbn [map] in *. rewrite app_nil_r in *. apply distinct_snoc; [exact H|]. apply existsb_false. exact E. }
    destruct (w_obj w (s_calls s) (c_vals c)); exact D.
  - intros s c y t H E. rewrite E in H. cbn in *. rewrite <- app_assoc. exact H.
  - intros s H. cbn. rewrite app_nil_r. apply distinct_app_l in H. exact H.
  - intros s H. cbn. apply distinct_app_r in H. exact H.
Qed.
Theorem grid_distinct fs s : sreaches w fs s -> s_kind s = KGrid -> distinct (map fst (load_cache w (s_cs s) (fs (s_hash s)))) -> distinct (s_configs s).
Proof.
  intros (k & cs & mn & key & ops & ->) HK. set (s0 := sampler_new w k cs mn key fs) in *.
  pose proof (stat_run w ops s0) as Hst. unfold static in Hst. injection Hst as E1 E2 E3 E4. rewrite E2, E4. intro HD.
  apply (distinct_app_l _ (map fst (s_cache (fst (srun w ops s0))))). apply distinct_run; [exact (eq_trans (eq_sym E1) HK)|exact HD].
Qed.
End Distinct.

(** ** where configurations come from *)
Section Origin.
Variable G : conf N -> Prop.
(** grids *)
Section GridOrigin.
Variable cs : cspace N.
Hypothesis G_grid : forall n g, grid_product w cs n = Ok g -> Forall G g.
Definition gorigin s : Prop := s_cs s = cs /\ Forall G (s_configs s) /\ Forall G (map fst (s_cache s)) /\ match s_grid s with Some g => Forall G g | None => True end.
Lemma gorigin_run ops s : s_kind s = KGrid -> gorigin s -> gorigin (fst (srun w ops s)).
Proof.
  apply grid_run_inv; unfold gorigin; clear s ops.
  - intros s g p (H1 & H2 & H3 & H4) E. cbn. refine (conj H1 (conj H2 (conj H3 _))). rewrite H1 in E. eapply Permutation_Forall; [apply shuffle_perm|]. eapply G_grid; exact E.
  - intros s c g (H1 & H2 & H3 & H4) E. cbn. rewrite E in H4. exact (conj H1 (conj H2 (conj H3 (Forall_inv_tail H4)))).
  - intros s c g (H1 & H2 & H3 & H4) C E _. cbv zeta. rewrite E in H4. pose proof (Forall_inv H4). pose proof (Forall_inv_tail H4). assert (F : Forall G (s_configs s ++ [c])) by (apply Forall_app; auto).
    destruct (w_obj w (s_calls s) (c_vals c)); cbn; auto.
  - intros s c y t (H1 & H2 & H3 & H4) E. rewrite E in H3. cbn in *. pose proof (Forall_inv H3). pose proof (Forall_inv_tail H3). refine (conj H1 (conj _ (conj _ H4))); [apply Forall_app; auto|assumption].
  - intros s (H1 & H2 & H3 & H4). cbn. auto.
  - intros s (H1 & H2 & H3 & H4). cbn. auto.
Qed.
End GridOrigin.
Theorem grid_origin fs s : sreaches w fs s -> s_kind s = KGrid -> Forall G (map fst (load_cache w (s_cs s) (fs (s_hash s)))) ->
  (forall n g, grid_product w (s_cs s) n = Ok g -> Forall G g) -> Forall G (s_configs s).
Proof.
  intros (k & cs & mn & key & ops & ->) HK. set (s0 := sampler_new w k cs mn key fs) in *.
  pose proof (stat_run w ops s0) as Hst. unfold static in Hst. injection Hst as E1 E2 E3 E4. rewrite E2, E4. intros HD HG.
  assert (H : gorigin cs (fst (srun w ops s0))). { apply gorigin_run; [exact HG|exact (eq_trans (eq_sym E1) HK)|]. refine (conj eq_refl (conj (Forall_nil _) (conj HD I))). }
  apply H.
Qed.
(** random and BO samplers *)
Hypothesis G_stream : forall d n i, G (w_batch w d n i).
Hypothesis G_acq : forall i f eta c, w_acq w i f eta = Ok c -> G c.
Definition orig (a : list (conf N)) (_ : list (json N)) (c : list (conf N * json N)) (_ : nat) : Prop := Forall G a /\ Forall G (map fst c).
Notation O := (on_points orig).
Lemma orig_obj c : triple O (call_obj w c) (fun _ => O) O.
Proof. intros s H. unfold call_obj. destruct (w_obj _ _ _); exact H. Qed.
Lemma orig_append c y : G c -> triple O (append c y) (fun _ => O) O.
Proof. intros Gc s [H1 H2]. split; [apply Forall_app; auto|exact H2]. Qed.
Lemma orig_drawn n s : exists d, snd (sample_configuration w n s) = Ok d /\ match d with DBare c => G c | DList l => Forall G l end.
Proof.
  cbn. set (l := map _ _). assert (F : Forall G l) by (unfold l; apply Forall_map, Forall_forall; intros; apply G_stream).
  destruct l as [|c [|c' l]]; cbn in *; try (eexists; split; [reflexivity|exact F]). destruct (w_bare w); (eexists; split; [reflexivity|]); [inversion F; assumption|exact F].
Qed.
Lemma orig_draw n : triple O (sample_configuration w n) (fun d s => O s /\ match d with DBare c => G c | DList l => Forall G l end) O.
Proof.
  intros s H. destruct (orig_drawn n s) as (d & E & F). destruct (sample_configuration w n s) as [s' r] eqn:Es. cbn in E. subst r. split; [|exact F].
  assert (s' = fst (sample_configuration w n s)) as -> by (rewrite Es; reflexivity). exact H.
Qed.
Lemma orig_new k n : k <> KGrid -> triple O (sample_new w k n) (fun _ => O) O.
Proof.
  intro HK. assert (FIT : forall b, triple O (fit_surrogate w b) (fun _ => O) O) by (intro b; exact (fit_triple w orig b)).
  destruct k as [| |ip]; [|congruence|]; cbn [sample_new].
  - unfold random_sample. eapply triple_bind; [apply orig_draw|]. intro d. cbv beta.
    eapply triple_weak; [apply (triple_forM (seq 0 n) _ (fun _ s => O s /\ match d with DBare c => G c | DList l => Forall G l end) O)|auto|intros a s [H _]; exact H|auto].
    intros i a _. eapply triple_bind with (Q := fun c s => (O s /\ match d with DBare c => G c | DList l => Forall G l end) /\ G c).
    + intros s [H F]. destruct d as [|l]; [exact H|]. cbn. destruct (nth_error l a) eqn:E; [|exact H]. refine (conj (conj H F) _). eapply Forall_forall; [exact F|eapply nth_error_In; exact E].
    + intro c. intros s [[H F] Gc]. unfold bindM. pose proof (orig_obj c s H) as T. destruct (call_obj w c s) as [s1 [v|e]]; [|exact T].
      split; [|exact F]. exact (orig_append c v Gc s1 T).
  - unfold bo_sample. eapply triple_bind with (Q := fun _ => O); [intros s H; exact H|]. intro cur. eapply triple_bind with (Q := fun _ => O).
    + destruct (cur <? ip); [|apply triple_ret; auto]. eapply triple_bind with (Q := fun _ => O); [|intros []; apply triple_get; auto].
      unfold sample_initial. eapply triple_bind; [apply orig_draw|]. intro d. set (items := if Nat.eqb _ 1 then _ else _).
      intros s [H F]. assert (FI : Forall G (bare_all items)).
      { unfold items. destruct (Nat.eqb _ 1); destruct d as [c|l]; cbn; try (constructor; [exact F|constructor]); [constructor|]. induction l; cbn; [constructor|]. inversion F; subst. constructor; auto. }
      clearbody items. assert (T : triple O (bindM (collect items (call_drawn w)) (fun ys => bindM (upd (fun s => set_points (s_configs s ++ bare_all items) (s_ys s ++ ys) s)) (fun _ => fit_surrogate w true))) (fun _ => O) O).
      { eapply triple_bind.
        - apply (triple_collect items (call_drawn w) O (fun _ _ _ => True) O); [auto|].
          intros [c|l] F' FM s' [H' HF]; [|exact H']. cbn. unfold call_obj. destruct (w_obj _ _ _); [|exact H']. refine (conj H' (conj _ I)). eapply FM; [exact HF|cbn; lia].
        - intro ys. eapply triple_bind with (Q := fun _ => O); [|intros []; apply FIT]. apply triple_upd. intros s' [[H1 H2] _]. split; [apply Forall_app; auto|exact H2]. }
      exact (T s H).
    + intro al. eapply triple_bind; [apply FIT|]. intros []. apply (triple_times _ _ (fun _ => O)). intros i _.
      unfold bo_step. eapply triple_bind with (Q := fun _ => O); [intros s H; destruct (incumbent s); exact H|]. intro inc.
      eapply triple_bind with (Q := fun c s => O s /\ G c).
      * intros s H. cbv zeta. destruct (w_acq _ _ _ _) eqn:E; [|exact H]. split; [exact H|eapply G_acq; exact E].
      * intro c. intros s [H Gc]. assert (T : triple O (bindM (call_obj w c) (fun y => bindM (append c y) (fun _ => fit_surrogate w false))) (fun _ => O) O).
        { eapply triple_bind; [apply orig_obj|]. intro y. eapply triple_bind; [apply (orig_append c y Gc)|]. intros []. apply FIT. }
        exact (T s H).
Qed.
Lemma orig_replay n : triple O (replay n) (fun _ => O) O.
Proof.
  induction n as [|n IH]; [apply triple_ret; auto|]. intros s [H1 H2]. cbn [replay]. unfold on_points, orig. destruct (s_cache s) as [|[c y] t] eqn:E; [split; [exact H1|rewrite E; exact H2]|].
  pose proof (Forall_inv H2). pose proof (Forall_inv_tail H2). specialize (IH (set_points (s_configs s ++ [c]) (s_ys s ++ [y]) (set_cache t s))).
  unfold bindM, append, upd, ret. cbn [s_configs s_ys set_cache]. destruct (replay n _) as [s' [k|e]]; apply IH; (split; [apply Forall_app; auto|assumption]).
Qed.
Lemma orig_step op s : s_kind s <> KGrid -> O s -> O (fst (sstep w op s)).
Proof.
  intros HK H. assert (FIT : forall b, triple O (fit_surrogate w b) (fun _ => O) O) by (intro b; exact (fit_triple w orig b)). destruct op; cbn [sstep].
  - unfold sample. assert (T : O (fst (sample_base w n s))).
    { unfold sample_base. set (s1 := if _ <? _ then _ else _). assert (H1 : O s1) by (unfold s1; destruct (_ <? _); [split; [apply H|constructor]|exact H]).
      assert (T1 : triple O (bindM (replay n) (fun k => if k <? n then sample_new w (s_kind s) (n - k) else ret tt)) (fun _ => O) O).
      { eapply triple_bind; [apply orig_replay|]. intro k. destruct (k <? n); [apply orig_new, HK|apply triple_ret; auto]. }
      specialize (T1 s1 H1). destruct (bindM _ _ s1) as [s' [a|e]]; exact T1. }
    unfold bindM. destruct (sample_base w n s) as [s1 [u|e]]; [|exact T]. destruct (s_kind s); try exact T. pose proof (FIT false s1 T) as K. destruct (fit_surrogate w false s1) as [s' [a|e]]; exact K.
  - split; [constructor|apply H].
  - split; [apply H|constructor].
  - destruct (s_kind s); try exact H. pose proof (FIT force s H) as T. destruct (fit_surrogate w force s) as [s' [a|e]]; exact T.
Qed.
Theorem other_origin fs s : sreaches w fs s -> s_kind s <> KGrid -> Forall G (map fst (load_cache w (s_cs s) (fs (s_hash s)))) -> Forall G (s_configs s).
Proof.
  intros (k & cs & mn & key & ops & ->) HK. set (s0 := sampler_new w k cs mn key fs) in *.
  pose proof (stat_run w ops s0) as Hst. unfold static in Hst. injection Hst as E1 E2 E3 E4. rewrite E2, E4. intros HD.
  assert (H : O (fst (srun w ops s0)) /\ s_kind (fst (srun w ops s0)) <> KGrid).
  { apply (run_inv w (fun s => O s /\ s_kind s <> KGrid)).
    - intros op s [H1 H2]. split; [apply orig_step; assumption|]. pose proof (stat_step w op s) as St. unfold static in St. injection St as K _ _ _. congruence.
    - split; [|intro Hk; apply HK; exact (eq_trans E1 Hk)]. split; [constructor|exact HD]. }
  apply H.
Qed.
End Origin.

(** the members of a generated grid *)
Definition axes_of (cs : cspace N) (n : nat) : res (list (hp N * list (cval N))) := mapM (fun h => vs <- grid_axis w h n ;; Ok (h, vs)) cs.
Lemma grid_product_axes cs n : forall g, grid_product w cs n = Ok g -> exists axes, axes_of cs n = Ok axes /\
  (forall c, In c g -> on_axes axes c) /\ (forall vs, Forall2 (fun a nv => fst nv = hp_name (fst a) /\ In (snd nv) (snd a)) axes vs -> exists c, In c g /\ c_vals c = vs).
Proof.
  unfold axes_of. induction cs as [|h cs IH]; intros g H; cbn [grid_product mapM] in *.
  - inversion H; subst. exists []. refine (conj eq_refl (conj _ _)).
    + intros c [<-|[]]. constructor.
    + intros vs F. inversion F; subst. exists (mkconf [] []). split; [left; reflexivity|reflexivity].
  - destruct (grid_axis w h n) as [vs|]; cbn [bind] in *; [|discriminate]. destruct (grid_product w cs n) as [rest|]; cbn [bind] in *; [|discriminate].
    inversion H; subst. destruct (IH rest eq_refl) as (axes & A1 & A2 & A3). rewrite A1. cbn [bind]. exists ((h, vs) :: axes). refine (conj eq_refl (conj _ _)).
    + intros c Hc. apply in_flat_map in Hc. destruct Hc as (v & Hv & Hc). apply in_map_iff in Hc. destruct Hc as (c' & <- & Hc'). constructor; [split; [reflexivity|exact Hv]|apply A2, Hc'].
    + intros l F. inversion F as [|a nv axs nvs [F1 F2] F3]; subst. destruct (A3 nvs F3) as (c & Hc & Ec). destruct nv as [nm v]. cbn in *. subst.
      eexists. split; [apply in_flat_map; exists v; split; [exact F2|apply in_map_iff; exists c; split; [reflexivity|exact Hc]]|]. cbn. reflexivity.
Qed.
Theorem grid_points_from_grid fs s : sreaches w fs s -> s_kind s = KGrid ->
  Forall (fun c => In c (map fst (load_cache w (s_cs s) (fs (s_hash s)))) \/ exists n axes, axes_of (s_cs s) n = Ok axes /\ on_axes axes c) (s_configs s).
Proof.
  intros H K. apply (grid_origin _ fs s H K).
  - apply Forall_forall. intros c Hc. left. exact Hc.
  - intros n g E. apply Forall_forall. intros c Hc. right. destruct (grid_product_axes (s_cs s) n g E) as (axes & A1 & A2 & _). exists n, axes. split; [exact A1|apply A2, Hc].
Qed.

(** ** legal configurations *)
Lemma loaded_legal cs file : Forall (legal cs) (map fst (load_cache w cs file)).
Proof.
  unfold load_cache. destruct file as [text|]; [|constructor]. destruct (bind (w_loads w text) _) as [l|e]; [|constructor].
  induction l as [|[x y] l IH]; cbn [load_pairs]; [constructor|]. destruct (conf_of_json cs x) as [c|] eqn:E; [|constructor].
  destruct (load_pairs cs l). cbn in *. constructor; [|exact IH]. unfold conf_of_json in E. destruct x; try discriminate. destruct (mapM jnum l1) as [v|]; cbn in E; [|discriminate].
  unfold legal. unfold conf_of_vector in *. destruct (config_of_vector cs v) as [vals|] eqn:Ev; cbn in E; [|discriminate]. inversion E; subst. cbn. rewrite Ev. reflexivity.
Qed.
Theorem reachable_legal fs s : sreaches w fs s -> (forall d n i, legal (s_cs s) (w_batch w d n i)) -> (forall i f eta c, w_acq w i f eta = Ok c -> legal (s_cs s) c) ->
  (forall n g, grid_product w (s_cs s) n = Ok g -> Forall (legal (s_cs s)) g) -> Forall (legal (s_cs s)) (s_configs s).
Proof.
  intros H H1 H2 H3. destruct (s_kind s) eqn:K.
  - apply (other_origin _ H1 H2 fs s H); [congruence|apply loaded_legal].
  - apply (grid_origin _ fs s H K); [apply loaded_legal|exact H3].
  - apply (other_origin _ H1 H2 fs s H); [congruence|apply loaded_legal].
Qed.

(** ** C63: random streams *)
Lemma random_exact c0 p n : triple (fun s => s_configs s = c0 /\ s_draws s = p) (random_sample w n)
  (fun _ s => s_configs s = c0 ++ map (w_batch w p n) (seq 0 n) /\ s_draws s = p ++ [n]) any.
Proof.
  unfold random_sample. set (l := map (w_batch w p n) (seq 0 n)).
  eapply triple_bind with (Q := fun d s => (s_configs s = c0 /\ s_draws s = p ++ [n]) /\ (d = DList l \/ exists c, d = DBare c)).
  - intros s [H1 H2]. unfold sample_configuration. rewrite H2. split; [split; [exact H1|reflexivity]|].
    fold l. destruct l as [|c [|c' l']]; [left; reflexivity| |left; reflexivity]. destruct (w_bare w); [right; exists c; reflexivity|left; reflexivity].
  - intro d. intros s [[H1 H2] [->|(c & ->)]].
    + assert (T : triple (fun s => s_configs s = c0 ++ firstn 0 l /\ s_draws s = p ++ [n])
         (forM (seq 0 n) (fun i => bindM (drawn_nth (DList l) i) (fun c => bindM (call_obj w c) (fun v => append c v))))
         (fun _ s => s_configs s = c0 ++ firstn (length (seq 0 n)) l /\ s_draws s = p ++ [n]) any).
      { apply (triple_forM (seq 0 n) _ (fun i s => s_configs s = c0 ++ firstn i l /\ s_draws s = p ++ [n]) any). intros i a Ha.
        assert (a = i /\ i < n) as [-> Hi].
        { pose proof (nth_error_Some_lt _ _ _ Ha) as Hl. rewrite seq_length in Hl. pose proof (nth_error_nth _ _ 0 Ha) as E. rewrite seq_nth in E by exact Hl. cbn in E. split; [congruence|exact Hl]. }
        intros s1 [A1 A2]. unfold bindM, drawn_nth. destruct (nth_error l i) as [c|] eqn:Ec; [|exact I]. cbn [ret]. unfold call_obj. destruct (w_obj _ _ _); [|exact I].
        cbn. rewrite A1. split; [|exact A2]. rewrite <- app_assoc. f_equal. clear -Ec. revert i Ec. induction l as [|b l IH]; intros [|i] Ec; cbn in *; try discriminate; [inversion Ec; reflexivity|]. f_equal. apply IH, Ec. }
      cbn [firstn] in T. rewrite app_nil_r in T. specialize (T s (conj H1 H2)). destruct (forM _ _ s) as [s' [u|e]]; [|exact I]. rewrite seq_length in T.
      rewrite firstn_all2 in T by (unfold l; rewrite map_length, seq_length; lia). exact T.
    + destruct n as [|n]; cbn [seq forM].
      * cbn. unfold l. cbn. rewrite app_nil_r. auto.
      * cbn. exact I.
Qed.
Lemma random_call n s s' : s_kind s = KRandom -> length (s_cache s) < slen s + n -> sample w n s = (s', Ok tt) ->
  s_configs s' = s_configs s ++ map (w_batch w (s_draws s) n) (seq 0 n) /\ s_draws s' = s_draws s ++ (if Nat.eqb n 0 then [] else [n]) /\ s_cache s' = [].
Proof.
  intros K HL E. pose proof (sample_drops w n s HL) as C. rewrite E in C. cbn in C. unfold sample in E. rewrite K in E. unfold bindM at 1 in E.
  destruct (sample_base w n s) as [s1 [u|e]] eqn:EB; [|discriminate]. cbn in E. inversion E; subst s1. unfold sample_base in EB. rewrite K, (proj2 (Nat.ltb_lt _ _) HL) in EB.
  unfold bindM in EB. assert (R : replay n (set_cache [] s) = (set_cache [] s, Ok 0)) by (destruct n; reflexivity). rewrite R in EB.
  destruct (Nat.ltb_spec 0 n) as [Hn|Hn].
  - cbn [sample_new] in EB. rewrite Nat.sub_0_r in EB. pose proof (random_exact (s_configs s) (s_draws s) n (set_cache [] s) (conj eq_refl eq_refl)) as T. rewrite EB in T. destruct T. rewrite (proj2 (Nat.eqb_neq n 0)) by lia. auto.
  - assert (n = 0) as -> by lia. inversion EB; subst. cbn. rewrite !app_nil_r. auto.
Qed.
(** without a cache the points are those of the batches *)
Theorem random_batches ns : forall s s' rs, s_kind s = KRandom -> s_cache s = [] -> srun w (map OSample ns) s = (s', rs) -> Forall (fun r => r = Ok tt) rs ->
  s_configs s' = s_configs s ++ batches w (s_draws s) ns.
Proof.
  induction ns as [|n ns IH]; intros s s' rs K C E F; cbn [map srun] in E; [inversion E; cbn; rewrite app_nil_r; reflexivity|].
  destruct (sstep w (OSample n) s) as [s1 r] eqn:E1. destruct (srun w (map OSample ns) s1) as [s2 rs2] eqn:E2. inversion E; subst. inversion F; subst.
  cbn [sstep] in E1. pose proof (stat_sample w n s) as St. rewrite E1 in St. unfold static in St. cbn in St. injection St as K1 _ _ _.
  assert (A : s_configs s1 = s_configs s ++ map (w_batch w (s_draws s) n) (seq 0 n) /\ s_draws s1 = s_draws s ++ (if Nat.eqb n 0 then [] else [n]) /\ s_cache s1 = []).
  { destruct (Nat.ltb_spec (length (s_cache s)) (slen s + n)) as [Hl|Hl]; [apply random_call; assumption|]. rewrite C in Hl. cbn in Hl. assert (n = 0) as -> by lia.
    destruct (sample_from_cache w 0 s ltac:(rewrite C; cbn; lia)) as (s'' & A0 & A1 & A2 & A3 & A4 & A5 & _). rewrite E1 in A0. cbn in A0. subst s''. rewrite A1, A3, A5, C. cbn. rewrite !app_nil_r. auto. }
  destruct A as (A1 & A2 & A3). rewrite (IH s1 s' rs2 ltac:(congruence) A3 E2 H2), A1, A2. cbn [batches]. destruct (Nat.eqb_spec n 0) as [->|Hn]; [cbn [seq map]; rewrite !app_nil_r; reflexivity|]. rewrite <- app_assoc. reflexivity.
Qed.
(** the split does not matter when the batches follow one stream *)
Lemma one_stream_batches f ns : one_stream w f -> forall d, batches w d ns = map f (seq (list_sum d) (list_sum ns)).
Proof.
  intro H. induction ns as [|n ns IH]; intro d; [reflexivity|]. cbn [batches]. change (list_sum (n :: ns)) with (n + list_sum ns). rewrite seq_app, map_app. destruct (Nat.eqb_spec n 0) as [->|Hn].
  - rewrite IH, Nat.add_0_r. reflexivity.
  - rewrite IH. f_equal.
    + assert (G : forall k m, k + m <= n -> map (w_batch w d n) (seq k m) = map f (seq (list_sum d + k) m)).
      { intros k m. revert k. induction m as [|m IHm]; intros k Hk; [reflexivity|]. cbn [seq map]. rewrite (H d n k) by lia. f_equal. rewrite IHm by lia. rewrite Nat.add_succ_r. reflexivity. }
      rewrite G by lia. rewrite Nat.add_0_r. reflexivity.
    + rewrite list_sum_app. cbn. rewrite Nat.add_0_r. reflexivity.
Qed.
Theorem random_split f ns s s' rs : one_stream w f -> s_kind s = KRandom -> s_cache s = [] -> srun w (map OSample ns) s = (s', rs) -> Forall (fun r => r = Ok tt) rs ->
  s_configs s' = s_configs s ++ map f (seq (list_sum (s_draws s)) (list_sum ns)).
Proof. intros H K C E F. rewrite (random_batches ns s s' rs K C E F), (one_stream_batches f) by exact H. reflexivity. Qed.
(** ConfigSpace draws hyperparameter by hyperparameter: one stream for one, a different one for every
    split for more *)
Theorem columnwise_one mk u : columnwise w mk u 1 -> one_stream w (fun i => mk [u i]).
Proof. intros H d n i Hi. rewrite (H d n i Hi). cbn [seq map]. rewrite !Nat.mul_1_l. do 3 f_equal. lia. Qed.
Theorem columnwise_split mk u D n : columnwise w mk u D -> (forall a b, mk a = mk b -> a = b) -> (forall i j, u i = u j -> i = j) -> 2 <= D -> 2 <= n ->
  batches w [] [n] <> batches w [] [1; n - 1].
Proof.
  intros H Mi Ui HD Hn E. cbn [batches] in E. rewrite (proj2 (Nat.eqb_neq n 0)), (proj2 (Nat.eqb_neq (n - 1) 0)), (proj2 (Nat.eqb_neq 1 0)) in E by lia. rewrite app_nil_r in E. apply (f_equal (fun l => nth_error l 0)) in E. destruct n as [|n]; [lia|].
  cbn [seq map app nth_error] in E. injection E as E. rewrite !H in E by lia. apply Mi in E. destruct D as [|[|D]]; [lia|lia|]. apply (f_equal (fun l => nth_error l 1)) in E. cbn [seq map nth_error] in E. injection E as E. apply Ui in E. cbn in E. lia.
Qed.
(** a cache dropped after [r] points: the random state starts again *)
Theorem random_after_drop K r n s s' : s_kind s = KRandom -> replayed K r s -> s_draws s = [] -> length K < 2 * r + n -> sample w n s = (s', Ok tt) ->
  s_configs s' = map fst (firstn r K) ++ map (w_batch w [] n) (seq 0 n).
Proof.
  intros HK R P HL E. destruct (replayed_len K r s R) as [L1 L2]. destruct (random_call n s s' HK ltac:(lia) E) as (A & _). rewrite A, P. destruct R as (_ & -> & _). reflexivity.
Qed.
Theorem random_repeats_call K r n s s' : s_kind s = KRandom -> replayed K r s -> s_draws s = [] -> length K < 2 * r + n -> sample w n s = (s', Ok tt) ->
  map fst K = map (w_batch w [] n) (seq 0 n) -> s_configs s' = map fst (firstn r K) ++ map fst K.
Proof. intros HK R P HL E HS. rewrite (random_after_drop K r n s s' HK R P HL E), HS. reflexivity. Qed.
Theorem random_repeats f K r n s s' : one_stream w f -> s_kind s = KRandom -> replayed K r s -> s_draws s = [] -> length K < 2 * r + n -> sample w n s = (s', Ok tt) ->
  map fst K = map f (seq 0 (length K)) ->
  forall i, i < min r n -> nth_error (s_configs s') (r + i) = nth_error (s_configs s') i /\ nth_error (s_configs s') i = Some (f i).
Proof.
  intros HO HK R P HL E HS i Hi. rewrite (random_after_drop K r n s s' HK R P HL E). destruct R as (Hr & _).
  assert (EF : map fst (firstn r K) = map f (seq 0 r)).
  { rewrite <- firstn_map, HS, firstn_map. f_equal. replace (length K) with (r + (length K - r)) by lia.
    rewrite seq_app, firstn_app, seq_length, Nat.sub_diag, firstn_O, app_nil_r. apply firstn_all2. rewrite seq_length; lia. }
  assert (EB : map (w_batch w [] n) (seq 0 n) = map f (seq 0 n)) by (apply map_ext_in; intros j Hj; apply in_seq in Hj; rewrite (HO [] n j) by lia; reflexivity).
  rewrite EF, EB. rewrite nth_error_app2 by (rewrite map_length, seq_length; lia). rewrite map_length, seq_length. replace (r + i - r) with i by lia.
  rewrite nth_error_app1 by (rewrite map_length, seq_length; lia).
  assert (Q : forall m, i < m -> nth_error (map f (seq 0 m)) i = Some (f i)).
  { intros m Hm. rewrite nth_error_map, (nth_error_nth' _ 0) by (rewrite seq_length; exact Hm). rewrite seq_nth by exact Hm. reflexivity. }
  rewrite !Q by lia. auto.
Qed.
End P.

(** ** C41 *)
Theorem direction_ignored {N : Num} (w : world N) k cs mn mn' i fs ops (s : sampler N) m :
  s = fst (srun w ops (sampler_make w k cs mn i fs)) -> json_ok w s -> s_cache s = [] -> s_configs s <> [] -> length (s_configs s) = length (s_ys s) ->
  Forall (legal cs) (s_configs s) -> m <= length (s_configs s) ->
  let s2 := fst (sample w m (sampler_make w k cs mn' i (sampler_del w s fs))) in
  s_min s2 = mn' /\ s_hash s2 = s_hash s /\ s_configs s2 = firstn m (s_configs s) /\ s_ys s2 = firstn m (s_ys s) /\ s_calls s2 = 0.
Proof.
  intros E J C NE Hl Leg Hm. pose proof (stat_run w ops (sampler_make w k cs mn i fs)) as St. unfold static in St. injection St as E1 E2 E3 E4. rewrite <- E in *.
  cbv zeta. unfold sampler_make in *. cbn in E2, E4.
  pose proof (stat_sample w m (sampler_new w k cs mn' (sampler_key w k i) (sampler_del w s fs))) as St2. unfold static in St2. injection St2 as _ _ F3 F4.
  destruct (replay_of_saved w w s fs k mn' m J (fun _ => eq_refl) C NE Hl) as (A1 & A2 & A3 & _); [rewrite E2; exact Leg|exact Hm|]. rewrite E2, E4 in A1, A2, A3.
  rewrite F3, F4. refine (conj eq_refl (conj _ (conj A1 (conj A2 A3)))). symmetry. exact E4.
Qed.
Lemma key_depends {N : Num} (w : world N) k k' (i i' : ident) :
  i_cls i = i_cls i' -> i_space i = i_space i' -> i_seed i = i_seed i' -> i_obj i = i_obj i' ->
  match k, k' with
  | KBO _, KBO _ => i_acq i = i_acq i' -> i_kwargs i = i_kwargs i' -> i_points i = i_points i' -> i_surrogate i = i_surrogate i' -> sampler_key w k i = sampler_key w k' i'
  | KBO _, _ | _, KBO _ => True
  | _, _ => sampler_key w k i = sampler_key w k' i'
  end.
Proof. intros E1 E2 E3 E4. destruct k, k'; auto; unfold sampler_key; intros; congruence. Qed.
(** if only one part of a key differs, the key differs *)
Lemma append_inv_l (p a b : string) : (p ++ a = p ++ b)%string -> a = b.
Proof. induction p as [|c p IH]; cbn; intro E; [exact E|]. injection E as E. auto. Qed.
Lemma append_length (a b : string) : String.length (a ++ b) = String.length a + String.length b.
Proof. induction a as [|c a IH]; cbn; [reflexivity|]. rewrite IH. reflexivity. Qed.
Lemma append_inv_r (p a b : string) : (a ++ p = b ++ p)%string -> a = b.
Proof.
  revert b. induction a as [|c a IH]; intros [|c' b] E; [reflexivity| | |].
  - apply (f_equal String.length) in E. cbn in E. rewrite append_length in E. lia.
  - apply (f_equal String.length) in E. cbn in E. rewrite append_length in E. lia.
  - cbn in E. injection E as -> E. f_equal. auto.
Qed.
Lemma append_nil_r (a : string) : (a ++ "" = a)%string.
Proof. induction a as [|c a IH]; cbn; [reflexivity|]. rewrite IH. reflexivity. Qed.
Lemma key_text {N : Num} (w : world N) k (i : ident) : sampler_key w k i = w_md5 w (fold_right String.append ""%string (key_parts k i)).
Proof. destruct k, i; unfold sampler_key, sampler_hash; cbn; rewrite append_nil_r; reflexivity. Qed.
Lemma texts_differ pre x y post : x <> y -> fold_right String.append ""%string (pre ++ x :: post) <> fold_right String.append ""%string (pre ++ y :: post).
Proof.
  intro H. induction pre as [|p pre IH]; cbn; intro E; [apply append_inv_r in E; congruence|]. apply append_inv_l in E. auto.
Qed.
Lemma key_tells_part {N : Num} (w : world N) k (i i' : ident) : (forall a b, w_md5 w a = w_md5 w b -> a = b) -> one_part_differs k i i' ->
  sampler_key w k i <> sampler_key w k i'.
Proof.
  intros Inj (pre & x & y & post & H & E & E'). rewrite !key_text, E, E'. intro X. apply Inj in X. exact (texts_differ _ _ _ _ H X).
Qed.
