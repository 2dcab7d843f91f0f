(** SamplerProofs.v - rules for statements on a sampler; pairing (C33), sample sizes (C35). *)
From Verif Require Import Base Num NumLaws NumpyModel ConfigSpaceModel SamplerModel SamplerSpec ListLemmas.
From Coq Require Import Sorted.
Local Open Scope nat_scope.
Local Open Scope list_scope.

Section P.
Context {N : Num}.
Implicit Types (s : sampler N).

(** ** Hoare triples with a condition for exceptions *)
Definition triple {A} (P : sampler N -> Prop) (m : M N A) (Q : A -> sampler N -> Prop) (E : sampler N -> Prop) : Prop :=
  forall s, P s -> match m s with (s', Ok a) => Q a s' | (s', Err _) => E s' end.

Lemma triple_ret {A} (a : A) (P : sampler N -> Prop) (Q : A -> sampler N -> Prop) E : (forall s, P s -> Q a s) -> triple P (ret a) Q E.
Proof. intros H s Hs. apply H, Hs. Qed.
Lemma triple_raise {A} e (P : sampler N -> Prop) (Q : A -> sampler N -> Prop) (E : sampler N -> Prop) : (forall s, P s -> E s) -> triple P (raise e) Q E.
Proof. intros H s Hs. apply H, Hs. Qed.
Lemma triple_bind {A B} (m : M N A) (k : A -> M N B) P Q R E :
  triple P m Q E -> (forall a, triple (Q a) (k a) R E) -> triple P (bindM m k) R E.
Proof. intros H K s Hs. specialize (H s Hs). unfold bindM. destruct (m s) as [s' [a|e]]; [apply K, H|exact H]. Qed.
Lemma triple_weak {A} (m : M N A) (P P' : sampler N -> Prop) (Q Q' : A -> sampler N -> Prop) (E E' : sampler N -> Prop) :
  triple P' m Q' E' -> (forall s, P s -> P' s) -> (forall a s, Q' a s -> Q a s) -> (forall s, E' s -> E s) -> triple P m Q E.
Proof. intros H A1 A2 A3 s Hs. specialize (H s (A1 s Hs)). destruct (m s) as [s' [a|e]]; auto. Qed.
Lemma triple_upd f (P : sampler N -> Prop) (Q : unit -> sampler N -> Prop) E : (forall s, P s -> Q tt (f s)) -> triple P (upd f) Q E.
Proof. intros H s Hs. apply H, Hs. Qed.
Lemma triple_get {A} (f : sampler N -> A) (P : sampler N -> Prop) (Q : A -> sampler N -> Prop) E : (forall s, P s -> Q (f s) s) -> triple P (get f) Q E.
Proof. intros H s Hs. apply H, Hs. Qed.
Lemma triple_forM {A} (l : list A) (f : A -> M N unit) (P : nat -> sampler N -> Prop) E :
  (forall i a, nth_error l i = Some a -> triple (P i) (f a) (fun _ => P (S i)) E) -> triple (P 0) (forM l f) (fun _ => P (length l)) E.
Proof.
  revert P. induction l as [|a l IH]; intros P H; [intros s Hs; exact Hs|]. cbn [forM]. eapply triple_bind; [apply (H 0 a eq_refl)|].
  intros []. apply (IH (fun i => P (S i))). intros i b Hb. apply (H (S i) b Hb).
Qed.
Lemma triple_times n (m : M N unit) (P : nat -> sampler N -> Prop) E :
  (forall i, i < n -> triple (P i) m (fun _ => P (S i)) E) -> triple (P 0) (times n m) (fun _ => P n) E.
Proof.
  revert P. induction n as [|n IH]; intros P H; [intros s Hs; exact Hs|]. cbn [times]. eapply triple_bind; [apply (H 0); lia|].
  intros []. apply (IH (fun i => P (S i))). intros i Hi. apply (H (S i)). lia.
Qed.
Lemma triple_collect {A B} (l : list A) (f : A -> M N B) (P : sampler N -> Prop) (R : A -> B -> sampler N -> Prop) E :
  (forall a b s s', R a b s -> s_calls s <= s_calls s' -> R a b s') ->
  (forall a (F : sampler N -> Prop), (forall s s', F s -> s_calls s <= s_calls s' -> F s') ->
      triple (fun s => P s /\ F s) (f a) (fun b s => P s /\ F s /\ R a b s) E) ->
  triple P (collect l f) (fun bs s => P s /\ Forall2 (fun a b => R a b s) l bs) E.
Proof.
  intros Mono H. assert (K : forall (F : sampler N -> Prop), (forall s s', F s -> s_calls s <= s_calls s' -> F s') ->
     triple (fun s => P s /\ F s) (collect l f) (fun bs s => P s /\ F s /\ Forall2 (fun a b => R a b s) l bs) E).
  { induction l as [|a l IH]; intros F FM; cbn [collect].
    - apply triple_ret. intros s [A1 A2]. repeat split; auto.
    - eapply triple_bind; [apply (H a F FM)|]. intro b. eapply triple_bind.
      + eapply triple_weak; [apply (IH (fun s => F s /\ R a b s))| | |]; cbn.
        * intros s s' [A1 A2] Hle. split; eauto.
        * intros s (A1 & A2 & A3). auto.
        * intros bs s X. exact X.
        * auto.
      + intro bs. apply triple_ret. cbn. intros s (A1 & (A2 & A3) & A4). repeat split; auto. }
  eapply triple_weak; [apply (K (fun _ => True)); auto| | |]; cbn; intuition.
Qed.

Variable w : world N.

(** ** primitives *)
(** a property of the points, the cache and the number of calls *)
Definition on_points (Inv : list (conf N) -> list (json N) -> list (conf N * json N) -> nat -> Prop) s : Prop :=
  Inv (s_configs s) (s_ys s) (s_cache s) (s_calls s).

Section Inv.
Variable Inv : list (conf N) -> list (json N) -> list (conf N * json N) -> nat -> Prop.
Hypothesis Inv_mono : forall a b c n m, Inv a b c n -> n <= m -> Inv a b c m.
Notation I := (on_points Inv).

Lemma call_obj_triple c F : triple (fun s => I s /\ F (s_calls s)) (call_obj w c)
  (fun y s => I s /\ exists k, S k = s_calls s /\ F k /\ w_obj w k (c_vals c) = Ok y) I.
Proof.
  intros s [Hs HF]. unfold call_obj. destruct (w_obj w (s_calls s) (c_vals c)) as [y|e] eqn:E; unfold on_points; cbn.
  - split; [eapply Inv_mono; [exact Hs|lia]|eauto].
  - eapply Inv_mono; [exact Hs|lia].
Qed.
Lemma draw_triple n : triple I (sample_configuration w n) (fun _ => I) I.
Proof. intros s Hs. exact Hs. Qed.
Lemma fit_triple b : triple I (fit_surrogate w b) (fun _ => I) I.
Proof.
  intros s Hs. unfold fit_surrogate, bindM, ret, upd. destruct (_ || _); [|exact Hs]. unfold surrogate_fit.
  destruct (w_fit _ _ _ _); exact Hs.
Qed.
End Inv.

(** the state fields not touched by statements *)
Definition static s := (s_kind s, s_cs s, s_min s, s_hash s).
Lemma grid_loop_static fuel : forall e s, static (fst (grid_loop w fuel e s)) = static s.
Proof.
  induction fuel as [|fuel IH]; intros e s; cbn [grid_loop]; destruct (e <=? slen s); try reflexivity. destruct (s_grid s) as [[|c g]|]; try reflexivity.
  destruct (existsb _ _).
  - rewrite IH. reflexivity.
  - unfold bindM, upd, call_obj. cbn. destruct (w_obj _ _ _); [|reflexivity]. rewrite IH. reflexivity.
Qed.
Definition stat_ok {A} (m : M N A) : Prop := forall s, static (fst (m s)) = static s.
Lemma stat_bind {A B} (m : M N A) (k : A -> M N B) : stat_ok m -> (forall a, stat_ok (k a)) -> stat_ok (bindM m k).
Proof. intros H K s. unfold bindM. specialize (H s). destruct (m s) as [s' [a|e]]; cbn in *; [rewrite (K a s'); exact H|exact H]. Qed.
Lemma stat_forM {A} (l : list A) f : (forall a, stat_ok (f a)) -> stat_ok (forM (N:=N) l f).
Proof. intro H. induction l as [|a l IH]; cbn; [intro; reflexivity|]. apply stat_bind; auto. Qed.
Lemma stat_times n (m : M N unit) : stat_ok m -> stat_ok (times n m).
Proof. intro H. induction n as [|n IH]; cbn; [intro; reflexivity|]. apply stat_bind; auto. Qed.
Lemma stat_collect {A B} (l : list A) (f : A -> M N B) : (forall a, stat_ok (f a)) -> stat_ok (collect l f).
Proof. intro H. induction l as [|a l IH]; cbn; [intro; reflexivity|]. apply stat_bind; auto. intro b. apply stat_bind; auto. intros bs s. reflexivity. Qed.
Lemma stat_obj c : stat_ok (call_obj w c). Proof. intro s. reflexivity. Qed.
Lemma stat_append c (y : json N) : stat_ok (append c y). Proof. intro s. reflexivity. Qed.
Lemma stat_fit b : stat_ok (fit_surrogate w b).
Proof. intro s. unfold fit_surrogate, bindM, ret, upd. destruct (_ || _); [|reflexivity]. unfold surrogate_fit. destruct (w_fit _ _ _ _); reflexivity. Qed.
Lemma stat_new k n : stat_ok (sample_new w k n).
Proof.
  destruct k as [| |ip]; cbn [sample_new].
  - unfold random_sample. apply stat_bind; [intro; reflexivity|]. intro d. apply stat_forM. intro i. apply stat_bind.
    + intro s. destruct d as [|l]; [reflexivity|]. cbn. destruct (nth_error l i); reflexivity.
    + intro c. apply stat_bind; [apply stat_obj|]. intro. apply stat_append.
  - intro s. unfold grid_sample. destruct (s_grid s) as [g|].
    + apply stat_bind; [|intros []; apply stat_bind; [intro; reflexivity|intros g' s'; apply grid_loop_static]].
      destruct (_ <? _); [|intro; reflexivity]. intro s'. unfold make_grid. destruct (s_cs s'); [reflexivity|]. destruct (grid_product _ _ _); reflexivity.
    + apply stat_bind; [|intros []; apply stat_bind; [intro; reflexivity|intros g' s'; apply grid_loop_static]].
      intro s'. unfold make_grid. destruct (s_cs s'); [reflexivity|]. destruct (grid_product _ _ _); reflexivity.
  - unfold bo_sample. apply stat_bind; [intro; reflexivity|]. intro cur. apply stat_bind.
    + destruct (cur <? ip); [|intro; reflexivity]. apply stat_bind; [|intros _ s; reflexivity]. unfold sample_initial. apply stat_bind; [intro; reflexivity|].
      intro d. apply stat_bind; [apply stat_collect; intros [c|l]; [apply stat_obj|intro; reflexivity]|]. intro ys. apply stat_bind; [intro; reflexivity|]. intros _. apply stat_fit.
    + intro al. apply stat_bind; [apply stat_fit|]. intros _. apply stat_times. unfold bo_step. apply stat_bind; [intro; reflexivity|].
      intro inc. apply stat_bind; [intro; reflexivity|]. intro c. apply stat_bind; [apply stat_obj|]. intro y. apply stat_bind; [apply stat_append|]. intros _; apply stat_fit.
Qed.
Lemma stat_replay n : stat_ok (replay (N:=N) n).
Proof.
  induction n as [|n IH]; intro s; cbn [replay]; [reflexivity|]. destruct (s_cache s) as [|[c y] t]; [reflexivity|].
  unfold bindM, append, upd. specialize (IH (set_points (s_configs (set_cache t s) ++ [c]) (s_ys (set_cache t s) ++ [y]) (set_cache t s))).
  destruct (replay n _) as [s' [k|e]]; cbn in *; exact IH.
Qed.
Lemma stat_sample n : stat_ok (sample w n).
Proof.
  intro s. unfold sample. apply stat_bind.
  - intro s'. unfold sample_base. set (s1 := if _ <? _ then _ else _). assert (static s1 = static s') as <- by (unfold s1; destruct (_ <? _); reflexivity).
    apply stat_bind; [apply stat_replay|]. intro k. destruct (k <? n); [apply stat_new|intro; reflexivity].
  - intros _. destruct (s_kind s); try (intro; reflexivity). apply stat_fit.
Qed.
Lemma stat_step op : stat_ok (sstep w op).
Proof.
  destruct op; cbn [sstep]; [apply stat_sample|intro; reflexivity|intro; reflexivity|]. intro s. destruct (s_kind s); try reflexivity. apply stat_fit.
Qed.
Lemma stat_run ops : forall s, static (fst (srun w ops s)) = static s.
Proof.
  induction ops as [|op ops IH]; intro s; [reflexivity|]. cbn [srun]. pose proof (stat_step op s) as H. destruct (sstep w op s) as [s1 r]. cbn in H.
  specialize (IH s1). destruct (srun w ops s1). cbn in *. congruence.
Qed.

Lemma F2_impl {A B} (R R' : A -> B -> Prop) l l' : (forall a b, R a b -> R' a b) -> Forall2 R l l' -> Forall2 R' l l'.
Proof. intros H F. induction F; constructor; auto. Qed.

(** ** C33: pairing *)
Section Pairing.
Variable fs : files.
Definition pair_ok (init : list (conf N * json N)) (n : nat) (c : conf N) (y : json N) : Prop :=
  (exists k, k < n /\ w_obj w k (c_vals c) = Ok y) \/ In (c, y) init.
Variable init : list (conf N * json N).
Definition paired (cs : list (conf N)) ys cache n : Prop := Forall2 (pair_ok init n) cs ys /\ incl cache init.
Lemma pair_mono n m c y : pair_ok init n c y -> n <= m -> pair_ok init m c y.
Proof. intros [(k & A & B)|A] H; [left; exists k; split; [lia|exact B]|right; exact A]. Qed.
Lemma paired_mono a b c n m : paired a b c n -> n <= m -> paired a b c m.
Proof. intros [A B] H. split; [|exact B]. eapply F2_impl; [|exact A]. intros x y K. eapply pair_mono; eauto. Qed.
Notation I := (on_points paired).

Lemma obj_append_triple {A} c (k : M N A) (Q : A -> sampler N -> Prop) : triple I k Q I ->
  triple I (bindM (call_obj w c) (fun v => bindM (append c v) (fun _ => k))) Q I.
Proof.
  intro H. eapply triple_bind.
  - eapply triple_weak; [apply (call_obj_triple paired paired_mono c (fun _ => True))| | |]; cbn; [auto|intros a s X; exact X|auto].
  - intro v. eapply triple_bind with (Q := fun _ => I); [|intros []; exact H]. apply triple_upd. intros s [[HI HC] (k0 & E & _ & HO)]. split; [|exact HC]. cbn.
    apply Forall2_app; [exact HI|]. constructor; [|constructor]. left. exists k0. split; [lia|exact HO].
Qed.
Lemma random_paired n : triple I (random_sample w n) (fun _ => I) I.
Proof.
  unfold random_sample. eapply triple_bind; [apply draw_triple|]. intro d. cbn.
  apply (triple_forM _ _ (fun _ => I)). intros i a _. eapply triple_bind with (Q := fun _ => I).
  - intros s Hs. destruct d as [|l]; [exact Hs|]. cbn. destruct (nth_error l a); exact Hs.
  - intro c. intros s Hs. pose proof (obj_append_triple c (ret tt) (fun _ => I) (triple_ret tt I _ I (fun s H => H)) s Hs) as H.
    unfold bindM in *. destruct (call_obj w c s) as [s1 [v|e]]; [|exact H]. destruct (append c v s1) as [s2 [u|e]]; exact H.
Qed.
Lemma bo_step_paired : triple I (bo_step w) (fun _ => I) I.
Proof.
  unfold bo_step. eapply triple_bind with (Q := fun _ => I).
  - intros s Hs. destruct (incumbent s); exact Hs.
  - intro inc. eapply triple_bind with (Q := fun _ => I).
    + intros s Hs. destruct (w_acq _ _ _ _); exact Hs.
    + intro c. apply obj_append_triple. apply fit_triple.
Qed.
Lemma bare_items (items : list (drawn N)) (ys : list (json N)) (R : conf N -> json N -> Prop) :
  Forall2 (fun d y => match d with DBare c => R c y | DList _ => False end) items ys -> Forall2 R (bare_all items) ys.
Proof. induction 1 as [|d y ds ys H F IH]; [constructor|]. destruct d; [constructor; auto|destruct H]. Qed.
Lemma initial_paired ip n : triple I (sample_initial w ip n) (fun _ => I) I.
Proof.
  unfold sample_initial. eapply triple_bind; [apply draw_triple|]. intro d. cbn.
  set (items := if Nat.eqb _ 1 then _ else _).
  eapply triple_bind.
  - apply (triple_collect items (call_drawn w) I (fun d y s => match d with DBare c => pair_ok init (s_calls s) c y | DList _ => False end) I).
    + intros [c|l] y s s' H Hle; [eapply pair_mono; eauto|exact H].
    + intros [c|l] F FM.
      * intros s [Hs HF]. cbn. unfold call_obj. destruct (w_obj w (s_calls s) (c_vals c)) as [y|e] eqn:E.
        -- refine (conj _ (conj _ _)).
           ++ unfold on_points. cbn. eapply paired_mono; [exact Hs|lia].
           ++ eapply FM; [exact HF|cbn; lia].
           ++ left. cbn. eauto.
        -- unfold on_points. cbn. eapply paired_mono; [exact Hs|lia].
      * intros s [Hs HF]. exact Hs.
  - intro ys. eapply triple_bind with (Q := fun _ => I); [|intros []; apply fit_triple]. apply triple_upd. intros s [[HI HC] HF]. split; [|exact HC]. cbn.
    apply Forall2_app; [exact HI|]. apply bare_items. exact HF.
Qed.
Lemma bo_paired ip n : triple I (bo_sample w ip n) (fun _ => I) I.
Proof.
  unfold bo_sample. eapply triple_bind; [apply (triple_get _ I (fun _ => I)); auto|]. intro cur. eapply triple_bind with (Q := fun _ => I).
  - destruct (cur <? ip); [|apply triple_ret; auto]. eapply triple_bind; [apply initial_paired|]. intros []. apply triple_get; auto.
  - intro al. eapply triple_bind; [apply fit_triple|]. intros []. apply (triple_times _ _ (fun _ => I)). intros i _. apply bo_step_paired.
Qed.
Lemma replay_paired n : triple I (replay n) (fun _ => I) I.
Proof.
  induction n as [|n IH]; [apply triple_ret; auto|]. intros s Hs. cbn [replay]. destruct (s_cache s) as [|[c y] t] eqn:E; [exact Hs|].
  destruct Hs as [HI HC]. rewrite E in HC.
  specialize (IH (set_points (s_configs s ++ [c]) (s_ys s ++ [y]) (set_cache t s))).
  unfold bindM, append, upd, ret in *. cbn [s_configs s_ys set_cache] in *.
  destruct (replay n _) as [s' [k|e]]; apply IH; (split; cbn; [apply Forall2_app; [exact HI|constructor; [right; apply HC; left; reflexivity|constructor]]|intros x Hx; apply HC; right; exact Hx]).
Qed.
Lemma sample_paired n s : s_kind s <> KGrid -> I s -> I (fst (sample w n s)).
Proof.
  intros HK Hs. unfold sample.
  assert (T : triple (fun s' => I s' /\ s_kind s' = s_kind s) (sample_base w n) (fun _ => I) I).
  { intros s' [Hs' Ek]. unfold sample_base. rewrite Ek. set (s1 := if _ <? _ then _ else _).
    assert (H1 : I s1). { unfold s1. destruct (_ <? _); [|exact Hs']. destruct Hs' as [A B]. split; [exact A|]. intros x Hx. destruct Hx. }
    assert (T1 : triple I (bindM (replay n) (fun k => if k <? n then sample_new w (s_kind s) (n - k) else ret tt)) (fun _ => I) I).
    { eapply triple_bind; [apply replay_paired|]. intro k. destruct (k <? n); [|apply triple_ret; auto].
      destruct (s_kind s) as [| |ip]; [apply random_paired|congruence|apply bo_paired]. }
    apply T1. exact H1. }
  assert (T2 : triple (fun s' => I s' /\ s_kind s' = s_kind s) (bindM (sample_base w n) (fun _ => match s_kind s with KBO _ => fit_surrogate w false | _ => ret tt end)) (fun _ => I) I).
  { eapply triple_bind; [exact T|]. intros []. destruct (s_kind s); try (apply triple_ret; auto). apply fit_triple. }
  specialize (T2 s (conj Hs eq_refl)). destruct (bindM _ _ s) as [s' [a|e]]; exact T2.
Qed.
Lemma step_paired op s : s_kind s <> KGrid -> I s -> I (fst (sstep w op s)).
Proof.
  intros HK Hs. destruct op; cbn [sstep].
  - apply sample_paired; assumption.
  - destruct Hs as [A B]. split; [constructor|exact B].
  - destruct Hs as [A B]. split; [exact A|]. intros x Hx; destruct Hx.
  - destruct (s_kind s); try exact Hs. pose proof (fit_triple paired force s Hs) as H. destruct (fit_surrogate w force s) as [s' [a|e]]; exact H.
Qed.
Lemma run_paired ops : forall s, s_kind s <> KGrid -> I s -> I (fst (srun w ops s)).
Proof.
  induction ops as [|op ops IH]; intros s HK Hs; [exact Hs|]. cbn [srun]. pose proof (step_paired op s HK Hs) as H. pose proof (stat_step op s) as Hst.
  destruct (sstep w op s) as [s1 r]. cbn in *. specialize (IH s1). destruct (srun w ops s1). cbn in *. apply IH; [|exact H].
  unfold static in Hst. inversion Hst. congruence.
Qed.
End Pairing.

Theorem points_paired fs s : sreaches w fs s -> s_kind s <> KGrid ->
  length (s_ys s) = length (s_configs s) /\ Forall2 (came_from w fs s) (s_configs s) (s_ys s).
Proof.
  intros (k & cs & mn & key & ops & ->) HK. set (s0 := sampler_new w k cs mn key fs) in *.
  pose proof (stat_run ops s0) as Hst. unfold static in Hst. injection Hst as E1 E2 E3 E4.
  assert (H : on_points (paired (load_cache w cs (fs key))) (fst (srun w ops s0))).
  { apply run_paired; [intro Hk; apply HK; rewrite E1; exact Hk|]. split; [constructor|intros x Hx; exact Hx]. }
  destruct H as [H _]. split; [symmetry; eapply Forall2_length; exact H|]. unfold came_from. rewrite E2, E4. exact H.
Qed.
End P.
