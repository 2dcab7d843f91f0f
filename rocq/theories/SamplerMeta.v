(** SamplerMeta.v - what a sampler does when the values of the objective go through a map that
    keeps, or reverses, their order (C91). *)
From Verif Require Import Base Num NumLaws NumpyModel ConfigSpaceModel SamplerModel ListLemmas.

Section Transport.
Context {N : Num}.
Variable f : N -> N.              (* what happens to the values *)
Variable flip : bool.             (* whether minimize is negated *)
Variable key' : string.           (* the cache key of the other sampler *)

(** the value of an objective: numbers go through f *)
Definition jmap (j : json N) : json N := match j with JNum x => JNum (f x) | _ => j end.
Definition rmap {A B} (g : A -> B) (r : res A) : res B := match r with Ok a => Ok (g a) | Err e => Err e end.
Definition fitted_map (p : option (list (list N) * list (json N))) := option_map (fun q => (fst q, map jmap (snd q))) p.

(** two worlds that differ by f in what the objective returns; fitting and choosing do the same on
    corresponding values *)
Record same_up_to (w w' : world N) : Prop := {
  o_obj : forall k c, w_obj w' k c = rmap jmap (w_obj w k c);
  o_batch : w_batch w' = w_batch w;
  o_bare : w_bare w' = w_bare w;
  o_rand : w_rand w' = w_rand w;
  o_steps : w_steps w' = w_steps w;
  o_ints : w_ints w' = w_ints w;
  o_fit : forall k X ys, w_fit w' k X (map jmap ys) = w_fit w k X ys;
  o_acq : forall k p eta, w_acq w' k (fitted_map p) (option_map f eta) = w_acq w k p eta
}.

Definition emap (e : event N) : event N :=
  match e with
  | EDraw n => EDraw n
  | EObj c r => EObj c (rmap jmap r)
  | EFit x y => EFit x (map jmap y)
  | EAcq p eta (cs, ys) => EAcq (fitted_map p) (option_map f eta) (cs, map jmap ys)
  end.
Definition smap (s : sampler N) : sampler N :=
  mksampler (s_kind s) (s_cs s) (xorb flip (s_min s)) key' (s_configs s) (map jmap (s_ys s))
    (map (fun p => (fst p, jmap (snd p))) (s_cache s)) (s_draws s) (s_calls s) (s_grid s) (s_rpos s)
    (fitted_map (s_fitted s)) (s_fits s) (s_fit_hash s) (s_fresh s) (s_acqs s) (map emap (s_trace s)).

Hypothesis Hlt : forall x y, nlt (f x) (f y) = if flip then nlt y x else nlt x y.
Hypothesis Hnan : forall x, neqb (f x) (f x) = neqb x x.
Variables w w' : world N.
Hypothesis Hw : same_up_to w w'.

(** m' does to the transported state what m does to the state *)
Definition commutes {A} (g : A -> A) (m m' : M N A) : Prop :=
  forall s, m' (smap s) = (smap (fst (m s)), rmap g (snd (m s))).
Definition same {A} (a : A) : A := a.
Lemma rmap_same {A} (r : res A) : rmap same r = r. Proof. destruct r; reflexivity. Qed.

Lemma c_ret {A} (g : A -> A) a : commutes g (ret a) (ret (g a)). Proof. intro s. reflexivity. Qed.
Lemma c_raise {A} (g : A -> A) e : commutes g (raise e) (raise e). Proof. intro s. reflexivity. Qed.
Lemma c_bind {A B} (g : A -> A) (h : B -> B) m m' k k' : commutes g m m' -> (forall a, commutes h (k a) (k' (g a))) -> commutes h (bindM m k) (bindM m' k').
Proof.
  intros H1 H2 s. unfold bindM. rewrite H1. destruct (m s) as [s1 [a|e]]; cbn [fst snd rmap]; [apply H2|reflexivity].
Qed.
Lemma c_get {A} (p : sampler N -> A) : (forall s, p (smap s) = p s) -> commutes same (get p) (get p).
Proof. intros H s. unfold get. cbn. rewrite H. reflexivity. Qed.
Lemma c_upd u u' : (forall s, u' (smap s) = smap (u s)) -> commutes same (upd u) (upd u').
Proof. intros H s. unfold upd. cbn. rewrite H. reflexivity. Qed.
Lemma c_forM {A} (l : list A) k k' : (forall a, commutes same (k a) (k' a)) -> commutes same (forM l k) (forM l k').
Proof. intro H. induction l as [|a l IH]; cbn [forM]; [apply (c_ret same)|]. apply (c_bind same); [apply H|intro; exact IH]. Qed.
Lemma c_collect {A B} (g : B -> B) (l : list A) k k' : (forall a, commutes g (k a) (k' a)) -> commutes (map g) (collect l k) (collect l k').
Proof.
  intro H. induction l as [|a l IH]; cbn [collect]; [apply (c_ret (map g) [])|]. apply (c_bind g); [apply H|]. intro b.
  apply (c_bind (map g)); [exact IH|]. intro bs. apply (c_ret (map g) (b :: bs)).
Qed.
Lemma c_times n m m' : commutes same m m' -> commutes same (times n m) (times n m').
Proof. intro H. induction n as [|n IH]; cbn [times]; [apply (c_ret same)|]. apply (c_bind same); [exact H|intro; exact IH]. Qed.

Lemma slen_smap s : slen (smap s) = slen s. Proof. reflexivity. Qed.
Lemma c_append c y : commutes same (append c y) (append c (jmap y)).
Proof. apply c_upd. intro s. unfold set_points, smap. cbn. rewrite map_app. reflexivity. Qed.
Lemma c_obj c : commutes jmap (call_obj w c) (call_obj w' c).
Proof. intro s. unfold call_obj. cbn [smap s_calls fst snd]. rewrite (o_obj w w' Hw). reflexivity. Qed.
Lemma c_draw n : commutes same (sample_configuration w n) (sample_configuration w' n).
Proof. intro s. unfold sample_configuration. rewrite (o_batch _ _ Hw), (o_bare _ _ Hw). reflexivity. Qed.
Lemma c_nth d i : commutes same (drawn_nth d i) (drawn_nth d i).
Proof. destruct d as [c|l]; cbn [drawn_nth]; [apply c_raise|]. destruct (nth_error l i); [apply (c_ret same)|apply c_raise]. Qed.
Lemma c_random n : commutes same (random_sample w n) (random_sample w' n).
Proof.
  apply (c_bind same); [apply c_draw|]. intro d. apply c_forM. intro i. apply (c_bind same); [apply c_nth|]. intro c.
  apply (c_bind jmap); [apply c_obj|]. intro v. apply c_append.
Qed.

(** the grid *)
Lemma axis_eq h n : grid_axis w' h n = grid_axis w h n.
Proof. unfold grid_axis. rewrite (o_ints _ _ Hw). reflexivity. Qed.
Lemma product_eq cs n : grid_product w' cs n = grid_product w cs n.
Proof. induction cs as [|h cs IH]; cbn [grid_product]; [reflexivity|]. rewrite axis_eq, IH. reflexivity. Qed.
Lemma shuffle_from_eq {A} i : forall pos (l : list A), shuffle_from w' i pos l = shuffle_from w i pos l.
Proof. induction i as [|i IH]; intros pos l; cbn [shuffle_from]; [reflexivity|]. rewrite (o_rand _ _ Hw), IH. reflexivity. Qed.
Lemma c_make n : commutes same (make_grid w n) (make_grid w' n).
Proof.
  intro s. unfold make_grid. cbn [smap s_cs]. destruct (s_cs s) as [|h t] eqn:E; [cbn; reflexivity|].
  rewrite (o_steps _ _ Hw), product_eq. destruct (grid_product w (h :: t) _) as [g|e]; [|reflexivity].
  unfold shuffle. rewrite shuffle_from_eq. reflexivity.
Qed.
Lemma c_loop fuel : forall n, commutes same (grid_loop w fuel n) (grid_loop w' fuel n).
Proof.
  induction fuel as [|fuel IH]; intros n s; cbn [grid_loop]; rewrite slen_smap; (destruct (n <=? slen s); [reflexivity|]); [reflexivity|].
  cbn [smap s_grid]. destruct (s_grid s) as [[|c g]|]; try reflexivity.
  change (s_configs (smap s)) with (s_configs s). destruct (existsb (conf_eqb c) (s_configs s)).
  - exact (IH n (set_grid (Some g) (s_rpos s) s)).
  - match goal with |- ?m' _ = (_, _) => match goal with |- context [rmap same (snd (?m _))] =>
      assert (H : commutes same m m'); [|exact (H (set_grid (Some g) (s_rpos s) s))] end end.
    apply (c_bind same).
    + apply c_upd. intro s'. reflexivity.
    + intros _. apply (c_bind jmap); [apply c_obj|]. intro y. apply (c_bind same); [|intros _; exact (IH n)].
      apply c_upd. intro s'. unfold set_points, smap. cbn. rewrite map_app. reflexivity.
Qed.
Lemma c_grid n : commutes same (grid_sample w n) (grid_sample w' n).
Proof.
  intro s. unfold grid_sample. cbv zeta. rewrite slen_smap. change (s_grid (smap s)) with (s_grid s).
  match goal with |- ?m' _ = (_, _) => match goal with |- context [rmap same (snd (?m _))] =>
    assert (H : commutes same m m'); [|exact (H s)] end end.
  apply (c_bind same).
  - destruct (s_grid s) as [g|]; [|apply c_make]. destruct (slen s + length g <? slen s + n); [apply c_make|apply (c_ret same)].
  - intros _. apply (c_bind same); [apply c_get; reflexivity|]. intro g. apply c_loop.
Qed.

(** Bayesian optimization *)
Lemma c_surrogate_fit : commutes same (surrogate_fit w) (surrogate_fit w').
Proof.
  intro s. unfold surrogate_fit. cbv zeta. change (s_fits (smap s)) with (s_fits s). change (sX (smap s)) with (sX s).
  change (s_ys (smap s)) with (map jmap (s_ys s)). rewrite (o_fit _ _ Hw).
  destruct (w_fit w (s_fits s) (sX s) (s_ys s)) as [u|e]; reflexivity.
Qed.
Lemma c_fit force : commutes same (fit_surrogate w force) (fit_surrogate w' force).
Proof.
  intro s. unfold fit_surrogate. cbv zeta. change (s_fresh (smap s)) with (s_fresh s). change (s_fit_hash (smap s)) with (s_fit_hash s).
  change (set_hash (s_fit_hash s) (S (s_fresh s)) (smap s)) with (smap (set_hash (s_fit_hash s) (S (s_fresh s)) s)).
  change (s_fit_hash (smap (set_hash (s_fit_hash s) (S (s_fresh s)) s))) with (s_fit_hash (set_hash (s_fit_hash s) (S (s_fresh s)) s)).
  match goal with |- ?m' _ = (_, _) => match goal with |- context [rmap same (snd (?m _))] =>
    assert (H : commutes same m m'); [|apply H] end end.
  apply (c_bind same).
  - match goal with |- context [if ?b then _ else _] => destruct b end; [apply c_surrogate_fit|apply (c_ret same)].
  - intros _. apply c_upd. intro s'. reflexivity.
Qed.
Lemma c_call_drawn d : commutes jmap (call_drawn w d) (call_drawn w' d).
Proof. destruct d as [c|l]; cbn [call_drawn]; [apply c_obj|apply c_raise]. Qed.
Lemma c_initial ip n : commutes same (sample_initial w ip n) (sample_initial w' ip n).
Proof.
  unfold sample_initial. cbv zeta. apply (c_bind same); [apply c_draw|]. intro d. apply (c_bind (map jmap)).
  - apply c_collect. apply c_call_drawn.
  - intro ys. apply (c_bind same); [|intros _; apply c_fit]. apply c_upd. intro s. unfold set_points, smap. cbn. rewrite map_app. reflexivity.
Qed.

(** the incumbent *)
Lemma jnum_map j : jnum (jmap j) = rmap f (jnum j). Proof. destruct j; reflexivity. Qed.
Lemma jnums_map l : mapM jnum (map jmap l) = rmap (map f) (mapM jnum l).
Proof.
  induction l as [|j l IH]; cbn [map mapM]; [reflexivity|]. rewrite jnum_map, IH. destruct (jnum j); cbn [bind rmap]; [|reflexivity].
  destruct (mapM jnum l); reflexivity.
Qed.
Lemma arg_best_map better better' : (forall x y, better' (f x) (f y) = better x y) ->
  forall l b x i, arg_best better' b (f x) i (map f l) = arg_best better b x i l.
Proof.
  intros H. induction l as [|y l IH]; intros b x i; cbn [map arg_best]; [reflexivity|]. rewrite !Hnan, H, !IH. reflexivity.
Qed.
Lemma better_map (mn : bool) x y : (if xorb flip mn then nlt else fun a b : N => nlt b a) (f x) (f y) = (if mn then nlt else fun a b : N => nlt b a) x y.
Proof. destruct flip, mn; cbn [xorb]; rewrite Hlt; reflexivity. Qed.
Lemma py_nth_f (l : list N) i : py_nth (map f l) i = rmap f (py_nth l i).
Proof. unfold py_nth. rewrite nth_error_map. destruct (nth_error l i); reflexivity. Qed.
Definition imap (o : option (conf N * N)) : option (conf N * N) := option_map (fun p => (fst p, f (snd p))) o.
Lemma incumbent_map s : incumbent (smap s) = rmap imap (incumbent s).
Proof.
  unfold incumbent. change (s_ys (smap s)) with (map jmap (s_ys s)). change (s_configs (smap s)) with (s_configs s).
  change (s_min (smap s)) with (xorb flip (s_min s)). destruct (s_ys s) as [|y ys] eqn:E; [reflexivity|].
  change (match map jmap (y :: ys) with [] => ?a | _ => ?b end) with b. rewrite jnums_map.
  destruct (mapM jnum (y :: ys)) as [l|e]; cbn [bind rmap]; [|reflexivity]. cbv zeta.
  assert (Ei : np_arg (if xorb flip (s_min s) then nlt else fun a b : N => nlt b a) (map f l) = np_arg (if s_min s then nlt else fun a b : N => nlt b a) l).
  { destruct l as [|x l]; [reflexivity|]. cbn [map np_arg]. apply arg_best_map. apply better_map. }
  rewrite Ei, py_nth_f. set (i := np_arg _ l). destruct (py_nth (s_configs s) i) as [c|e]; cbn [bind rmap]; [|reflexivity].
  destruct (py_nth l i); reflexivity.
Qed.
Lemma c_bo_step : commutes same (bo_step w) (bo_step w').
Proof.
  unfold bo_step. apply (c_bind imap).
  - intro s. cbn [fst snd]. rewrite incumbent_map. reflexivity.
  - intro inc. apply (c_bind same).
    + intro s. cbv zeta. cbn [fst snd]. change (s_acqs (smap s)) with (s_acqs s). change (s_fitted (smap s)) with (fitted_map (s_fitted s)).
      assert (Eo : option_map snd (imap inc) = option_map f (option_map snd inc)) by (destruct inc as [[c x]|]; reflexivity).
      rewrite Eo, (o_acq _ _ Hw), rmap_same. reflexivity.
    + intro c. apply (c_bind jmap); [apply c_obj|]. intro y. apply (c_bind same); [apply c_append|]. intros _. apply c_fit.
Qed.
Lemma c_bo ip n : commutes same (bo_sample w ip n) (bo_sample w' ip n).
Proof.
  unfold bo_sample. apply (c_bind same); [apply c_get; reflexivity|]. intro cur. apply (c_bind same).
  - unfold same. destruct (cur <? ip); [|apply (c_ret same)]. apply (c_bind same); [apply c_initial|]. intros _. apply c_get. reflexivity.
  - intro k. apply (c_bind same); [apply c_fit|]. intros _. apply c_times. apply c_bo_step.
Qed.

(** sample *)
Lemma c_new k n : commutes same (sample_new w k n) (sample_new w' k n).
Proof. destruct k; cbn [sample_new]; [apply c_random|apply c_grid|apply c_bo]. Qed.
Lemma c_replay n : commutes same (replay n) (replay n).
Proof.
  induction n as [|n IH]; cbn [replay]; [apply (c_ret same)|]. intro s. change (s_cache (smap s)) with (map (fun p => (fst p, jmap (snd p))) (s_cache s)).
  destruct (s_cache s) as [|[c y] t]; cbn [map]; [reflexivity|]. cbn [fst snd].
  match goal with |- ?m' _ = (_, _) => match goal with |- context [rmap same (snd (?m _))] =>
    assert (H : commutes same m m'); [|exact (H (set_cache t s))] end end.
  apply (c_bind same); [apply c_append|]. intros _. apply (c_bind same); [exact IH|]. intro k. apply (c_ret same).
Qed.
Lemma c_base n : commutes same (sample_base w n) (sample_base w' n).
Proof.
  intro s. unfold sample_base. cbv zeta.
  assert (E : (if length (s_cache (smap s)) <? slen (smap s) + n then set_cache [] (smap s) else smap s) =
              smap (if length (s_cache s) <? slen s + n then set_cache [] s else s)).
  { change (s_cache (smap s)) with (map (fun p => (fst p, jmap (snd p))) (s_cache s)). rewrite map_length, slen_smap.
    destruct (length (s_cache s) <? slen s + n); reflexivity. }
  rewrite E. change (s_kind (smap s)) with (s_kind s).
  match goal with |- ?m' _ = (_, _) => match goal with |- context [rmap same (snd (?m _))] =>
    assert (H : commutes same m m'); [|apply H] end end.
  apply (c_bind same); [apply c_replay|]. intro k. unfold same at 1 2. destruct (k <? n); [apply c_new|apply (c_ret same)].
Qed.
Lemma c_sample n : commutes same (sample w n) (sample w' n).
Proof.
  intro s. unfold sample. change (s_kind (smap s)) with (s_kind s).
  match goal with |- ?m' _ = (_, _) => match goal with |- context [rmap same (snd (?m _))] =>
    assert (H : commutes same m m'); [|apply H] end end.
  apply (c_bind same); [apply c_base|]. intros _. destruct (s_kind s); try apply (c_ret same). apply c_fit.
Qed.
Lemma c_step op : commutes same (sstep w op) (sstep w' op).
Proof.
  destruct op; cbn [sstep]; [apply c_sample|apply c_upd; reflexivity|apply c_upd; reflexivity|].
  intro s. change (s_kind (smap s)) with (s_kind s). destruct (s_kind s); try reflexivity. apply c_fit.
Qed.
Theorem run_smap ops : forall s, srun w' ops (smap s) = (smap (fst (srun w ops s)), snd (srun w ops s)).
Proof.
  induction ops as [|op ops IH]; intro s; cbn [srun]; [reflexivity|]. rewrite c_step. destruct (sstep w op s) as [s1 r]; cbn [fst snd].
  rewrite IH. destruct (srun w ops s1) as [s2 rs]; cbn [fst snd]. rewrite rmap_same. reflexivity.
Qed.

(** ** C91 *)
Theorem run_transported k cs mn key fs fs' ops : fs key = None -> fs' key' = None ->
  let r := srun w ops (sampler_new w k cs mn key fs) in
  let r' := srun w' ops (sampler_new w' k cs (if flip then negb mn else mn) key' fs') in
  snd r' = snd r /\
  s_configs (fst r') = s_configs (fst r) /\
  s_ys (fst r') = map jmap (s_ys (fst r)) /\
  s_draws (fst r') = s_draws (fst r) /\ s_calls (fst r') = s_calls (fst r) /\ s_fits (fst r') = s_fits (fst r) /\ s_acqs (fst r') = s_acqs (fst r) /\
  incumbent (fst r') = match incumbent (fst r) with Ok (Some (c, y)) => Ok (Some (c, f y)) | Ok None => Ok None | Err e => Err e end.
Proof.
  intros Hk Hk' r r'. assert (E : r' = (smap (fst r), snd r)).
  { unfold r', r. rewrite <- run_smap. f_equal. unfold sampler_new, smap. cbn. unfold load_cache. rewrite Hk, Hk'. destruct flip, mn; reflexivity. }
  rewrite E. cbn [fst snd]. refine (conj eq_refl (conj eq_refl (conj eq_refl (conj eq_refl (conj eq_refl (conj eq_refl (conj eq_refl _))))))).
  rewrite incumbent_map. destruct (incumbent (fst r)) as [[[c y]|]|e]; reflexivity.
Qed.
End Transport.
