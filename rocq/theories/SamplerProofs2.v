(** SamplerProofs2.v - numbers of points (C35), single points (C36), incumbent (C37), the cache (C38-C41). *)
From Verif Require Import Base Num NumLaws NumpyModel ConfigSpaceModel SamplerModel SamplerSpec ListLemmas SamplerProofs.
From Coq Require Import Sorted.
Local Open Scope nat_scope.
Local Open Scope list_scope.

Section P.
Context {N : Num}.
Implicit Types (s : sampler N).
Variable w : world N.
Definition any : sampler N -> Prop := fun _ => True.

(** ** C35 *)
Section Adds.
Variables (c0 : list (conf N)) (y0 : list (json N)).
Definition added (n : nat) (a : list (conf N)) (b : list (json N)) (_ : list (conf N * json N)) (_ : nat) : Prop :=
  exists cs ys, length cs = n /\ length ys = n /\ a = c0 ++ cs /\ b = y0 ++ ys.
Notation A n := (on_points (added n)).
Lemma added_mono n a b c k m : added n a b c k -> k <= m -> added n a b c m. Proof. intros H _. exact H. Qed.
Lemma append_added n c y : triple (A n) (append c y) (fun _ => A (S n)) any.
Proof.
  apply triple_upd. intros s (cs & ys & H1 & H2 & H3 & H4). exists (cs ++ [c]), (ys ++ [y]). cbn. rewrite !app_length, H1, H2, H3, H4, <- !app_assoc. cbn. repeat split; lia.
Qed.
Lemma obj_added n c : triple (A n) (call_obj w c) (fun _ => A n) any.
Proof.
  intros s H. unfold call_obj. destruct (w_obj _ _ _); [exact H|exact I].
Qed.
Lemma fit_added n b : triple (A n) (fit_surrogate w b) (fun _ => A n) any.
Proof. eapply triple_weak; [apply (fit_triple w (added n) b)| | |]; cbn; auto. intros; exact I. Qed.
Lemma random_added n : triple (A 0) (random_sample w n) (fun _ => A n) any.
Proof.
  unfold random_sample. eapply triple_bind with (Q := fun _ => A 0); [intros s H; exact H|]. intro d.
  eapply triple_weak; [apply (triple_forM (seq 0 n) _ (fun i => A i) any)|auto| |auto].
  - intros i a _. eapply triple_bind with (Q := fun _ => A i).
    + intros s H. destruct d as [|l]; [exact I|]. cbn. destruct (nth_error l a); [exact H|exact I].
    + intro c. eapply triple_bind; [apply obj_added|]. intro v. apply append_added.
  - cbv beta. intros a s H. rewrite seq_length in H. exact H.
Qed.
Lemma bo_step_added n : triple (A n) (bo_step w) (fun _ => A (S n)) any.
Proof.
  unfold bo_step. eapply triple_bind with (Q := fun _ => A n).
  - intros s H. destruct (incumbent s); [exact H|exact I].
  - intro inc. eapply triple_bind with (Q := fun _ => A n).
    + intros s H. destruct (w_acq _ _ _ _); [exact H|exact I].
    + intro c. eapply triple_bind; [apply obj_added|]. intro y. eapply triple_bind; [apply append_added|]. intros []. apply fit_added.
Qed.
Definition shape (k : nat) (d : drawn N) : Prop := match d with DBare _ => k = 1 | DList l => length l = k end.
Lemma draw_shape k s : exists d, snd (sample_configuration w k s) = Ok d /\ shape k d.
Proof.
  cbn. set (l := map _ _). assert (L : length l = k) by (unfold l; rewrite map_length, seq_length; reflexivity).
  destruct l as [|c [|c' l]]; cbn in *; try (eexists; split; [reflexivity|exact L]). destruct (w_bare w); (eexists; split; [reflexivity|]); cbn; lia.
Qed.
Lemma initial_added ip n : triple (A 0) (sample_initial w ip n) (fun _ => A (min ip n)) any.
Proof.
  unfold sample_initial. eapply triple_bind with (Q := fun d s => A 0 s /\ shape (min ip n) d).
  - intros s H. destruct (draw_shape (min ip n) s) as (d & E & Sh). destruct (sample_configuration w (min ip n) s) as [s' r] eqn:Es. cbn in E. subst r.
    split; [|exact Sh]. assert (s' = fst (sample_configuration w (min ip n) s)) as -> by (rewrite Es; reflexivity). exact H.
  - intro d. set (items := if Nat.eqb _ 1 then _ else _).
    assert (LI : shape (min ip n) d -> length items = min ip n).
    { intro Sh. unfold items. destruct (Nat.eqb_spec (min ip n) 1); [cbn; lia|]. destruct d; cbn in *; [congruence|rewrite map_length; exact Sh]. }
    eapply triple_bind.
    + apply (triple_collect items (call_drawn w) (fun s => A 0 s /\ shape (min ip n) d) (fun d y s => match d with DBare c => True | DList _ => False end) any).
      * intros [c|l] y s s' H _; exact H.
      * intros [c|l] F FM; [|intros s [[H Sh] HF]; exact I]. intros s [[H Sh] HF]. cbn. unfold call_obj. destruct (w_obj _ _ _); [|exact I].
        refine (conj (conj H Sh) (conj _ Logic.I)). eapply FM; [exact HF|cbn; lia].
    + intro ys. eapply triple_bind with (Q := fun _ => A (min ip n)); [|intros []; apply fit_added]. apply triple_upd. intros s [[H Sh] HF].
      pose proof (Forall2_length _ _ _ HF) as L1. assert (F2 : Forall2 (fun _ _ => True) (bare_all items) ys).
      { apply bare_items. exact HF. }
      pose proof (Forall2_length _ _ _ F2) as L2. specialize (LI Sh). destruct H as (cs & ys' & H1 & H2 & H3 & H4).
      destruct cs; [|discriminate]. destruct ys'; [|discriminate]. rewrite app_nil_r in H3, H4.
      exists (bare_all items), ys. cbn. rewrite H3, H4. repeat split; lia.
Qed.
Lemma bo_added ip n : triple (A 0) (bo_sample w ip n) (fun _ => A n) any.
Proof.
  unfold bo_sample. eapply triple_bind with (Q := fun cur s => A 0 s /\ cur = slen s); [apply triple_get; auto|]. intro cur.
  eapply triple_bind with (Q := fun al s => A al s /\ al <= n).
  - destruct (cur <? ip); [|apply triple_ret; intros s [H _]; split; [exact H|lia]].
    eapply triple_bind with (Q := fun _ s => A (min ip n) s /\ slen s = cur + min ip n).
    + intros s [H E]. pose proof (initial_added ip n s H) as T. destruct (sample_initial w ip n s) as [s' [[]|e]]; [|exact T].
      split; [exact T|]. destruct T as (cs & ys & H1 & H2 & H3 & H4). destruct H as (cs' & ys' & G1 & G2 & G3 & G4).
      destruct cs'; [|discriminate]. rewrite app_nil_r in G3. unfold slen in *. rewrite H3, app_length, <- G3. lia.
    + intros []. apply triple_get. intros s [H E]. replace (slen s - cur) with (min ip n) by lia. split; [exact H|lia].
  - intro al. eapply triple_bind with (Q := fun _ s => A al s /\ al <= n).
    + intros s [H E]. pose proof (fit_added al false s H) as T. destruct (fit_surrogate w false s) as [s' [[]|e]]; [auto|exact I].
    + intros []. intros s [H E]. pose proof (triple_times (n - al) (bo_step w) (fun i => A (al + i)) any (fun i _ => eq_rect_r (fun m => triple (A (al+i)) (bo_step w) (fun _ => A m) any) (bo_step_added (al + i)) (Nat.add_succ_r al i)) s) as T.
      cbv beta in T. rewrite Nat.add_0_r in T. specialize (T H). destruct (times _ _ s) as [s' [a|e]]; [|exact I]. replace n with (al + (n - al)) by lia. exact T.
Qed.
Lemma grid_loop_added fuel : forall e s i, A i s -> slen s <= e -> e = length c0 + (i + (e - slen s)) ->
  match grid_loop w fuel e s with (s', Ok _) => A (i + (e - slen s)) s' | _ => True end.
Proof.
  induction fuel as [|fuel IH]; intros e s i H Hle He; cbn [grid_loop].
  - destruct (Nat.leb_spec e (slen s)); [|exact I]. replace (i + (e - slen s)) with i by lia. exact H.
  - destruct (Nat.leb_spec e (slen s)); [replace (i + (e - slen s)) with i by lia; exact H|].
    destruct (s_grid s) as [[|c g]|]; try exact I. destruct (existsb _ _).
    + exact (IH e (set_grid (Some g) (s_rpos s) s) i H Hle He).
    + unfold bindM, upd, call_obj. cbn [s_calls set_grid set_points]. destruct (w_obj _ _ _) as [y|er]; [|exact I].
      set (s2 := set_points _ _ (log _ _)).
      assert (E2 : slen s2 = S (slen s)) by (unfold s2, slen; cbn; rewrite app_length; cbn; lia).
      replace (i + (e - slen s)) with (S i + (e - slen s2)) by lia. refine (IH e s2 (S i) _ _ _); [|lia|lia].
      destruct H as (cs & ys & H1 & H2 & H3 & H4). exists (cs ++ [c]), (ys ++ [y]). unfold s2. cbn. rewrite !app_length, H1, H2, H3, H4, <- !app_assoc. cbn. repeat split; lia.
Qed.
Lemma grid_added n s : A 0 s -> match grid_sample w n s with (s', Ok _) => A n s' | _ => True end.
Proof.
  intro H. unfold grid_sample. set (m := match s_grid s with None => _ | Some g => _ end).
  assert (HM : match m s with (s', Ok _) => A 0 s' | _ => True end).
  { unfold m. destruct (s_grid s) as [g|]; [destruct (_ <? _); [|exact H]|]; unfold make_grid; destruct (s_cs s); try exact I; destruct (grid_product _ _ _); try exact I; exact H. }
  unfold bindM. destruct (m s) as [s1 [u|e]]; [|exact I]. cbn [get].
  assert (E1 : slen s = slen s1).
  { destruct H as (cs & ys & H1 & H2 & H3 & H4). destruct HM as (cs' & ys' & G1 & G2 & G3 & G4). destruct cs; [|discriminate]. destruct cs'; [|discriminate].
    unfold slen. congruence. }
  assert (EC : slen s = length c0).
  { destruct H as (cs & ys & H1 & H2 & H3 & H4). destruct cs; [|discriminate]. rewrite app_nil_r in H3. unfold slen. congruence. }
  pose proof (grid_loop_added (S (match s_grid s1 with Some g => length g | None => 0 end)) (slen s + n) s1 0 HM ltac:(lia) ltac:(lia)) as T.
  destruct (grid_loop _ _ _ _) as [s2 [u2|e2]]; [|exact I]. replace (0 + (slen s + n - slen s1)) with n in T by lia. exact T.
Qed.
Lemma replay_added n i : triple (A i) (replay n) (fun k s => A (i + k) s /\ k <= n) any.
Proof.
  revert i. induction n as [|n IH]; intros i; [apply triple_ret; intros s H; rewrite Nat.add_0_r; auto|].
  intros s H. cbn [replay]. destruct (s_cache s) as [|[c y] t]; [rewrite Nat.add_0_r; split; [exact H|lia]|].
  assert (T : triple (A i) (bindM (append c y) (fun _ => bindM (replay n) (fun k => ret (S k)))) (fun k s => A (i + k) s /\ k <= S n) any).
  { eapply triple_bind; [apply append_added|]. intros []. eapply triple_bind; [apply IH|]. intro k. apply triple_ret. intros s' [H' Hk].
    rewrite Nat.add_succ_r. split; [exact H'|lia]. }
  exact (T (set_cache t s) H).
Qed.
End Adds.

Theorem sample_adds n s s' : sample w n s = (s', Ok tt) -> adds n s s'.
Proof.
  intro H. set (A := fun n => on_points (added (s_configs s) (s_ys s) n)).
  assert (H0 : A 0 s) by (exists [], []; cbn; rewrite !app_nil_r; auto).
  unfold sample in H.
  assert (T : match sample_base w n s with (s1, Ok _) => A n s1 | _ => True end).
  { unfold sample_base. set (s1 := if _ <? _ then _ else _). assert (H1 : A 0 s1) by (unfold s1; destruct (_ <? _); exact H0).
    pose proof (replay_added (s_configs s) (s_ys s) n 0 s1 H1) as R. unfold bindM. destruct (replay n s1) as [s2 [k|e]] eqn:ER; [|exact I]. destruct R as [R Hk].
    cbn [Nat.add] in R. destruct (Nat.ltb_spec k n); [|replace n with k by lia; exact R].
    assert (K : forall s3, (exists c1 y1, length c1 = k /\ length y1 = k /\ s_configs s2 = s_configs s ++ c1 /\ s_ys s2 = s_ys s ++ y1) -> on_points (added (s_configs s2) (s_ys s2) (n - k)) s3 -> A n s3).
    { intros s3 (c1 & y1 & B1 & B2 & B3 & B4) (cs & ys & C1 & C2 & C3 & C4). exists (c1 ++ cs), (y1 ++ ys). rewrite !app_length, C3, C4, B3, B4, <- !app_assoc. repeat split; lia. }
    assert (Z : on_points (added (s_configs s2) (s_ys s2) 0) s2) by (exists [], []; cbn; rewrite !app_nil_r; auto).
    destruct (s_kind s) as [| |ip]; cbn [sample_new].
    - pose proof (random_added (s_configs s2) (s_ys s2) (n - k) s2 Z) as G. destruct (random_sample w (n - k) s2) as [s3 [u|e]]; [|exact I]. apply K; assumption.
    - pose proof (grid_added (s_configs s2) (s_ys s2) (n - k) s2 Z) as G. destruct (grid_sample w (n - k) s2) as [s3 [u|e]]; [|exact I]. apply K; assumption.
    - pose proof (bo_added (s_configs s2) (s_ys s2) ip (n - k) s2 Z) as G. destruct (bo_sample w ip (n - k) s2) as [s3 [u|e]]; [|exact I]. apply K; assumption. }
  unfold bindM in H. destruct (sample_base w n s) as [s1 [u|e]]; [|discriminate].
  assert (T2 : A n s').
  { destruct (s_kind s); try (inversion H; subst; exact T). pose proof (fit_added (s_configs s) (s_ys s) n false s1 T) as G. rewrite H in G. exact G. }
  destruct T2 as (cs & ys & A1 & A2 & A3 & A4). exists cs, ys. auto.
Qed.

(** ** C36 *)
Theorem random_single n s : s_kind s = KRandom -> s_cache s = [] -> w_bare w = true -> n = 1 ->
  exists s', sample w n s = (s', Err KeyError) /\ s_configs s' = s_configs s /\ s_ys s' = s_ys s.
Proof.
  intros K C B ->. unfold sample, bindM at 1, sample_base. rewrite C. cbn [length]. replace (0 <? slen s + 1) with true by (symmetry; apply Nat.ltb_lt; lia).
  rewrite K. unfold bindM. cbn. rewrite B. eexists. repeat split; reflexivity.
Qed.
Theorem random_single_list s y : s_kind s = KRandom -> s_cache s = [] -> w_bare w = false -> w_obj w (s_calls s) (c_vals (w_batch w (s_draws s) 1 0)) = Ok y ->
  exists s', sample w 1 s = (s', Ok tt) /\ s_configs s' = s_configs s ++ [w_batch w (s_draws s) 1 0] /\ s_ys s' = s_ys s ++ [y].
Proof.
  intros K C B O. unfold sample, bindM at 1, sample_base. rewrite C. cbn [length]. replace (0 <? slen s + 1) with true by (symmetry; apply Nat.ltb_lt; lia).
  rewrite K. unfold bindM. cbn. rewrite B. cbn. unfold call_obj, bindM, ret. cbn. rewrite O. eexists. repeat split; reflexivity.
Qed.
Theorem bo_single n ip s : s_kind s = KBO ip -> s_cache s = [] -> w_bare w = false -> slen s < ip -> min ip n = 1 ->
  exists s', sample w n s = (s', Err TypeError) /\ s_configs s' = s_configs s /\ s_ys s' = s_ys s.
Proof.
  intros K C B Hl Hm. assert (Hn : 0 < n) by lia. unfold sample, bindM at 1, sample_base. rewrite C. cbn [length].
  replace (0 <? slen s + n) with true by (symmetry; apply Nat.ltb_lt; lia).
  rewrite K. destruct n as [|n]; [lia|]. unfold bindM. cbn [replay s_cache set_cache]. cbn [Nat.ltb Nat.leb]. cbn [sample_new]. rewrite Nat.sub_0_r. unfold bo_sample, bindM, get.
  change (slen (set_cache [] s)) with (slen s). rewrite (proj2 (Nat.ltb_lt _ _) Hl). unfold sample_initial. rewrite Hm. unfold bindM. cbn. rewrite B. cbn.
  eexists. repeat split; reflexivity.
Qed.

(** ** C37 *)
Section Inc.
Variable L : order_laws N.
Lemma arg_best_spec (mn : bool) l : forall pre b x, Forall ordinary (pre ++ l) -> best_at mn pre b x ->
  exists v, best_at mn (pre ++ l) (arg_best (if mn then @nlt N else fun a b => nlt b a) b x (length pre) l) v.
Proof.
  induction l as [|y l IH]; intros pre b x FO HB; cbn [arg_best].
  - rewrite app_nil_r. eauto.
  - destruct HB as (H1 & H2 & H3). assert (Ox : ordinary x).
    { apply (proj1 (Forall_forall _ _) FO). apply in_or_app. left. eapply nth_error_In; exact H1. }
    assert (Oy : ordinary y). { apply (proj1 (Forall_forall _ _) FO). apply in_or_app. right. left; reflexivity. }
    unfold ordinary in Ox, Oy. rewrite Ox, Oy. cbn [negb orb].
    assert (Opre : forall j u, nth_error pre j = Some u -> ordinary u).
    { intros j u Hu. apply (proj1 (Forall_forall _ _) FO). apply in_or_app. left. eapply nth_error_In; exact Hu. }
    change (y :: l) with ([y] ++ l). rewrite app_assoc. replace (S (length pre)) with (length (pre ++ [y])) by (rewrite app_length; cbn; lia).
    rewrite <- app_assoc in *. cbn [app] in FO. assert (FO' : Forall ordinary ((pre ++ [y]) ++ l)) by (rewrite <- app_assoc; exact FO).
    rewrite app_assoc.
    destruct ((if mn then @nlt N else fun a b => nlt b a) y x) eqn:E.
    + apply IH; [exact FO'|]. refine (conj _ (conj _ _)).
      * rewrite nth_error_app2, Nat.sub_diag by lia. reflexivity.
      * intros j u Hu. destruct (Nat.ltb_spec j (length pre)) as [Hj|Hj].
        -- rewrite nth_error_app1 in Hu by exact Hj. specialize (H2 j u Hu). pose proof (Opre j u Hu) as Ou. destruct mn.
           ++ rewrite (ol_le _ L) by assumption. rewrite (ol_le _ L) in H2 by assumption. apply negb_true_iff in H2. apply negb_true_iff.
              apply not_true_iff_false. intro Hc. rewrite (ol_trans _ L _ _ _ Hc E) in H2. discriminate.
           ++ rewrite (ol_le _ L) by assumption. rewrite (ol_le _ L) in H2 by assumption. apply negb_true_iff in H2. apply negb_true_iff.
              apply not_true_iff_false. intro Hc. rewrite (ol_trans _ L _ _ _ E Hc) in H2. discriminate.
        -- rewrite nth_error_app2 in Hu by exact Hj. destruct (j - length pre) as [|j']; [|destruct j'; discriminate]. inversion Hu; subst u.
           destruct mn; rewrite (ol_le _ L) by assumption; rewrite (ol_irrefl _ L); reflexivity.
      * intros j u Hj Hu. rewrite nth_error_app1 in Hu by exact Hj. specialize (H2 j u Hu). pose proof (Opre j u Hu) as Ou. destruct mn.
        -- rewrite (ol_le _ L) in H2 by assumption. apply negb_true_iff in H2. destruct (ol_cotrans _ L _ u _ Ou E) as [Hc|Hc]; [exact Hc|]. rewrite Hc in H2; discriminate.
        -- rewrite (ol_le _ L) in H2 by assumption. apply negb_true_iff in H2. destruct (ol_cotrans _ L _ u _ Ou E) as [Hc|Hc]; [rewrite Hc in H2; discriminate|exact Hc].
    + apply IH; [exact FO'|]. refine (conj _ (conj _ _)).
      * rewrite nth_error_app1 by (eapply nth_error_Some_lt; exact H1). exact H1.
      * intros j u Hu. destruct (Nat.ltb_spec j (length pre)) as [Hj|Hj].
        -- rewrite nth_error_app1 in Hu by exact Hj. apply (H2 j u Hu).
        -- rewrite nth_error_app2 in Hu by exact Hj. destruct (j - length pre) as [|j']; [|destruct j'; discriminate]. inversion Hu; subst u.
           destruct mn; rewrite (ol_le _ L) by assumption; rewrite E; reflexivity.
      * intros j u Hj Hu. assert (Hlt := nth_error_Some_lt _ _ _ H1). rewrite nth_error_app1 in Hu by lia. apply (H3 j u Hj Hu).
Qed.
Lemma np_arg_spec (mn : bool) l : l <> [] -> Forall ordinary l -> exists v, best_at mn l (np_arg (if mn then @nlt N else fun a b => nlt b a) l) v.
Proof.
  destruct l as [|x l]; [congruence|]. intros _ FO. cbn [np_arg]. change (x :: l) with ([x] ++ l) in *. apply (arg_best_spec mn l [x] 0 x FO).
  assert (Ox : ordinary x) by (inversion FO; assumption). refine (conj eq_refl (conj _ _)).
  - intros [|[|j]] u Hu; try discriminate. inversion Hu; subst. destruct mn; rewrite (ol_le _ L) by assumption; rewrite (ol_irrefl _ L); reflexivity.
  - intros j u Hj. lia.
Qed.

Theorem incumbent_best s l : s_ys s = map JNum l -> length (s_configs s) = length (s_ys s) -> l <> [] -> Forall ordinary l ->
  exists i c v, incumbent s = Ok (Some (c, v)) /\ nth_error (s_configs s) i = Some c /\ best_at (s_min s) l i v.
Proof.
  intros Hy Hl Hne FO. destruct (np_arg_spec (s_min s) l Hne FO) as (v & HB). pose proof HB as (H1 & _).
  unfold incumbent. rewrite Hy. destruct l as [|x0 l0] eqn:El; [congruence|]. cbn [map]. rewrite <- El in *. clear Hne.
  assert (E : mapM jnum (JNum x0 :: map JNum l0) = Ok l).
  { rewrite El. change (JNum x0 :: map JNum l0) with (map (@JNum N) (x0 :: l0)). generalize (x0 :: l0). clear. induction l as [|a l IH]; [reflexivity|]. cbn. rewrite IH. reflexivity. }
  rewrite E. cbn [bind]. set (i := np_arg _ l) in *.
  destruct (nth_error (s_configs s) i) as [c|] eqn:Ec.
  - rewrite (proj2 (py_nth_ok _ _ _) Ec), (proj2 (py_nth_ok _ _ _) H1). cbn. exists i, c, v. auto.
  - apply nth_error_None in Ec. pose proof (nth_error_Some_lt _ _ _ H1). rewrite Hl, Hy, map_length in Ec. rewrite El in *. lia.
Qed.
End Inc.
Theorem incumbent_empty s : s_ys s = [] -> incumbent s = Ok None.
Proof. unfold incumbent. intros ->. reflexivity. Qed.

(** a NaN value is the incumbent whenever there is one (np.argmin): the first NaN *)
Lemma arg_best_nan better l : forall b x i, ordinary x -> Exists (fun u => ~ ordinary u) l ->
  exists k v, k < length l /\ arg_best better b x i l = i + k /\ nth_error l k = Some v /\ ~ @ordinary N v /\ (forall j u, j < k -> nth_error l j = Some u -> ordinary u).
Proof.
  induction l as [|y l IH]; intros b x i Ox HE; [inversion HE|]. cbn [arg_best]. unfold ordinary in Ox. rewrite Ox. cbn [negb].
  destruct (neqb y y) eqn:Ey; cbn [negb orb].
  - assert (HE' : Exists (fun u => ~ ordinary u) l) by (inversion HE; subst; [exfalso; apply H0; exact Ey|assumption]).
    assert (K : forall b' x', ordinary x' -> exists k v, k < length (y :: l) /\ arg_best better b' x' (S i) l = i + k /\ nth_error (y :: l) k = Some v /\ ~ @ordinary N v /\ (forall j u, j < k -> nth_error (y :: l) j = Some u -> ordinary u)).
    { intros b' x' Ox'. destruct (IH b' x' (S i) Ox' HE') as (k & v & A1 & A2 & A3 & A4 & A5). exists (S k), v. cbn. refine (conj _ (conj _ (conj A3 (conj A4 _)))); [lia|lia|].
      intros [|j] u Hj Hu; [inversion Hu; subst; exact Ey|]. apply (A5 j u); [lia|exact Hu]. }
    destruct (better y x); apply K; assumption.
  - exists 0, y. cbn. refine (conj _ (conj _ (conj eq_refl (conj _ _)))); [lia| |unfold ordinary; congruence|intros; lia].
    destruct l; cbn [arg_best]; [lia|rewrite Ey; cbn; lia].
Qed.
Theorem np_arg_nan better (l : list N) : Exists (fun u => ~ ordinary u) l -> exists v, nth_error l (np_arg better l) = Some v /\ ~ ordinary v /\
  forall j u, j < np_arg better l -> nth_error l j = Some u -> ordinary u.
Proof.
  destruct l as [|x l]; [intro H; inversion H|]. intro H. cbn [np_arg]. destruct (neqb x x) eqn:Ex.
  - assert (HE' : Exists (fun u => ~ ordinary u) l) by (inversion H; subst; [exfalso; apply H1; exact Ex|assumption]).
    destruct (arg_best_nan better l 0 x 1 Ex HE') as (k & v & A1 & A2 & A3 & A4 & A5). rewrite A2. exists v. refine (conj A3 (conj A4 _)).
    intros [|j] u Hj Hu; [inversion Hu; subst; exact Ex|]. apply (A5 j u); [lia|exact Hu].
  - assert (E : arg_best better 0 x 1 l = 0) by (destruct l; cbn [arg_best]; [reflexivity|rewrite Ex; reflexivity]). rewrite E. exists x.
    refine (conj eq_refl (conj _ _)); [unfold ordinary; congruence|intros; lia].
Qed.

(** ** the cache *)
Lemma replay_all n : forall s, n <= length (s_cache s) ->
  replay n s = (set_points (s_configs s ++ map fst (firstn n (s_cache s))) (s_ys s ++ map snd (firstn n (s_cache s))) (set_cache (skipn n (s_cache s)) s), Ok n).
Proof.
  induction n as [|n IH]; intros s H; cbn [replay firstn skipn map].
  - rewrite !app_nil_r. destruct s; reflexivity.
  - destruct (s_cache s) as [|[c y] t] eqn:E; [cbn in H; lia|]. unfold bindM, append, upd. cbn [s_configs s_ys set_cache].
    rewrite IH by (cbn in *; lia). cbn. rewrite <- !app_assoc. reflexivity.
Qed.

(** a call served by the cache *)
Lemma sample_from_cache n s : slen s + n <= length (s_cache s) ->
  exists s', fst (sample w n s) = s' /\ s_configs s' = s_configs s ++ map fst (firstn n (s_cache s)) /\
    s_ys s' = s_ys s ++ map snd (firstn n (s_cache s)) /\ s_cache s' = skipn n (s_cache s) /\ s_calls s' = s_calls s /\ s_draws s' = s_draws s /\ s_acqs s' = s_acqs s /\
    (match s_kind s with KBO _ => True | _ => snd (sample w n s) = Ok tt end).
Proof.
  intro H.
  set (s2 := set_points (s_configs s ++ map fst (firstn n (s_cache s))) (s_ys s ++ map snd (firstn n (s_cache s))) (set_cache (skipn n (s_cache s)) s)).
  assert (B : sample_base w n s = (s2, Ok tt)).
  { unfold sample_base. replace (length (s_cache s) <? slen s + n) with false by (symmetry; apply Nat.ltb_ge; lia).
    unfold bindM. rewrite replay_all by lia. cbn beta iota. rewrite Nat.ltb_irrefl. reflexivity. }
  unfold sample. unfold bindM. rewrite B. eexists. split; [reflexivity|]. destruct (s_kind s) as [| |ip]; [repeat split; reflexivity|repeat split; reflexivity|].
  unfold fit_surrogate, bindM, ret, upd. destruct (_ || _); [|repeat split; reflexivity]. unfold surrogate_fit. destruct (w_fit _ _ _ _); repeat split; reflexivity.
Qed.

(** nothing but the cache loop puts points back: a dropped cache stays empty *)
Definition cache_empty s : Prop := s_cache s = [].
Lemma cache_empty_new k n : triple cache_empty (sample_new w k n) (fun _ => cache_empty) cache_empty.
Proof.
  set (Inv := fun (_ : list (conf N)) (_ : list (json N)) (c : list (conf N * json N)) (_ : nat) => c = []).
  assert (OBJ : forall c, triple cache_empty (call_obj w c) (fun _ => cache_empty) cache_empty).
  { intros c s H. unfold call_obj. destruct (w_obj _ _ _); exact H. }
  assert (FIT : forall b, triple cache_empty (fit_surrogate w b) (fun _ => cache_empty) cache_empty) by (intro b; exact (fit_triple w Inv b)).
  destruct k as [| |ip]; cbn [sample_new].
  - unfold random_sample. eapply triple_bind with (Q := fun _ => cache_empty); [intros s H; exact H|]. intro d.
    apply (triple_forM _ _ (fun _ => cache_empty)). intros i a _. eapply triple_bind with (Q := fun _ => cache_empty).
    + intros s H. destruct d as [|l]; [exact H|]. cbn. destruct (nth_error l a); exact H.
    + intro c. eapply triple_bind; [apply OBJ|]. intro v. intros s H; exact H.
  - intros s H. unfold grid_sample. set (m := match s_grid s with None => _ | Some g => _ end).
    assert (T : triple cache_empty (bindM m (fun _ => bindM (get s_grid) (fun g => grid_loop w (S (match g with Some g => length g | None => 0 end)) (slen s + n)))) (fun _ => cache_empty) cache_empty).
    { eapply triple_bind with (Q := fun _ => cache_empty).
      - intros s1 H1. unfold m. destruct (s_grid s) as [g|]; [destruct (_ <? _); [|exact H1]|]; unfold make_grid; destruct (s_cs s1); try exact H1; destruct (grid_product _ _ _); exact H1.
      - intros []. eapply triple_bind with (Q := fun _ => cache_empty); [intros s1 H1; exact H1|]. intro g. generalize (S (match g with Some g => length g | None => 0 end)).
        intro fuel. generalize (slen s + n). induction fuel as [|fuel IH]; intros e s1 H1; cbn [grid_loop]; destruct (e <=? slen s1); try exact H1.
        destruct (s_grid s1) as [[|c g']|]; try exact H1. destruct (existsb _ _).
        + apply IH. exact H1.
        + unfold bindM, upd, call_obj. cbn [s_calls set_grid set_points]. destruct (w_obj _ _ _); [|exact H1]. apply IH. exact H1. }
    apply T. exact H.
  - unfold bo_sample. eapply triple_bind with (Q := fun _ => cache_empty); [intros s H; exact H|]. intro cur. eapply triple_bind with (Q := fun _ => cache_empty).
    + destruct (cur <? ip); [|apply triple_ret; auto]. eapply triple_bind with (Q := fun _ => cache_empty); [|intros []; apply triple_get; auto].
      unfold sample_initial. eapply triple_bind with (Q := fun _ => cache_empty); [intros s H; exact H|]. intro d. eapply triple_bind.
      * apply (triple_collect _ (call_drawn w) cache_empty (fun _ _ _ => True) cache_empty); [auto|].
        intros [c|l] F FM s [H HF]; [|exact H]. cbn. unfold call_obj. destruct (w_obj _ _ _); [|exact H]. refine (conj H (conj _ I)). eapply FM; [exact HF|cbn; lia].
      * intro ys. eapply triple_bind with (Q := fun _ => cache_empty); [apply triple_upd; intros s [H _]; exact H|]. intros []. apply FIT.
    + intro al. eapply triple_bind; [apply FIT|]. intros []. apply (triple_times _ _ (fun _ => cache_empty)). intros i _.
      unfold bo_step. eapply triple_bind with (Q := fun _ => cache_empty); [intros s H; destruct (incumbent s); exact H|]. intro inc.
      eapply triple_bind with (Q := fun _ => cache_empty); [intros s H; destruct (w_acq _ _ _ _); exact H|]. intro c.
      eapply triple_bind; [apply OBJ|]. intro y. eapply triple_bind with (Q := fun _ => cache_empty); [intros s H; exact H|]. intros []. apply FIT.
Qed.
Lemma sample_drops n s : length (s_cache s) < slen s + n -> s_cache (fst (sample w n s)) = [].
Proof.
  intro H. unfold sample.
  assert (FIT : forall b, triple cache_empty (fit_surrogate w b) (fun _ => cache_empty) cache_empty)
    by (intro b; exact (fit_triple w (fun _ _ c _ => c = []) b)).
  assert (T : match sample_base w n s with (s', _) => cache_empty s' end).
  { unfold sample_base. rewrite (proj2 (Nat.ltb_lt _ _) H). unfold bindM.
    assert (R : replay n (set_cache [] s) = (set_cache [] s, Ok 0)) by (destruct n; reflexivity). rewrite R.
    destruct (0 <? n); [|reflexivity]. pose proof (cache_empty_new (s_kind s) (n - 0) (set_cache [] s) eq_refl) as K.
    destruct (sample_new _ _ _ _) as [s' [u|e]]; exact K. }
  unfold bindM. destruct (sample_base w n s) as [s1 [u|e]]; [|exact T]. destruct (s_kind s); try exact T.
  pose proof (FIT false s1 T) as K. destruct (fit_surrogate w false s1) as [s' [a|e]]; exact K.
Qed.

(** C39: the cache holds [K]; the first [r] points were taken from it *)
Definition replayed (K : list (conf N * json N)) (r : nat) s : Prop :=
  r <= length K /\ s_configs s = map fst (firstn r K) /\ s_ys s = map snd (firstn r K) /\ s_cache s = skipn r K.
Lemma replayed_len K r s : replayed K r s -> slen s = r /\ length (s_cache s) = length K - r.
Proof. intros (H1 & H2 & H3 & H4). unfold slen. rewrite H2, map_length, firstn_length, H4, skipn_length. split; lia. Qed.
Theorem cache_used_iff K r n s : replayed K r s ->
  (2 * r + n <= length K -> replayed K (r + n) (fst (sample w n s)) /\ s_calls (fst (sample w n s)) = s_calls s) /\
  (length K < 2 * r + n -> s_cache (fst (sample w n s)) = []).
Proof.
  intro H. destruct (replayed_len K r s H) as [L1 L2]. split; intro Hn.
  - destruct (sample_from_cache n s ltac:(lia)) as (s' & -> & A1 & A2 & A3 & A4 & _). destruct H as (H1 & H2 & H3 & H4). split; [|exact A4].
    refine (conj _ (conj _ (conj _ _))); [lia| | |].
    + rewrite A1, H2, H4, <- map_app. f_equal. clear. revert r. induction K as [|p K IH]; intros [|r]; cbn; try reflexivity; [rewrite firstn_nil; reflexivity|]. rewrite IH. reflexivity.
    + rewrite A2, H3, H4, <- map_app. f_equal. clear. revert r. induction K as [|p K IH]; intros [|r]; cbn; try reflexivity; [rewrite firstn_nil; reflexivity|]. rewrite IH. reflexivity.
    + rewrite A3, H4. clear. revert r. induction K as [|p K IH]; intros [|r]; cbn; try reflexivity; [apply skipn_nil|]. apply IH.
  - apply sample_drops. lia.
Qed.

Theorem cache_history K ns : forall r s, replayed K r s -> served (length K) r ns ->
  replayed K (r + list_sum ns) (fst (srun w (map OSample ns) s)) /\ s_calls (fst (srun w (map OSample ns) s)) = s_calls s.
Proof.
  induction ns as [|n ns IH]; intros r s R H; cbn [map srun list_sum fold_right]; [rewrite Nat.add_0_r; auto|]. destruct H as [H1 H2].
  destruct (cache_used_iff K r n s R) as [A _]. destruct (A H1) as [A1 A2]. cbn [sstep]. destruct (sample w n s) as [s1 o]. cbn in A1, A2.
  destruct (IH (r + n) s1 A1 H2) as [B1 B2]. destruct (srun w (map OSample ns) s1). cbn in *. change (fold_right Init.Nat.add 0 ns) with (list_sum ns). rewrite Nat.add_assoc. split; [exact B1|congruence].
Qed.

(** the file then shrinks *)
Theorem cache_file_shrinks K r n s s' fs : replayed K r s -> length K < 2 * r + n -> r + n < length K -> sample w n s = (s', Ok tt) -> 0 < r + n ->
  exists X, sampler_del w s' fs (s_hash s') = Some (w_dumps w (JObj [("X"%string, JList X); ("y"%string, JList (s_ys s'))])) /\
            length X = r + n /\ length (s_ys s') = r + n.
Proof.
  intros H Hd Hlt Hs Hp. pose proof (sample_drops n s) as D. rewrite Hs in D. cbn in D. destruct (replayed_len K r s H) as [L1 L2]. specialize (D ltac:(lia)).
  destruct (sample_adds n s s' Hs) as (cs & ys & A1 & A2 & A3 & A4).
  unfold sampler_del, save_cache. rewrite D. destruct (s_configs s') as [|c l] eqn:E.
  - exfalso. apply (f_equal (@length _)) in A3. rewrite app_length in A3. cbn in A3. unfold slen in L1. lia.
  - exists (map (fun v => JList (map JNum v)) (sX s')). unfold write. rewrite String.eqb_refl. refine (conj eq_refl (conj _ _)).
    + unfold sX. rewrite !map_length, E, A3, app_length. unfold slen in L1. lia.
    + rewrite A4, app_length. destruct H as (_ & _ & H3 & _). rewrite H3, map_length, firstn_length. unfold slen in L1. lia.
Qed.

(** ** loading: C40 *)
Lemma load_pairs_prefix cs (l : list (json N * json N)) : exists k, k <= length l /\
  Forall2 (fun p q => conf_of_json cs (fst p) = Ok (fst q) /\ snd q = snd p) (firstn k l) (fst (load_pairs cs l)) /\
  (forall p, nth_error l k = Some p -> ~ readable cs p).
Proof.
  induction l as [|[x y] l IH]; cbn [load_pairs].
  - exists 0. cbn. refine (conj (le_n _) (conj (Forall2_nil _) _)). intros p H; discriminate.
  - destruct (conf_of_json cs x) as [c|e] eqn:E.
    + destruct IH as (k & K1 & K2 & K3). exists (S k). destruct (load_pairs cs l) as [r o]. cbn in *. refine (conj _ (conj _ K3)); [lia|]. constructor; auto.
    + exists 0. cbn. refine (conj (Nat.le_0_l _) (conj (Forall2_nil _) _)). intros p H. inversion H; subst p. intros (c & Hc). cbn in Hc. congruence.
Qed.
(** the pairs a file holds, if it is a JSON object with iterable "X" and "y" *)
Definition file_pairs (text : string) : option (list (json N * json N)) :=
  match (data <- w_loads w text ;; x <- jget data "X" ;; y <- jget data "y" ;; xs <- jiter x ;; ys <- jiter y ;; Ok (combine xs ys)) with
  | Ok l => Some l | Err _ => None end.
Theorem load_prefix cs file :
  match file with
  | None => load_cache w cs file = []
  | Some text => match file_pairs text with
                 | None => load_cache w cs file = []
                 | Some l => exists k, k <= length l /\
                     Forall2 (fun p q => conf_of_json cs (fst p) = Ok (fst q) /\ snd q = snd p) (firstn k l) (load_cache w cs file) /\
                     (forall p, nth_error l k = Some p -> ~ readable cs p)
                 end
  end.
Proof.
  destruct file as [text|]; [|reflexivity]. unfold file_pairs, load_cache. destruct (bind (w_loads w text) _) as [l|e]; [|reflexivity]. apply load_pairs_prefix.
Qed.

(** ** C38 *)
Definition legal (cs : cspace N) (c : conf N) : Prop := conf_of_vector cs (c_vec c) = Ok c.
(** json gives back what was written *)
Definition json_ok (s : sampler N) : Prop := w_loads w (w_dumps w (points_json s)) = Ok (points_json s).
Lemma combine_fst_snd (cs : list (conf N)) (ys : list (json N)) : length cs = length ys -> map fst (combine cs ys) = cs /\ map snd (combine cs ys) = ys.
Proof. revert ys. induction cs as [|c cs IH]; intros [|y ys] H; cbn in *; try discriminate; auto. destruct (IH ys) as [-> ->]; auto. Qed.
Lemma mapM_jnum (v : list N) : mapM jnum (map JNum v) = Ok v.
Proof. induction v as [|a v IH]; [reflexivity|]. cbn. rewrite IH. reflexivity. Qed.
Lemma load_saved s text : json_ok s -> save_cache w s = Some text -> length (s_configs s) = length (s_ys s) -> Forall (legal (s_cs s)) (s_configs s) ->
  load_cache w (s_cs s) (Some text) = combine (s_configs s) (s_ys s).
Proof.
  intros J H Hl Leg. unfold save_cache in H. destruct (s_cache s); [|discriminate]. assert (E : text = w_dumps w (JObj [("X"%string, JList (map (fun v => JList (map JNum v)) (sX s))); ("y"%string, JList (s_ys s))])) by (destruct (s_configs s); [discriminate|inversion H; reflexivity]).
  clear H. subst text. unfold load_cache, json_ok, points_json, sX in *. rewrite map_map in *. rewrite J. cbn [bind jget find rev app fst snd String.eqb Ascii.eqb Bool.eqb].
  replace (String.eqb "y" "X")%string with false by reflexivity. replace (String.eqb "X" "X")%string with true by reflexivity. cbn [bind snd].
  cbn.
  assert (K : forall cs ys, length cs = length ys -> Forall (legal (s_cs s)) cs ->
     fst (load_pairs (s_cs s) (combine (map (fun x => JList (map JNum (c_vec x))) cs) ys)) = combine cs ys).
  { induction cs as [|c cs IH]; intros [|y ys] Hl' Leg'; try discriminate; [reflexivity|]. inversion Leg'; subst. cbn [map combine load_pairs conf_of_json].
    rewrite mapM_jnum. cbn [bind]. unfold legal in H1. rewrite H1. specialize (IH ys ltac:(cbn in Hl'; lia) H2). destruct (load_pairs _ _). cbn in *. rewrite IH. reflexivity. }
  apply K; assumption.
Qed.
End P.

(** a new sampler in a world with the same files but any other behaviour *)
Theorem replay_of_saved {N : Num} (w w' : world N) s fs k mn m :
  json_ok w s -> (forall t, w_loads w' t = w_loads w t) -> s_cache s = [] -> s_configs s <> [] -> length (s_configs s) = length (s_ys s) ->
  Forall (legal (s_cs s)) (s_configs s) -> m <= length (s_configs s) ->
  let s2 := fst (sample w' m (sampler_new w' k (s_cs s) mn (s_hash s) (sampler_del w s fs))) in
  s_configs s2 = firstn m (s_configs s) /\ s_ys s2 = firstn m (s_ys s) /\ s_calls s2 = 0 /\ s_draws s2 = [] /\ s_acqs s2 = 0.
Proof.
  intros J SL C NE Hl Leg Hm. set (s1 := sampler_new w' k (s_cs s) mn (s_hash s) (sampler_del w s fs)).
  assert (E : s_cache s1 = combine (s_configs s) (s_ys s)).
  { assert (exists text, save_cache w s = Some text) as (text & Ht) by (unfold save_cache; rewrite C; destruct (s_configs s); [congruence|eauto]).
    unfold s1, sampler_new, sampler_del. cbn. rewrite Ht. unfold write. rewrite String.eqb_refl.
    rewrite <- (load_saved w s text J Ht Hl Leg). unfold load_cache. rewrite SL. reflexivity. }
  destruct (combine_fst_snd _ _ Hl) as [C1 C2].
  assert (L : length (s_cache s1) = length (s_configs s)) by (rewrite E, combine_length; lia).
  destruct (sample_from_cache w' m s1) as (s' & Es & A1 & A2 & A3 & A4 & A5 & A6 & _); [cbn [s1 slen sampler_new s_configs length]; change (slen s1) with 0; lia|].
  cbv zeta. rewrite Es. rewrite A1, A2, A4, A5, A6, E, <- !firstn_map, C1, C2. repeat split; reflexivity.
Qed.
