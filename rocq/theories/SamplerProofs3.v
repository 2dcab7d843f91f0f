(** SamplerProofs3.v - legality and replay (C38, C41), random streams (C63), BO (C44-C46). *)
From Verif Require Import Base Num NumLaws NumpyModel ConfigSpaceModel SamplerModel SamplerSpec ListLemmas SamplerProofs SamplerProofs2.
Local Open Scope nat_scope.
Local Open Scope list_scope.

Section P.
Context {N : Num}.
Implicit Types (s : sampler N).
Variable w : world N.

(** ** every step of a history of operations, for properties of samplers other than grids *)
Lemma run_inv (P : sampler N -> Prop) : (forall op s, P s -> P (fst (sstep w op s))) -> forall ops s, P s -> P (fst (srun w ops s)).
Proof.
  intros H. induction ops as [|op ops IH]; intros s Hs; [exact Hs|]. cbn [srun]. specialize (H op s Hs). destruct (sstep w op s) as [s1 r]. cbn in H.
  specialize (IH s1 H). destruct (srun w ops s1). exact IH.
Qed.

(** ** C46: the stored md5 object is never the new one *)
Definition hash_ok s : Prop := match s_fit_hash s with Some i => i < s_fresh s | None => True end.
Lemma hash_new s : hash_ok s -> hash_eqb (s_fit_hash s) (s_fresh s) = false.
Proof. unfold hash_ok, hash_eqb. destruct (s_fit_hash s) as [i|]; [|reflexivity]. intro H. apply Nat.eqb_neq. lia. Qed.
Lemma fit_refits force s : hash_ok s ->
  let s' := fst (fit_surrogate w force s) in
  s_trace s' = EFit (s_configs s) (s_ys s) :: s_trace s /\ s_fits s' = S (s_fits s) /\ hash_ok s' /\
  s_configs s' = s_configs s /\ s_ys s' = s_ys s /\ s_cache s' = s_cache s /\ s_kind s' = s_kind s /\ s_min s' = s_min s /\
  snd (fit_surrogate w force s) = match w_fit w (s_fits s) (sX s) (s_ys s) with Ok _ => Ok tt | Err e => Err e end /\
  (is_ok (snd (fit_surrogate w force s)) = true -> s_fitted s' = Some (sX s, s_ys s)).
Proof.
  intro H. pose proof (hash_new s H) as E. unfold fit_surrogate. cbn [s_fit_hash set_hash]. rewrite E. cbn [negb]. rewrite orb_true_r. unfold bindM, surrogate_fit.
  cbn [s_fits set_hash sX s_configs s_ys].
  change (sX (set_hash (s_fit_hash s) (S (s_fresh s)) s)) with (sX s).
  destruct (w_fit _ _ _ _); cbn; refine (conj eq_refl (conj eq_refl (conj _ _))); unfold hash_ok in *; cbn;
    try lia; try (destruct (s_fit_hash s); [lia|exact I]); repeat split; auto; discriminate.
Qed.

(** ** C44 *)
Section Fit.
Variable L : order_laws N.
(** paired lengths, unequal hashes, informed acquisition steps *)
Definition bo_inv s : Prop := length (s_configs s) = length (s_ys s) /\ hash_ok s /\ Forall (acq_informed (s_min s)) (s_trace s).
Definition fitted s : Prop := s_fitted s = Some (sX s, s_ys s).
Lemma bo_fit force : triple bo_inv (fit_surrogate w force) (fun _ s => bo_inv s /\ fitted s) bo_inv.
Proof.
  intros s (H1 & H2 & H3). destruct (fit_refits force s H2) as (A1 & A2 & A3 & A4 & A5 & A6 & A7 & A8 & A9 & A10).
  assert (B : bo_inv (fst (fit_surrogate w force s))).
  { refine (conj _ (conj A3 _)); [congruence|]. rewrite A1, A8. constructor; [exact I|exact H3]. }
  destruct (fit_surrogate w force s) as [s' [[]|e]]; cbn in *; [|exact B]. split; [exact B|]. unfold fitted, sX. rewrite A10, A4, A5 by reflexivity. reflexivity.
Qed.
Lemma bo_obj c : triple bo_inv (call_obj w c) (fun _ => bo_inv) bo_inv.
Proof.
  intros s (H1 & H2 & H3). unfold call_obj. destruct (w_obj _ _ _); (refine (conj H1 (conj H2 _)); constructor; [exact I|exact H3]).
Qed.
Lemma bo_append c y : triple bo_inv (append c y) (fun _ => bo_inv) bo_inv.
Proof. intros s (H1 & H2 & H3). refine (conj _ (conj H2 H3)). cbn. rewrite !app_length. cbn. lia. Qed.
Lemma mapM_jnum_inv : forall (l : list (json N)) l', mapM jnum l = Ok l' -> l = map JNum l'.
Proof.
  induction l as [|a l IH]; intros l' H; cbn in H; [inversion H; reflexivity|]. destruct a; cbn in H; try discriminate.
  destruct (mapM jnum l) as [r|]; cbn in H; [|discriminate]. inversion H; subst. cbn. rewrite (IH r eq_refl). reflexivity.
Qed.
Lemma bo_step_inv : triple (fun s => bo_inv s /\ fitted s) (bo_step w) (fun _ s => bo_inv s /\ fitted s) bo_inv.
Proof.
  unfold bo_step. intros s [HI HF]. unfold bindM at 1. destruct (incumbent s) as [inc|e] eqn:EI; [|exact HI].
  assert (INF : acq_informed (s_min s) (EAcq (s_fitted s) (option_map snd inc) (s_configs s, s_ys s))).
  { destruct HI as (H1 & H2 & H3). refine (conj H1 (conj HF _)). unfold incumbent in EI. destruct (s_ys s) as [|y0 ys] eqn:Ey.
    - exists []. refine (conj eq_refl (conj _ _)); [intros _; inversion EI; reflexivity|congruence].
    - destruct (mapM jnum (y0 :: ys)) as [l|] eqn:El; [|discriminate]. exists l. pose proof (mapM_jnum_inv _ _ El) as Em. refine (conj Em (conj _ _)); [intros ->; discriminate|].
      intros Hne FO. destruct (incumbent_best L s l ltac:(congruence) ltac:(congruence) Hne FO) as (i & c & v & E1 & E2 & E3).
      unfold incumbent in E1. rewrite Ey, El in E1. rewrite EI in E1. inversion E1; subst. exists i, v. split; [reflexivity|exact E3]. }
  assert (T : triple (fun s1 => s1 = s) (bindM (fun s => let eta := option_map snd inc in
                  let r := w_acq w (s_acqs s) (s_fitted s) eta in
                  (log (EAcq (s_fitted s) eta (s_configs s, s_ys s)) (set_acqs (S (s_acqs s)) s), r)) (fun c =>
       bindM (call_obj w c) (fun y => bindM (append c y) (fun _ => fit_surrogate w false)))) (fun _ s => bo_inv s /\ fitted s) bo_inv).
  { eapply triple_bind with (Q := fun _ => bo_inv).
    - intros s1 ->. cbn zeta.
      assert (B : bo_inv (log (EAcq (s_fitted s) (option_map snd inc) (s_configs s, s_ys s)) (set_acqs (S (s_acqs s)) s))).
      { destruct HI as (H1 & H2 & H3). refine (conj H1 (conj H2 _)). constructor; [exact INF|exact H3]. }
      destruct (w_acq _ _ _ _); exact B.
    - intro c. eapply triple_bind; [apply bo_obj|]. intro y. eapply triple_bind; [apply bo_append|]. intros []. apply bo_fit. }
  exact (T s eq_refl).
Qed.
Lemma bo_initial ip n : triple bo_inv (sample_initial w ip n) (fun _ => bo_inv) bo_inv.
Proof.
  unfold sample_initial. eapply triple_bind with (Q := fun _ => bo_inv).
  - intros s (H1 & H2 & H3). refine (conj H1 (conj H2 _)). constructor; [exact I|exact H3].
  - intro d. set (items := if Nat.eqb _ 1 then _ else _). eapply triple_bind.
    + apply (triple_collect items (call_drawn w) bo_inv (fun d y s => match d with DBare c => True | DList _ => False end) bo_inv); [intros [c|l]; auto|].
      intros [c|l] F FM s [H HF]; [|exact H]. cbn. pose proof (bo_obj c s H) as B. unfold call_obj in *. destruct (w_obj _ _ _); [|exact B].
      refine (conj B (conj _ I)). eapply FM; [exact HF|cbn; lia].
    + intro ys. eapply triple_bind with (Q := fun _ => bo_inv).
      * apply triple_upd. intros s [(H1 & H2 & H3) HF]. refine (conj _ (conj H2 H3)). cbn. rewrite !app_length, H1. f_equal.
        eapply Forall2_length. apply (bare_items items ys (fun _ _ => True)). exact HF.
      * intros []. eapply triple_weak; [apply bo_fit|auto| |auto]. intros a s [H _]; exact H.
Qed.
Lemma bo_sample_inv ip n : triple bo_inv (bo_sample w ip n) (fun _ => bo_inv) bo_inv.
Proof.
  unfold bo_sample. eapply triple_bind with (Q := fun _ => bo_inv); [intros s H; exact H|]. intro cur. eapply triple_bind with (Q := fun _ => bo_inv).
  - destruct (cur <? ip); [|apply triple_ret; auto]. eapply triple_bind; [apply bo_initial|]. intros []. apply triple_get; auto.
  - intro al. eapply triple_bind; [apply bo_fit|]. intros []. eapply triple_weak; [apply (triple_times (n - al) (bo_step w) (fun _ s => bo_inv s /\ fitted s) bo_inv)|auto| |auto].
    + intros i _. apply bo_step_inv.
    + intros a s [H _]; exact H.
Qed.
Lemma bo_replay n : triple bo_inv (replay n) (fun _ => bo_inv) bo_inv.
Proof.
  induction n as [|n IH]; [apply triple_ret; auto|]. intros s H. cbn [replay]. destruct (s_cache s) as [|[c y] t]; [exact H|].
  assert (T : triple bo_inv (bindM (append c y) (fun _ => bindM (replay n) (fun k => ret (S k)))) (fun _ => bo_inv) bo_inv).
  { eapply triple_bind; [apply bo_append|]. intros []. eapply triple_bind; [apply IH|]. intro k. apply triple_ret. auto. }
  exact (T (set_cache t s) H).
Qed.
Lemma bo_op ip n : triple (fun s => bo_inv s /\ s_kind s = KBO ip) (sample w n) (fun _ s => bo_inv s /\ fitted s) bo_inv.
Proof.
  intros s [H K]. unfold sample. rewrite K.
  assert (T : triple (fun s => bo_inv s /\ s_kind s = KBO ip) (bindM (sample_base w n) (fun _ => fit_surrogate w false)) (fun _ s => bo_inv s /\ fitted s) bo_inv).
  { eapply triple_bind with (Q := fun _ => bo_inv); [|intros []; apply bo_fit].
    intros s1 [H1 K1]. unfold sample_base. rewrite K1. set (s2 := if _ <? _ then _ else _). assert (H2 : bo_inv s2) by (unfold s2; destruct (_ <? _); exact H1).
    assert (T1 : triple bo_inv (bindM (replay n) (fun k => if k <? n then sample_new w (KBO ip) (n - k) else ret tt)) (fun _ => bo_inv) bo_inv).
    { eapply triple_bind; [apply bo_replay|]. intro k. destruct (k <? n); [apply bo_sample_inv|apply triple_ret; auto]. }
    exact (T1 s2 H2). }
  exact (T s (conj H K)).
Qed.
Definition bo_state ip s := bo_inv s /\ s_kind s = KBO ip.
Lemma bo_step_op ip op s : bo_state ip s -> bo_state ip (fst (sstep w op s)).
Proof.
  intros [H K]. pose proof (stat_step w op s) as St. unfold static in St. injection St as E1 _ _ _. split; [|congruence]. destruct op; cbn [sstep].
  - pose proof (bo_op ip n s (conj H K)) as T. destruct (sample w n s) as [s' [a|e]]; [exact (proj1 T)|exact T].
  - destruct H as (H1 & H2 & H3). exact (conj eq_refl (conj H2 H3)).
  - exact H.
  - rewrite K. pose proof (bo_fit force s H) as T. destruct (fit_surrogate w force s) as [s' [a|e]]; [exact (proj1 T)|exact T].
Qed.
Lemma bo_reach fs s ip : sreaches w fs s -> s_kind s = KBO ip -> bo_state ip s.
Proof.
  intros (k & cs & mn & key & ops & ->) K. pose proof (stat_run w ops (sampler_new w k cs mn key fs)) as St. unfold static in St. injection St as E1 _ _ _.
  apply run_inv; [intros; apply bo_step_op; assumption|]. split; [|cbn in *; congruence]. exact (conj eq_refl (conj I (Forall_nil _))).
Qed.

Theorem bo_fitted_after_sample fs s s' ip n : sreaches w fs s -> s_kind s = KBO ip -> sample w n s = (s', Ok tt) ->
  s_fitted s' = Some (map c_vec (s_configs s'), s_ys s').
Proof.
  intros H K E. pose proof (bo_op ip n s (bo_reach fs s ip H K)) as T. rewrite E in T. exact (proj2 T).
Qed.
Theorem bo_steps_informed fs s ip : sreaches w fs s -> s_kind s = KBO ip -> Forall (acq_informed (s_min s)) (s_trace s).
Proof. intros H K. destruct (bo_reach fs s ip H K) as [(_ & _ & A) _]. exact A. Qed.
Theorem bo_refits fs s ip force : sreaches w fs s -> s_kind s = KBO ip ->
  let s' := fst (fit_surrogate w force s) in s_fits s' = S (s_fits s) /\ s_trace s' = EFit (s_configs s) (s_ys s) :: s_trace s.
Proof.
  intros H K. destruct (bo_reach fs s ip H K) as [(_ & A & _) _]. destruct (fit_refits force s A) as (B1 & B2 & _). split; assumption.
Qed.
End Fit.

(** ** C45 *)
Definition D s := drawn_points (s_trace s).
Lemma fit_draws force d : triple (fun s => D s = d) (fit_surrogate w force) (fun _ s => D s = d) any.
Proof.
  intros s H. unfold fit_surrogate, bindM, ret, upd. destruct (_ || _); [|exact H]. unfold surrogate_fit. destruct (w_fit _ _ _ _); [exact H|exact I].
Qed.
Lemma obj_draws c d : triple (fun s => D s = d) (call_obj w c) (fun _ s => D s = d) any.
Proof. intros s H. unfold call_obj. destruct (w_obj _ _ _); [exact H|exact I]. Qed.
Lemma initial_draws_ok ip n d : triple (fun s => D s = d) (sample_initial w ip n) (fun _ s => D s = min ip n + d) any.
Proof.
  unfold sample_initial. eapply triple_bind with (Q := fun _ s => D s = min ip n + d).
  - intros s H. unfold D in *. cbn. rewrite H. reflexivity.
  - intro dr. set (items := if Nat.eqb _ 1 then _ else _). eapply triple_bind.
    + apply (triple_collect items (call_drawn w) (fun s => D s = min ip n + d) (fun _ _ _ => True) any); [auto|].
      intros [c|l] F FM s [H HF]; [|exact I]. cbn. unfold call_obj. destruct (w_obj _ _ _); [|exact I]. refine (conj H (conj _ I)). eapply FM; [exact HF|cbn; lia].
    + intro ys. eapply triple_bind with (Q := fun _ s => D s = min ip n + d); [apply triple_upd; intros s [H _]; exact H|]. intros []. apply fit_draws.
Qed.
Lemma bo_draws ip n s s' : s_kind s = KBO ip -> s_cache s = [] -> sample w n s = (s', Ok tt) ->
  D s' = (if slen s <? ip then min ip n else 0) + D s.
Proof.
  intros K C E. assert (HL : length (s_cache s) <= slen s + n) by (rewrite C; cbn; lia).
  unfold sample in E. rewrite K in E.
  assert (T : triple (fun s1 => s1 = s) (bindM (sample_base w n) (fun _ => fit_surrogate w false)) (fun _ s1 => D s1 = (if slen s <? ip then min ip n else 0) + D s) any).
  { eapply triple_bind with (Q := fun _ s1 => D s1 = (if slen s <? ip then min ip n else 0) + D s); [|intros []; apply fit_draws].
    intros s1 ->. unfold sample_base. rewrite K. set (s1 := if _ <? _ then _ else _).
    assert (E1 : s_cache s1 = [] /\ slen s1 = slen s /\ D s1 = D s) by (unfold s1; destruct (_ <? _); auto). destruct E1 as (E1 & E2 & E3).
    unfold bindM at 1. assert (R : replay n s1 = (s1, Ok 0)) by (destruct n; [reflexivity|cbn [replay]; rewrite E1; reflexivity]). rewrite R.
    destruct (Nat.ltb_spec 0 n).
    - cbn [sample_new]. rewrite Nat.sub_0_r. unfold bo_sample.
      assert (T : triple (fun s2 => D s2 = D s /\ slen s2 = slen s) (bindM (get slen) (fun current =>
          bindM (if current <? ip then bindM (sample_initial w ip n) (fun _ => get (fun s => slen s - current)) else ret 0) (fun already =>
          bindM (fit_surrogate w false) (fun _ => times (n - already) (bo_step w))))) (fun _ s2 => D s2 = (if slen s <? ip then min ip n else 0) + D s) any).
      { eapply triple_bind with (Q := fun cur s2 => D s2 = D s /\ cur = slen s); [apply triple_get; auto|]. intro cur.
        eapply triple_bind with (Q := fun _ s2 => D s2 = (if slen s <? ip then min ip n else 0) + D s).
        - intros s2 [A1 ->]. destruct (slen s <? ip).
          + unfold bindM at 1. pose proof (initial_draws_ok ip n (D s) s2 A1) as T. destruct (sample_initial w ip n s2) as [s3 [u|e]]; exact T.
          + exact A1.
        - intro al. eapply triple_bind; [apply fit_draws|]. intros []. apply (triple_times _ _ (fun _ s2 => D s2 = (if slen s <? ip then min ip n else 0) + D s) any).
          intros i _. unfold bo_step. eapply triple_bind with (Q := fun _ s2 => D s2 = (if slen s <? ip then min ip n else 0) + D s).
          + intros s2 A. destruct (incumbent s2); [exact A|exact I].
          + intro inc. eapply triple_bind with (Q := fun _ s2 => D s2 = (if slen s <? ip then min ip n else 0) + D s).
            * intros s2 A. destruct (w_acq _ _ _ _); [exact A|exact I].
            * intro c. eapply triple_bind; [apply obj_draws|]. intro y. eapply triple_bind with (Q := fun _ s2 => D s2 = (if slen s <? ip then min ip n else 0) + D s).
              -- intros s2 A. exact A.
              -- intros []. apply fit_draws. }
      exact (T s1 (conj E3 E2)).
    - cbn [ret]. assert (n = 0) as -> by lia. rewrite Nat.min_0_r. destruct (slen s <? ip); exact E3. }
  specialize (T s eq_refl). rewrite E in T. exact T.
Qed.
Lemma draws_run ip ns : forall s s' rs, s_kind s = KBO ip -> s_cache s = [] ->
  srun w (map OSample ns) s = (s', rs) -> Forall (fun r => r = Ok tt) rs -> D s' = initial_draws ip (slen s) ns + D s.
Proof.
  induction ns as [|n ns IH]; intros s s' rs K C E F; cbn [map srun] in E; [inversion E; reflexivity|].
  destruct (sstep w (OSample n) s) as [s1 r] eqn:E1. destruct (srun w (map OSample ns) s1) as [s2 rs2] eqn:E2. inversion E; subst. inversion F; subst.
  cbn [sstep] in E1. pose proof (stat_sample w n s) as St. rewrite E1 in St. unfold static in St. cbn in St. injection St as K1 _ _ _.
  assert (C1 : s_cache s1 = []).
  { destruct n as [|n].
    - destruct (cache_used_iff w [] 0 0 (set_points [] [] s)) as [H _]; [unfold replayed; cbn; rewrite C; auto|].
      pose proof (sample_from_cache w 0 s) as Z. destruct (Nat.leb_spec (slen s + 0) (length (s_cache s))) as [Hle|Hgt].
      + destruct (Z Hle) as (s'' & A & _ & _ & A3 & _). rewrite E1 in A. cbn in A. subst s''. rewrite A3, C. reflexivity.
      + pose proof (sample_drops w 0 s Hgt) as Y. rewrite E1 in Y. exact Y.
    - pose proof (sample_drops w (S n) s) as Y. rewrite E1 in Y. apply Y. rewrite C. cbn. lia. }
  rewrite (IH s1 s' rs2 ltac:(congruence) C1 E2 H2). rewrite (bo_draws ip n s s1 K C E1). cbn [initial_draws].
  destruct (sample_adds w n s s1 E1) as (cs & ys & A1 & _ & A3 & _). unfold slen. rewrite A3, app_length, A1. lia.
Qed.
Theorem bo_random_points k cs mn key fs ip ns s rs : k = KBO ip -> load_cache w cs (fs key) = [] ->
  srun w (map OSample ns) (sampler_new w k cs mn key fs) = (s, rs) -> Forall (fun r => r = Ok tt) rs ->
  drawn_points (s_trace s) = initial_draws ip 0 ns.
Proof.
  intros -> C E F. pose proof (draws_run ip ns (sampler_new w (KBO ip) cs mn key fs) s rs eq_refl C E F) as H. unfold D in H. rewrite H. cbn. apply Nat.add_0_r.
Qed.
End P.

(** arithmetic of [initial_draws] *)
Lemma initial_draws_done ip ns : forall len, ip <= len -> initial_draws ip len ns = 0.
Proof. induction ns as [|n ns IH]; intros len H; cbn [initial_draws]; [reflexivity|]. rewrite (proj2 (Nat.ltb_ge _ _) H). apply IH. lia. Qed.
Lemma initial_draws_bound ip ns : forall len, len < ip -> len + initial_draws ip len ns <= 2 * ip - 1.
Proof.
  induction ns as [|n ns IH]; intros len H; cbn [initial_draws]; [lia|]. rewrite (proj2 (Nat.ltb_lt _ _) H).
  destruct (Nat.ltb_spec (len + n) ip) as [Hl|Hl]; [specialize (IH (len + n) Hl); lia|]. rewrite initial_draws_done by exact Hl. lia.
Qed.
Lemma initial_draws_exact ip n ns : ip <= n -> initial_draws ip 0 (n :: ns) = ip.
Proof.
  intro H. cbn [initial_draws]. rewrite initial_draws_done by lia. destruct (Nat.ltb_spec 0 ip); lia.
Qed.
Lemma initial_draws_max ip : 1 <= ip -> initial_draws ip 0 [ip - 1; ip] = 2 * ip - 1.
Proof.
  intro H. cbn [initial_draws]. rewrite (proj2 (Nat.ltb_lt 0 ip)) by lia. rewrite (proj2 (Nat.ltb_lt (0 + (ip - 1)) ip)) by lia. lia.
Qed.
