(** CacheTextProofs.v - proofs for C95. *)
From Coq Require Import Ascii QArith DecimalNat DecimalZ DecimalString DecimalFacts.
From Verif Require Import Base Num NumpyModel ConfigSpaceModel SamplerModel SamplerSpec SamplerProofs SamplerProofs2 SamplerProofs3 SamplerProofs4
  SyntheticModel SyntheticSpace WrapperModel WrapperProofs CacheTextModel CacheTextSpec.
Local Open Scope nat_scope.
Local Open Scope list_scope.

Section Replay.
Context {N : Num}.
Variable w : world N.

Lemma key_with f k i : sampler_key (with_objective w f) k i = sampler_key w k i.
Proof. reflexivity. Qed.
Lemma del_with f s fs : sampler_del (with_objective w f) s fs = sampler_del w s fs.
Proof. reflexivity. Qed.

(** a sampler of another objective whose key is the same takes the values of the first objective *)
Theorem replay_other f f' k cs mn mn' i i' fs ops s m :
  sampler_key w k i = sampler_key w k i' ->
  s = fst (srun (with_objective w f) ops (sampler_make (with_objective w f) k cs mn i fs)) ->
  json_ok w s -> s_cache s = [] -> s_configs s <> [] -> length (s_configs s) = length (s_ys s) ->
  Forall (legal cs) (s_configs s) -> m <= length (s_configs s) ->
  let s2 := fst (sample (with_objective w f') m (sampler_make (with_objective w f') k cs mn' i' (sampler_del w s fs))) in
  s_configs s2 = firstn m (s_configs s) /\ s_ys s2 = firstn m (s_ys s) /\ s_calls s2 = 0.
Proof.
  intros EK E J C NE Hl Leg Hm. pose proof (stat_run (with_objective w f) ops (sampler_make (with_objective w f) k cs mn i fs)) as St.
  unfold static in St. injection St as E1 E2 E3 E4. rewrite <- E in *. unfold sampler_make in *. cbn in E2. change (s_hash s = sampler_key w k i) in E4.
  destruct (replay_of_saved (with_objective w f) (with_objective w f') s fs k mn' m J (fun _ => eq_refl) C NE Hl) as (A1 & A2 & A3 & _); [rewrite E2; exact Leg|exact Hm|].
  rewrite E2, E4, del_with in A1, A2, A3. rewrite EK in A1, A2, A3. cbv zeta. refine (conj A1 (conj A2 A3)).
Qed.
Lemma Forall2_firstn {A B} (P : A -> B -> Prop) (l : list A) (l' : list B) m : Forall2 P l l' -> Forall2 P (firstn m l) (firstn m l').
Proof. intro H. revert m. induction H; intros [|m]; cbn; constructor; auto. Qed.
(** if there was no file before, they are exactly the values of the first objective *)
Theorem replay_values f f' k cs mn mn' i i' fs ops s m :
  sampler_key w k i = sampler_key w k i' ->
  s = fst (srun (with_objective w f) ops (sampler_make (with_objective w f) k cs mn i fs)) ->
  json_ok w s -> s_cache s = [] -> s_configs s <> [] -> length (s_configs s) = length (s_ys s) ->
  Forall (legal cs) (s_configs s) -> m <= length (s_configs s) -> k <> KGrid -> fs (sampler_key w k i) = None ->
  let s2 := fst (sample (with_objective w f') m (sampler_make (with_objective w f') k cs mn' i' (sampler_del w s fs))) in
  length (s_configs s2) = m /\ values_of f (s_configs s2) (s_ys s2) /\ s_calls s2 = 0.
Proof.
  intros EK E J C NE Hl Leg Hm K Nf. destruct (replay_other f f' k cs mn mn' i i' fs ops s m EK E J C NE Hl Leg Hm) as (A1 & A2 & A3). cbv zeta.
  rewrite A1, A2, A3. refine (conj _ (conj _ eq_refl)); [rewrite firstn_length; lia|]. apply Forall2_firstn.
  pose proof (stat_run (with_objective w f) ops (sampler_make (with_objective w f) k cs mn i fs)) as St. unfold static in St. injection St as E1 E2 E3 E4. rewrite <- E in *. cbn in E1. change (s_hash s = sampler_key w k i) in E4.
  destruct (points_paired (with_objective w f) fs s) as [_ P].
  { exists k, cs, mn, (sampler_key w k i), ops. exact E. }
  { rewrite E1. exact K. }
  unfold values_of. assert (Q : forall c y, came_from (with_objective w f) fs s c y -> f (c_vals c) = Ok y); [|clear - P Q; induction P; constructor; auto].
  intros c y [(j & _ & Ho)|Hin]; [exact Ho|].
  rewrite E4 in Hin. rewrite Nf in Hin. destruct Hin.
Qed.

(** objects of the library with the same text *)
Theorem callables_confused (c c' : callable N) cls space seed rest k mn mn' fs ops s m :
  cb_cs c = cb_cs c' ->
  let i := ident_of cls space seed (callable_str c) rest in let i' := ident_of cls space seed (callable_str c') rest in
  let w1 := with_objective w (callable_at c) in let w2 := with_objective w (callable_at c') in
  s = fst (srun w1 ops (sampler_make w1 k (cb_cs c) mn i fs)) ->
  json_ok w s -> s_cache s = [] -> s_configs s <> [] -> length (s_configs s) = length (s_ys s) ->
  Forall (legal (cb_cs c)) (s_configs s) -> m <= length (s_configs s) -> k <> KGrid -> fs (sampler_key w k i) = None ->
  let s2 := fst (sample w2 m (sampler_make w2 k (cb_cs c') mn' i' (sampler_del w s fs))) in
  length (s_configs s2) = m /\ values_of (callable_at c) (s_configs s2) (s_ys s2) /\ s_calls s2 = 0.
Proof.
  intros Ecs i i' w1 w2 E J C NE Hl Leg Hm K Nf. rewrite <- Ecs.
  refine (replay_values (callable_at c) (callable_at c') k (cb_cs c) mn mn' i i' fs ops s m _ E J C NE Hl Leg Hm K Nf).
  unfold i, i', callable_str. rewrite Ecs. reflexivity.
Qed.
Theorem benchmarks_confused (b b' : benchmark N) sd sd' cls space seed rest k cs mn mn' fs ops s m :
  bm_class b = bm_class b' ->
  let h := hpo_new b sd in let h' := hpo_new b' sd' in
  let i := ident_of cls space seed (hpo_str h) rest in let i' := ident_of cls space seed (hpo_str h') rest in
  let w1 := with_objective w (hpo_call h) in let w2 := with_objective w (hpo_call h') in
  s = fst (srun w1 ops (sampler_make w1 k cs mn i fs)) ->
  json_ok w s -> s_cache s = [] -> s_configs s <> [] -> length (s_configs s) = length (s_ys s) ->
  Forall (legal cs) (s_configs s) -> m <= length (s_configs s) -> k <> KGrid -> fs (sampler_key w k i) = None ->
  let s2 := fst (sample w2 m (sampler_make w2 k cs mn' i' (sampler_del w s fs))) in
  length (s_configs s2) = m /\ values_of (hpo_call h) (s_configs s2) (s_ys s2) /\ s_calls s2 = 0.
Proof.
  intros Eb h h' i i' w1 w2 E J C NE Hl Leg Hm K Nf.
  refine (replay_values (hpo_call h) (hpo_call h') k cs mn mn' i i' fs ops s m _ E J C NE Hl Leg Hm K Nf).
  unfold i, i', hpo_str, hpo_name, h, h'. cbn [hb_bench hpo_new]. rewrite Eb. reflexivity.
Qed.
End Replay.

(** ** texts *)
Lemma split_at (p : Ascii.ascii -> bool) a b t t' : all_chars p a = true -> all_chars p b = true -> starts_outside p t -> starts_outside p t' ->
  (a ++ t = b ++ t')%string -> a = b /\ t = t'.
Proof.
  revert b. induction a as [|x a IH]; intros [|y b] Ha Hb Ht Ht' E; cbn in *.
  - auto.
  - subst t. destruct Ht as (z & r & Ez & Hz). injection Ez as -> ->. apply andb_true_iff in Hb. destruct Hb as [Hb _]. congruence.
  - subst t'. destruct Ht' as (z & r & Ez & Hz). injection Ez as <- <-. apply andb_true_iff in Ha. destruct Ha as [Ha _]. congruence.
  - injection E as -> E. apply andb_true_iff in Ha, Hb. destruct (IH b (proj2 Ha) (proj2 Hb) Ht Ht' E) as [-> ->]. auto.
Qed.
Lemma uint_digits d : all_chars is_digit (NilEmpty.string_of_uint d) = true.
Proof. induction d; cbn; auto. Qed.
Lemma int_inj z z' : NilEmpty.string_of_int (Z.to_int z) = NilEmpty.string_of_int (Z.to_int z') -> z = z'.
Proof.
  intro H. pose proof (NilEmpty.isi (Z.to_int z)) as A. pose proof (NilEmpty.isi (Z.to_int z')) as B. rewrite H, B in A. injection A as A. symmetry. apply DecimalZ.to_int_inj. exact A.
Qed.
Lemma int_hd z : exists c r, NilEmpty.string_of_int (Z.to_int z) = String c r /\ (is_digit c = true \/ c = "-"%char).
Proof.
  destruct (Z.to_int z) as [d|d] eqn:E; cbn.
  - destruct d as [|d|d|d|d|d|d|d|d|d|d]; cbn; eauto 6.
    exfalso. destruct z as [|p|p]; cbn in E; [discriminate| |discriminate]. injection E as E. exact (DecimalPos.Unsigned.to_uint_nonnil p E).
  - eauto.
Qed.
Lemma uint_hd d c r : NilEmpty.string_of_uint d = String c r -> is_digit c = true.
Proof. destruct d; cbn; intro H; try discriminate; injection H as <- _; reflexivity. Qed.
Theorem seed_split z z' t t' : starts_outside is_digit t -> starts_outside is_digit t' -> (seed_text z ++ t = seed_text z' ++ t')%string -> z = z' /\ t = t'.
Proof.
  intros Ht Ht' E. destruct z as [z|], z' as [z'|]; cbn [seed_text] in E.
  - assert (K : NilEmpty.string_of_int (Z.to_int z) = NilEmpty.string_of_int (Z.to_int z') /\ t = t').
    { destruct (int_hd z) as (c & r & Ez & _), (int_hd z') as (c' & r' & Ez' & _).
      destruct (Z.to_int z) as [d|d], (Z.to_int z') as [d'|d']; cbn [NilEmpty.string_of_int] in *.
      - exact (split_at is_digit _ _ _ _ (uint_digits d) (uint_digits d') Ht Ht' E).
      - exfalso. pose proof (uint_hd d c r Ez) as D. rewrite Ez in E. cbn in E. injection E as E _. subst c. discriminate D.
      - exfalso. pose proof (uint_hd d' c' r' Ez') as D. rewrite Ez' in E. cbn in E. injection E as E _. subst c'. discriminate D.
      - cbn in E. injection E as E. destruct (split_at is_digit _ _ _ _ (uint_digits d) (uint_digits d') Ht Ht' E) as [-> ->]. auto. }
    destruct K as [K ->]. apply int_inj in K. subst. auto.
  - destruct (int_hd z) as (c & r & Ez & H). rewrite Ez in E. cbn in E. injection E as E _. subst c. destruct H as [H|H]; cbv in H; discriminate.
  - destruct (int_hd z') as (c & r & Ez & H). rewrite Ez in E. cbn in E. injection E as E _. subst c. destruct H as [H|H]; cbv in H; discriminate.
  - cbn in E. injection E as E. auto.
Qed.
Lemma append_assoc (a b c : string) : ((a ++ b) ++ c = a ++ (b ++ c))%string.
Proof. induction a as [|x a IH]; cbn; [reflexivity|]. rewrite IH. reflexivity. Qed.
Lemma outside_append p a b : starts_outside p a -> starts_outside p (a ++ b)%string.
Proof. intros (c & r & -> & H). exists c, (r ++ b)%string. auto. Qed.
(** with a digest without collisions the key tells the seed and the text of the objective *)
Theorem key_tells {N : Num} (w : world N) k cls space z z' o o' rest :
  (forall a b, w_md5 w a = w_md5 w b -> a = b) -> starts_outside is_digit o -> starts_outside is_digit o' ->
  (forall p, k = KBO p -> starts_outside is_digit (fst (fst (fst rest)))) ->
  sampler_key w k (ident_of cls space z o rest) = sampler_key w k (ident_of cls space z' o' rest) -> z = z' /\ o = o'.
Proof.
  intros Inj Ho Ho' Hr. destruct rest as [[[a kw] pts] sur]. cbn [fst] in Hr. unfold sampler_key, sampler_hash, ident_of. cbn [i_cls i_space i_seed i_obj i_acq i_kwargs i_points i_surrogate].
  intro E. apply Inj, append_inj, append_inj in E. destruct k; cbn [fold_right] in E.
  1-2: exact (seed_split z z' o o' Ho Ho' E).
  destruct (seed_split z z' _ _ (outside_append is_digit _ _ (Hr _ eq_refl)) (outside_append is_digit _ _ (Hr _ eq_refl)) E) as [-> E']. split; [reflexivity|].
  do 4 apply append_inj in E'. exact E'.
Qed.
(** the text of a library function tells its class and the number of hyperparameters *)
Theorem bb_name_tells cls cls' d d' : all_chars not_paren cls = true -> all_chars not_paren cls' = true -> bb_name cls d = bb_name cls' d' -> cls = cls' /\ d = d'.
Proof.
  intros H H' E. unfold bb_name in E. assert (P : forall t, starts_outside not_paren ("(" ++ t)%string) by (intro t; exists "("%char, t; split; reflexivity).
  destruct (split_at not_paren _ _ _ _ H H' (P _) (P _) E) as [-> E']. split; [reflexivity|]. cbn in E'. injection E' as E'. apply append_suffix, dec_inj in E'. exact E'.
Qed.
Theorem library_key {N : Num} (w : world N) k cls space z z' c c' d d' rest :
  (forall a b, w_md5 w a = w_md5 w b -> a = b) -> class_name c -> class_name c' ->
  (forall p, k = KBO p -> starts_outside is_digit (fst (fst (fst rest)))) ->
  (sampler_key w k (ident_of cls space z (bb_name c d) rest) = sampler_key w k (ident_of cls space z' (bb_name c' d') rest) <-> z = z' /\ c = c' /\ d = d').
Proof.
  intros Inj [H1 H2] [H1' H2'] Hr. split; [|intros (-> & -> & ->); reflexivity]. intro E.
  destruct (key_tells w k cls space z z' _ _ rest Inj (outside_append is_digit _ _ H1) (outside_append is_digit _ _ H1') Hr E) as [-> E'].
  destruct (bb_name_tells _ _ _ _ H2 H2' E') as [-> ->]. auto.
Qed.
(** without separators two different pairs of seed and text can give the same key *)
Theorem key_ambiguous {N : Num} (w : world N) cls space : exists z z' o o' rest, z <> z' /\ o <> o' /\
  sampler_key w KRandom (ident_of cls space z o rest) = sampler_key w KRandom (ident_of cls space z' o' rest).
Proof.
  exists (Some 1%Z), (Some 12%Z), "2x"%string, "x"%string, (""%string, ""%string, ""%string, ""%string). split; [discriminate|]. split; [discriminate|]. reflexivity.
Qed.
(** the name given to a callable is in the text of the sampler and not in its key *)
Theorem name_shown {N : Num} (w : world N) (f : config N -> res (json N)) cs n n' cls k sc space z rest :
  let c := mkcallable f cs (Some n) in let c' := mkcallable f cs (Some n') in
  (sampler_str cls (callable_name (cb_cs c) (cb_given c)) = sampler_str cls (callable_name (cb_cs c') (cb_given c')) <-> n = n') /\
  sampler_key w k (ident_of sc space z (callable_str c) rest) = sampler_key w k (ident_of sc space z (callable_str c') rest).
Proof.
  split; [|reflexivity]. cbn. unfold sampler_str. split; [|intros ->; reflexivity]. intro E. apply append_inj, append_inj, append_suffix in E. exact E.
Qed.
