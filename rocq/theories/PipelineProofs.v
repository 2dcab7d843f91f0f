(** PipelineProofs.v - from the sampler to the tree (C108). *)
From Coq Require Import Reals Lra.
From Verif Require Import Base Num NumLaws NumpyModel ConfigSpaceModel UtilsModel IceModel PartitionModel PartitionSpec ListLemmas PartitionProofs PartitionProofs2 PartitionProofs3
  PartitionProofs4 RealProofs RealSums PartitionReal SamplerModel SamplerSpec SamplerProofs SamplerProofs2 SamplerProofs3 SamplerProofs4 PipelineSpec.
Local Open Scope nat_scope.
Local Open Scope list_scope.

Lemma vector_total (cs : cspace RNum) : NoDup (map hp_name cs) -> all_numerical cs -> forall v cfg, config_of_vector cs v = Ok cfg -> total_config cs cfg.
Proof.
  intros ND. induction cs as [|h0 cs IH]; intros A v cfg E h Hin; [destruct Hin|].
  destruct v as [|x v]; [discriminate|]. inversion ND as [|? ? Hn ND']; subst. inversion A as [|? ? A0 A']; subst. cbn [config_of_vector] in E.
  assert (T : exists y : RNum, hp_transform h0 x = Ok (Some (VNum y))).
  { unfold hp_transform. rewrite (R_ordinary x). cbn [negb]. unfold is_numerical in A0. destruct (hp_kind h0); try discriminate A0; eauto. }
  destruct T as (y & T). rewrite T in E. cbn [bind] in E. destruct (config_of_vector cs v) as [rest|] eqn:Er; [|discriminate]. cbn [bind] in E. injection E as <-.
  cbn [config_get]. destruct Hin as [<-|Hin].
  - rewrite String.eqb_refl. exists y. split; [reflexivity|apply R_ordinary].
  - destruct (String.eqb_spec (hp_name h0) (hp_name h)) as [E'|_]; [exfalso; apply Hn; rewrite E'; apply in_map; exact Hin|].
    exact (IH ND' A' v rest Er h Hin).
Qed.
Lemma legal_total (cs : cspace RNum) c : NoDup (map hp_name cs) -> all_numerical cs -> legal cs c -> total_config cs (c_vals c).
Proof.
  intros ND A L. unfold legal, conf_of_vector in L. destruct (config_of_vector cs (c_vec c)) as [vals|] eqn:E; [|discriminate]. cbn [bind] in L.
  apply (vector_total cs ND A (c_vec c)). rewrite E. f_equal. assert (H : mkconf (c_vec c) vals = c) by congruence. rewrite <- H. reflexivity.
Qed.

Lemma grid_total (w : world RNum) (cs : cspace RNum) n : NoDup (map hp_name cs) -> all_numerical cs -> forall g, grid_product w cs n = Ok g -> Forall (fun c => total_config cs (c_vals c)) g.
Proof.
  intro ND. induction cs as [|h0 cs IH]; intros A g E; cbn [grid_product] in E.
  - injection E as <-. constructor; [intros h []|constructor].
  - inversion ND as [|? ? Hn ND']; subst. inversion A as [|? ? A0 A']; subst.
    assert (T : forall vs, grid_axis w h0 n = Ok vs -> Forall (fun v => exists x : RNum, v = VNum x) vs).
    { intros vs Ev. unfold grid_axis in Ev. unfold is_numerical in A0. destruct (hp_kind h0); try discriminate A0; injection Ev as <-; apply Forall_map, Forall_forall; eauto. }
    destruct (grid_axis w h0 n) as [vs|]; [|discriminate]. specialize (T vs eq_refl). cbn [bind] in E.
    destruct (grid_product w cs n) as [rest|] eqn:Er; [|discriminate]. cbn [bind] in E. injection E as <-. specialize (IH ND' A' rest eq_refl).
    apply Forall_forall. intros c Hc. apply in_flat_map in Hc. destruct Hc as (v & Hv & Hc). apply in_map_iff in Hc. destruct Hc as (c' & <- & Hc').
    rewrite Forall_forall in T, IH. destruct (T v Hv) as (x & ->). cbn [c_vals]. intros h [<-|Hin]; cbn [config_get].
    + rewrite String.eqb_refl. exists x. split; [reflexivity|apply R_ordinary].
    + destruct (String.eqb_spec (hp_name h0) (hp_name h)) as [E'|_]; [exfalso; apply Hn; rewrite E'; apply in_map; exact Hin|]. exact (IH c' Hc' h Hin).
Qed.
Lemma Forall2_pair {A B} (P : A -> B -> Prop) l m j a b : Forall2 P l m -> nth_error l j = Some a -> nth_error m j = Some b -> P a b.
Proof. intro F. revert j. induction F as [|x y l m H F IH]; intros [|j] E1 E2; try discriminate; [|exact (IH j E1 E2)]. injection E1 as <-. injection E2 as <-. exact H. Qed.
Lemma Forall2_fun {A B} (f : A -> option B) l m m' : Forall2 (fun a b => f a = Some b) l m -> Forall2 (fun a b => f a = Some b) l m' -> m = m'.
Proof. intro F. revert m'. induction F as [|x y l m H F IH]; intros m' F'; inversion F'; subst; [reflexivity|]. f_equal; [congruence|]. apply IH. assumption. Qed.

Section Pipe.
Variable w : world RNum.
Variable fs : files.
Variable s : sampler RNum.
Variable su : setup RNum.
Variable p : dtp RNum.
Variable d : nat.
Hypothesis SR : sreaches w fs s.
Hypothesis WL : world_total w (s_cs s).
Hypothesis CS : su_cs su = s_cs s.
Hypothesis SO : setup_ok su.
Hypothesis AN : all_numerical (su_cs su).
Hypothesis RP : PartitionSpec.reaches su p.
Hypothesis D : 0 < d.

Lemma points_total : Forall (fun c => total_config (su_cs su) (c_vals c)) (s_configs s).
Proof.
  rewrite CS. pose proof SO as (ND & _). rewrite CS in ND. pose proof AN as AN'. rewrite CS in AN'. destruct WL as (W1 & W2).
  assert (LC : Forall (fun c => total_config (s_cs s) (c_vals c)) (map fst (load_cache w (s_cs s) (fs (s_hash s))))).
  { eapply Forall_impl; [|apply loaded_legal]. intros c Lc. apply legal_total; assumption. }
  destruct (s_kind s) eqn:K.
  - apply (other_origin w (fun c => total_config (s_cs s) (c_vals c)) W1 W2 fs s SR); [congruence|exact LC].
  - apply (grid_origin w (fun c => total_config (s_cs s) (c_vals c)) fs s SR K LC). intros n g. apply grid_total; assumption.
  - apply (other_origin w (fun c => total_config (s_cs s) (c_vals c)) W1 W2 fs s SR); [congruence|exact LC].
Qed.

Theorem point_in_leaf c : In c (s_configs s) -> exists p' ids leaves k,
  partition p d = (p', Ok ids) /\ Forall2 (fun id nd => deref p' id = Some nd) ids leaves /\ k < length leaves /\
  (forall j nd, nth_error leaves j = Some nd -> contains (su_cs su) (n_conds nd) (c_vals c) = Ok (Nat.eqb j k)) /\
  get_incumbent_region p' (c_vals c) = Ok (nth_error ids k).
Proof.
  intro Hc. pose proof points_total as T. rewrite Forall_forall in T.
  destruct (config_in_exactly_one_leaf R_order_laws su p d (c_vals c) SO AN (R_unscaled_ordinary su) (T c Hc) RP D) as (p' & ids & leaves & k & H1 & H2 & H3 & H4 & H5).
  exists p', ids, leaves, k. refine (conj H1 (conj H2 (conj H3 (conj _ H5)))). intros j nd Hj. apply (H4 j nd Hj).
Qed.

Theorem incumbent_in_leaf l : s_ys s = map JNum l -> l <> [] -> length (s_configs s) = length (s_ys s) ->
  exists i c v p' ids id nd, incumbent s = Ok (Some (c, v)) /\ nth_error (s_configs s) i = Some c /\ best_at (s_min s) l i v /\
    partition p d = (p', Ok ids) /\ get_incumbent_region p' (c_vals c) = Ok (Some id) /\ In id ids /\ deref p' id = Some nd /\
    contains (su_cs su) (n_conds nd) (c_vals c) = Ok true.
Proof.
  intros Ey Nl Ll. destruct (incumbent_best R_order_laws s l Ey Ll Nl) as (i & c & v & Hi & Hc & Hb); [apply Forall_forall; intros; apply R_ordinary|].
  destruct (point_in_leaf c (nth_error_In _ _ Hc)) as (p' & ids & leaves & k & H1 & H2 & H3 & H4 & H5).
  destruct (nth_error leaves k) as [nd|] eqn:En; [|apply nth_error_None in En; lia].
  destruct (nth_error ids k) as [id|] eqn:Ei; [|apply nth_error_None in Ei; rewrite (Forall2_length _ _ _ H2) in Ei; lia].
  exists i, c, v, p', ids, id, nd. refine (conj Hi (conj Hc (conj Hb (conj H1 (conj H5 (conj (nth_error_In _ _ Ei) (conj _ _))))))).
  - exact (Forall2_pair _ _ _ _ _ _ H2 Ei En).
  - rewrite (H4 k nd En), Nat.eqb_refl. reflexivity.
Qed.

Lemma indicator_sum n k : k < n -> list_sum (map (fun j => if Nat.eqb j k then 1 else 0) (seq 0 n)) = 1.
Proof.
  intro H. assert (G : forall m a, (k < a \/ a + m <= k -> list_sum (map (fun j => if Nat.eqb j k then 1 else 0) (seq a m)) = 0) /\
    (a <= k < a + m -> list_sum (map (fun j => if Nat.eqb j k then 1 else 0) (seq a m)) = 1)).
  { induction m as [|m IH]; intro a; [split; [reflexivity|lia]|]. change (list_sum (map (fun j => if Nat.eqb j k then 1 else 0) (seq a (S m)))) with ((if Nat.eqb a k then 1 else 0) + list_sum (map (fun j => if Nat.eqb j k then 1 else 0) (seq (S a) m))). destruct (IH (S a)) as [A B].
    split; intro X; destruct (Nat.eqb_spec a k) as [->|Na]; try lia. }
  apply (G n 0). lia.
Qed.
Lemma map_seq_nth {A B} (f : A -> B) (l : list A) (g : nat -> B) : (forall j x, nth_error l j = Some x -> f x = g j) -> map f l = map g (seq 0 (length l)).
Proof.
  intro H. apply list_eq_nth_error. intro j. rewrite nth_error_map. destruct (nth_error l j) as [x|] eqn:E.
  - rewrite nth_error_map_seq by (exact (nth_error_Some_lt _ _ _ E)). cbn. f_equal. exact (H j x E).
  - symmetry. apply nth_error_None. rewrite map_length, seq_length. apply nth_error_None. exact E.
Qed.

Theorem points_counted : exists p' ids leaves, partition p d = (p', Ok ids) /\ Forall2 (fun id nd => deref p' id = Some nd) ids leaves /\
  list_sum (map (fun nd => length (points_in (su_cs su) nd (s_configs s))) leaves) = length (s_configs s).
Proof.
  destruct (reaches_facts R_order_laws su p SO RP) as (root & dd & sel & ns & F).
  destruct (partition_facts R_order_laws su p root dd sel ns d F D) as (p0 & ids0 & t0 & RF).
  assert (PO : exists p' ids leaves, partition p d = (p', Ok ids) /\ Forall2 (fun id nd => deref p' id = Some nd) ids leaves) by (do 3 eexists; split; [exact (ru_eq _ _ _ _ _ _ _ RF)|exact (ru_leaves _ _ _ _ _ _ _ RF)]).
  clear RF F. destruct PO as (p' & ids & leaves & Hp & Hl). exists p', ids, leaves. split; [exact Hp|]. split; [exact Hl|].
  pose proof (fun c => point_in_leaf c) as K. induction (s_configs s) as [|c l IH].
  - cbn. clear. induction leaves as [|nd t IHt]; [reflexivity|exact IHt].
  - destruct (K c (or_introl eq_refl)) as (p1 & ids1 & leaves1 & k & H1 & H2 & H3 & H4 & _).
    rewrite Hp in H1. injection H1 as <- <-. assert (leaves1 = leaves) by (exact (Forall2_fun (fun id => deref p' id) _ _ _ H2 Hl)). subst leaves1.
    assert (E : map (fun nd => length (points_in (su_cs su) nd (c :: l))) leaves =
                map (fun nd => (if match contains (su_cs su) (n_conds nd) (c_vals c) with Ok b => b | Err _ => false end then 1 else 0) + length (points_in (su_cs su) nd l)) leaves).
    { apply map_ext. intro nd. unfold points_in. cbn [filter]. destruct (match contains (su_cs su) (n_conds nd) (c_vals c) with Ok b => b | Err _ => false end); reflexivity. }
    rewrite E. clear E. assert (Sp : forall (f g : dnode RNum -> nat) t, list_sum (map (fun nd => f nd + g nd) t) = list_sum (map f t) + list_sum (map g t)).
    { intros f g t. induction t as [|x t IHt]; [reflexivity|]. cbn. unfold list_sum in IHt. rewrite IHt. lia. }
    rewrite Sp, IH by (intros c' Hc'; apply K; right; exact Hc'). cbn [length].
    rewrite (map_seq_nth _ leaves (fun j => if Nat.eqb j k then 1 else 0)); [rewrite indicator_sum by exact H3; reflexivity|].
    intros j nd Hj. cbn. rewrite (H4 j nd Hj). reflexivity.
Qed.
End Pipe.
