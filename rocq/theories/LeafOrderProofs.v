(** LeafOrderProofs.v - leaves come in decreasing order of the split that separates them. *)
From Verif Require Import Base Num NumpyModel ConfigSpaceModel UtilsModel IceModel PartitionModel PartitionSpec
  ListLemmas IceProofs PartitionProofs PartitionProofs2 PartitionProofs3 LeafOrderSpec.
Local Open Scope list_scope.

Section P.
Context {N : Num}.
Variable L : order_laws N.
Implicit Types (p : dtp N) (nd : dnode N) (s : setup N).

Lemma tree_conds p k t : grown p k t -> forall nd, In nd (tleaves t) -> exists suf, n_conds nd = n_conds (troot t) ++ suf.
Proof.
  revert k. induction t as [x|x l IHl r IHr]; intros k G nd Hin.
  - cbn in Hin. destruct Hin as [<-|[]]. exists []. cbn. rewrite app_nil_r. reflexivity.
  - assert (Q : exists q, k = S q) by (inversion G; eauto). destruct Q as [q ->].
    destruct (grown_child p q x l r G) as (h & v & _ & _ & Rl & Rr & _ & _ & Gl & Gr & _).
    cbn [tleaves troot] in *. apply in_app_or in Hin. destruct Hin as [Hin|Hin].
    + destruct (IHr q Gr nd Hin) as (suf & E). rewrite Rr in E. cbn in E. rewrite <- app_assoc in E. eauto.
    + destruct (IHl q Gl nd Hin) as (suf & E). rewrite Rl in E. cbn in E. rewrite <- app_assoc in E. eauto.
Qed.

Lemma tree_order p k t : grown p k t -> forall i j a b, i < j ->
  nth_error (tleaves t) i = Some a -> nth_error (tleaves t) j = Some b ->
  exists pre h v sa sb, In h (d_possible p) /\ In v (possible_split_vals (N:=N) (d_nsplits p)) /\
    n_conds a = pre ++ mkcond h v false :: sa /\ n_conds b = pre ++ mkcond h v true :: sb.
Proof.
  revert k. induction t as [x|x l IHl r IHr]; intros k G i j a b Hij Ha Hb.
  - cbn in Hb. destruct j as [|[|j]]; [lia| |]; cbn in Hb; discriminate.
  - assert (Q : exists q, k = S q) by (inversion G; eauto). destruct Q as [q ->].
    destruct (grown_child p q x l r G) as (h & v & Hh & Hv & Rl & Rr & _ & _ & Gl & Gr & _).
    cbn [tleaves] in *. destruct (Nat.lt_ge_cases j (length (tleaves r))) as [Hj|Hj].
    + rewrite nth_error_app1 in Ha, Hb by lia. exact (IHr q Gr i j a b Hij Ha Hb).
    + rewrite nth_error_app2 in Hb by lia. destruct (Nat.lt_ge_cases i (length (tleaves r))) as [Hi|Hi].
      * rewrite nth_error_app1 in Ha by lia.
        destruct (tree_conds p q r Gr a (nth_error_In _ _ Ha)) as (sa & Ea).
        destruct (tree_conds p q l Gl b (nth_error_In _ _ Hb)) as (sb & Eb).
        rewrite Rr in Ea. rewrite Rl in Eb. cbn in Ea, Eb. rewrite <- app_assoc in Ea, Eb.
        exists (n_conds x), h, v, sa, sb. auto.
      * rewrite nth_error_app2 in Ha by lia.
        eapply (IHl q Gl (i - length (tleaves r)) (j - length (tleaves r))); eauto. lia.
Qed.

Lemma possible_splittable s p root dd sel ns h : setup_ok s -> reach_facts s p root dd sel ns ->
  In h (d_possible p) -> splittable s h.
Proof.
  intros SO F Hh. rewrite (rf_poss _ _ _ _ _ _ F) in Hh. apply split_parameters_spec in Hh. destruct Hh as (H1 & H2 & H3).
  split; [exact H1|]. split.
  - intros sel' E. rewrite (rf_sel _ _ _ _ _ _ F) in E. inversion E; subst. exact H2.
  - intros q nots E1 E2. pose proof (rf_nots _ _ _ _ _ _ F) as E3. rewrite E1, E2 in E3. inversion E3; subst. exact H3.
Qed.

Theorem leaves_order s p d : setup_ok s -> reaches s p -> 0 < d ->
  exists p' ids leaves, partition p d = (p', Ok ids) /\
    Forall2 (fun id nd => deref p' id = Some nd) ids leaves /\
    forall i j a b, i < j -> nth_error leaves i = Some a -> nth_error leaves j = Some b -> above_at_fork s a b.
Proof.
  intros SO RE Hd. destruct (reaches_facts L s p SO RE) as (root & dd & sel & ns & F).
  destruct (partition_facts L s p root dd sel ns d F Hd) as (p' & ids & t & U).
  exists p', ids, (tleaves t). refine (conj (ru_eq _ _ _ _ _ _ _ U) (conj (ru_leaves _ _ _ _ _ _ _ U) _)).
  intros i j a b Hij Ha Hb.
  destruct (tree_order p d t (ru_grown _ _ _ _ _ _ _ U) i j a b Hij Ha Hb) as (pre & h & v & sa & sb & Hh & Hv & Ea & Eb).
  exists pre, h, v, sa, sb. split; [eapply possible_splittable; eauto|].
  split; [rewrite <- (rf_ns _ _ _ _ _ _ F); exact Hv|]. auto.
Qed.

Lemma satisfied_by s p id nd c : setup_ok s -> reaches s p -> deref p id = Some nd -> In c (r_x (n_region nd)) ->
  Forall (fun q => curve_satisfies (su_cs s) q c) (n_conds nd).
Proof.
  intros SO RE D Hc. destruct (regions_are_selections L s p SO RE) as (root & _ & _ & K).
  destruct (K id nd D) as (_ & idxs & _ & (IR & _) & HI).
  assert (Q : exists i, In i idxs /\ nth_error (r_x (n_region root)) i = Some c).
  { clear - IR Hc. induction IR as [|i m li lm H F IH]; [destruct Hc|]. destruct Hc as [->|Hc].
    - exists i. split; [left; reflexivity|exact H].
    - destruct (IH Hc) as (i' & I1 & I2). exists i'. split; [right; exact I1|exact I2]. }
  destruct Q as (i & Hi & Hn). apply HI in Hi. destruct Hi as (c' & Hc' & Hf). rewrite Hn in Hc'. inversion Hc'; subst. exact Hf.
Qed.

Lemma names_value s (h : hp N) c (q : cond N) : NoDup (map hp_name (su_cs s)) -> In h (su_cs s) -> c_hp q = h -> curve_satisfies (su_cs s) q c ->
  exists x, value_at (su_cs s) h c x /\ if c_le q then nle x (c_val q) = true else nlt (c_val q) x = true.
Proof.
  intros ND Hin Eq (j & g & row & x & Hj & Hn & H0 & Hx & Hc). exists x. split; [|exact Hc].
  exists j, row. assert (g = h) as ->; [|auto]. rewrite Eq in Hn.
  apply (In_nth_error) in Hin. destruct Hin as [i Hi].
  assert (i = j) as ->; [|congruence].
  eapply (proj1 (NoDup_nth_error (map hp_name (su_cs s))) ND).
  - rewrite map_length. apply nth_error_Some. congruence.
  - rewrite !nth_error_map, Hi, Hj. cbn. congruence.
Qed.

Theorem leaves_curves s p d : setup_ok s -> reaches s p -> 0 < d ->
  exists p' ids leaves, partition p d = (p', Ok ids) /\
    Forall2 (fun id nd => deref p' id = Some nd) ids leaves /\
    forall i j a b, i < j -> nth_error leaves i = Some a -> nth_error leaves j = Some b -> curves_above s a b.
Proof.
  intros SO RE Hd. destruct (leaves_order s p d SO RE Hd) as (p' & ids & lv & E & F2 & K).
  exists p', ids, lv. refine (conj E (conj F2 _)). intros i j a b Hij Ha Hb.
  destruct (K i j a b Hij Ha Hb) as (pre & h & v & sa & sb & Hs & _ & Ea & Eb).
  assert (RE' : reaches s p') by (pose proof (reaches_partition s p d RE) as Q; rewrite E in Q; exact Q).
  assert (DA : forall m nd, nth_error lv m = Some nd -> exists id, deref p' id = Some nd).
  { intros m nd Hm. clear - F2 Hm. revert m Hm. induction F2 as [|id x ids' lv' H F IH]; intros [|m] Hm; try discriminate.
    - inversion Hm; subst. eauto.
    - exact (IH m Hm). }
  exists h, v. split; [exact Hs|]. destruct SO as (ND & SO'). pose proof (conj ND SO') as SO. destruct Hs as (Hin & _).
  split; intros c Hc.
  - destruct (DA i a Ha) as (id & D). pose proof (satisfied_by s p' id a c SO RE' D Hc) as Q. rewrite Ea in Q.
    apply Forall_app in Q. destruct Q as (_ & Q). inversion Q as [|q l Q1 _]; subst.
    exact (names_value s h c (mkcond h v false) ND Hin eq_refl Q1).
  - destruct (DA j b Hb) as (id & D). pose proof (satisfied_by s p' id b c SO RE' D Hc) as Q. rewrite Eb in Q.
    apply Forall_app in Q. destruct Q as (_ & Q). inversion Q as [|q l Q1 _]; subst.
    exact (names_value s h c (mkcond h v true) ND Hin eq_refl Q1).
Qed.

Lemma value_at_fun s (h : hp N) c (x y : N) : NoDup (map hp_name (su_cs s)) -> value_at (su_cs s) h c x -> value_at (su_cs s) h c y -> x = y.
Proof.
  intros ND (j & r & Hj & Hr & Hx) (i & r' & Hi & Hr' & Hy).
  assert (i = j) as ->.
  { eapply (proj1 (NoDup_nth_error (map hp_name (su_cs s))) ND).
    - rewrite map_length. apply nth_error_Some. congruence.
    - rewrite !nth_error_map, Hi, Hj. reflexivity. }
  congruence.
Qed.

Theorem one_axis s p d (g : hp N) : setup_ok s -> reaches s p -> 0 < d -> (forall h, splittable s h -> h = g) ->
  exists p' ids leaves, partition p d = (p', Ok ids) /\
    Forall2 (fun id nd => deref p' id = Some nd) ids leaves /\
    forall i j a b, i < j -> nth_error leaves i = Some a -> nth_error leaves j = Some b ->
    forall ca cb x y, In ca (r_x (n_region a)) -> In cb (r_x (n_region b)) ->
      value_at (su_cs s) g ca x -> value_at (su_cs s) g cb y -> nlt y x = true.
Proof.
  intros SO RE Hd Hone. destruct (leaves_curves s p d SO RE Hd) as (p' & ids & lv & E & F2 & K).
  exists p', ids, lv. refine (conj E (conj F2 _)). intros i j a b Hij Ha Hb ca cb x y Ca Cb Vx Vy.
  destruct (K i j a b Hij Ha Hb) as (h & v & Hs & KA & KB). rewrite (Hone h Hs) in *.
  destruct (KA ca Ca) as (x' & Vx' & Hx). destruct (KB cb Cb) as (y' & Vy' & Hy). destruct SO as (ND & _).
  rewrite (value_at_fun s g ca x x' ND Vx Vx'). rewrite (value_at_fun s g cb y y' ND Vy Vy').
  destruct (ol_le_ordinary _ L _ _ Hy) as (Oy & Ov).
  destruct (ol_cotrans _ L v y' x' Oy Hx) as [Q|Q]; [|exact Q].
  rewrite (ol_le _ L _ _ Oy Ov), Q in Hy. discriminate.
Qed.

Theorem two_leaves s p : setup_ok s -> reaches s p -> forall p' a b, partition p 1 = (p', Ok [a; b]) ->
  exists h v hi lo, splittable s h /\ In v (possible_split_vals (N:=N) (su_splits s)) /\
    deref p' a = Some hi /\ deref p' b = Some lo /\
    n_conds hi = [mkcond h v false] /\ n_conds lo = [mkcond h v true].
Proof.
  intros SO RE p' ia ib E. destruct (reaches_facts L s p SO RE) as (root & dd & sel & ns & F).
  destruct (partition_facts L s p root dd sel ns 1 F ltac:(lia)) as (q' & ids & t & U).
  pose proof (ru_eq _ _ _ _ _ _ _ U) as E'. rewrite E in E'. inversion E'; subst q' ids. clear E'.
  pose proof (ru_leaves _ _ _ _ _ _ _ U) as F2. pose proof (ru_grown _ _ _ _ _ _ _ U) as G. pose proof (ru_troot _ _ _ _ _ _ _ U) as RT.
  destruct t as [x|x l r]; [inversion F2 as [|? ? ? ? _ F3]; inversion F3|].
  destruct (grown_child p 0 x l r G) as (h & v & Hh & Hv & Rl & Rr & _ & _ & Gl & Gr & _).
  cbn in RT. subst x. assert (C0 : n_conds root = []) by (rewrite (rf_root _ _ _ _ _ _ F); reflexivity).
  assert (T0 : forall u, grown p 0 u -> tleaves u = [troot u]) by (intros u Gu; inversion Gu; reflexivity).
  cbn [tleaves] in F2. rewrite (T0 l Gl), (T0 r Gr) in F2. cbn [app] in F2.
  inversion F2 as [|i0 a0 l0 l1 Da F3]; subst. inversion F3 as [|i1 b0 l2 l3 Db F4]; subst.
  exists h, v, (troot r), (troot l). split; [eapply possible_splittable; eauto|].
  split; [rewrite <- (rf_ns _ _ _ _ _ _ F); exact Hv|]. refine (conj Da (conj Db (conj _ _))).
  - rewrite Rr. cbn. rewrite C0. reflexivity.
  - rewrite Rl. cbn. rewrite C0. reflexivity.
Qed.
Lemma first_not_left (p' : dtp N) a hi nd (h : hp N) v h' v' : deref p' a = Some hi -> deref p' a = Some nd ->
  n_conds hi = [mkcond h v false] -> n_conds nd = [mkcond h' v' true] -> False.
Proof. intros D D' C C'. rewrite D in D'. inversion D'; subst. rewrite C in C'. discriminate. Qed.
End P.
