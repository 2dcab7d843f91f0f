(** PartitionProofs5.v - tree links (C13), categorical splits (C15), from_ICE (C16). *)
From Verif Require Import Base Num NumpyModel ConfigSpaceModel UtilsModel IceModel PartitionModel PartitionSpec
  ListLemmas IceProofs PartitionProofs PartitionProofs2 PartitionProofs3 PartitionProofs4.
From Coq Require Import Sorted.

Section P.
Context {N : Num}.
Variable L : order_laws N.
Implicit Types (p : dtp N) (nd : dnode N) (cs : cspace N) (cfg : config N) (s : setup N) (heap : list (cell N)).

(** ** C13 *)
Definition linked p lo heap (id : nat) (c : cell N) : Prop :=
  exists par pc sib sc hv,
    n_parent c = Some par /\ (par = 0 \/ lo <= par) /\ par < id /\
    nth_error heap par = Some pc /\ nth_error heap sib = Some sc /\ n_parent sc = Some par /\
    derived p (n_node pc) (n_node pc) /\ In (fst hv) (d_possible p) /\ In (snd hv) (possible_split_vals (N:=N) (d_nsplits p)) /\
    ((n_left pc = Some id /\ n_right pc = Some sib /\ (n_node c, n_node sc) = split_pair (d_cs p) (n_node pc) hv) \/
     (n_left pc = Some sib /\ n_right pc = Some id /\ (n_node sc, n_node c) = split_pair (d_cs p) (n_node pc) hv)).

Record J p lo (m : machine N) : Prop := {
  J_link : forall id c, lo <= id -> nth_error (m_heap m) id = Some c -> linked p lo (m_heap m) id c;
  J_where : forall id c, lo <= id -> nth_error (m_heap m) id = Some c ->
    In id (m_stack m) \/ In id (m_leaves m) \/ (exists a b, n_left c = Some a /\ n_right c = Some b);
  J_noparent : forall id j c, In id (m_stack m) -> lo <= j -> nth_error (m_heap m) j = Some c -> n_parent c <> Some id;
  J_nodup : NoDup (m_stack m);
  J_bound : forall id, In id (m_stack m) -> (id = 0 \/ lo <= id) /\ id < length (m_heap m);
  J_lo : lo <= length (m_heap m)
}.

Lemma J_step p root lo d m :
  wf_static p -> wf_region (length (d_cs p)) (n_region root) -> m_err m = None ->
  heap_derived p root (m_heap m) -> J p lo m -> J p lo (part_step p d m).
Proof.
  intros WS W Herr HD Jm. unfold part_step. rewrite Herr.
  destruct (m_stack m) as [|id q] eqn:Est; [exact Jm|].
  destruct Jm as [J1 J2 J3 J4 J5 J6]. rewrite Est in *.
  inversion J4 as [|? ? Hnin ND]; subst.
  destruct (J5 id (or_introl eq_refl)) as [Hid Hidl].
  destruct (nth_error (m_heap m) id) as [c|] eqn:Hc.
  2:{ exfalso. apply nth_error_None in Hc. lia. }
  assert (Leaf : J p lo (mkmachine (m_heap m) (m_leaves m ++ [id]) q None)).
  { constructor; cbn [m_heap m_stack m_leaves]; auto.
    - intros j cj Hj Hcj. destruct (J2 j cj Hj Hcj) as [[->|H]|[H|H]]; auto.
      + right; left. apply in_or_app. right; left; reflexivity.
      + right; left. apply in_or_app. auto.
    - intros i j cj Hi. apply J3. right; exact Hi.
    - intros i Hi. apply J5. right; exact Hi. }
  assert (Errm : forall e, J p lo (mkmachine (m_heap m) (m_leaves m) q (Some e)) \/ True) by auto.
  destruct (is_splittable (n_node c)) eqn:Sp; [|exact Leaf].
  destruct (Nat.leb d (n_depth (n_node c))) eqn:Dp; [exact Leaf|]. cbn [negb orb].
  pose proof (derived_wf p root _ W (HD _ _ Hc)) as Wc.
  destruct (calc_best_split_ok L (d_cs p) (d_possible p) (d_nsplits p) (d_minpts p) (n_node c) Wc WS Sp) as (bb & _ & Ecb).
  destruct (calc_best_split _ _ _ _ _) as [[[l r]|]|e] eqn:Cb; [|exact Leaf|discriminate].
  clear Leaf Errm Ecb bb.
  destruct (calc_child L p (n_node c) (l, r) WS Wc Sp Cb) as (hv & H1 & H2 & Hlr & En).
  set (k := length (m_heap m)) in *.
  set (heap' := set_nth id (mkcell (n_node c) (n_parent c) (Some k) (Some (S k))) (m_heap m)
                ++ [mkcell l (Some id) None None; mkcell r (Some id) None None]).
  assert (Llen : length heap' = k + 2) by (unfold heap'; rewrite app_length, set_nth_length; reflexivity).
  assert (Hi' : nth_error heap' id = Some (mkcell (n_node c) (n_parent c) (Some k) (Some (S k)))).
  { unfold heap'. rewrite nth_error_app1 by (rewrite set_nth_length; exact Hidl). apply nth_error_set_nth_eq; exact Hidl. }
  assert (Hk' : nth_error heap' k = Some (mkcell l (Some id) None None)).
  { unfold heap'. rewrite nth_error_app2 by (rewrite set_nth_length; fold k; lia). rewrite set_nth_length. fold k. rewrite Nat.sub_diag. reflexivity. }
  assert (Hsk' : nth_error heap' (S k) = Some (mkcell r (Some id) None None)).
  { unfold heap'. rewrite nth_error_app2 by (rewrite set_nth_length; fold k; lia). rewrite set_nth_length. fold k.
    replace (S k - k) with 1 by lia. reflexivity. }
  assert (Ho : forall j, j <> id -> j < k -> nth_error heap' j = nth_error (m_heap m) j).
  { intros j Hj Hjl. unfold heap'. rewrite nth_error_app1 by (rewrite set_nth_length; exact Hjl).
    apply nth_error_set_nth_neq. congruence. }
  (* old cells keep node and parent *)
  assert (Old : forall j cj, nth_error (m_heap m) j = Some cj -> exists cj', nth_error heap' j = Some cj' /\
            n_node cj' = n_node cj /\ n_parent cj' = n_parent cj /\ (j <> id -> cj' = cj)).
  { intros j cj Hj. destruct (Nat.eq_dec j id) as [->|Hne].
    - rewrite Hc in Hj. inversion Hj; subst cj. eexists. split; [exact Hi'|]. cbn. repeat split; auto. congruence.
    - exists cj. rewrite Ho; [auto|exact Hne|eapply nth_error_Some_lt; eassumption]. }
  (* every cell of the new heap *)
  assert (Cases : forall j cj, nth_error heap' j = Some cj ->
            (j = k /\ cj = mkcell l (Some id) None None) \/ (j = S k /\ cj = mkcell r (Some id) None None) \/
            (j < k /\ exists c0, nth_error (m_heap m) j = Some c0 /\ n_node cj = n_node c0 /\ n_parent cj = n_parent c0 /\ (j <> id -> cj = c0))).
  { intros j cj Hj. destruct (Nat.lt_ge_cases j k) as [Hl|Hl].
    - right; right. split; [exact Hl|]. destruct (Nat.eq_dec j id) as [->|Hne].
      + rewrite Hi' in Hj. inversion Hj; subst cj. exists c. cbn. repeat split; auto. congruence.
      + rewrite Ho in Hj by assumption. exists cj. auto.
    - pose proof (nth_error_Some_lt _ _ _ Hj) as Hj2. rewrite Llen in Hj2.
      assert (j = k \/ j = S k) as [-> | ->] by lia.
      + left. split; [reflexivity|]. congruence.
      + right; left. split; [reflexivity|]. congruence. }
  assert (Hlok : lo <= k) by exact J6.
  constructor; cbn [m_heap m_stack m_leaves]; fold heap'.
  - intros j cj Hj Hcj. destruct (Cases j cj Hcj) as [[-> ->]|[[-> ->]|(Hjk & c0 & Hc0 & En0 & Ep0 & Eq0)]].
    + exists id, (mkcell (n_node c) (n_parent c) (Some k) (Some (S k))), (S k), (mkcell r (Some id) None None), hv.
      cbn. repeat split; auto. constructor.
    + exists id, (mkcell (n_node c) (n_parent c) (Some k) (Some (S k))), k, (mkcell l (Some id) None None), hv.
      cbn. repeat split; auto; try constructor.
    + destruct (J1 j c0 Hj Hc0) as (par & pc & sib & sc & hv0 & Q1 & Q2 & Q3 & Q4 & Q5 & Q6 & Q7 & Q8 & Q9 & Q10).
      assert (Hpar : par <> id).
      { intro X. subst par. apply (J3 id j c0 (or_introl eq_refl) Hj Hc0). exact Q1. }
      assert (Q4' : nth_error heap' par = Some pc).
      { rewrite Ho; [exact Q4|exact Hpar|eapply nth_error_Some_lt; exact Q4]. }
      destruct (Old sib sc Q5) as (sc' & S1 & S2 & S3 & _).
      exists par, pc, sib, sc', hv0. rewrite Ep0, En0, S2, S3. repeat split; auto.
  - intros j cj Hj Hcj. destruct (Cases j cj Hcj) as [[-> ->]|[[-> ->]|(Hjk & c0 & Hc0 & En0 & Ep0 & Eq0)]].
    + left. right; left; reflexivity.
    + left. left; reflexivity.
    + destruct (Nat.eq_dec j id) as [->|Hne].
      * right; right. rewrite Hi' in Hcj. inversion Hcj; subst cj. cbn. eauto.
      * rewrite (Eq0 Hne). destruct (J2 j c0 Hj Hc0) as [[X|X]|[X|X]]; auto; [congruence|]. left. right; right; exact X.
  - intros i j cj Hi Hj Hcj. destruct (Cases j cj Hcj) as [[-> ->]|[[-> ->]|(Hjk & c0 & Hc0 & En0 & Ep0 & Eq0)]].
    + cbn. intro X. inversion X; subst i. destruct Hi as [Hi|[Hi|Hi]]; [lia|lia|contradiction].
    + cbn. intro X. inversion X; subst i. destruct Hi as [Hi|[Hi|Hi]]; [lia|lia|contradiction].
    + rewrite Ep0. destruct Hi as [Hi|[Hi|Hi]].
      * intro X. destruct (J1 j c0 Hj Hc0) as (par & pc & _ & _ & _ & Q1 & _ & _ & Q4 & _).
        apply nth_error_Some_lt in Q4. rewrite Q1 in X. inversion X. fold k in Q4. lia.
      * intro X. destruct (J1 j c0 Hj Hc0) as (par & pc & _ & _ & _ & Q1 & _ & _ & Q4 & _).
        apply nth_error_Some_lt in Q4. rewrite Q1 in X. inversion X. fold k in Q4. lia.
      * apply (J3 i j c0); auto. right; exact Hi.
  - constructor.
    + intros [X|X]; [lia|]. destruct (J5 (S k)) as [_ X2]; [right; exact X|]. fold k in X2. lia.
    + constructor; [|exact ND]. intro X. destruct (J5 k) as [_ X2]; [right; exact X|]. fold k in X2. lia.
  - intros i [<-|[<-|Hi]]; [rewrite Llen; lia|rewrite Llen; lia|].
    destruct (J5 i) as [X1 X2]; [right; exact Hi|]. split; [exact X1|]. rewrite Llen. fold k in X2. lia.
  - rewrite Llen. lia.
Qed.

Lemma J_loop p root lo d k m :
  wf_static p -> wf_region (length (d_cs p)) (n_region root) ->
  heap_derived p root (m_heap m) -> J p lo m -> m_err m = None ->
  heap_derived p root (m_heap (loop_pow p d k m)) /\
  (m_err (loop_pow p d k m) = None -> J p lo (loop_pow p d k m)).
Proof.
  intros WS W HD Jm Herr.
  assert (Q : (fun m => heap_derived p root (m_heap m) /\ (m_err m = None -> J p lo m)) (loop_pow p d k m)).
  { apply loop_invariant; [|auto].
    intros m0 [H1 H2]. split.
    - exact (heap_derived_loop L p root d 0 WS W m0 H1).
    - intro E. destruct (m_err m0) eqn:E0.
      + unfold part_step in E. rewrite E0 in E. congruence.
      + apply (J_step p root); auto. }
  exact Q.
Qed.

Lemma stored_leaf_ids heap lo par id t ids :
  stored_ge heap lo par id t ids -> forall i, In i ids ->
  (i = id \/ lo <= i) /\ exists c, nth_error heap i = Some c /\ n_left c = None /\ n_right c = None.
Proof.
  induction 1 as [lo par id nd Hn|lo par id nd a b l r il ir Hn Ha Ha' Hb Hb' Hl IHl Hr IHr]; intros i Hi.
  - destruct Hi as [<-|[]]. split; [auto|]. eexists; split; [exact Hn|]. auto.
  - apply in_app_or in Hi. destruct Hi as [Hi|Hi].
    + destruct (IHr i Hi) as [[->|X] Y]; split; auto; right; lia.
    + destruct (IHl i Hi) as [[->|X] Y]; split; auto; right; lia.
Qed.

(** both sides of a split, as index sets of the parent *)
Lemma split_rows s p root dd sel ns nd hv :
  setup_ok s -> no_nan s -> splits_ordinary s -> reach_facts s p root dd sel ns -> derived p root nd ->
  In (fst hv) (d_possible p) -> In (snd hv) (possible_split_vals (N:=N) (d_nsplits p)) ->
  exists il ir, is_rows (n_region nd) il (n_region (fst (split_pair (d_cs p) nd hv))) /\
    is_rows (n_region nd) ir (n_region (snd (split_pair (d_cs p) nd hv))) /\
    Permutation (il ++ ir) (seq 0 (region_len (n_region nd))).
Proof.
  intros SO NN OO F D H1 H2.
  destruct (rf_inv _ _ _ _ _ _ F) as [WS W D0 C0 _].
  pose proof (derived_wf p root nd W D) as Wn.
  set (n := region_len (n_region nd)).
  set (f := fun b i => cond_sat (d_cs p) (mkcond (fst hv) (snd hv) b) (nth i (r_x (n_region nd)) [])).
  exists (filter (f true) (seq 0 n)), (filter (f false) (seq 0 n)).
  refine (conj _ (conj _ _)).
  - apply (sel_region_rows (cond_sat (d_cs p) (mkcond (fst hv) (snd hv) true))); apply Wn.
  - apply (sel_region_rows (cond_sat (d_cs p) (mkcond (fst hv) (snd hv) false))); apply Wn.
  - rewrite (filter_ext_in' (f false) (fun i => negb (f true i))).
    + apply filter_partition.
    + intros i Hi. apply in_seq in Hi. unfold f.
      destruct (derived_facts p root nd (wf_y _ _ W) (wf_v _ _ W) D) as (suf & F1 & F2 & F3 & F4 & _).
      assert (Hlt : i < length (r_x (n_region nd))) by (unfold n, region_len in Hi; lia).
      assert (Hin : In (nth i (r_x (n_region nd)) []) (r_x (n_region root))).
      { apply mask_select_in with (m := map (conds_sat (d_cs p) suf) (r_x (n_region root))).
        replace (mask_select (map (conds_sat (d_cs p) suf) (r_x (n_region root))) (r_x (n_region root))) with (r_x (n_region nd)).
        - apply nth_In; exact Hlt.
        - rewrite F3 at 1. reflexivity. }
      destruct (In_nth _ _ [] Hin) as (q & Hq & Eq). rewrite <- Eq.
      apply (curve_complement L s p root dd sel ns SO NN OO F (fst hv) (snd hv) q H1 H2). apply in_seq. lia.
Qed.

Theorem tree_links s p d :
  setup_ok s -> no_nan s -> splits_ordinary s -> reaches s p -> 0 < d ->
  exists p' ids, partition p d = (p', Ok ids) /\
    (exists c0, nth_error (d_heap p') 0 = Some c0 /\ n_parent c0 = None) /\
    (forall id c, length (d_heap p) <= id -> nth_error (d_heap p') id = Some c ->
       exists par pc sib sc ic isb,
         n_parent c = Some par /\ (par = 0 \/ length (d_heap p) <= par) /\ par < id /\
         nth_error (d_heap p') par = Some pc /\ nth_error (d_heap p') sib = Some sc /\ n_parent sc = Some par /\
         ((n_left pc = Some id /\ n_right pc = Some sib) \/ (n_left pc = Some sib /\ n_right pc = Some id)) /\
         n_depth (n_node c) = S (n_depth (n_node pc)) /\
         is_rows (n_region (n_node pc)) ic (n_region (n_node c)) /\
         is_rows (n_region (n_node pc)) isb (n_region (n_node sc)) /\
         Permutation (ic ++ isb) (seq 0 (region_len (n_region (n_node pc))))) /\
    (forall id, In id ids <-> (id = 0 \/ length (d_heap p) <= id) /\
       exists c, nth_error (d_heap p') id = Some c /\ n_left c = None /\ n_right c = None).
Proof.
  intros SO NN OO R Hd. destruct (reaches_facts L s p SO R) as (root & dd & sel & ns & F).
  destruct (partition_facts L s p root dd sel ns d F Hd) as (p' & ids & t & U).
  pose proof (reach_facts_partition L _ _ _ _ _ _ _ _ _ F Hd (ru_eq _ _ _ _ _ _ _ U)) as F'.
  exists p', ids. split; [apply U|].
  set (lo := length (d_heap p)) in *.
  destruct (inv_root _ _ (rf_inv _ _ _ _ _ _ F)) as (rl & rr & Hroot0 & _).
  assert (Hlo0 : 0 < lo) by (apply nth_error_Some_lt in Hroot0; exact Hroot0).
  assert (J0 : J p lo (mkmachine (d_heap p) [] [0] None)).
  { constructor; cbn [m_heap m_stack m_leaves].
    - intros id c Hid Hc. apply nth_error_Some_lt in Hc. fold lo in Hc. lia.
    - intros id c Hid Hc. apply nth_error_Some_lt in Hc. fold lo in Hc. lia.
    - intros id j c _ Hj Hc. apply nth_error_Some_lt in Hc. fold lo in Hc. lia.
    - constructor; [intros []|constructor].
    - intros id [<-|[]]. split; [left; reflexivity|]. exact Hlo0.
    - unfold lo. lia. }
  assert (JF : J p lo (mkmachine (d_heap p') ids [] None)).
  { pose proof (ru_eq _ _ _ _ _ _ _ U) as E. unfold partition in E. destruct (Nat.eqb_spec d 0); [lia|].
    set (m := loop_pow p d (S d) (mkmachine (d_heap p) [] [0] None)) in *.
    destruct (J_loop p root lo d (S d) (mkmachine (d_heap p) [] [0] None)
       (inv_static _ _ (rf_inv _ _ _ _ _ _ F)) (inv_wf _ _ (rf_inv _ _ _ _ _ _ F)) (rf_derived _ _ _ _ _ _ F) J0 eq_refl) as [_ K].
    fold m in K. inversion E as [[E1 E2]]. destruct (m_err m) eqn:Em; [discriminate|].
    destruct (m_stack m) eqn:Es; [|discriminate]. inversion E2.
    cbn [with_tree d_heap]. specialize (K eq_refl). destruct m as [mh ml ms me]; cbn in *. subst. exact K. }
  refine (conj _ (conj _ _)).
  - destruct (inv_root _ _ (rf_inv _ _ _ _ _ _ F')) as (l' & r' & Hr & _). eexists; split; [exact Hr|reflexivity].
  - intros id c Hid Hc.
    destruct (J_link _ _ _ JF id c Hid Hc) as (par & pc & sib & sc & hv & Q1 & Q2 & Q3 & Q4 & Q5 & Q6 & Q7 & Q8 & Q9 & Q10).
    cbn [m_heap] in *.
    assert (Dpc : derived p root (n_node pc)).
    { apply (derived_static p' p); [|eapply (rf_derived _ _ _ _ _ _ F'); exact Q4].
      destruct (ru_static _ _ _ _ _ _ _ U) as (A1 & A2 & A3 & A4 & A5); repeat split; congruence. }
    destruct (split_rows s p root dd sel ns (n_node pc) hv SO NN OO F Dpc Q8 Q9) as (il & ir & Rl & Rr & Pm).
    destruct Q10 as [(X1 & X2 & X3)|(X1 & X2 & X3)].
    + exists par, pc, sib, sc, il, ir. rewrite <- X3 in Rl, Rr. cbn [fst snd] in Rl, Rr.
      assert (Xd : n_depth (n_node c) = S (n_depth (n_node pc))) by (injection X3 as -> _; reflexivity).
      repeat split; auto; try apply Rl; apply Rr.
    + exists par, pc, sib, sc, ir, il. rewrite <- X3 in Rl, Rr. cbn [fst snd] in Rl, Rr.
      assert (Xd : n_depth (n_node c) = S (n_depth (n_node pc))) by (injection X3 as _ ->; reflexivity).
      repeat split; auto; try apply Rl; try apply Rr. rewrite Permutation_app_comm. exact Pm.
  - intro id. split.
    + apply (stored_leaf_ids _ _ _ _ _ _ (ru_stored _ _ _ _ _ _ _ U)).
    + intros [Hid (c & Hc & Hl & Hr)]. destruct Hid as [->|Hid].
      * pose proof (ru_stored _ _ _ _ _ _ _ U) as St. inversion St; subst; [left; reflexivity|].
        rewrite H in Hc. inversion Hc; subst c. discriminate.
      * destruct (J_where _ _ _ JF id c Hid Hc) as [[]|[X|(a & b & X & _)]]; [exact X|congruence].
Qed.

(** ** C15 *)
Lemma contains_app cs c1 c2 cfg : contains cs (c1 ++ c2) cfg =
  (b <- contains cs c1 cfg ;; if (b : bool) then contains cs c2 cfg else Ok false).
Proof.
  induction c1 as [|c c1 IH]; cbn; [reflexivity|].
  destruct (is_satisfied cs c cfg) as [b|e]; cbn; [|reflexivity]. destruct b; [exact IH|reflexivity].
Qed.

Lemma unscale_non_numerical cs h h' v : cs_get cs (hp_name h) = Ok h' -> is_numerical h' = false ->
  unscale_float (N:=N) v cs h = Err AttributeError.
Proof.
  intros Hg Hn. unfold unscale_float. rewrite Hg. cbn. unfold is_numerical in Hn. unfold hp_log.
  destruct (hp_kind h'); try discriminate; reflexivity.
Qed.

Theorem categorical_membership_raises cs pre c suf cfg h :
  contains cs pre cfg = Ok true -> cs_get cs (hp_name (c_hp c)) = Ok h -> is_numerical h = false ->
  contains cs (pre ++ c :: suf) cfg = Err AttributeError.
Proof.
  intros Hp Hg Hn. rewrite contains_app, Hp. cbn. unfold is_satisfied, cond_value.
  rewrite (unscale_non_numerical cs (c_hp c) h _ Hg Hn). reflexivity.
Qed.

(** what get_incumbent_region can do on a tree with any kind of hyperparameter *)
Definition numeric_config cs cfg : Prop :=
  forall h, In h cs -> is_numerical h = true -> exists x, config_get cfg (hp_name h) = Some (VNum x) /\ ordinary x.

Fixpoint find_node cs (nds : list (dnode N)) cfg : res (option (dnode N)) :=
  match nds with
  | [] => Ok None
  | nd :: t => b <- contains cs (n_conds nd) cfg ;; if (b : bool) then Ok (Some nd) else find_node cs t cfg
  end.

Lemma find_node_app cs l1 l2 cfg : find_node cs (l1 ++ l2) cfg =
  (o <- find_node cs l1 cfg ;; match o with Some nd => Ok (Some nd) | None => find_node cs l2 cfg end).
Proof.
  induction l1 as [|nd l1 IH]; cbn; [destruct (find_node cs l2 cfg) as [[?|]|]; reflexivity|].
  destruct (contains cs (n_conds nd) cfg) as [b|e]; cbn; [|reflexivity]. destruct b; [reflexivity|exact IH].
Qed.

Lemma tree_find p k t cfg :
  NoDup (map hp_name (d_cs p)) -> incl (d_possible p) (d_cs p) -> numeric_config (d_cs p) cfg ->
  (forall h v u, In h (d_possible p) -> In v (possible_split_vals (N:=N) (d_nsplits p)) -> unscale_float v (d_cs p) h = Ok u -> ordinary u) ->
  grown p k t ->
  (contains (d_cs p) (n_conds (troot t)) cfg = Ok false -> find_node (d_cs p) (tleaves t) cfg = Ok None) /\
  (contains (d_cs p) (n_conds (troot t)) cfg = Err AttributeError -> find_node (d_cs p) (tleaves t) cfg = Err AttributeError) /\
  (contains (d_cs p) (n_conds (troot t)) cfg = Ok true ->
     (exists nd, find_node (d_cs p) (tleaves t) cfg = Ok (Some nd) /\ In nd (tleaves t) /\ contains (d_cs p) (n_conds nd) cfg = Ok true) \/
     find_node (d_cs p) (tleaves t) cfg = Err AttributeError).
Proof.
  intros ND Hincl Hcfg Hord G. revert k G. induction t as [x|x l IHl r IHr]; intros k G.
  - cbn. split; [|split]; intro H; rewrite H; cbn; auto. left. exists x. auto.
  - assert (R : exists q, k = S q) by (inversion G; eauto). destruct R as [q ->].
    destruct (grown_child p q x l r G) as (h & v & Hh & Hv & Rl & Rr & _ & _ & Gl & Gr & _).
    destruct (IHl q Gl) as (L1 & L2 & L3). destruct (IHr q Gr) as (R1 & R2 & R3).
    rewrite Rl in L1, L2, L3. rewrite Rr in R1, R2, R3. cbn [child n_conds] in *.
    rewrite contains_app in L1, L2, L3, R1, R2, R3. cbn [tleaves troot]. rewrite find_node_app.
    refine (conj _ (conj _ _)); intro H; rewrite H in *; cbn [bind] in *.
    + rewrite (R1 eq_refl). cbn [bind]. apply L1. reflexivity.
    + rewrite (R2 eq_refl). reflexivity.
    + pose proof (Hincl h Hh) as Hin.
      destruct (is_numerical h) eqn:Num.
      * (* numerical split *)
        assert (Hu : exists u, unscale_float v (d_cs p) h = Ok u).
        { unfold unscale_float. destruct (In_nth_error _ _ Hin) as (i & Hi).
          assert (Hg : cs_get (d_cs p) (hp_name h) = Ok h) by (apply cs_get_idx; exists i; split; [apply cs_idx_nodup; assumption|exact Hi]).
          rewrite Hg. cbn. unfold is_numerical in Num. unfold hp_log, hp_lower, hp_upper. destruct (hp_kind h); try discriminate; cbn; eauto. }
        destruct Hu as (u & Hu). pose proof (Hord h v u Hh Hv Hu) as Ou.
        destruct (Hcfg h Hin Num) as (y & Hy & Oy).
        assert (SL : contains (d_cs p) [mkcond h v true] cfg = Ok (nle y u)).
        { cbn. unfold is_satisfied, cond_value. cbn [c_hp c_val c_le]. rewrite Hu. cbn. rewrite Hy. cbn. destruct (nle y u); reflexivity. }
        assert (SR : contains (d_cs p) [mkcond h v false] cfg = Ok (nlt u y)).
        { cbn. unfold is_satisfied, cond_value. cbn [c_hp c_val c_le]. rewrite Hu. cbn. rewrite Hy. cbn. destruct (nlt u y); reflexivity. }
        rewrite SL in L1, L3. rewrite SR in R1, R3. rewrite (ol_le N L y u Oy Ou) in L1, L3.
        destruct (nlt u y); cbn in L1, L3.
        -- destruct (R3 eq_refl) as [(nd & E & I & C)|E]; rewrite E; cbn; [left|auto].
           exists nd. repeat split; auto. apply in_or_app; auto.
        -- rewrite (R1 eq_refl). cbn. destruct (L3 eq_refl) as [(nd & E & I & C)|E]; [left|auto].
           exists nd. repeat split; auto. apply in_or_app; auto.
      * right. assert (SR : contains (d_cs p) [mkcond h v false] cfg = Err AttributeError).
        { cbn. unfold is_satisfied, cond_value. cbn [c_hp c_val]. rewrite (unscale_non_numerical (d_cs p) h h v); auto.
          destruct (In_nth_error _ _ Hin) as (i & Hi). apply cs_get_idx; exists i; split; [apply cs_idx_nodup; assumption|exact Hi]. }
        rewrite SR in R2. rewrite (R2 eq_refl). reflexivity.
Qed.

Lemma find_leaf_node p ids nds cfg : Forall2 (fun id nd => deref p id = Some nd) ids nds ->
  match find_leaf p ids cfg with
  | Err e => find_node (d_cs p) nds cfg = Err e
  | Ok None => find_node (d_cs p) nds cfg = Ok None
  | Ok (Some id) => In id ids /\ exists nd, deref p id = Some nd /\ find_node (d_cs p) nds cfg = Ok (Some nd)
  end.
Proof.
  induction 1 as [|id nd ids nds E F IH]; cbn [find_leaf find_node]; [reflexivity|].
  rewrite E. destruct (contains (d_cs p) (n_conds nd) cfg) as [b|e]; cbn; [|reflexivity].
  destruct b; [split; [left; reflexivity|eauto]|].
  destruct (find_leaf p ids cfg) as [[i|]|e]; auto. destruct IH as [I X]. split; [right; exact I|exact X].
Qed.

Theorem incumbent_region_or_attribute_error s p d cfg :
  setup_ok s -> reaches s p -> 0 < d -> numeric_config (su_cs s) cfg -> unscaled_ordinary s ->
  exists p' ids, partition p d = (p', Ok ids) /\
    ((exists id nd, get_incumbent_region p' cfg = Ok (Some id) /\ In id ids /\ deref p' id = Some nd /\
        contains (su_cs s) (n_conds nd) cfg = Ok true) \/
     get_incumbent_region p' cfg = Err AttributeError).
Proof.
  intros SO R Hd Hcfg HU. destruct (reaches_facts L s p SO R) as (root & dd & sel & ns & F).
  destruct (partition_facts L s p root dd sel ns d F Hd) as (p' & ids & t & U).
  pose proof (reach_facts_partition L _ _ _ _ _ _ _ _ _ F Hd (ru_eq _ _ _ _ _ _ _ U)) as F'.
  exists p', ids. split; [apply U|].
  assert (Hincl : incl (d_possible p) (d_cs p)).
  { intros h Hh. rewrite (rf_poss _ _ _ _ _ _ F) in Hh. apply split_parameters_spec in Hh. rewrite (rf_cs _ _ _ _ _ _ F). tauto. }
  destruct (tree_find p d t cfg) as (_ & _ & T3); auto.
  { rewrite (rf_cs _ _ _ _ _ _ F). apply SO. }
  { rewrite (rf_cs _ _ _ _ _ _ F). exact Hcfg. }
  { intros h v u Hh Hv Hu. rewrite (rf_cs _ _ _ _ _ _ F) in Hu. rewrite (rf_ns _ _ _ _ _ _ F) in Hv.
    eapply HU; eauto. rewrite <- (rf_cs _ _ _ _ _ _ F). apply Hincl; exact Hh. }
  { apply U. }
  rewrite (ru_troot _ _ _ _ _ _ _ U), (inv_conds _ _ (rf_inv _ _ _ _ _ _ F)) in T3.
  specialize (T3 eq_refl).
  unfold get_incumbent_region. rewrite (ru_dleaves _ _ _ _ _ _ _ U).
  assert (Hne : ids <> []).
  { pose proof (tree_leaf_count p d t (ru_grown _ _ _ _ _ _ _ U)).
    pose proof (Forall2_length _ _ _ (ru_leaves _ _ _ _ _ _ _ U)). destruct ids; [cbn in *; lia|discriminate]. }
  replace (match ids with [] => Err AssertionError | _ :: _ => find_leaf p' ids cfg end) with (find_leaf p' ids cfg)
      by (destruct ids; [congruence|reflexivity]).
  pose proof (find_leaf_node p' ids (tleaves t) cfg (ru_leaves _ _ _ _ _ _ _ U)) as K.
  assert (Ecs : d_cs p' = d_cs p) by (rewrite (rf_cs _ _ _ _ _ _ F), (rf_cs _ _ _ _ _ _ F'); reflexivity).
  rewrite Ecs in K.
  destruct T3 as [(nd & E & I & C)|E]; rewrite E in K.
  - left. destruct (find_leaf p' ids cfg) as [[i|]|e]; try discriminate.
    destruct K as (Hi & nd' & Hd' & X). inversion X; subst nd'. exists i, nd. repeat split; auto.
    rewrite <- (rf_cs _ _ _ _ _ _ F). exact C.
  - right. destruct (find_leaf p' ids cfg) as [[i|]|e]; try discriminate.
    + destruct K as (_ & nd' & _ & X). discriminate.
    + inversion K; subst. reflexivity.
Qed.

Theorem categorical_root_split p id ids nd c rest h cfg :
  d_leaves p = id :: ids -> deref p id = Some nd -> n_conds nd = c :: rest ->
  cs_get (d_cs p) (hp_name (c_hp c)) = Ok h -> is_numerical h = false ->
  get_incumbent_region p cfg = Err AttributeError.
Proof.
  intros El Ed Ec Hg Hn. unfold get_incumbent_region. rewrite El. cbn [find_leaf]. rewrite Ed, Ec.
  change (c :: rest) with ([] ++ c :: rest). rewrite (categorical_membership_raises (d_cs p) [] c rest cfg h eq_refl Hg Hn). reflexivity.
Qed.

(** ** C16 *)
Lemma convert_hps cs (sel : list (hp N)) : convert_hyperparameters (SelList (map SHp sel)) cs = Ok sel.
Proof.
  cbn. induction sel as [|h sel IH]; cbn; [reflexivity|]. rewrite IH. reflexivity.
Qed.

Lemma from_ice_root (o : ice N) ns mp nots dt : dt_from_ice o ns mp nots = Ok dt ->
  exists d, ice_calculate (ic_alg o) false (ic_predict o) = Ok d /\
    deref dt 0 = Some (mkdnode 0 (mkregion (i_x d) (i_y d) (i_v d)) []).
Proof.
  unfold dt_from_ice, dt_new, algorithm_new. rewrite convert_hps. cbn [bind].
  intro H. inv_bind H. cbn [a_sel] in *. inv_bind H. inv_bind H. inversion H; subst dt.
  assert (x0 = x0) by reflexivity. destruct (ic_alg o) as [acs asel asm ag] eqn:Ea. cbn in *.
  exists x0. split; [exact E0|].
  unfold region_new in E1. inv_bind E1. inv_bind E1. inversion E1. reflexivity.
Qed.

Definition plain_op (op : ice_op N) : Prop := match op with ORefit _ => False | OCenter b => b = false | _ => True end.

(** caches hold the uncentered results *)
Definition fresh_caches (o : ice N) : Prop :=
  ic_centered o = false /\
  ((ic_x o = None /\ ic_y o = None /\ ic_v o = None) \/
   exists d, ice_calculate (ic_alg o) false (ic_predict o) = Ok d /\ ic_x o = Some (i_x d) /\ ic_y o = Some (i_y d) /\ ic_v o = Some (i_v d)).

Lemma fresh_step o op : plain_op op -> fresh_caches o ->
  fresh_caches (fst (ice_step o op)) /\ ic_alg (fst (ice_step o op)) = ic_alg o /\ ic_predict (fst (ice_step o op)) = ic_predict o.
Proof.
  intros Hop [Hc Hf].
  assert (K : forall A (f : ice N -> option A), 
     fresh_caches (fst (read_field f o)) /\ ic_alg (fst (read_field f o)) = ic_alg o /\ ic_predict (fst (read_field f o)) = ic_predict o).
  { intros A f. unfold read_field. destruct (f o); [split; [exact (conj Hc Hf)|auto]|].
    unfold ice_run. rewrite Hc. destruct (ice_calculate (ic_alg o) false (ic_predict o)) as [d|e] eqn:E; cbn.
    - split; [|auto]. split; [reflexivity|]. right. exists d. cbn. auto.
    - split; [|auto]. split; [exact Hc|]. rewrite E. exact Hf. }
  destruct op; cbn in Hop |- *; try contradiction.
  - specialize (K _ ic_x). unfold read_x. destruct (read_field ic_x o); exact K.
  - specialize (K _ ic_y). unfold read_y. destruct (read_field ic_y o); exact K.
  - specialize (K _ ic_v). unfold read_v. destruct (read_field ic_v o); exact K.
  - split; [|auto]. split; [exact Hc|]. left; auto.
  - subst b. split; [|auto]. split; [reflexivity|]. exact Hf.
Qed.

Lemma fresh_run o ops : Forall plain_op ops -> fresh_caches o ->
  fresh_caches (fst (ice_run_ops o ops)).
Proof.
  intro H. revert o. induction H as [|op ops Hop H IH]; intros o Hf; [exact Hf|]. cbn [ice_run_ops].
  destruct (ice_step o op) as [o1 out] eqn:E1. specialize (IH o1).
  destruct (ice_run_ops o1 ops) as [o2 outs] eqn:E2. cbn in *. apply IH.
  pose proof (fresh_step o op Hop Hf) as [K _]. rewrite E1 in K. exact K.
Qed.

Theorem from_ice_uncentered (a : algorithm N) (pred : predictor N) ops ns mp nots dt :
  Forall plain_op ops ->
  let o := fst (ice_run_ops (ice_new a pred) ops) in
  dt_from_ice o ns mp nots = Ok dt ->
  exists x y v root, snd (read_x o) = Ok x /\ snd (read_y o) = Ok y /\ snd (read_v o) = Ok v /\
    deref dt 0 = Some root /\ n_region root = mkregion x y v.
Proof.
  intros Hops o H. destruct (from_ice_root o ns mp nots dt H) as (d & Hd & Hr).
  assert (Hf : fresh_caches o).
  { apply fresh_run; [exact Hops|]. split; [reflexivity|]. left; auto. }
  destruct Hf as [Hc Hf].
  exists (i_x d), (i_y d), (i_v d), (mkdnode 0 (mkregion (i_x d) (i_y d) (i_v d)) []).
  refine (conj _ (conj _ (conj _ (conj Hr eq_refl)))); unfold read_x, read_y, read_v, read_field, ice_run; rewrite Hc, Hd; cbn.
  - destruct Hf as [(-> & _ & _)|(d' & E & -> & _ & _)]; cbn; congruence.
  - destruct Hf as [(_ & -> & _)|(d' & E & _ & -> & _)]; cbn; congruence.
  - destruct Hf as [(_ & _ & ->)|(d' & E & _ & _ & ->)]; cbn; congruence.
Qed.

End P.
