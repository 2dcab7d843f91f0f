(** PartitionLinks.v - the conditions along the links of a tree (C13) and roots split on a hyperparameter that is not numerical (C15). *)
From Verif Require Import Base Num NumpyModel ConfigSpaceModel UtilsModel IceModel PartitionModel PartitionSpec
  ListLemmas IceProofs PartitionProofs PartitionProofs2 PartitionProofs3 PartitionProofs4 PartitionProofs5.

Section P.
Context {N : Num}.
Variable L : order_laws N.
Implicit Types (p : dtp N) (nd : dnode N) (cs : cspace N) (cfg : config N) (s : setup N).

Lemma partition_links s p root dd sel ns d p' ids t : reach_facts s p root dd sel ns -> 0 < d -> run_facts s p d p' ids t root ->
  J p (length (d_heap p)) (mkmachine (d_heap p') ids [] None).
Proof.
  intros F Hd U. set (lo := length (d_heap p)) in *.
  destruct (inv_root _ _ (rf_inv _ _ _ _ _ _ F)) as (rl & rr & Hroot0 & _).
  assert (Hlo0 : 0 < lo) by (apply nth_error_Some_lt in Hroot0; exact Hroot0).
  assert (J0 : J p lo (mkmachine (d_heap p) [] [0] None)).
  { constructor; cbn [m_heap m_stack m_leaves].
    - intros id c Hid Hc. apply nth_error_Some_lt in Hc. fold lo in Hc. lia.
    - intros id c Hid Hc. apply nth_error_Some_lt in Hc. fold lo in Hc. lia.
    - intros id j c _ Hj Hc. apply nth_error_Some_lt in Hc. fold lo in Hc. lia.
    - constructor; [intros []|constructor].
    - intros id [<-|[]]. split; [left; reflexivity|]. exact Hlo0.
    - unfold lo. lia. }
  pose proof (ru_eq _ _ _ _ _ _ _ U) as E. unfold partition in E. destruct (Nat.eqb_spec d 0); [lia|].
  set (m := loop_pow p d (S d) (mkmachine (d_heap p) [] [0] None)) in *.
  destruct (J_loop L p root lo d (S d) (mkmachine (d_heap p) [] [0] None)
     (inv_static _ _ (rf_inv _ _ _ _ _ _ F)) (inv_wf _ _ (rf_inv _ _ _ _ _ _ F)) (rf_derived _ _ _ _ _ _ F) J0 eq_refl) as [_ K].
  fold m in K. inversion E as [[E1 E2]]. destruct (m_err m) eqn:Em; [discriminate|].
  destruct (m_stack m) eqn:Es; [|discriminate]. inversion E2.
  cbn [with_tree d_heap]. specialize (K eq_refl). destruct m as [mh ml ms me]; cbn in *. subst. exact K.
Qed.

(** C13: a region has the conditions of its parent and one more, its sibling the opposite one *)
Theorem link_conditions s p d : setup_ok s -> reaches s p -> 0 < d ->
  exists p' ids, partition p d = (p', Ok ids) /\
    (exists c0, nth_error (d_heap p') 0 = Some c0 /\ n_conds (n_node c0) = []) /\
    (forall id c, length (d_heap p) <= id -> nth_error (d_heap p') id = Some c ->
       exists par pc sib sc h v,
         n_parent c = Some par /\ nth_error (d_heap p') par = Some pc /\ nth_error (d_heap p') sib = Some sc /\
         ((n_left pc = Some id /\ n_right pc = Some sib /\ n_conds (n_node c) = n_conds (n_node pc) ++ [mkcond h v true] /\ n_conds (n_node sc) = n_conds (n_node pc) ++ [mkcond h v false]) \/
          (n_left pc = Some sib /\ n_right pc = Some id /\ n_conds (n_node c) = n_conds (n_node pc) ++ [mkcond h v false] /\ n_conds (n_node sc) = n_conds (n_node pc) ++ [mkcond h v true]))).
Proof.
  intros SO R Hd. destruct (reaches_facts L s p SO R) as (root & dd & sel & ns & F).
  destruct (partition_facts L s p root dd sel ns d F Hd) as (p' & ids & t & U).
  pose proof (reach_facts_partition L _ _ _ _ _ _ _ _ _ F Hd (ru_eq _ _ _ _ _ _ _ U)) as F'.
  pose proof (partition_links s p root dd sel ns d p' ids t F Hd U) as JF.
  exists p', ids. split; [apply U|]. split.
  - destruct (inv_root _ _ (rf_inv _ _ _ _ _ _ F')) as (l' & r' & Hr & _). eexists; split; [exact Hr|]. cbn. rewrite (rf_root _ _ _ _ _ _ F'). reflexivity.
  - intros id c Hid Hc. destruct (J_link _ _ _ JF id c Hid Hc) as (par & pc & sib & sc & hv & Q1 & Q2 & Q3 & Q4 & Q5 & Q6 & Q7 & Q8 & Q9 & Q10).
    cbn [m_heap] in *. exists par, pc, sib, sc, (fst hv), (snd hv). refine (conj Q1 (conj Q4 (conj Q5 _))).
    destruct Q10 as [(X1 & X2 & X3)|(X1 & X2 & X3)]; injection X3 as E1 E2; rewrite E1, E2; [left|right]; auto.
Qed.

Lemma tleaves_some (t : tree (N:=N)) : tleaves t <> [].
Proof. induction t as [|? ? ? ? IHr]; cbn; [discriminate|]. intro X. apply app_eq_nil in X. tauto. Qed.

(** C15: the root is split on a hyperparameter that is not numerical *)
Theorem root_split_raises s p d : setup_ok s -> reaches s p -> 0 < d ->
  exists p' ids, partition p d = (p', Ok ids) /\
    forall c0 a nd c h cfg, nth_error (d_heap p') 0 = Some c0 -> n_left c0 = Some a -> deref p' a = Some nd -> n_conds nd = [c] ->
      cs_get (su_cs s) (hp_name (c_hp c)) = Ok h -> is_numerical h = false -> get_incumbent_region p' cfg = Err AttributeError.
Proof.
  intros SO R Hd. destruct (reaches_facts L s p SO R) as (root & dd & sel & ns & F).
  destruct (partition_facts L s p root dd sel ns d F Hd) as (p' & ids & t & U).
  pose proof (reach_facts_partition L _ _ _ _ _ _ _ _ _ F Hd (ru_eq _ _ _ _ _ _ _ U)) as F'.
  pose proof (partition_links s p root dd sel ns d p' ids t F Hd U) as JF.
  exists p', ids. split; [apply U|]. intros c0 a nd c h cfg H0 Ha Hnd Hcs Hg Hn.
  destruct (inv_root _ _ (rf_inv _ _ _ _ _ _ F')) as (l' & r' & Hr & _). rewrite H0 in Hr. inversion Hr as [E0].
  assert (R0 : n_conds (n_node c0) = []) by (rewrite E0; cbn; rewrite (rf_root _ _ _ _ _ _ F'); reflexivity). clear Hr.
  assert (K : forall id k, id < k -> length (d_heap p) <= id -> forall ci, nth_error (d_heap p') id = Some ci ->
            exists c1 rest, n_conds (n_node ci) = c1 :: rest /\ hp_name (c_hp c1) = hp_name (c_hp c)).
  { intros id k. revert id. induction k as [|k IH]; intros id Hk Hid ci Hci; [lia|].
    destruct (J_link _ _ _ JF id ci Hid Hci) as (par & pc & sib & sc & hv & Q1 & Q2 & Q3 & Q4 & Q5 & Q6 & Q7 & Q8 & Q9 & Q10). cbn [m_heap] in *.
    destruct Q2 as [->|Q2].
    - assert (pc = c0) by congruence. subst pc. unfold deref in Hnd.
      destruct Q10 as [(X1 & X2 & X3)|(X1 & X2 & X3)]; assert (Ea : a = match n_left c0 with Some x => x | None => 0 end) by (rewrite Ha; reflexivity); rewrite X1 in Ea; subst a.
      + rewrite Hci in Hnd. cbn in Hnd. inversion Hnd as [En]. rewrite <- En in Hcs. rewrite Hcs. exists c, []. auto.
      + rewrite Q5 in Hnd. cbn in Hnd. inversion Hnd as [En]. injection X3 as E1 E2. rewrite E2. cbn [child n_conds]. rewrite R0.
        assert (Es : n_conds (n_node sc) = [] ++ [mkcond (fst hv) (snd hv) true]) by (rewrite E1; cbn [child n_conds]; rewrite R0; reflexivity).
        rewrite En, Hcs in Es. cbn in Es. inversion Es as [Ec]. eexists _, []. split; reflexivity.
    - destruct (IH par ltac:(lia) Q2 pc Q4) as (c1 & rest & E1 & E2).
      destruct Q10 as [(X1 & X2 & X3)|(X1 & X2 & X3)]; injection X3 as Y1 Y2; [rewrite Y1|rewrite Y2]; cbn [child n_conds]; rewrite E1; eexists c1, _; split; try reflexivity; exact E2. }
  assert (Hl : d_leaves p' = ids) by apply U.
  assert (Ne : ids <> []).
  { pose proof (ru_leaves _ _ _ _ _ _ _ U) as Fl. intro En. rewrite En in Fl. symmetry in En. inversion Fl as [Ea Et|]. exact (tleaves_some t (eq_sym Et)). }
  destruct ids as [|i0 ids']; [contradiction|].
  pose proof (ru_leaves _ _ _ _ _ _ _ U) as Fl. inversion Fl as [|? nl ? rest' Hd0 _]; subst.
  destruct (stored_leaf_ids _ _ _ _ _ _ (ru_stored _ _ _ _ _ _ _ U) i0 (or_introl eq_refl)) as (Hi0 & ci & Hci & L1 & L2).
  destruct Hi0 as [->|Hi0].
  - exfalso. rewrite H0 in Hci. inversion Hci; subst ci. congruence.
  - destruct (K i0 (S i0) ltac:(lia) Hi0 ci Hci) as (c1 & rest & E1 & E2).
    assert (Enl : deref p' i0 = Some (n_node ci)) by (unfold deref; rewrite Hci; reflexivity).
    apply (categorical_root_split p' i0 ids' (n_node ci) c1 rest h cfg Hl Enl E1); [|exact Hn].
    rewrite E2, (rf_cs _ _ _ _ _ _ F'). exact Hg.
Qed.
End P.
