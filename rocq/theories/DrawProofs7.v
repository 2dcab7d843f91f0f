(** DrawProofs7.v - the boxes of incumbent regions (C78, C79). *)
From Coq Require Import Reals Lra Permutation Sorted.
From Verif Require Import Base Num NumLaws NumpyModel ListLemmas ConfigSpaceModel UtilsModel UtilsProofs UtilsProofs2 RealProofs RealSums IceModel IceProofs IceProofs2 IceReal PartitionModel PartitionSpec
  PartitionProofs2 PartitionProofs3 PartitionProofs4 PartitionProofs5 PartitionReal PartitionReal2 ForestModel ForestSpec ForestProofs ForestProofs2 SamplerModel SamplerSpec SamplerProofs2 PlottingModel PlottingSpec PlottingProofs
  DrawModel DrawSpec DrawProofs DrawProofs2 DrawProofs3 DrawProofs4 DrawProofs5 DrawProofs6.
Local Open Scope R_scope.
Local Open Scope list_scope.

Section Sort.
Context {N : Num}.
(** the hyperparameters by name, with the insertion sort of [sort_boxes] *)
Fixpoint insert_hp (b : hp N) (l : list (hp N)) : list (hp N) :=
  match l with [] => [b] | c :: t => if String.ltb (hp_name c) (hp_name b) then c :: insert_hp b t else b :: l end.
Definition sort_hps (l : list (hp N)) : list (hp N) := fold_right insert_hp [] l.
Lemma insert_perm b l : Permutation (insert_hp b l) (b :: l).
Proof. induction l as [|c l IH]; cbn; [reflexivity|]. destruct (String.ltb _ _); [|reflexivity]. etransitivity; [apply perm_skip, IH|apply perm_swap]. Qed.
Lemma sort_perm l : Permutation (sort_hps l) l.
Proof. induction l as [|b l IH]; cbn; [reflexivity|]. etransitivity; [apply insert_perm|]. apply perm_skip, IH. Qed.
Lemma ltb_total a b : a <> b -> String.ltb a b = false -> String.ltb b a = true.
Proof.
  unfold String.ltb. rewrite (String.compare_antisym b a). intros Ne. destruct (String.compare a b) eqn:E; cbn; try discriminate; [|reflexivity].
  apply String.compare_eq_iff in E. congruence.
Qed.
Let lt_name := fun a b : hp N => String.ltb (hp_name a) (hp_name b) = true.
Lemma insert_sorted b l : ~ In (hp_name b) (map hp_name l) -> Sorted lt_name l -> Sorted lt_name (insert_hp b l).
Proof.
  intros Hn H. induction H as [|c l H IH Hd]; cbn; [repeat constructor|].
  destruct (String.ltb (hp_name c) (hp_name b)) eqn:E.
  - constructor; [apply IH; intro; apply Hn; right; assumption|]. destruct l as [|d l]; cbn; [constructor; exact E|].
    inversion Hd; subst. destruct (String.ltb (hp_name d) (hp_name b)); constructor; assumption.
  - constructor; [constructor; assumption|]. constructor. apply ltb_total; [|exact E]. intro Q. apply Hn. left. exact Q.
Qed.
Lemma sort_sorted l : NoDup (map hp_name l) -> Sorted lt_name (sort_hps l).
Proof.
  induction l as [|b l IH]; cbn; intro ND; [constructor|]. inversion ND as [|? ? Hn ND']; subst. apply insert_sorted; [|apply IH, ND'].
  intro Hi. apply Hn. apply (Permutation_in _ (Permutation_map hp_name (sort_perm l))), Hi.
Qed.
Lemma insert_match (P : hp N -> fbox N -> Prop) h b l l' : (forall h b, P h b -> b_name b = hp_name h) -> P h b -> Forall2 P l l' -> Forall2 P (insert_hp h l) (insert_box b l').
Proof.
  intros Hp Hb F. induction F as [|c d l l' Hc F IH]; cbn; [repeat constructor; assumption|].
  rewrite (Hp _ _ Hc), (Hp _ _ Hb). destruct (String.ltb _ _); repeat constructor; assumption.
Qed.
Lemma sort_match (P : hp N -> fbox N -> Prop) l l' : (forall h b, P h b -> b_name b = hp_name h) -> Forall2 P l l' -> Forall2 P (sort_hps l) (sort_boxes l').
Proof. intros Hp F. induction F as [|c d l l' Hc F IH]; cbn; [constructor|]. apply insert_match; assumption. Qed.
Lemma filter_match {A B} (P : A -> B -> Prop) f g l l' : (forall a b, P a b -> In a l -> f a = g b) -> Forall2 P l l' -> Forall2 P (filter f l) (filter g l').
Proof.
  intros H F. induction F as [|a b l l' Hc F IH]; cbn; [constructor|]. rewrite (H a b Hc (or_introl eq_refl)).
  assert (IH' : Forall2 P (filter f l) (filter g l')) by (apply IH; intros x y Q Hi; apply H; [exact Q|right; exact Hi]).
  destruct (g b); [constructor; assumption|exact IH'].
Qed.

(** the hyperparameters that plot_incumbent_cs shows *)
Definition recog (std : hp N -> bool) (h : hp N) : bool := match hp_kind h with KFloat _ _ _ => std h | _ => false end.
Lemma recog_spec std h : recog std h = true <-> recognised std h.
Proof.
  unfold recog, recognised. destruct (hp_kind h); split; try discriminate; try (intros (_ & lo & up & lg & E); discriminate); try tauto.
  intro E. split; [exact E|eauto].
Qed.
Definition kept (std : hp N -> bool) (sel : list (hp N)) (h : hp N) : bool := negb (existsb (fun k => String.eqb (hp_name k) (hp_name h) && recog std k) sel).
Definition shown_list std sel cs := sort_hps (filter (kept std sel) cs).
Lemma nodup_filter_names f (l : list (hp N)) : NoDup (map hp_name l) -> NoDup (map hp_name (filter f l)).
Proof.
  induction l as [|h l IH]; cbn; [auto|]. inversion 1 as [|? ? Hn ND]; subst. destruct (f h); cbn; [|auto]. constructor; [|auto].
  intro Hi. apply Hn. apply in_map_iff in Hi. destruct Hi as (k & E & Hk). apply filter_In in Hk. rewrite <- E. apply in_map, Hk.
Qed.
Lemma shown_list_spec std sel cs : NoDup (map hp_name cs) -> Forall (fun h => In h cs) sel -> shown std sel cs (shown_list std sel cs).
Proof.
  intros ND Hs. pose proof (sort_perm (filter (kept std sel) cs)) as P. pose proof (nodup_filter_names (kept std sel) cs ND) as NDf.
  refine (conj _ (conj _ _)).
  - apply (Permutation_NoDup (Permutation_sym P)). apply (NoDup_map_inv hp_name), NDf.
  - intro h. assert (In h (shown_list std sel cs) <-> In h (filter (kept std sel) cs)) as -> by (split; apply Permutation_in; [exact P|apply Permutation_sym, P]).
    rewrite filter_In. unfold kept. rewrite negb_true_iff. split.
    + intros [Hi E]. split; [exact Hi|]. intros [Hh R]. apply not_true_iff_false in E. apply E. apply existsb_exists. exists h.
      split; [exact Hh|]. rewrite String.eqb_refl. apply recog_spec, R.
    + intros [Hi E]. split; [exact Hi|]. apply not_true_iff_false. intro Q. apply E. apply existsb_exists in Q. destruct Q as (k & Hk & Q).
      apply andb_true_iff in Q. destruct Q as [Q1 Q2]. apply String.eqb_eq in Q1. rewrite Forall_forall in Hs.
      assert (k = h) as <- by (apply (nodup_name_inj cs); auto). split; [exact Hk|]. apply recog_spec, Q2.
  - apply sort_sorted, NDf.
Qed.
End Sort.

(** check_and_set_axis without bounds looks at names only *)
Lemma axis_names (ax : axis RNum) (hs hs' : list (hp RNum)) yl : map hp_name hs = map hp_name hs' -> check_and_set_axis ax hs false yl = check_and_set_axis ax hs' false yl.
Proof.
  destruct hs as [|a [|b [|c t]]], hs' as [|a' [|b' [|c' t']]]; cbn [map]; try discriminate; try reflexivity.
  - intros [= E]. cbn. rewrite E. reflexivity.
  - intros [= E1 E2]. cbn. rewrite E1, E2. reflexivity.
Qed.
Lemma plots_names {Col} (m : D (N:=RNum) (Col:=Col) unit) hs hs' yl l : map hp_name hs = map hp_name hs' -> plots m hs false yl l -> plots m hs' false yl l.
Proof. intros E H c. rewrite <- (axis_names (cv_axis c) hs hs' yl E). apply H. Qed.

Section Tree.
Context {Col : Type} (std : hp RNum -> bool).
Lemma implied_selected cs conds sel (boxes : list (fbox RNum)) : NoDup (map hp_name cs) -> numeric_space cs -> Forall (fun h => In h cs) sel ->
  Forall (fun c : cond RNum => ~ In (hp_name (c_hp c)) (map hp_name sel)) conds -> Forall2 (boxinv conds) cs boxes ->
  Forall2 (fun h b => In b boxes /\ b_name b = hp_name h) (shown_list std sel cs) (sort_boxes (filter (fun b => negb (existsb (fun h => same_hp std h b) sel)) boxes)).
Proof.
  intros ND NS Hs Hc F.
  assert (Q : forall h b, b_name b = hp_name h -> boxinv conds h b -> In h cs -> kept std sel h = negb (existsb (fun k => same_hp (N:=RNum) std k b) sel)).
  { intros h b En B Hi. unfold kept. f_equal. clear F. revert Hs Hc. 
    assert (G : forall l, incl l sel -> Forall (fun k => In k cs) sel -> Forall (fun c : cond RNum => ~ In (hp_name (c_hp c)) (map hp_name sel)) conds ->
      existsb (fun k => String.eqb (hp_name k) (hp_name h) && recog std k) l = existsb (fun k => same_hp (N:=RNum) std k b) l).
    { intros l Hl Hs Hc. induction l as [|k l IH]; [reflexivity|]. cbn [existsb]. rewrite IH by (intros x Hx; apply Hl; right; exact Hx). f_equal.
      unfold recog, same_hp. destruct (hp_kind k) as [lo up lg| | | |] eqn:Ek; try apply andb_false_r. rewrite En.
      destruct (String.eqb (hp_name k) (hp_name h)) eqn:E; [|reflexivity]. apply String.eqb_eq in E.
      assert (Hk : In k sel) by (apply Hl; left; reflexivity). rewrite Forall_forall in Hs, Hc.
      assert (k = h) by (apply (nodup_name_inj cs); auto). subst k.
      pose proof (proj1 (Forall_forall _ _) NS h Hi) as (lo' & up' & lg' & Hp & Gd). 
      destruct Hp as [Ek'|(l1 & u1 & Ek' & _)]; rewrite Ek in Ek'; [|discriminate]. injection Ek' as -> -> ->.
      destruct (bi _ _ _ B lo' up' lg' (or_introl Ek) Gd) as (E1 & _ & _ & E2 & E3 & _).
      assert (NA : forall c, In c conds -> ~ about h c) by (intros c Hcc Ha; apply (Hc c Hcc); unfold about in Ha; rewrite Ha; apply in_map, Hk).
      destruct E2 as [E2|(c & Hcc & Ha & _)]; [|destruct (NA c Hcc Ha)]. destruct E3 as [E3|(c & Hcc & Ha & _)]; [|destruct (NA c Hcc Ha)].
      rewrite E1, E2, E3. cbn. destruct (Reqb_spec lo' lo'); [|congruence]. destruct (Reqb_spec up' up'); [|congruence]. rewrite Bool.eqb_reflx. reflexivity. }
    intros Hs Hc. apply G; [apply incl_refl|exact Hs|exact Hc]. }
  assert (F' : Forall2 (fun h b => (In b boxes /\ b_name b = hp_name h) /\ boxinv conds h b) cs boxes).
  { assert (G : forall l l', Forall2 (boxinv conds) l l' -> incl l' boxes -> Forall2 (fun h b => (In b boxes /\ b_name b = hp_name h) /\ boxinv conds h b) l l').
    { induction 1 as [|h b l l' B _ IH]; intro I; constructor; [|apply IH; intros x Hx; apply I; right; exact Hx].
      refine (conj (conj (I b (or_introl eq_refl)) (bi_name _ _ _ B)) B). }
    apply G; [exact F|apply incl_refl]. }
  unfold shown_list. eapply Forall2_impl'; [|apply (sort_match (fun h b => (In b boxes /\ b_name b = hp_name h) /\ boxinv conds h b))].
  - intros a b (X & _). exact X.
  - intros h b ((_ & X) & _). exact X.
  - apply filter_match; [|exact F']. intros a b ((_ & En) & B) Hi. apply Q; assumption.
Qed.

Lemma hp_of_names (l : list (fbox RNum)) (hs : list (hp RNum)) boxes : sides boxes hs l -> map hp_name (map hp_of_box l) = map hp_name hs.
Proof. induction 1 as [|h b hs l (_ & E) F IH]; cbn; [reflexivity|]. rewrite IH, E. reflexivity. Qed.

Lemma box_draws (color : Col) (alpha : R) cs (l : list (fbox RNum)) hs boxes : sides boxes hs l -> 0 <= alpha <= 1 -> length hs = 1%nat \/ length hs = 2%nat ->
  plots (plot_config_space (N:=RNum) color cs (SelList (map (fun b => SHp (hp_of_box b)) l)) alpha) hs false "Prediction" (colored color (box_picture (N:=RNum) alpha l)).
Proof.
  intros F Ha H. apply (plots_names _ (map hp_of_box l)); [exact (hp_of_names l hs boxes F)|].
  assert (G : get_hyperparameters (SelList (map (fun b => SHp (hp_of_box b)) l)) cs = Ok (map (hp_of_box (N:=RNum)) l)) by (rewrite <- (map_map hp_of_box SHp); apply get_hps).
  pose proof (Forall2_length _ _ _ F) as Len.
  destruct l as [|b [|c [|e l]]]; cbn [length] in Len; try lia.
  - exact (box1_R color cs _ alpha (hp_of_box b) (b_lower b) (b_upper b) G eq_refl eq_refl Ha).
  - destruct (box2_R color cs _ alpha (hp_of_box b) (hp_of_box c) (b_lower b) (b_upper b) (b_lower c) (b_upper c) G eq_refl eq_refl Ha) as (a & A & _ & P).
    rewrite (A (conj I I)) in P. exact P.
Qed.
Lemma box_fails (color : Col) (alpha : R) cs (l : list (fbox RNum)) : length l <> 1%nat -> length l <> 2%nat -> forall c,
  plot_config_space (N:=RNum) color cs (SelList (map (fun b => SHp (hp_of_box b)) l)) alpha c = (c, Err NotImplementedError).
Proof.
  intros H1 H2. apply (box_other color cs _ alpha (map hp_of_box l)); [rewrite <- (map_map hp_of_box SHp); apply get_hps| |]; rewrite map_length; assumption.
Qed.

Lemma incumbent_sides (s : setup RNum) p sel cfg id :
  setup_ok s -> numeric_space (su_cs s) -> reaches s p -> convert_hyperparameters (su_sel s) (su_cs s) = Ok sel -> Forall (fun h => In h (su_cs s)) sel ->
  get_incumbent_region p cfg = Ok (Some id) -> let hs := shown_list std sel (su_cs s) in
  exists l, incumbent_box (su_cs s) p cfg hs l /\ (legal_config (su_cs s) cfg -> Forall (within cfg) l) /\
    forall (color : Col) alpha c, plot_incumbent_cs (N:=RNum) std color alpha p cfg c = plot_config_space color (map hp_of_box (match implied_config_space (su_cs s) (match deref p id with Some nd => n_conds nd | None => [] end) with Ok b => b | Err _ => [] end)) (SelList (map (fun b => SHp (hp_of_box b)) l)) alpha c.
Proof.
  intros SO NS R C Hs G hs. destruct (reaches_facts R_order_laws s p SO R) as (root & dd & sel' & ns & RF).
  assert (sel' = sel) by (pose proof (rf_sel _ _ _ _ _ _ RF) as Q; rewrite C in Q; injection Q as <-; reflexivity). subst sel'.
  assert (Gd : exists nd, deref p id = Some nd /\ contains (su_cs s) (n_conds nd) cfg = Ok true).
  { pose proof G as G'. unfold get_incumbent_region in G'. destruct (d_leaves p); [discriminate|]. apply find_leaf_contains in G'. rewrite (rf_cs _ _ _ _ _ _ RF) in G'. exact G'. }
  destruct Gd as (nd & Hd & Ct).
  pose proof (leaf_conds_in_cs s p root dd sel ns nd RF (deref_derived s p root dd sel ns id nd RF Hd)) as HC.
  assert (HC' : Forall (fun c => In (c_hp c) (su_cs s) /\ 0 < c_val c < 1) (n_conds nd)).
  { eapply Forall_impl; [|exact HC]. cbn. intros c (A & _ & _ & B). split; [exact A|]. apply (split_vals_open _ _ B). }
  pose proof (proj1 SO) as ND. destruct (implied_inv (su_cs s) (n_conds nd) ND NS HC') as (boxes & E & F).
  pose proof (implied_selected (su_cs s) (n_conds nd) sel boxes ND NS Hs ltac:(eapply Forall_impl; [|exact HC]; cbn; intros c (_ & A & _); exact A) F) as S.
  set (l := sort_boxes (filter (fun b => negb (existsb (fun h => same_hp std h b) sel)) boxes)) in *.
  exists l. refine (conj _ (conj _ _)).
  - exists id, nd, boxes. refine (conj G (conj Hd (conj E S))).
  - intro LC. destruct (implied_space_describes_region s p SO NS R id nd Hd) as (boxes' & E' & _ & _ & Sem). rewrite E in E'. injection E' as <-.
    destruct (Sem cfg) as (b & Cb & Iff).
    { intros h lo up lg Hi Hp. apply LC; [exact Hi|]. unfold extent. destruct Hp as [K|(l1 & u1 & K & -> & ->)]; rewrite K; reflexivity. }
    rewrite Ct in Cb. injection Cb as <-. pose proof (proj1 Iff eq_refl) as In_. clear Iff Sem.
    apply Forall_forall. intros b Hb. 
    assert (Hbb : In b boxes).
    { clear -S Hb. induction S as [|h x hs' l' (X & _) S IH]; [destruct Hb|]. destruct Hb as [<-|Hb]; [exact X|apply IH, Hb]. }
    destruct (In_nth_error _ _ Hbb) as (j & Ej). 
    destruct (nth_error (su_cs s) j) as [h|] eqn:Eh; [|apply nth_error_None in Eh; pose proof (nth_error_Some boxes j) as Z; rewrite Ej, <- (Forall2_length _ _ _ F) in Z; exfalso; apply (Nat.lt_irrefl (length (su_cs s))); eapply Nat.le_lt_trans; [exact Eh|apply Z; discriminate]].
    assert (Hi : In h (su_cs s)) by (apply (nth_error_In _ _ Eh)).
    pose proof (proj1 (Forall_forall _ _) NS h Hi) as (lo & up & lg & Hp & Gb).
    destruct (LC h lo up Hi) as (x & Ex & Hx).
    { unfold extent. destruct Hp as [K|(l1 & u1 & K & -> & ->)]; rewrite K; reflexivity. }
    assert (B : boxinv (n_conds nd) h b).
    { clear -F Eh Ej. revert j Eh Ej. induction F as [|a c la lb B F IH]; intros [|j] E1 E2; try discriminate; [injection E1 as <-; injection E2 as <-; exact B|exact (IH j E1 E2)]. }
    destruct (In_ j h b lo up lg x Eh Ej Hp Ex) as (I1 & I2). exists x. split; [rewrite (bi_name _ _ _ B); exact Ex|].
    split; [destruct I2 as [I2|[I2 I3]]; lra|exact I1].
  - intros color alpha c. unfold plot_incumbent_cs, bindD, lift. rewrite G, Hd, (rf_cs _ _ _ _ _ _ RF), E, (reaches_sel R_order_laws s p sel SO R C). reflexivity.
Qed.

Theorem incumbent_cs_draws (s : setup RNum) p sel cfg id :
  setup_ok s -> numeric_space (su_cs s) -> reaches s p -> convert_hyperparameters (su_sel s) (su_cs s) = Ok sel -> Forall (fun h => In h (su_cs s)) sel ->
  get_incumbent_region p cfg = Ok (Some id) ->
  exists nd boxes hs l, deref p id = Some nd /\ implied_config_space (su_cs s) (n_conds nd) = Ok boxes /\ shown std sel (su_cs s) hs /\ sides boxes hs l /\
    (legal_config (su_cs s) cfg -> Forall (within cfg) l) /\
    (forall (color : Col) alpha, 0 <= alpha <= 1 -> length hs = 1%nat \/ length hs = 2%nat ->
       plots (plot_incumbent_cs (N:=RNum) std color alpha p cfg) hs false "Prediction" (colored color (box_picture (N:=RNum) alpha l))) /\
    (forall (color : Col) alpha c, length hs <> 1%nat -> length hs <> 2%nat -> plot_incumbent_cs (N:=RNum) std color alpha p cfg c = (c, Err NotImplementedError)).
Proof.
  intros SO NS R C Hs G. destruct (incumbent_sides s p sel cfg id SO NS R C Hs G) as (l & (id' & nd & boxes & G' & Hd & E & S) & W & P).
  rewrite G in G'. injection G' as <-. exists nd, boxes, (shown_list std sel (su_cs s)), l.
  refine (conj Hd (conj E (conj (shown_list_spec std sel _ (proj1 SO) Hs) (conj S (conj W (conj _ _)))))).
  - intros color alpha Ha Hl c. rewrite P. exact (box_draws color alpha _ l _ boxes S Ha Hl c).
  - intros color alpha c H1 H2. rewrite P. apply box_fails; rewrite <- (Forall2_length _ _ _ S); assumption.
Qed.
End Tree.

Section More.
Context {Col : Type} (std : hp RNum -> bool).
Lemma incumbent_cs_errors (color : Col) alpha (p : dtp RNum) cfg c :
  (forall e, get_incumbent_region p cfg = Err e -> plot_incumbent_cs (N:=RNum) std color alpha p cfg c = (c, Err e)) /\
  (get_incumbent_region p cfg = Ok None -> plot_incumbent_cs (N:=RNum) std color alpha p cfg c = (c, Err AttributeError)).
Proof. split; [intros e E|intro E]; unfold plot_incumbent_cs, bindD, lift; rewrite E; reflexivity. Qed.

(** a selected integer hyperparameter is shown *)
Lemma integer_shown (s : setup RNum) p cfg id h g lo up lg :
  setup_ok s -> numeric_space (su_cs s) -> reaches s p -> su_cs s = [h; g] -> convert_hyperparameters (su_sel s) (su_cs s) = Ok [h] -> hp_kind h = KInt lo up lg ->
  get_incumbent_region p cfg = Ok (Some id) ->
  exists hs x1 x2 y1 y2, In h hs /\ forall (color : Col) (alpha : R), 0 <= alpha <= 1 ->
    plots (plot_incumbent_cs (N:=RNum) std color alpha p cfg) hs false "Prediction" [(color, CRect (N:=RNum) x1 x2 y1 y2 alpha)].
Proof.
  intros SO NS R Ecs C K G.
  destruct (incumbent_cs_draws (Col:=Col) std s p [h] cfg id SO NS R C) as (nd & boxes & hs & l & Hd & E & Sh & Sd & _ & P & _); [rewrite Ecs; repeat constructor; left; reflexivity|exact G|].
  destruct Sh as (ND & Iff & _). rewrite Ecs in Iff.
  assert (Hh : In h hs) by (apply Iff; split; [left; reflexivity|]; intros [_ (_ & l1 & u1 & g1 & Q)]; rewrite K in Q; discriminate).
  assert (Ng : h <> g) by (intros ->; pose proof (proj1 SO) as Q; rewrite Ecs in Q; inversion Q as [|? ? Hn _]; subst; apply Hn; left; reflexivity).
  assert (Hg : In g hs) by (apply Iff; split; [right; left; reflexivity|]; intros [[->|[]] _]; apply Ng; reflexivity).
  assert (L2 : length hs = 2%nat).
  { apply Nat.le_antisymm.
    - change 2%nat with (length [h; g]). apply NoDup_incl_length; [exact ND|]. intros x Hx. apply Iff in Hx. apply Hx.
    - change 2%nat with (length [h; g]). apply NoDup_incl_length; [repeat constructor; [intros [Q|[]]; congruence|intros []]|]. intros x [<-|[<-|[]]]; assumption. }
  pose proof (Forall2_length _ _ _ Sd) as Ll. destruct l as [|b [|c [|e l]]]; cbn [length] in Ll; try lia.
  exists hs, (b_lower b), (b_upper b), (b_lower c), (b_upper c). split; [exact Hh|]. intros color alpha Ha. exact (P color alpha Ha (or_intror L2)).
Qed.

Lemma legal_total cs cfg : numeric_space cs -> legal_config cs cfg -> total_config cs cfg.
Proof.
  intros NS LC h Hi. pose proof (proj1 (Forall_forall _ _) NS h Hi) as (lo & up & lg & Hp & _).
  destruct (LC h lo up Hi) as (x & E & _); [unfold extent; destruct Hp as [K|(l1 & u1 & K & -> & ->)]; rewrite K; reflexivity|].
  exists x. split; [exact E|apply R_ordinary].
Qed.

Lemma tree_box (f : forest RNum) t cfg : tree_from f t -> numeric_space (a_cs (f_alg f)) -> legal_config (a_cs (f_alg f)) cfg ->
  Forall (fun h => In h (a_cs (f_alg f))) (a_sel (f_alg f)) -> let hs := shown_list std (a_sel (f_alg f)) (a_cs (f_alg f)) in
  exists l, incumbent_box (a_cs (f_alg f)) t cfg hs l /\ Forall (within cfg) l /\
    (forall (color : Col) alpha, 0 <= alpha <= 1 -> length hs = 1%nat \/ length hs = 2%nat ->
       plots (plot_incumbent_cs (N:=RNum) std color alpha t cfg) hs false "Prediction" (colored color (box_picture (N:=RNum) alpha l))) /\
    (forall (color : Col) alpha c, length hs <> 1%nat -> length hs <> 2%nat -> plot_incumbent_cs (N:=RNum) std color alpha t cfg c = (c, Err NotImplementedError)).
Proof.
  intros (s & p & d & ids & SO & Ecs & (_ & Esel) & HR & Hd & Ep) NS LC Hs hs. subst hs. rewrite <- Ecs in *.
  assert (HR' : reaches s t) by (pose proof (reaches_partition s p d HR) as Q; rewrite Ep in Q; exact Q).
  destruct (config_in_exactly_one_leaf R_order_laws s p d cfg SO) as (p' & ids' & lv & k & Ep' & FL & Hk & _ & G); auto.
  { apply numeric_space_numerical, NS. }
  { intros h v u _ _ _. apply R_ordinary. }
  { apply legal_total; assumption. }
  rewrite Ep in Ep'. inversion Ep'; subst p' ids'. clear Ep'.
  destruct (nth_error ids k) as [id|] eqn:Eid; [|apply nth_error_None in Eid; pose proof (Forall2_length _ _ _ FL); lia].
  assert (C : convert_hyperparameters (su_sel s) (su_cs s) = Ok (a_sel (f_alg f))) by (rewrite Esel; apply convert_hps).
  destruct (incumbent_sides (Col:=Col) std s t _ cfg id SO NS HR' C Hs G) as (l & B & W & P). exists l. refine (conj B (conj (W LC) _)).
  destruct B as (id' & nd & boxes & _ & _ & _ & S). split.
  - intros color alpha Ha Hl c. rewrite P. exact (box_draws color alpha _ l _ boxes S Ha Hl c).
  - intros color alpha c H1 H2. rewrite P. apply box_fails; rewrite <- (Forall2_length _ _ _ S); assumption.
Qed.

Lemma forD_combine {A B} (ts : list A) (ls : list B) (colors : list Col) (m : A * Col -> D (N:=RNum) (Col:=Col) unit) hps yl (g : B -> Col -> list (Col * cmd RNum)) :
  Forall2 (fun t l => forall c, shows (m (t, c)) hps yl (g l c)) ts ls -> shows (forD (combine ts colors) m) hps yl (flat_map (fun q => g (fst q) (snd q)) (combine ls colors)).
Proof.
  intro F. revert colors. induction F as [|t l ts ls H F IH]; intro colors; [cbn; apply draws_shows, draws_ret|].
  destruct colors as [|c colors]; cbn [combine forD flat_map]; [apply draws_shows, draws_ret|]. apply shows_seq; [apply H|apply IH].
Qed.

Theorem incumbent_regions_draw (f : forest RNum) ts cfg : forest_reaches f -> forest_ok f -> numeric_space (a_cs (f_alg f)) -> f_trees f = Some ts ->
  legal_config (a_cs (f_alg f)) cfg -> Forall (fun h => In h (a_cs (f_alg f))) (a_sel (f_alg f)) ->
  exists hs ls, shown std (a_sel (f_alg f)) (a_cs (f_alg f)) hs /\
    Forall2 (fun t l => incumbent_box (a_cs (f_alg f)) t cfg hs l /\ Forall (within cfg) l) ts ls /\
    (forall (colors : list Col) random (alpha : R), 0 <= alpha <= 1 -> length hs = 1%nat \/ length hs = 2%nat ->
       shows (plot_incumbent_regions (N:=RNum) std (Some colors) random alpha f cfg) hs "Prediction"
         (flat_map (fun q => colored (snd q) (box_picture (N:=RNum) alpha (fst q))) (combine ls colors))) /\
    (forall (colors : list Col) random (alpha : R) c, length hs <> 1%nat -> length hs <> 2%nat -> ts <> [] -> colors <> [] ->
       plot_incumbent_regions (N:=RNum) std (Some colors) random alpha f cfg c = (c, Err NotImplementedError)).
Proof.
  intros R FO NS Ht LC Hs. pose proof (fi_trees _ (reach_inv R_order_laws f R) FO ts Ht) as T.
  set (hs := shown_list std (a_sel (f_alg f)) (a_cs (f_alg f))).
  assert (Q : exists ls, Forall2 (fun t l => incumbent_box (a_cs (f_alg f)) t cfg hs l /\ Forall (within cfg) l /\
    (forall (color : Col) alpha, 0 <= alpha <= 1 -> length hs = 1%nat \/ length hs = 2%nat ->
       plots (plot_incumbent_cs (N:=RNum) std color alpha t cfg) hs false "Prediction" (colored color (box_picture (N:=RNum) alpha l))) /\
    (forall (color : Col) alpha c, length hs <> 1%nat -> length hs <> 2%nat -> plot_incumbent_cs (N:=RNum) std color alpha t cfg c = (c, Err NotImplementedError))) ts ls).
  { clear Ht. induction T as [|t ts Ht T IH]; [exists []; constructor|]. destruct IH as (ls & F). destruct (tree_box f t cfg Ht NS LC Hs) as (l & B).
    exists (l :: ls). constructor; assumption. }
  destruct Q as (ls & F). exists hs, ls. refine (conj (shown_list_spec std _ _ (proj1 FO) Hs) (conj _ (conj _ _))).
  - eapply Forall2_impl'; [|exact F]. intros t l (A & B & _). split; assumption.
  - intros colors random alpha Ha Hl. unfold plot_incumbent_regions. rewrite Ht.
    apply (forD_combine ts ls colors _ hs "Prediction" (fun l c => colored c (box_picture (N:=RNum) alpha l))).
    eapply Forall2_impl'; [|exact F]. intros t l (_ & _ & P & _) c. apply (plots_shows _ _ false). exact (P c alpha Ha Hl).
  - intros colors random alpha c H1 H2 Hne Hc. unfold plot_incumbent_regions. rewrite Ht. destruct F as [|t l ts ls (_ & _ & _ & P) F]; [congruence|].
    destruct colors as [|k colors]; [congruence|]. cbn [combine forD]. unfold bindD. cbn [fst snd]. rewrite (P k alpha c H1 H2). reflexivity.
Qed.

(** random colours by default; missing colours drop trees; no trees before partition *)
Lemma incumbent_regions_colors (f : forest RNum) cfg (random : nat -> Col) (alpha : R) c :
  (f_trees f = None -> forall colors, plot_incumbent_regions (N:=RNum) std colors random alpha f cfg c = (c, Err TypeError)) /\
  (forall ts, f_trees f = Some ts ->
     plot_incumbent_regions (N:=RNum) std None random alpha f cfg c = plot_incumbent_regions (N:=RNum) std (Some (map random (seq 0 (length ts)))) random alpha f cfg c).
Proof. split; [intros E co|intros ts E]; unfold plot_incumbent_regions; rewrite E; reflexivity. Qed.
Lemma incumbent_regions_short (f f' : forest RNum) ts cfg (colors : list Col) (random : nat -> Col) (alpha : R) : f_trees f = Some ts ->
  f_trees f' = Some (firstn (length colors) ts) -> plot_incumbent_regions (N:=RNum) std (Some colors) random alpha f cfg = plot_incumbent_regions (N:=RNum) std (Some colors) random alpha f' cfg.
Proof. intros E E'. unfold plot_incumbent_regions. rewrite E, E', <- combine_firstn_r. reflexivity. Qed.
End More.
