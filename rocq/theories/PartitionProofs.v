(** PartitionProofs.v - lemmas about regions, splits and the partition loop. *)
From Verif Require Import Base Num NumpyModel ConfigSpaceModel UtilsModel IceModel PartitionModel PartitionSpec ListLemmas IceProofs.

Section P.
Context {N : Num}.

(** ** Regions as selections of curves *)
Definition coord (idx : nat) (curve : list (list N)) : N := nth idx (nth 0 curve []) n0.

Definition sel_region (f : list (list N) -> bool) (r : region N) : region N :=
  let mask := map f (r_x r) in
  mkregion (mask_select mask (r_x r)) (mask_select mask (r_y r)) (mask_select mask (r_v r)).

Lemma sel_region_len f r : region_len (sel_region f r) = length (filter f (r_x r)).
Proof. unfold region_len, sel_region; cbn. rewrite mask_select_filter. reflexivity. Qed.

Lemma Forall_mask {A} (P : A -> Prop) m l : Forall P l -> Forall P (mask_select m l).
Proof. rewrite !Forall_forall. intros H x Hx. apply H. eapply mask_select_in; eassumption. Qed.

Lemma sel_region_wf nf f r : wf_region nf r -> wf_region nf (sel_region f r).
Proof.
  intros [Hy Hv (G & HG & Hx' & Hy' & Hv') Hf]. constructor; cbn.
  - apply mask_select_length; exact Hy.
  - apply mask_select_length; exact Hv.
  - exists G. repeat split; auto using Forall_mask.
  - apply Forall_mask; exact Hf.
Qed.

Lemma sel_region_sel f g r :
  wf_region 0 r \/ True ->
  length (r_y r) = length (r_x r) -> length (r_v r) = length (r_x r) ->
  sel_region f (sel_region g r) = sel_region (fun m => g m && f m) r.
Proof.
  intros _ Hy Hv. unfold sel_region; cbn.
  assert (K : forall B (y : list B) x, mask_select (map f (mask_select (map g x) x)) (mask_select (map g x) y)
              = mask_select (map (fun m => g m && f m) x) y).
  { intros B y x. revert y. induction x as [|m x IH]; intros [|b y]; cbn; try reflexivity.
    - destruct (g m); cbn; [destruct (mask_select (map g x) x); cbn; try reflexivity; destruct (f _); reflexivity|].
      destruct (map f (mask_select (map g x) x)); reflexivity.
    - destruct (g m); cbn; [destruct (f m); cbn|]; rewrite IH; reflexivity. }
  rewrite !K. reflexivity.
Qed.

Lemma sel_region_ext f g r : (forall m, In m (r_x r) -> f m = g m) -> sel_region f r = sel_region g r.
Proof. intro H. unfold sel_region. rewrite (map_ext_in _ _ _ H). reflexivity. Qed.

Lemma sel_region_true r : length (r_y r) = length (r_x r) -> length (r_v r) = length (r_x r) ->
  sel_region (fun _ => true) r = r.
Proof.
  intros Hy Hv. unfold sel_region.
  assert (K : forall B (y : list B) (x : list (list (list N))), length y = length x -> mask_select (map (fun _ => true) x) y = y).
  { intros B y x. revert y; induction x as [|m x IH]; intros [|b y] H; cbn in *; try lia; [reflexivity|]. rewrite IH by lia. reflexivity. }
  rewrite !K by auto. destruct r; reflexivity.
Qed.

Lemma region_new_ok nf (r : region N) : wf_region nf r -> region_new (r_x r) (r_y r) (r_v r) = Ok r.
Proof.
  intros [Hy Hv (G & _ & Hx' & Hy' & Hv') _]. unfold region_new.
  rewrite <- Hy, Hv, <- Hy, !Nat.eqb_refl. cbn.
  destruct r as [x y v]; cbn in *.
  destruct x as [|a x]; destruct y as [|b y]; destruct v as [|c v]; cbn in *; try lia; try reflexivity.
  inversion Hx'; inversion Hy'; inversion Hv'; subst. rewrite H5, H9.
  rewrite !Nat.eqb_refl. reflexivity.
Qed.

(** ** Conditions on curves *)
Definition cond_sat (cs : cspace N) (c : cond N) (curve : list (list N)) : bool :=
  match cs_idx cs (hp_name (c_hp c)) with
  | Ok idx => cond_mask c (coord idx curve)
  | Err _ => false
  end.
Definition conds_sat (cs : cspace N) (conds : list (cond N)) (curve : list (list N)) : bool :=
  forallb (fun c => cond_sat cs c curve) conds.

Definition known (cs : cspace N) (h : hp N) : Prop := exists i, cs_idx cs (hp_name h) = Ok i.

Definition child (cs : cspace N) (nd : dnode N) (c : cond N) : dnode N :=
  mkdnode (S (n_depth nd)) (sel_region (cond_sat cs c) (n_region nd)) (n_conds nd ++ [c]).

Lemma filter_ok cs nd c :
  wf_region (length cs) (n_region nd) -> known cs (c_hp c) ->
  filter_by_condition cs nd c = Ok (child cs nd c).
Proof.
  intros W (idx & Hi). unfold filter_by_condition. rewrite Hi. cbn [bind].
  assert (M : mapM (curve_coord idx) (r_x (n_region nd)) = Ok (map (coord idx) (r_x (n_region nd)))).
  { apply mapM_total. intros m Hm. destruct W as [_ _ (G & HG & Hx & _) Hf].
    rewrite Forall_forall in Hx, Hf. specialize (Hx _ Hm). specialize (Hf _ Hm).
    unfold curve_coord, coord. destruct m as [|row m]; cbn in *; [lia|].
    inversion Hf; subst. unfold py_nth. rewrite (nth_error_nth' row n0).
    - reflexivity.
    - rewrite H1. eapply cs_idx_lt; eassumption. }
  rewrite M. cbn [bind]. rewrite map_map.
  assert (E : map (fun x => cond_mask c (coord idx x)) (r_x (n_region nd)) = map (cond_sat cs c) (r_x (n_region nd))).
  { apply map_ext. intro m. unfold cond_sat. rewrite Hi. reflexivity. }
  rewrite E.
  pose proof (sel_region_wf (length cs) (cond_sat cs c) _ W) as W'.
  apply region_new_ok in W'. cbn in W'. rewrite W'. reflexivity.
Qed.

Lemma split_ok cs nd h v :
  wf_region (length cs) (n_region nd) -> known cs h ->
  split_at_value cs nd h v = Ok (child cs nd (mkcond h v true), child cs nd (mkcond h v false)).
Proof. intros W K. unfold split_at_value. rewrite !filter_ok by assumption. reflexivity. Qed.

(** ** calc_best_split *)
Definition split_pair (cs : cspace N) (nd : dnode N) (hv : hp N * N) : dnode N * dnode N :=
  (child cs nd (mkcond (fst hv) (snd hv) true), child cs nd (mkcond (fst hv) (snd hv) false)).
Definition enough (mp : nat) (lr : dnode N * dnode N) : Prop :=
  mp <= region_len (n_region (fst lr)) /\ mp <= region_len (n_region (snd lr)).

Lemma split_step_ok cs mp nd b hv :
  wf_region (length cs) (n_region nd) -> known cs (fst hv) ->
  exists b', split_step cs mp nd b hv = Ok b' /\
    ((b' = b /\ (~ enough mp (split_pair cs nd hv) \/
       (enough mp (split_pair cs nd hv) /\
        match b with None => nltinf (split_total (split_pair cs nd hv)) = false
                   | Some (bl, _) => nlt (split_total (split_pair cs nd hv)) bl = false end)))
     \/ (b' = Some (split_total (split_pair cs nd hv), split_pair cs nd hv) /\ enough mp (split_pair cs nd hv) /\
         match b with None => nltinf (split_total (split_pair cs nd hv)) = true
                    | Some (bl, _) => nlt (split_total (split_pair cs nd hv)) bl = true end)).
Proof.
  intros W K. unfold split_step. rewrite split_ok by assumption. cbn [bind fst snd].
  set (l := child cs nd (mkcond (fst hv) (snd hv) true)). set (r := child cs nd (mkcond (fst hv) (snd hv) false)).
  change (split_pair cs nd hv) with (l, r). unfold enough; cbn [fst snd].
  destruct (Nat.ltb_spec (region_len (n_region l)) mp); cbn [orb].
  { eexists; split; [reflexivity|]. left; split; auto. left. lia. }
  destruct (Nat.ltb_spec (region_len (n_region r)) mp); cbn [orb].
  { eexists; split; [reflexivity|]. left; split; auto. left. lia. }
  destruct b as [[bl lr]|].
  - change (nadd (region_loss (n_region l)) (region_loss (n_region r))) with (split_total (l, r)).
    destruct (nlt (split_total (l, r)) bl) eqn:E; eexists; (split; [reflexivity|]).
    + right. auto.
    + left. split; auto. 
  - change (nadd (region_loss (n_region l)) (region_loss (n_region r))) with (split_total (l, r)).
    destruct (nltinf (split_total (l, r))) eqn:E; eexists; (split; [reflexivity|]).
    + right. auto.
    + left. split; auto.
Qed.

Variable L : order_laws N.

(** what the fold has established after looking at the candidates [cands] *)
Definition best_of (cs : cspace N) (mp : nat) (nd : dnode N) (cands : list (hp N * N)) (b : best N) : Prop :=
  match b with
  | None => forall hv, In hv cands -> enough mp (split_pair cs nd hv) -> nltinf (split_total (split_pair cs nd hv)) = false
  | Some (t, lr) =>
    exists k hv, nth_error cands k = Some hv /\ lr = split_pair cs nd hv /\ t = split_total lr /\
      enough mp lr /\ nltinf t = true /\
      (forall k' hv', nth_error cands k' = Some hv' -> enough mp (split_pair cs nd hv') ->
         nlt (split_total (split_pair cs nd hv')) t = false) /\
      (forall k' hv', k' < k -> nth_error cands k' = Some hv' -> enough mp (split_pair cs nd hv') ->
         nltinf (split_total (split_pair cs nd hv')) = true ->
         nlt t (split_total (split_pair cs nd hv')) = true)
  end.

Lemma best_fold cs mp nd cands :
  wf_region (length cs) (n_region nd) -> Forall (fun hv => known cs (fst hv)) cands ->
  exists b, foldM (split_step cs mp nd) cands None = Ok b /\ best_of cs mp nd cands b.
Proof.
  intros W. induction cands as [|hv cands IH] using rev_ind; intro F.
  - exists None. split; [reflexivity|]. intros hv [].
  - apply Forall_app in F. destruct F as [F1 F2]. inversion F2; subst.
    destruct (IH F1) as (b & Hb & B). rewrite foldM_app, Hb. cbn [bind foldM].
    destruct (split_step_ok cs mp nd b hv W H1) as (b' & E & C). rewrite E. cbn [bind]. exists b'. split; [reflexivity|].
    destruct C as [[-> C]|(-> & En & C)].
    + destruct b as [[t lr]|]; cbn in *.
      * destruct B as (k & hv0 & Hk & Hlr & Ht & Hen & Hinf & Hmin & Hfst). exists k, hv0.
        pose proof (nth_error_Some_lt _ _ _ Hk) as Hlt.
        repeat split; auto.
        -- rewrite nth_error_app1 by exact Hlt. exact Hk.
        -- apply Hen.
        -- apply Hen.
        -- intros k' hv' Hk' En'. destruct (Nat.lt_ge_cases k' (length cands)) as [Hl|Hl].
           ++ rewrite nth_error_app1 in Hk' by exact Hl. eapply Hmin; eassumption.
           ++ rewrite nth_error_app2 in Hk' by exact Hl.
              destruct (k' - length cands) as [|q]; cbn in Hk'; [|destruct q; discriminate]. inversion Hk'; subst hv'.
              destruct C as [C|[_ C]]; [contradiction|exact C].
        -- intros k' hv' Hl Hk' En'. apply (Hfst k'); auto. rewrite nth_error_app1 in Hk' by lia. exact Hk'.
      * intros hv' Hin En. apply in_app_or in Hin. destruct Hin as [Hin|[->|[]]]; [auto|].
        destruct C as [C|[_ C]]; [contradiction|exact C].
    + exists (length cands), hv. cbn in B.
      assert (HI : nltinf (split_total (split_pair cs nd hv)) = true).
      { destruct b as [[t lr]|]; [|exact C]. destruct B as (k & hv0 & _ & _ & _ & _ & Hinf & _).
        eapply (ol_ltinf N L); eassumption. }
      repeat split; auto.
      * rewrite nth_error_app2 by lia. rewrite Nat.sub_diag. reflexivity.
      * apply En.
      * apply En.
      * intros k' hv' Hk' En'. destruct (Nat.lt_ge_cases k' (length cands)) as [Hl|Hl].
        -- rewrite nth_error_app1 in Hk' by exact Hl.
           destruct (nlt (split_total (split_pair cs nd hv')) (split_total (split_pair cs nd hv))) eqn:X; [|reflexivity].
           destruct b as [[t lr]|].
           ++ destruct B as (k & hv0 & _ & _ & _ & _ & _ & Hmin & _).
              specialize (Hmin _ _ Hk' En'). rewrite (ol_trans N L _ _ _ X C) in Hmin. discriminate.
           ++ specialize (B hv' (nth_error_In _ _ Hk') En'). rewrite (ol_ltinf N L _ _ X HI) in B. discriminate.
        -- rewrite nth_error_app2 in Hk' by exact Hl.
           destruct (k' - length cands) as [|q]; cbn in Hk'; [|destruct q; discriminate]. inversion Hk'; subst hv'.
           apply (ol_irrefl N L).
      * intros k' hv' Hl Hk' En' Hi'. rewrite nth_error_app1 in Hk' by lia.
        destruct b as [[t lr]|].
        -- destruct B as (k & hv0 & _ & _ & _ & _ & _ & Hmin & _).
           destruct (ol_cotrans N L _ (split_total (split_pair cs nd hv')) _ (ol_ltinf_ordinary N L _ Hi') C) as [X|X]; [exact X|].
           rewrite (Hmin _ _ Hk' En') in X. discriminate.
        -- rewrite (B hv' (nth_error_In _ _ Hk') En') in Hi'. discriminate.
Qed.

Lemma candidates_in hps ns hv :
  In hv (candidates hps ns) <-> In (fst hv) hps /\ In (snd hv) (possible_split_vals (N:=N) ns).
Proof.
  unfold candidates. rewrite in_flat_map. split.
  - intros (h & Hh & H). apply in_map_iff in H. destruct H as (v & <- & Hv). auto.
  - intros [Hh Hv]. exists (fst hv). split; [exact Hh|]. apply in_map_iff. exists (snd hv). destruct hv; auto.
Qed.

Lemma calc_best_split_ok cs hps ns mp nd :
  wf_region (length cs) (n_region nd) -> Forall (known cs) hps -> is_splittable nd = true ->
  exists b, best_of cs mp nd (candidates hps ns) b /\
    calc_best_split cs hps ns mp nd = Ok (match b with None => None | Some (_, lr) => Some lr end).
Proof.
  intros W K S. unfold calc_best_split. rewrite S. cbn [guard bind].
  assert (F : Forall (fun hv => known cs (fst hv)) (candidates hps ns)).
  { apply Forall_forall. intros hv Hhv. apply candidates_in in Hhv. rewrite Forall_forall in K. apply K. apply Hhv. }
  destruct (best_fold cs mp nd _ W F) as (b & E & B). exists b. split; [exact B|]. rewrite E. reflexivity.
Qed.

(** ** The tree grown by partition, as a recursive function *)
Inductive tree := TLeaf (nd : dnode N) | TNode (nd : dnode N) (l r : tree).
Definition troot (t : tree) : dnode N := match t with TLeaf nd => nd | TNode nd _ _ => nd end.
Fixpoint tleaves (t : tree) : list (dnode N) :=
  match t with TLeaf nd => [nd] | TNode _ l r => tleaves r ++ tleaves l end.
Fixpoint tsize (t : tree) : nat := match t with TLeaf _ => 1 | TNode _ l r => S (tsize l + tsize r) end.

Fixpoint build (p : dtp N) (k : nat) (nd : dnode N) : res tree :=
  match k with
  | 0 => Ok (TLeaf nd)
  | S k' =>
    if is_splittable nd then
      o <- calc_best_split (d_cs p) (d_possible p) (d_nsplits p) (d_minpts p) nd ;;
      match o with
      | None => Ok (TLeaf nd)
      | Some (l, r) => tl <- build p k' l ;; tr <- build p k' r ;; Ok (TNode nd tl tr)
      end
    else Ok (TLeaf nd)
  end.

Lemma build_root p k nd t : build p k nd = Ok t -> troot t = nd.
Proof.
  destruct k as [|k]; cbn [build]; intro H; [inversion H; reflexivity|].
  destruct (is_splittable nd); [|inversion H; reflexivity].
  inv_bind H. destruct x as [[l r]|]; [|inversion H; reflexivity].
  inv_bind H. inv_bind H. inversion H; reflexivity.
Qed.

(** static well-formedness of a partitioner *)
Definition wf_static (p : dtp N) : Prop := Forall (known (d_cs p)) (d_possible p).

(** how nodes of a tree are related: an inductive description of the grown tree *)
Inductive grown (p : dtp N) : nat -> tree -> Prop :=
| grown_stop nd : is_splittable nd = false -> forall k, grown p k (TLeaf nd)
| grown_depth nd : grown p 0 (TLeaf nd)
| grown_none k nd :
    is_splittable nd = true ->
    best_of (d_cs p) (d_minpts p) nd (candidates (d_possible p) (d_nsplits p)) None ->
    grown p (S k) (TLeaf nd)
| grown_split k nd t lr l r :
    is_splittable nd = true ->
    best_of (d_cs p) (d_minpts p) nd (candidates (d_possible p) (d_nsplits p)) (Some (t, lr)) ->
    troot l = fst lr -> troot r = snd lr ->
    grown p k l -> grown p k r -> grown p (S k) (TNode nd l r).

Lemma best_of_pair cs mp nd cands t lr : best_of cs mp nd cands (Some (t, lr)) ->
  exists hv, In hv cands /\ lr = split_pair cs nd hv.
Proof. intros (k & hv & Hk & Hlr & _). exists hv. split; [eapply nth_error_In; eassumption|exact Hlr]. Qed.

Lemma build_ok p k nd :
  wf_static p -> wf_region (length (d_cs p)) (n_region nd) ->
  exists t, build p k nd = Ok t /\ grown p k t /\ troot t = nd.
Proof.
  intro WS. revert nd. induction k as [|k IH]; intros nd W; cbn [build].
  - exists (TLeaf nd). repeat split. apply grown_depth.
  - destruct (is_splittable nd) eqn:S.
    + destruct (calc_best_split_ok (d_cs p) (d_possible p) (d_nsplits p) (d_minpts p) nd W WS S) as (b & B & E).
      rewrite E. cbn [bind]. destruct b as [[t lr]|].
      * destruct (best_of_pair _ _ _ _ _ _ B) as (hv & _ & Hlr).
        destruct lr as [l r]. inversion Hlr; subst l r.
        destruct (IH (child (d_cs p) nd (mkcond (fst hv) (snd hv) true))) as (tl & Hl & Gl & Rl).
        { apply sel_region_wf; exact W. }
        destruct (IH (child (d_cs p) nd (mkcond (fst hv) (snd hv) false))) as (tr & Hr & Gr & Rr).
        { apply sel_region_wf; exact W. }
        rewrite Hl, Hr. cbn [bind]. exists (TNode nd tl tr). repeat split.
        eapply grown_split; eauto.
      * exists (TLeaf nd). repeat split. apply grown_none; assumption.
    + exists (TLeaf nd). repeat split. apply grown_stop; assumption.
Qed.

Lemma grown_size p k t : grown p k t -> tsize t < 2 ^ (S k).
Proof.
  induction 1; cbn -[Nat.pow].
  - cbn. pose proof (Nat.pow_nonzero 2 k). lia.
  - cbn. lia.
  - cbn. pose proof (Nat.pow_nonzero 2 k). lia.
  - rewrite (Nat.pow_succ_r' 2 (S k)). lia.
Qed.

(** ** The heap machine computes the tree *)
Fixpoint iter {A} (n : nat) (f : A -> A) (x : A) : A :=
  match n with 0 => x | S m => iter m f (f x) end.
Lemma iter_add {A} a b (f : A -> A) x : iter (a + b) f x = iter b f (iter a f x).
Proof. revert x; induction a as [|a IH]; intro x; cbn; [reflexivity|]. apply IH. Qed.
Lemma loop_pow_iter (p : dtp N) d k m : loop_pow p d k m = iter (2 ^ k) (part_step p d) m.
Proof.
  revert m; induction k as [|k IH]; intro m; [reflexivity|].
  cbn -[Nat.pow]. rewrite !IH, Nat.pow_succ_r'. replace (2 * 2 ^ k) with (2 ^ k + 2 ^ k) by lia.
  rewrite iter_add. reflexivity.
Qed.
Lemma iter_stopped (p : dtp N) d h ls n : iter n (part_step p d) (mkmachine h ls [] None) = mkmachine h ls [] None.
Proof. induction n as [|n IH]; cbn; [reflexivity|]. exact IH. Qed.

(** [stored_ge heap lo par id t ids]: the tree [t] is stored in [heap] at
    reference [id] with parent [par]; [ids] are the references of its leaves, in
    the order of [tleaves]; all references but [id] are at least [lo]. *)
Inductive stored_ge (heap : list (cell N)) : nat -> option nat -> nat -> tree -> list nat -> Prop :=
| sg_leaf lo par id nd :
    nth_error heap id = Some (mkcell nd par None None) -> stored_ge heap lo par id (TLeaf nd) [id]
| sg_node lo par id nd a b l r il ir :
    nth_error heap id = Some (mkcell nd par (Some a) (Some b)) ->
    lo <= a -> a < length heap -> b = S a -> b < length heap ->
    stored_ge heap (S b) (Some id) a l il -> stored_ge heap (S b) (Some id) b r ir ->
    stored_ge heap lo par id (TNode nd l r) (ir ++ il).

Lemma stored_ge_mono lo lo' heap par id t ids : lo' <= lo -> stored_ge heap lo par id t ids -> stored_ge heap lo' par id t ids.
Proof. intros Hl H. destruct H; [constructor; assumption|econstructor; eauto; lia]. Qed.

(** a stored tree survives heap growth that only touches other cells *)
Lemma stored_ge_frame lo heap heap' par id t ids :
  stored_ge heap lo par id t ids -> length heap <= length heap' ->
  (forall j, (j = id \/ lo <= j) -> j < length heap -> nth_error heap' j = nth_error heap j) ->
  stored_ge heap' lo par id t ids.
Proof.
  intro H. induction H as [lo par id nd Hn|lo par id nd a b l r il ir Hn Ha Ha' Hb Hb' Hl IHl Hr IHr]; intros Hlen Hf.
  - constructor. rewrite Hf; auto. eapply nth_error_Some_lt; eassumption.
  - econstructor; eauto; try lia.
    + rewrite Hf; auto. eapply nth_error_Some_lt; eassumption.
    + apply IHl; auto. intros j Hj Hjl. apply Hf; [|exact Hjl]. right. lia.
    + apply IHr; auto. intros j Hj Hjl. apply Hf; [|exact Hjl]. right. lia.
Qed.

Lemma part_step_run p d :
  wf_static p -> forall k t, grown p k t ->
  forall heap ls id q par left right,
  n_depth (troot t) + k = d \/ (n_depth (troot t) <= d /\ k = d - n_depth (troot t)) ->
  wf_region (length (d_cs p)) (n_region (troot t)) ->
  nth_error heap id = Some (mkcell (troot t) par left right) ->
  exists heap' ids l' r',
    iter (tsize t) (part_step p d) (mkmachine heap ls (id :: q) None) = mkmachine heap' (ls ++ ids) q None /\
    length heap <= length heap' /\
    (forall j, j <> id -> j < length heap -> nth_error heap' j = nth_error heap j) /\
    nth_error heap' id = Some (mkcell (troot t) par l' r') /\
    ((l' = left /\ r' = right /\ exists nd, t = TLeaf nd) \/
     (exists nd l r, t = TNode nd l r)) /\
    ((exists nd, t = TLeaf nd) -> ids = [id] /\ heap' = heap) /\
    (left = None -> right = None -> stored_ge heap' (length heap) par id t ids) /\
    ((exists nd l r, t = TNode nd l r) -> stored_ge heap' (length heap) par id t ids).
Proof.
  intros WS k t G. induction G as [nd S k|nd|k nd S B|k nd tt lr l r S B Rl Rr Gl IHl Gr IHr];
    intros heap ls id q par left right Hd W Hn.
  - (* not splittable *)
    exists heap, [id], left, right. cbn [tsize iter]. unfold part_step at 1; cbn [m_err m_stack m_heap].
    rewrite Hn. cbn [n_node troot]. rewrite S. cbn [negb orb].
    repeat split; auto; try (left; eauto; fail).
    + intros -> ->. constructor. exact Hn.
    + intros (? & ? & ? & X). discriminate X.
  - exists heap, [id], left, right. cbn [tsize iter]. unfold part_step at 1; cbn [m_err m_stack m_heap].
    rewrite Hn. cbn [n_node troot] in *.
    replace (Nat.leb d (n_depth nd)) with true by (symmetry; apply Nat.leb_le; lia). rewrite orb_true_r.
    repeat split; auto; try (left; eauto; fail).
    + intros -> ->. constructor. exact Hn.
    + intros (? & ? & ? & X). discriminate X.
  - exists heap, [id], left, right. cbn [tsize iter]. unfold part_step at 1; cbn [m_err m_stack m_heap].
    rewrite Hn. cbn [n_node troot] in *. rewrite S.
    replace (Nat.leb d (n_depth nd)) with false by (symmetry; apply Nat.leb_gt; lia). cbn [negb orb].
    assert (E : calc_best_split (d_cs p) (d_possible p) (d_nsplits p) (d_minpts p) nd = Ok None).
    { destruct (calc_best_split_ok (d_cs p) (d_possible p) (d_nsplits p) (d_minpts p) nd W WS S) as (b & B' & E).
      rewrite E. destruct b as [[t lr]|]; [|reflexivity]. exfalso.
      destruct B' as (k0 & hv & Hk & Hlr & Ht & En & Hi & _). cbn in B.
      rewrite Hlr in *. specialize (B hv (nth_error_In _ _ Hk) En). subst t. rewrite Hi in B. discriminate. }
    rewrite E.
    repeat split; auto; try (left; eauto; fail).
    + intros -> ->. constructor. exact Hn.
    + intros (? & ? & ? & X). discriminate X.
  - cbn [troot] in *.
    assert (Hdep : n_depth nd + Datatypes.S k = d) by lia.
    destruct (best_of_pair _ _ _ _ _ _ B) as (hv & _ & Hlr).
    assert (E : calc_best_split (d_cs p) (d_possible p) (d_nsplits p) (d_minpts p) nd = Ok (Some lr)).
    { destruct (calc_best_split_ok (d_cs p) (d_possible p) (d_nsplits p) (d_minpts p) nd W WS S) as (b & B' & E).
      rewrite E. destruct b as [[t' lr']|].
      - (* the optimum is unique *)
        destruct B as (k1 & hv1 & Hk1 & Hlr1 & Ht1 & En1 & Hi1 & Hm1 & Hf1).
        destruct B' as (k2 & hv2 & Hk2 & Hlr2 & Ht2 & En2 & Hi2 & Hm2 & Hf2).
        assert (k1 = k2).
        { destruct (Nat.lt_trichotomy k1 k2) as [X|[X|X]]; [|exact X|]; exfalso.
          - subst tt t' lr lr'. specialize (Hf2 k1 hv1 X Hk1 En1 Hi1). rewrite (Hm1 _ _ Hk2 En2) in Hf2. discriminate.
          - subst tt t' lr lr'. specialize (Hf1 k2 hv2 X Hk2 En2 Hi2). rewrite (Hm2 _ _ Hk1 En1) in Hf1. discriminate. }
        subst k2. rewrite Hk1 in Hk2. inversion Hk2; subst hv2. congruence.
      - exfalso. destruct B as (k1 & hv1 & Hk1 & Hlr1 & Ht1 & En1 & Hi1 & _). subst lr tt.
        rewrite (B' hv1 (nth_error_In _ _ Hk1) En1) in Hi1. discriminate. }
    destruct lr as [cl cr]. cbn [fst snd] in *. inversion Hlr as [[Hcl Hcr]].
    assert (Wl : wf_region (length (d_cs p)) (n_region (troot l))).
    { rewrite Rl, Hcl. apply sel_region_wf; exact W. }
    assert (Wr : wf_region (length (d_cs p)) (n_region (troot r))).
    { rewrite Rr, Hcr. apply sel_region_wf; exact W. }
    assert (Dl : n_depth (troot l) + k = d) by (rewrite Rl, Hcl; cbn; lia).
    assert (Dr : n_depth (troot r) + k = d) by (rewrite Rr, Hcr; cbn; lia).
    cbn [tsize iter].
    assert (Step : part_step p d (mkmachine heap ls (id :: q) None) =
      mkmachine (set_nth id (mkcell nd par (Some (length heap)) (Some (Datatypes.S (length heap)))) heap
                   ++ [mkcell cl (Some id) None None; mkcell cr (Some id) None None])
                ls (Datatypes.S (length heap) :: length heap :: q) None).
    { unfold part_step; cbn [m_err m_stack m_heap m_leaves]. rewrite Hn. cbn [n_node n_parent].
      rewrite S. replace (Nat.leb d (n_depth nd)) with false by (symmetry; apply Nat.leb_gt; lia).
      cbn [negb orb]. rewrite E. reflexivity. }
    rewrite Step. clear Step.
    set (h1 := set_nth id (mkcell nd par (Some (length heap)) (Some (Datatypes.S (length heap)))) heap
                   ++ [mkcell cl (Some id) None None; mkcell cr (Some id) None None]).
    assert (Lh1 : length h1 = length heap + 2) by (unfold h1; rewrite app_length, set_nth_length; reflexivity).
    pose proof (nth_error_Some_lt _ _ _ Hn) as Hid.
    assert (H1id : nth_error h1 id = Some (mkcell nd par (Some (length heap)) (Some (Datatypes.S (length heap))))).
    { unfold h1. rewrite nth_error_app1 by (rewrite set_nth_length; exact Hid). apply nth_error_set_nth_eq; exact Hid. }
    assert (H1l : nth_error h1 (length heap) = Some (mkcell cl (Some id) None None)).
    { unfold h1. rewrite nth_error_app2 by (rewrite set_nth_length; lia). rewrite set_nth_length, Nat.sub_diag. reflexivity. }
    assert (H1r : nth_error h1 (Datatypes.S (length heap)) = Some (mkcell cr (Some id) None None)).
    { unfold h1. rewrite nth_error_app2 by (rewrite set_nth_length; lia). rewrite set_nth_length.
      replace (Datatypes.S (length heap) - length heap) with 1 by lia. reflexivity. }
    assert (H1o : forall j, j <> id -> j < length heap -> nth_error h1 j = nth_error heap j).
    { intros j Hj Hjl. unfold h1. rewrite nth_error_app1 by (rewrite set_nth_length; exact Hjl).
      apply nth_error_set_nth_neq. congruence. }
    replace (tsize l + tsize r) with (tsize r + tsize l) by lia. rewrite iter_add.
    destruct (IHr h1 ls (Datatypes.S (length heap)) (length heap :: q) (Some id) None None) as
      (h2 & ids2 & l2 & r2 & E2 & Len2 & Fr2 & N2 & C2 & Lf2 & St2 & _); [left; exact Dr|exact Wr|rewrite Rr; exact H1r|].
    rewrite E2.
    assert (H2l : nth_error h2 (length heap) = Some (mkcell cl (Some id) None None)).
    { rewrite Fr2 by lia. exact H1l. }
    destruct (IHl h2 (ls ++ ids2) (length heap) q (Some id) None None) as
      (h3 & ids3 & l3 & r3 & E3 & Len3 & Fr3 & N3 & C3 & Lf3 & St3 & _); [left; exact Dl|exact Wl|rewrite Rl; exact H2l|].
    specialize (St2 eq_refl eq_refl). specialize (St3 eq_refl eq_refl).
    assert (H3id : nth_error h3 id = Some (mkcell nd par (Some (length heap)) (Some (Datatypes.S (length heap))))).
    { rewrite Fr3 by lia. rewrite Fr2 by lia. exact H1id. }
    assert (Hst : stored_ge h3 (length heap) par id (TNode nd l r) (ids2 ++ ids3)).
    { econstructor; try exact H3id; try lia.
      - eapply stored_ge_mono; [|exact St3]. lia.
      - eapply stored_ge_frame; [|exact Len3|].
        + eapply stored_ge_mono; [|exact St2]. lia.
        + intros j Hj Hjl. apply Fr3; lia. }
    exists h3, (ids2 ++ ids3), (Some (length heap)), (Some (Datatypes.S (length heap))).
    refine (conj _ (conj _ (conj _ (conj H3id (conj _ (conj _ (conj (fun _ _ => Hst) (fun _ => Hst)))))))).
    + rewrite E3, app_assoc. reflexivity.
    + lia.
    + intros j Hj Hjl. rewrite Fr3 by lia. rewrite Fr2 by lia. apply H1o; assumption.
    + right. eauto.
    + intros (? & X). discriminate X.
Qed.

End P.
