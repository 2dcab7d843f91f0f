(** IceSeqProofs.v - proofs for C96 and C97. *)
From Coq Require Import DecimalString.
From Verif Require Import Base Num NumpyModel ConfigSpaceModel UtilsModel IceModel IceProofs IceProofs2 IceSeqModel IceSeqSpec SyntheticSpace WrapperProofs CacheTextProofs.

Section Seq.
Context {N : Num}.
Notation cv := (curve N (list (list N)) (list N) (list N)).

(** what an object holds was calculated for its algorithm *)
Definition good (o : ice N) : Prop := clean o \/ exists d c p, holds o d /\ ice_calculate (ic_alg o) c p = Ok d.
Lemma good_read {A} (f : ice N -> option A) o : good o -> good (fst (read_field f o)).
Proof.
  intro H. unfold read_field. destruct (f o); [exact H|]. unfold ice_run. destruct (ice_calculate _ _ _) as [d|e] eqn:E; cbn; [|exact H].
  right. exists d, (ic_centered o), (ic_predict o). split; [repeat split|exact E].
Qed.
Lemma good_step o op : good o -> good (fst (ice_step o op)).
Proof.
  intro H. destruct op; cbn.
  - pose proof (good_read ic_x o H). unfold read_x. destruct (read_field ic_x o). assumption.
  - pose proof (good_read ic_y o H). unfold read_y. destruct (read_field ic_y o). assumption.
  - pose proof (good_read ic_v o H). unfold read_v. destruct (read_field ic_v o). assumption.
  - left. repeat split.
  - destruct H as [H|(d & c & p & H & E)]; [left; exact H|right; exists d, c, p; split; [exact H|exact E]].
  - destruct H as [H|(d & c & p' & H & E)]; [left; exact H|right; exists d, c, p'; split; [exact H|exact E]].
Qed.
Lemma good_run ops : forall o, good o -> good (fst (ice_run_ops o ops)).
Proof.
  induction ops as [|op ops IH]; intros o H; [exact H|]. cbn [ice_run_ops]. pose proof (good_step o op H) as G. destruct (ice_step o op) as [o1 r].
  specialize (IH o1 G). destruct (ice_run_ops o1 ops). exact IH.
Qed.
Lemma alg_run (a : algorithm N) p ops : ic_alg (fst (ice_run_ops (ice_new a p) ops)) = a.
Proof.
  assert (C0 : caches_ok (ice_new (N := N) a p)) by (left; repeat split).
  pose proof (run_static ops (ice_new a p) C0) as (_ & K & _). exact K.
Qed.
Lemma good_reads (o : ice N) : good o ->
  (exists o1 d c p, read_x o = (o1, Ok (i_x d)) /\ holds o1 d /\ ic_alg o1 = ic_alg o /\ ice_calculate (ic_alg o) c p = Ok d) \/
  (exists e, read_x o = (o, Err e)).
Proof.
  intros [(H & _)|(d & c & p & H & E)].
  - unfold read_x, read_field. rewrite H. unfold ice_run. destruct (ice_calculate _ _ _) as [d|e] eqn:E; cbn; [|right; eauto].
    left. eexists _, d, _, _. refine (conj eq_refl (conj _ (conj eq_refl E))). repeat split.
  - left. exists o, d, c, p. refine (conj _ (conj H (conj eq_refl E))). unfold read_x, read_field. destruct H as (H & _). rewrite H. reflexivity.
Qed.
Lemma hold_reads (o : ice N) (d : icedata N) : holds o d -> read_x o = (o, Ok (i_x d)) /\ read_y o = (o, Ok (i_y d)) /\ read_v o = (o, Ok (i_v d)).
Proof. intros (H1 & H2 & H3). unfold read_x, read_y, read_v, read_field. rewrite H1, H2, H3. auto. Qed.

Lemma row_at_in {A} (l : list A) (i : Z) k : k < length l -> (i = Z.of_nat k \/ i = Z.of_nat k - Z.of_nat (length l))%Z -> exists r, row_at l i = Ok r /\ nth_error l k = Some r.
Proof.
  intros Hk Hi. destruct (nth_error l k) as [r|] eqn:E; [|apply nth_error_None in E; lia]. exists r. split; [|reflexivity]. unfold row_at, py_nth.
  destruct Hi as [-> | ->].
  - assert (H : ((0 <=? Z.of_nat k) && (Z.of_nat k <? Z.of_nat (length l)))%Z = true) by (apply andb_true_iff; rewrite Z.leb_le, Z.ltb_lt; lia).
    rewrite H, Nat2Z.id, E. reflexivity.
  - set (n := Z.of_nat (length l)). assert (H : ((0 <=? Z.of_nat k - n) && (Z.of_nat k - n <? n))%Z = false) by (apply andb_false_iff; rewrite Z.leb_gt; lia).
    assert (H' : ((- n <=? Z.of_nat k - n) && (Z.of_nat k - n <? 0))%Z = true) by (apply andb_true_iff; rewrite Z.leb_le, Z.ltb_lt; lia).
    rewrite H, H'. replace (Z.to_nat (Z.of_nat k - n + n)) with k by lia. rewrite E. reflexivity.
Qed.
Lemma row_at_out {A} (l : list A) (i : Z) : (i < - Z.of_nat (length l) \/ Z.of_nat (length l) <= i)%Z -> row_at l i = Err IndexError.
Proof.
  intro H. unfold row_at. set (n := Z.of_nat (length l)) in *.
  assert (A1 : ((0 <=? i) && (i <? n))%Z = false) by (apply andb_false_iff; rewrite Z.leb_gt, Z.ltb_ge; lia).
  assert (A2 : ((- n <=? i) && (i <? 0))%Z = false) by (apply andb_false_iff; rewrite Z.leb_gt, Z.ltb_ge; lia).
  rewrite A1, A2. reflexivity.
Qed.
Lemma conv_objects (cs : cspace N) sel : convert_hyperparameters (SelList (map SHp sel)) cs = Ok sel.
Proof. cbn. induction sel as [|h t IH]; [reflexivity|]. cbn. rewrite IH. reflexivity. Qed.
Lemma calc_lengths (a : algorithm N) c p d : rect (num_features a) (a_samples a) -> ice_calculate a c p = Ok d ->
  length (i_x d) = num_samples a /\ length (i_y d) = num_samples a /\ length (i_v d) = num_samples a.
Proof. intros R E. pose proof (ice_calculate_shapes a c p d R E) as (A1 & A2 & A3 & _). auto. Qed.

Lemma getitem_holds (o o1 : ice N) d i : read_x o = (o1, Ok (i_x d)) -> holds o1 d ->
  ice_getitem o i = (o1, x <- row_at (i_x d) i ;; y <- row_at (i_y d) i ;; v <- row_at (i_v d) i ;; Ok (mkcv (a_cs (ic_alg o)) (a_sel (ic_alg o)) x y v (item_name i))).
Proof.
  intros Ex H. destruct (hold_reads o1 d H) as (_ & Ry & Rv). unfold ice_getitem, ice_item. rewrite Ex.
  destruct (row_at (i_x d) i); [|reflexivity]. cbn [bind]. rewrite Ry. destruct (row_at (i_y d) i); [|reflexivity]. cbn [bind]. rewrite Rv. destruct (row_at (i_v d) i); [|reflexivity]. cbn [bind].
  unfold curve_new. rewrite conv_objects. reflexivity.
Qed.
Lemma getitem_in (o o1 : ice N) d i k n : read_x o = (o1, Ok (i_x d)) -> holds o1 d -> length (i_x d) = n /\ length (i_y d) = n /\ length (i_v d) = n ->
  k < n -> (i = Z.of_nat k \/ i = Z.of_nat k - Z.of_nat n)%Z ->
  exists c, ice_getitem o i = (o1, Ok c) /\ is_row (ic_alg o) (i_x d) (i_y d) (i_v d) k c /\ cv_name c = item_name i.
Proof.
  intros Ex H (L1 & L2 & L3) Hk Hi. rewrite (getitem_holds o o1 d i Ex H).
  destruct (row_at_in (i_x d) i k) as (x & -> & E1); [lia|rewrite L1; exact Hi|].
  destruct (row_at_in (i_y d) i k) as (y & -> & E2); [lia|rewrite L2; exact Hi|].
  destruct (row_at_in (i_v d) i k) as (v & -> & E3); [lia|rewrite L3; exact Hi|].
  cbn [bind]. eexists. split; [reflexivity|]. split; [|reflexivity]. unfold is_row. cbn. auto.
Qed.
Lemma getitem_out (o o1 : ice N) d i n : read_x o = (o1, Ok (i_x d)) -> holds o1 d -> length (i_x d) = n -> (i < - Z.of_nat n \/ Z.of_nat n <= i)%Z ->
  ice_getitem o i = (o1, Err IndexError).
Proof. intros Ex H L Hi. rewrite (getitem_holds o o1 d i Ex H). rewrite row_at_out by (rewrite L; exact Hi). reflexivity. Qed.

(** ice[i] after any history *)
Theorem item_any (a : algorithm N) p ops i : rect (num_features a) (a_samples a) ->
  let o := fst (ice_run_ops (ice_new a p) ops) in
  match read_x o with
  | (o1, Ok x) => exists y v, read_y o1 = (o1, Ok y) /\ read_v o1 = (o1, Ok v) /\
      (forall k, k < ice_len o -> (i = Z.of_nat k \/ i = Z.of_nat k - Z.of_nat (ice_len o))%Z ->
         exists c, ice_getitem o i = (o1, Ok c) /\ is_row a x y v k c /\ cv_name c = item_name i) /\
      ((i < - Z.of_nat (ice_len o) \/ Z.of_nat (ice_len o) <= i)%Z -> ice_getitem o i = (o1, Err IndexError))
  | (o1, Err e) => ice_getitem o i = (o1, Err e)
  end.
Proof.
  intros R o. assert (G : good o) by (apply good_run; left; repeat split). assert (EA : ic_alg o = a) by apply alg_run.
  destruct (good_reads o G) as [(o1 & d & c & q & Ex & H & E2 & E)|(e & Ex)].
  - rewrite Ex. rewrite EA in E. pose proof (calc_lengths a c q d R E) as L. destruct (hold_reads o1 d H) as (_ & Ry & Rv). exists (i_y d), (i_v d).
    unfold ice_len. rewrite EA. refine (conj Ry (conj Rv (conj _ _))).
    + intros k Hk Hi. rewrite <- EA. apply (getitem_in o o1 d i k (num_samples a)); assumption.
    + intro Hi. apply (getitem_out o o1 d i (num_samples a)); [assumption|assumption|apply L|exact Hi].
  - rewrite Ex. unfold ice_getitem, ice_item. rewrite Ex. reflexivity.
Qed.

(** ** the loop *)
Lemma loop_det o i l o' r l' o'' r' : for_loop (N := N) o i l o' r -> for_loop o i l' o'' r' -> l = l' /\ o' = o'' /\ r = r'.
Proof.
  intro H. revert l' o'' r'. induction H as [o i o' E|o i o' e E Ne|o i o1 c cs o2 r E H IH]; intros l' o'' r' K;
    inversion K as [oo ii oo' E' X1 X2 X3 X4|oo ii oo' e' E' Ne' X1 X2 X3 X4|oo ii oo1 c' cs' oo2 rr E' K' X1 X2 X3 X4]; subst oo ii; rewrite E in E'; try discriminate E'; injection E' as; subst; auto; try congruence.
  destruct (IH _ _ _ K') as (-> & -> & ->). auto.
Qed.
Lemma loop_holds (o1 : ice N) d n : holds o1 d -> length (i_x d) = n /\ length (i_y d) = n /\ length (i_v d) = n ->
  forall m k o, m + k = n -> read_x o = (o1, Ok (i_x d)) -> ic_alg o = ic_alg o1 ->
  exists cs, for_loop o (Z.of_nat k) cs o1 (Ok tt) /\ length cs = m /\
    forall j c, nth_error cs j = Some c -> is_row (ic_alg o1) (i_x d) (i_y d) (i_v d) (k + j) c /\ cv_name c = item_name (Z.of_nat (k + j)).
Proof.
  intros H L. induction m as [|m IH]; intros k o E Ex EA.
  - exists []. split; [|split; [reflexivity|intros [|j] c Hj; discriminate Hj]]. apply loop_end. apply (getitem_out o o1 d _ n); [assumption|assumption|apply L|lia].
  - destruct (getitem_in o o1 d (Z.of_nat k) k n Ex H L) as (c & Ec & Rc & Nc); [lia|left; reflexivity|].
    destruct (IH (S k) o1) as (cs & Lp & Len & P); [lia|apply (hold_reads o1 d H)|reflexivity|].
    exists (c :: cs). split; [|split; [cbn; lia|]].
    + eapply loop_next; [exact Ec|]. replace (Z.of_nat k + 1)%Z with (Z.of_nat (S k)) by lia. exact Lp.
    + intros [|j] c' Hj; cbn in Hj.
      * injection Hj as <-. rewrite Nat.add_0_r. rewrite <- EA. auto.
      * replace (k + S j) with (S k + j) by lia. apply P. exact Hj.
Qed.
Theorem loop_any (a : algorithm N) p ops : rect (num_features a) (a_samples a) ->
  let o := fst (ice_run_ops (ice_new a p) ops) in
  match read_x o with
  | (o1, Ok x) => exists cs y v, read_y o1 = (o1, Ok y) /\ read_v o1 = (o1, Ok v) /\ length cs = ice_len o /\
      (forall l o' r, for_loop o 0 l o' r <-> l = cs /\ o' = o1 /\ r = Ok tt) /\
      (forall k c, nth_error cs k = Some c -> is_row a x y v k c /\ cv_name c = item_name (Z.of_nat k))
  | (o1, Err e) => forall l o' r, for_loop o 0 l o' r <-> l = [] /\ o' = o1 /\ r = (match e with IndexError => Ok tt | _ => Err e end)
  end.
Proof.
  intros R o. assert (G : good o) by (apply good_run; left; repeat split). assert (EA : ic_alg o = a) by apply alg_run.
  destruct (good_reads o G) as [(o1 & d & c & q & Ex & H & E2 & E)|(e & Ex)].
  - rewrite Ex. rewrite EA in E. pose proof (calc_lengths a c q d R E) as L. destruct (hold_reads o1 d H) as (_ & Ry & Rv).
    destruct (loop_holds o1 d (num_samples a) H L (num_samples a) 0 o) as (cs & Lp & Len & P); [lia|exact Ex|congruence|].
    exists cs, (i_y d), (i_v d). unfold ice_len. rewrite EA. refine (conj Ry (conj Rv (conj Len (conj _ _)))).
    + intros l o' r. split; [|intros (-> & -> & ->); exact Lp]. intro K. exact (loop_det _ _ _ _ _ _ _ _ K Lp).
    + intros k cc Hk. destruct (P k cc Hk) as [P1 P2]. rewrite E2, EA in P1. auto.
  - rewrite Ex. assert (Eg : ice_getitem o 0 = (o, Err e)) by (unfold ice_getitem, ice_item; rewrite Ex; reflexivity).
    assert (Lp : for_loop o 0 [] o (match e with IndexError => Ok tt | _ => Err e end)).
    { destruct e; try (apply loop_raise; [exact Eg|discriminate]). apply loop_end. exact Eg. }
    intros l o' r. split; [|intros (-> & -> & ->); exact Lp]. intro K. exact (loop_det _ _ _ _ _ _ _ _ K Lp).
Qed.

(** ** slices *)
Lemma filter_seq_between (f : nat -> bool) lo hi s m : (forall k, s <= k < s + m -> f k = ((lo <=? k) && (k <? hi))%nat) ->
  forall {A} (l : list A), length l = m -> map snd (filter (fun p => f (fst p)) (combine (seq s m) l)) = firstn (hi - Nat.max lo s) (skipn (lo - s) l).
Proof.
  revert s. induction m as [|m IH]; intros s F A l L.
  - destruct l; [|discriminate]. cbn. rewrite skipn_nil, firstn_nil. reflexivity.
  - destruct l as [|x l]; [discriminate|]. cbn in L. cbn [seq combine filter fst]. rewrite F by lia.
    assert (F' : forall k, S s <= k < S s + m -> f k = ((lo <=? k) && (k <? hi))%nat) by (intros k Hk; apply F; lia).
    specialize (IH (S s) F' A l ltac:(lia)). destruct (Nat.leb_spec lo s) as [Hl|Hl]; cbn [andb].
    + replace (lo - s) with 0 by lia. replace (Nat.max lo s) with s by lia. cbn [skipn]. replace (lo - S s) with 0 in IH by lia. cbn [skipn] in IH. replace (Nat.max lo (S s)) with (S s) in IH by lia.
      destruct (Nat.ltb_spec s hi) as [Hh|Hh].
      * cbn [map snd]. rewrite IH. replace (hi - s) with (S (hi - S s)) by lia. reflexivity.
      * rewrite IH. replace (hi - s) with 0 by lia. replace (hi - S s) with 0 by lia. reflexivity.
    + rewrite IH. replace (lo - s) with (S (lo - S s)) by lia. cbn [skipn]. replace (Nat.max lo (S s)) with (Nat.max lo s) by lia. reflexivity.
Qed.
Lemma rows_between_sliced {A} (l : list A) a b : rows_between l a b = sliced a b l.
Proof.
  unfold sliced, rows_between. set (n := length l). set (lo := match a with Some z => clip n z | None => 0 end). set (hi := match b with Some z => clip n z | None => n end).
  rewrite (filter_seq_between (in_slice n a b) lo hi 0 n).
  - rewrite Nat.max_0_r, Nat.sub_0_r. reflexivity.
  - intros k Hk. unfold in_slice. f_equal.
    + unfold lo. destruct a as [z|]; [|reflexivity]. unfold clip, from_start. destruct (Z.ltb_spec z 0); match goal with |- (?u <=? ?v)%Z = _ => destruct (Z.leb_spec u v) end; symmetry; (apply Nat.leb_le || apply Nat.leb_gt); lia.
    + unfold hi. destruct b as [z|]; [|symmetry; apply Nat.ltb_lt; lia]. unfold clip, from_start. destruct (Z.ltb_spec z 0); match goal with |- (?u <? ?v)%Z = _ => destruct (Z.ltb_spec u v) end; symmetry; (apply Nat.ltb_lt || apply Nat.ltb_ge); lia.
  - reflexivity.
Qed.
Theorem slice_any (a : algorithm N) p ops lo hi :
  let o := fst (ice_run_ops (ice_new a p) ops) in
  match read_x o with
  | (o1, Ok x) => exists y v, read_y o1 = (o1, Ok y) /\ read_v o1 = (o1, Ok v) /\
      ice_getslice o lo hi = (o1, Ok (mkcv (a_cs a) (a_sel a) (sliced lo hi x) (sliced lo hi y) (sliced lo hi v) (slice_name lo hi)))
  | (o1, Err e) => ice_getslice o lo hi = (o1, Err e)
  end.
Proof.
  intros o. assert (G : good o) by (apply good_run; left; repeat split). assert (EA : ic_alg o = a) by apply alg_run.
  destruct (good_reads o G) as [(o1 & d & c & q & Ex & H & E2 & E)|(e & Ex)].
  - rewrite Ex. destruct (hold_reads o1 d H) as (_ & Ry & Rv). exists (i_y d), (i_v d). refine (conj Ry (conj Rv _)).
    unfold ice_getslice, ice_item. rewrite Ex, Ry, Rv. cbn [bind]. unfold curve_new. rewrite conv_objects, !rows_between_sliced, EA. reflexivity.
  - rewrite Ex. unfold ice_getslice, ice_item. rewrite Ex. reflexivity.
Qed.
Theorem item_names i j : item_name i = item_name j -> i = j.
Proof. unfold item_name. intro H. apply append_inj, append_suffix, int_inj in H. exact H. Qed.

(** ** @dataclass *)
Theorem all_equal {X Y V} (c d : curve N X Y V) l :
  curve_eq c d = true /\ (curve_in c l = true <-> l <> []) /\
  curve_index c (d :: l) = Ok 0 /\ curve_remove c (d :: l) = Ok l.
Proof. refine (conj eq_refl (conj _ (conj eq_refl eq_refl))). destruct l; cbn; split; intro H; congruence. Qed.
End Seq.
