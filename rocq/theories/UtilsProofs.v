(** UtilsProofs.v - unscale (C30), evaluation ranges (C58). *)
From Coq Require Import Reals Lra.
From Verif Require Import Base Num NumLaws NumpyModel ConfigSpaceModel UtilsModel PartitionModel PartitionSpec ListLemmas IceProofs RealProofs RealSums.
Local Open Scope nat_scope.

Section P.
Context {N : Num}.

(** [row'] is [row] with every coordinate mapped by the unscaling of its hyperparameter *)
Definition unscaled_row (cs : cspace N) (row row' : list N) : Prop :=
  length row' = length row /\
  forall j h x, nth_error cs j = Some h -> nth_error row j = Some x ->
    exists lo up lg, hp_lower h = Ok lo /\ hp_upper h = Ok up /\ hp_log h = Ok lg /\
      nth_error row' j = Some (unscaler lo up lg x).

Definition done (cs : cspace N) (k : nat) (x c : list N) : Prop :=
  length c = length x /\
  (forall j, k <= j -> nth_error c j = nth_error x j) /\
  forall j h v, j < k -> nth_error cs j = Some h -> nth_error x j = Some v ->
    exists lo up lg, hp_lower h = Ok lo /\ hp_upper h = Ok up /\ hp_log h = Ok lg /\
      nth_error c j = Some (unscaler lo up lg v).

Lemma numerical_fields (h : hp N) : is_numerical h = true ->
  exists lo up lg, hp_lower h = Ok lo /\ hp_upper h = Ok up /\ hp_log h = Ok lg.
Proof. unfold is_numerical, hp_lower, hp_upper, hp_log. destruct (hp_kind h); try discriminate; eauto 6. Qed.

Lemma col1_numerical (h : hp N) i x copy lo up lg : is_numerical h = true ->
  hp_lower h = Ok lo -> hp_upper h = Ok up -> hp_log h = Ok lg ->
  unscale_col1 h i x copy = (v <- py_nth x i ;; Ok (set_nth i (unscaler lo up lg v) copy)).
Proof.
  intros Hn E1 E2 E3. unfold unscale_col1. unfold is_numerical in Hn.
  destruct (hp_kind h) eqn:K; try discriminate; rewrite E1, E2, E3; reflexivity.
Qed.
Lemma col2_numerical (h : hp N) i x copy : is_numerical h = true ->
  unscale_col2 h i x copy = mapM (fun rc => unscale_col1 h i (fst rc) (snd rc)) (combine x copy).
Proof.
  intro Hn. destruct (numerical_fields h Hn) as (lo & up & lg & E1 & E2 & E3).
  unfold unscale_col2. pose proof Hn as Hn'. unfold is_numerical in Hn'.
  assert (K : mapM (fun rc => v <- py_nth (fst rc) i ;; Ok (set_nth i (unscaler lo up lg v) (snd rc))) (combine x copy) =
          mapM (fun rc => unscale_col1 h i (fst rc) (snd rc)) (combine x copy)).
  { induction (combine x copy) as [|rc l IH]; [reflexivity|]. cbn [mapM]. rewrite IH, (col1_numerical h i _ _ lo up lg Hn E1 E2 E3). reflexivity. }
  destruct (hp_kind h); try discriminate; rewrite E1, E2, E3; exact K.
Qed.

Lemma done_step (cs : cspace N) k h x c : nth_error cs k = Some h -> is_numerical h = true -> k < length x ->
  done cs k x c -> exists c', unscale_col1 h k x c = Ok c' /\ done cs (S k) x c'.
Proof.
  intros Hh Hn Hk (L & U & D). destruct (numerical_fields h Hn) as (lo & up & lg & E1 & E2 & E3).
  destruct (nth_error x k) as [v|] eqn:Ev; [|apply nth_error_None in Ev; lia].
  exists (set_nth k (unscaler lo up lg v) c). split.
  - rewrite (col1_numerical h k x c lo up lg Hn E1 E2 E3). unfold py_nth. rewrite Ev. reflexivity.
  - refine (conj _ (conj _ _)).
    + rewrite set_nth_length. exact L.
    + intros j Hj. rewrite nth_error_set_nth_neq by lia. apply U. lia.
    + intros j h' v' Hj Hh' Hv'. destruct (Nat.eq_dec j k) as [->|Hne].
      * rewrite Hh in Hh'. inversion Hh'; subst h'. rewrite Ev in Hv'. inversion Hv'; subst v'.
        exists lo, up, lg. rewrite nth_error_set_nth_eq by lia. auto.
      * rewrite nth_error_set_nth_neq by lia. apply (D j h' v'); [lia|assumption|assumption].
Qed.

Lemma done_step2 (cs : cspace N) k h x c : nth_error cs k = Some h -> is_numerical h = true ->
  Forall (fun r => k < length r) x ->
  Forall2 (done cs k) x c -> exists c', unscale_col2 h k x c = Ok c' /\ Forall2 (done cs (S k)) x c'.
Proof.
  intros Hh Hn Hx D. rewrite col2_numerical by exact Hn. revert Hx. induction D as [|r cr x c HD D IH]; intro Hx.
  - exists []. split; [reflexivity|constructor].
  - inversion Hx as [|? ? Hx1 Hx2]; subst. destruct (IH Hx2) as (c' & E & D').
    destruct (done_step cs k h r cr Hh Hn Hx1 HD) as (cr' & E' & D''). exists (cr' :: c').
    split; [|constructor; assumption]. cbn [combine mapM fst snd]. rewrite E'. cbn [bind]. rewrite E. reflexivity.
Qed.

Lemma col3_numerical (h : hp N) i x copy : is_numerical h = true ->
  unscale_col3 h i x copy = mapM (fun mc => unscale_col2 h i (fst mc) (snd mc)) (combine x copy).
Proof. unfold is_numerical, unscale_col3. destruct (hp_kind h); try discriminate; reflexivity. Qed.

Lemma done_step3 (cs : cspace N) k h x c : nth_error cs k = Some h -> is_numerical h = true ->
  Forall (Forall (fun r => k < length r)) x ->
  Forall2 (Forall2 (done cs k)) x c -> exists c', unscale_col3 h k x c = Ok c' /\ Forall2 (Forall2 (done cs (S k))) x c'.
Proof.
  intros Hh Hn Hx D. rewrite col3_numerical by exact Hn. revert Hx. induction D as [|r cr x c HD D IH]; intro Hx.
  - exists []. split; [reflexivity|constructor].
  - inversion Hx as [|? ? Hx1 Hx2]; subst. destruct (IH Hx2) as (c' & E & D').
    destruct (done_step2 cs k h r cr Hh Hn Hx1 HD) as (cr' & E' & D''). exists (cr' :: c').
    split; [|constructor; assumption]. cbn [combine mapM fst snd]. rewrite E'. cbn [bind]. rewrite E. reflexivity.
Qed.

Lemma cols_loop {T} (cs : cspace N) (step : hp N -> nat -> T -> res T) (D : nat -> T -> Prop) :
  all_numerical cs ->
  (forall k h c, nth_error cs k = Some h -> is_numerical h = true -> D k c -> exists c', step h k c = Ok c' /\ D (1 + k) c') ->
  forall c, D 0 c ->
  exists c', foldM (fun c hi => step (fst hi) (snd hi) c) (combine cs (seq 0 (length cs))) c = Ok c' /\ D (length cs) c'.
Proof.
  intros AN ST. 
  assert (G : forall suf pre c, cs = pre ++ suf -> D (length pre) c ->
     exists c', foldM (fun c hi => step (fst hi) (snd hi) c) (combine suf (seq (length pre) (length suf))) c = Ok c' /\ D (length cs) c').
  { induction suf as [|h suf IH]; intros pre c E HD.
    - exists c. split; [reflexivity|]. rewrite E, app_nil_r. exact HD.
    - assert (Hh : nth_error cs (length pre) = Some h) by (rewrite E, nth_error_app2, Nat.sub_diag by lia; reflexivity).
      assert (Hn : is_numerical h = true) by (apply (proj1 (Forall_forall _ _) AN), (nth_error_In _ _ Hh)).
      destruct (ST _ _ _ Hh Hn HD) as (c1 & E1 & D1). cbn [combine length seq foldM fst snd]. rewrite E1. cbn [bind].
      specialize (IH (pre ++ [h]) c1). rewrite app_length in IH. cbn [length] in IH.
      replace (length pre + 1) with (S (length pre)) in IH by lia. apply IH; [rewrite <- app_assoc; exact E|exact D1]. }
  intros c H0. exact (G cs [] c eq_refl H0).
Qed.

Lemma done_0 (cs : cspace N) x : done cs 0 x x.
Proof. refine (conj eq_refl (conj _ _)); [reflexivity|lia]. Qed.
Lemma done_all (cs : cspace N) x c : done cs (length cs) x c -> unscaled_row cs x c.
Proof.
  intros (L & _ & D). split; [exact L|]. intros j h v Hh Hv. apply (D j h v); auto. exact (nth_error_Some_lt _ _ _ Hh).
Qed.
Lemma Forall2_diag {A} (R : A -> A -> Prop) l : (forall x, R x x) -> Forall2 R l l.
Proof. intro H. induction l; constructor; auto. Qed.

Theorem unscale_coordinatewise (cs : cspace N) : all_numerical cs ->
  (forall row, length row = length cs -> exists row', unscale (A1 row) cs = Ok (A1 row') /\ unscaled_row cs row row') /\
  (forall a, Forall (fun row => length row = length cs) a ->
     exists a', unscale (A2 a) cs = Ok (A2 a') /\ Forall2 (unscaled_row cs) a a') /\
  (forall a, Forall (Forall (fun row => length row = length cs)) a ->
     exists a', unscale (A3 a) cs = Ok (A3 a') /\ Forall2 (Forall2 (unscaled_row cs)) a a').
Proof.
  intro AN.
  assert (Lt : forall k h, nth_error cs k = Some h -> k < length cs) by (intros k h H; exact (nth_error_Some_lt _ _ _ H)).
  refine (conj _ (conj _ _)).
  - intros row L. destruct (cols_loop cs (fun h k c => unscale_col1 h k row c) (fun k c => done cs k row c) AN) with (c := row) as (c' & E & D).
    + intros k h c Hh Hn HD. apply done_step; auto. rewrite L. eauto.
    + apply done_0.
    + exists c'. unfold unscale. rewrite E. split; [reflexivity|]. apply done_all, D.
  - intros a L. destruct (cols_loop cs (fun h k c => unscale_col2 h k a c) (fun k c => Forall2 (done cs k) a c) AN) with (c := a) as (c' & E & D).
    + intros k h c Hh Hn HD. apply done_step2; auto. eapply Forall_impl; [|exact L]. cbn. intros r ->. eauto.
    + apply Forall2_diag, done_0.
    + exists c'. unfold unscale. rewrite E. split; [reflexivity|]. eapply Forall2_impl'; [|exact D]. intros; apply done_all; assumption.
  - intros a L. destruct (cols_loop cs (fun h k c => unscale_col3 h k a c) (fun k c => Forall2 (Forall2 (done cs k)) a c) AN) with (c := a) as (c' & E & D).
    + intros k h c Hh Hn HD. apply done_step3; auto. eapply Forall_impl; [|exact L]. cbn. intros m Hm.
      eapply Forall_impl; [|exact Hm]. cbn. intros r ->. eauto.
    + apply Forall2_diag. intro. apply Forall2_diag, done_0.
    + exists c'. unfold unscale. rewrite E. split; [reflexivity|]. eapply Forall2_impl'; [|exact D]. intros m m' Hm.
      eapply Forall2_impl'; [|exact Hm]. intros; apply done_all; assumption.
Qed.

(** a space with a non-numerical hyperparameter: non-empty float arrays raise TypeError *)
Lemma foldM_err_at {A S} (f : S -> A -> res S) pre x post s s' e :
  foldM f pre s = Ok s' -> (forall s, f s x = Err e) -> foldM f (pre ++ x :: post) s = Err e.
Proof. intros H He. rewrite foldM_app, H. cbn. rewrite He. reflexivity. Qed.

Lemma combine_app' {A B} (l1 l2 : list A) (m1 m2 : list B) : length m1 = length l1 ->
  combine (l1 ++ l2) (m1 ++ m2) = combine l1 m1 ++ combine l2 m2.
Proof.
  revert m1. induction l1 as [|a l1 IH]; intros [|b m1] H; try discriminate; [reflexivity|]. cbn in *. f_equal. apply IH. lia.
Qed.

Theorem unscale_categorical_raises (cs : cspace N) pre h post : cs = pre ++ h :: post ->
  all_numerical pre -> is_numerical h = false ->
  (forall row, length row = length cs -> unscale (A1 row) cs = Err TypeError) /\
  (forall a, a <> [] -> Forall (fun row => length row = length cs) a -> unscale (A2 a) cs = Err TypeError) /\
  (forall a, a <> [] -> Forall (Forall (fun row => length row = length cs)) a -> unscale (A3 a) cs = Err TypeError).
Proof.
  intros E AN Hh.
  assert (Sq : combine cs (seq 0 (length cs)) = combine pre (seq 0 (length pre)) ++ (h, length pre) :: combine post (seq (S (length pre)) (length post))).
  { rewrite E, app_length. cbn [length]. rewrite seq_app. cbn [seq Nat.add].
    apply (combine_app' pre (h :: post) (seq 0 (length pre)) (length pre :: seq (S (length pre)) (length post))).
    apply seq_length. }
  assert (C1 : forall i x c, unscale_col1 h i x c = Err TypeError).
  { intros. unfold unscale_col1. unfold is_numerical in Hh. destruct (hp_kind h); try discriminate; reflexivity. }
  assert (C2 : forall i x c, x <> [] -> unscale_col2 h i x c = Err TypeError).
  { intros i x c Hx. unfold unscale_col2. unfold is_numerical in Hh. destruct (hp_kind h); try discriminate; try reflexivity. destruct x; [congruence|reflexivity]. }
  assert (C3 : forall i x c, x <> [] -> unscale_col3 h i x c = Err TypeError).
  { intros i x c Hx. unfold unscale_col3. unfold is_numerical in Hh. destruct (hp_kind h); try discriminate; try reflexivity. destruct x; [congruence|reflexivity]. }
  assert (Lt : forall k h', nth_error pre k = Some h' -> k < length cs).
  { intros k h' H. apply nth_error_Some_lt in H. rewrite E, app_length. cbn. lia. }
  refine (conj _ (conj _ _)).
  - intros row L. destruct (cols_loop pre (fun h k c => unscale_col1 h k row c) (fun k c => done pre k row c) AN) with (c := row) as (c' & E' & D).
    + intros k h' c Hh' Hn HD. apply done_step; auto. rewrite L. eauto.
    + apply done_0.
    + unfold unscale. rewrite Sq. erewrite foldM_err_at; [reflexivity|exact E'|]. intro s. apply C1.
  - intros a Ha L. destruct (cols_loop pre (fun h k c => unscale_col2 h k a c) (fun k c => Forall2 (done pre k) a c) AN) with (c := a) as (c' & E' & D).
    + intros k h' c Hh' Hn HD. apply done_step2; auto. eapply Forall_impl; [|exact L]. cbn. intros r ->. eauto.
    + apply Forall2_diag, done_0.
    + unfold unscale. rewrite Sq. erewrite foldM_err_at; [reflexivity|exact E'|]. intro s. apply C2, Ha.
  - intros a Ha L. destruct (cols_loop pre (fun h k c => unscale_col3 h k a c) (fun k c => Forall2 (Forall2 (done pre k)) a c) AN) with (c := a) as (c' & E' & D).
    + intros k h' c Hh' Hn HD. apply done_step3; auto. eapply Forall_impl; [|exact L]. cbn. intros m Hm.
      eapply Forall_impl; [|exact Hm]. cbn. intros r ->. eauto.
    + apply Forall2_diag. intro. apply Forall2_diag, done_0.
    + unfold unscale. rewrite Sq. erewrite foldM_err_at; [reflexivity|exact E'|]. intro s. apply C3, Ha.
Qed.

End P.

Local Open Scope R_scope.

(** over the reals, inside [0,1], unscale is unscale_float *)
Lemma unscaler_is_unscale_float (cs : cspace RNum) h lo up lg x :
  NoDup (map hp_name cs) -> In h cs -> hp_lower h = Ok lo -> hp_upper h = Ok up -> hp_log h = Ok lg ->
  good_bounds lo up lg -> (lg = true \/ 0 <= x <= 1) -> unscale_float (N:=RNum) x cs h = Ok (unscaler (N:=RNum) lo up lg x).
Proof.
  intros ND Hin E1 E2 E3 G Hx. assert (Hi : hp_is h lo up lg).
  { unfold hp_is, hp_lower, hp_upper, hp_log in *. destruct (hp_kind h) eqn:K; try discriminate.
    - left. congruence.
    - right. do 2 eexists. split; [f_equal; congruence|]. split; [inversion E1|inversion E2]; reflexivity. }
  rewrite (unscale_float_R cs h h lo up lg x (cs_get_nodup _ _ ND Hin) Hi), unscaler_R.
  destruct lg; [reflexivity|]. apply (f_equal (@Ok R)). apply clamp_id. apply raw_unscale_range; [exact G|]. destruct Hx; [discriminate|assumption].
Qed.

Definition bounds_good (cs : cspace RNum) : Prop :=
  forall h lo up lg, In h cs -> hp_lower h = Ok lo -> hp_upper h = Ok up -> hp_log h = Ok lg -> good_bounds lo up lg.

Theorem unscale_is_unscale_float (cs : cspace RNum) row row' :
  NoDup (map hp_name cs) -> bounds_good cs -> unscaled_row cs row row' ->
  forall j h x u, nth_error cs j = Some h -> nth_error row j = Some x -> nth_error row' j = Some u ->
    0 <= x <= 1 -> unscale_float (N:=RNum) x cs h = Ok u.
Proof.
  intros ND BG [_ H] j h x u Hh Hx Hu Hr. destruct (H j h x Hh Hx) as (lo & up & lg & E1 & E2 & E3 & E4).
  rewrite E4 in Hu. inversion Hu; subst u. apply nth_error_In in Hh.
  exact (unscaler_is_unscale_float cs h lo up lg x ND Hh E1 E2 E3 (BG h lo up lg Hh E1 E2 E3) (or_intror Hr)).
Qed.

(** outside of [0,1] a linear coordinate is extrapolated, not clamped *)
Theorem unscale_not_clamped (cs : cspace RNum) h lo up x :
  NoDup (map hp_name cs) -> In h cs -> hp_is h lo up false -> good_bounds lo up false -> (x < 0 \/ 1 < x) ->
  exists u, unscale_float (N:=RNum) x cs h = Ok u /\ lo <= u <= up /\
    unscaler (N:=RNum) lo up false x <> u /\ (unscaler (N:=RNum) lo up false x < lo \/ up < unscaler (N:=RNum) lo up false x).
Proof.
  intros ND Hin Hi G Hx. exists (clamp lo up (raw_unscale lo up false x)).
  split; [apply (unscale_float_R cs h h lo up false x (cs_get_nodup _ _ ND Hin) Hi)|].
  pose proof (clamp_bounds lo up (raw_unscale lo up false x)) as B. destruct G as [G _].
  rewrite unscaler_R. unfold raw_unscale in *. assert (x * (up - lo) + lo < lo \/ up < x * (up - lo) + lo) by (destruct Hx; [left|right]; nra).
  split; [apply B; lra|]. split; [lra|]. exact H.
Qed.

(** ** C58 *)
Definition evenly (lo up : R) (l : list R) (n : nat) : Prop :=
  length l = n /\ forall i, (i < n)%nat -> nth_error l i = Some (if Nat.eqb n 1 then lo else lo + INR i * ((up - lo) / INR (n - 1))).

Lemma linspace_R (lo up : R) n : evenly lo up (linspace (N:=RNum) lo up n) n.
Proof.
  split; [exact (linspace_length (N:=RNum) lo up n)|]. intros i Hi. destruct n as [|[|n]]; [lia| |].
  - destruct i; [reflexivity|lia].
  - cbn [linspace Nat.eqb]. replace (S (S n) - 1)%nat with (S n) by lia.
    assert (Hn : INR (S n) <> 0) by (apply not_0_INR; discriminate).
    destruct (Nat.eq_dec i (S n)) as [->|Hne].
    + rewrite nth_error_app2; rewrite map_length, seq_length; [|lia]. rewrite Nat.sub_diag. cbn [nth_error]. f_equal. field. exact Hn.
    + rewrite nth_error_app1 by (rewrite map_length, seq_length; lia). rewrite nth_error_map_seq by lia. f_equal.
      cbn [nadd nmul ndiv nsub nofZ RNum]. rewrite <- !INR_IZR_INZ. rewrite Rplus_comm. reflexivity.
Qed.

Lemma evenly_mono lo up l n i j x y : evenly lo up l n -> lo < up -> (i < j)%nat -> nth_error l i = Some x -> nth_error l j = Some y -> x < y.
Proof.
  intros [L E] Hlt Hij Hx Hy. pose proof (nth_error_Some_lt _ _ _ Hy) as Hj. rewrite L in Hj.
  rewrite E in Hx by lia. rewrite E in Hy by lia. destruct (Nat.eqb_spec n 1) as [->|Hn]; [lia|]. inversion Hx. inversion Hy.
  assert (INR i < INR j) by (apply lt_INR; lia). assert (0 < INR (n - 1)) by (apply lt_0_INR; lia).
  assert (0 < (up - lo) / INR (n - 1)) by (apply Rdiv_lt_0_compat; lra). nra.
Qed.
Lemma evenly_ends lo up l n : evenly lo up l n -> (2 <= n)%nat -> nth_error l 0 = Some lo /\ nth_error l (n - 1) = Some up.
Proof.
  intros [L E] Hn. rewrite !E by lia. destruct (Nat.eqb_spec n 1); [lia|]. split; f_equal; [cbn; ring|].
  field. apply not_0_INR. lia.
Qed.

(** the values on a log axis *)
Definition on_log_axis (l : list R) : list R := map ln l.

Theorem ranges_spec (hps : list (hp RNum)) n scaled r :
  get_ranges hps n scaled = Ok r ->
  Forall2 (fun h l => is_numerical h = true /\ length l = n /\
    if scaled then evenly 0 1 l n
    else forall lo up lg, hp_is h lo up lg -> good_bounds lo up lg ->
         (if lg then evenly (ln lo) (ln up) (on_log_axis l) n else evenly lo up l n) /\
         (forall i j x y, (i < j)%nat -> nth_error l i = Some x -> nth_error l j = Some y -> x < y) /\
         ((2 <= n)%nat -> nth_error l 0 = Some lo /\ nth_error l (n - 1) = Some up)) hps r.
Proof.
  unfold get_ranges. intro H. apply mapM_ok in H. eapply Forall2_impl'; [|exact H]. cbv beta. clear.
  intros h l H. apply bind_ok in H. destruct H as (u & Hg & H). apply guard_ok in Hg. split; [exact Hg|].
  destruct scaled.
  { inversion H; subst l. split; [exact (linspace_length (N:=RNum) _ _ n)|]. exact (linspace_R 0 1 n). }
  apply bind_ok in H. destruct H as (lg & E3 & H). apply bind_ok in H. destruct H as (lo & E1 & H). apply bind_ok in H. destruct H as (up & E2 & H).
  destruct lg; inversion H; subst l; clear H.
  - split; [unfold logspace; rewrite map_length; apply linspace_length|].
    intros lo' up' lg' Hi G. destruct (hp_is_fields _ _ _ _ Hi) as (F1 & F2 & F3).
    assert (lo' = lo) by congruence. assert (up' = up) by congruence. assert (lg' = true) by congruence. subst lo' up' lg'.
    destruct G as [G1 G2]. specialize (G2 eq_refl).
    assert (L10 : 0 < ln 10) by (rewrite <- ln_1; apply ln_increasing; lra).
    assert (EL : evenly (ln lo) (ln up) (on_log_axis (logspace (N:=RNum) (nlog10 (N:=RNum) lo) (nlog10 (N:=RNum) up) n)) n).
    { destruct (linspace_R (nlog10 (N:=RNum) lo) (nlog10 (N:=RNum) up) n) as [L E]. unfold on_log_axis, logspace.
      split; [rewrite !map_length; exact L|]. intros i Hi'. rewrite nth_error_map.
      etransitivity; [apply f_equal; exact (nth_error_map (npow10 (N:=RNum)) i (linspace (N:=RNum) (nlog10 (N:=RNum) lo) (nlog10 (N:=RNum) up) n))|].
      etransitivity; [apply f_equal, f_equal; exact (E i Hi')|]. cbn [option_map]. f_equal. unfold npow10, nlog10. cbn [nexp nmul nln nofZ ndiv RNum]. rewrite ln_exp.
      destruct (Nat.eqb_spec n 1) as [->|Hn1]; field; [lra|]. split; [apply not_0_INR; lia|lra]. }
    refine (conj EL (conj _ _)).
    + intros i j x y Hij Hx Hy.
      assert (P : forall k z, nth_error (logspace (N:=RNum) (nlog10 (N:=RNum) lo) (nlog10 (N:=RNum) up) n) k = Some z -> 0 < z).
      { intros k z Hz. apply nth_error_In in Hz. unfold logspace in Hz. apply in_map_iff in Hz. destruct Hz as (w & <- & _). apply exp_pos. }
      apply ln_lt_inv; [exact (P i x Hx)|exact (P j y Hy)|].
      assert (nth_error (on_log_axis (logspace (N:=RNum) (nlog10 (N:=RNum) lo) (nlog10 (N:=RNum) up) n)) i = Some (ln x)).
      { unfold on_log_axis. rewrite nth_error_map. etransitivity; [apply f_equal; exact Hx|]. reflexivity. }
      assert (nth_error (on_log_axis (logspace (N:=RNum) (nlog10 (N:=RNum) lo) (nlog10 (N:=RNum) up) n)) j = Some (ln y)).
      { unfold on_log_axis. rewrite nth_error_map. etransitivity; [apply f_equal; exact Hy|]. reflexivity. }
      eapply (evenly_mono _ _ _ n i j); [exact EL|apply ln_increasing; lra|exact Hij|assumption|assumption].
    + intro Hn. destruct (evenly_ends _ _ _ n (linspace_R (nlog10 (N:=RNum) lo) (nlog10 (N:=RNum) up) n) Hn) as [A B].
      assert (Q : forall z, 0 < z -> npow10 (N:=RNum) (nlog10 (N:=RNum) z) = z).
      { intros z Hz. unfold npow10, nlog10. cbn [nexp nmul nln nofZ ndiv RNum]. replace (ln z / ln 10 * ln 10) with (ln z) by (field; lra). apply exp_ln, Hz. }
      split.
      * etransitivity; [exact (nth_error_map (npow10 (N:=RNum)) 0 (linspace (N:=RNum) (nlog10 (N:=RNum) lo) (nlog10 (N:=RNum) up) n))|].
        etransitivity; [apply f_equal; exact A|]. cbn [option_map]. f_equal. apply Q. lra.
      * etransitivity; [exact (nth_error_map (npow10 (N:=RNum)) (n - 1) (linspace (N:=RNum) (nlog10 (N:=RNum) lo) (nlog10 (N:=RNum) up) n))|].
        etransitivity; [apply f_equal; exact B|]. cbn [option_map]. f_equal. apply Q. lra.
  - split; [exact (linspace_length (N:=RNum) _ _ n)|].
    intros lo' up' lg' Hi G. destruct (hp_is_fields _ _ _ _ Hi) as (F1 & F2 & F3).
    assert (lo' = lo) by congruence. assert (up' = up) by congruence. assert (lg' = false) by congruence. subst lo' up' lg'.
    pose proof (linspace_R lo up n) as EL. refine (conj EL (conj _ _)).
    + intros i j x y. apply (evenly_mono lo up _ n); [exact EL|apply G].
    + intro Hn. exact (evenly_ends lo up _ n EL Hn).
Qed.
