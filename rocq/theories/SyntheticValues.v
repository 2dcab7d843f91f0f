(** SyntheticValues.v - the values of the synthetic functions as the published formulas (C81). *)
From Coq Require Import Reals Lra Lia.
From Coquelicot Require Import Coquelicot.
From Verif Require Import Base Num ConfigSpaceModel UtilsModel SyntheticModel SyntheticSpec SyntheticBounds SyntheticSpace SyntheticProofs.
Local Open Scope R_scope.
Local Open Scope list_scope.

(** ** proofs *)
Lemma sum_upto_ext n f g : (forall i, (i < n)%nat -> f i = g i) -> sum_upto n f = sum_upto n g.
Proof. induction n as [|n IH]; cbn; intro H; [reflexivity|]. rewrite IH, H by (intros; try apply H; lia). reflexivity. Qed.
Lemma sum_upto_shift n f : sum_upto (S n) f = f 0%nat + sum_upto n (fun i => f (S i)).
Proof. induction n as [|n IH]; cbn; [lra|]. cbn in IH. rewrite IH. lra. Qed.
Lemma sum_upto_scale n f a : sum_upto n (fun i => f i / a) = sum_upto n f / a.
Proof. unfold Rdiv. induction n as [|n IH]; cbn; [lra|]. rewrite IH. lra. Qed.
Lemma rsum_nth (f : nat -> R) n : forall s, rsum (map f (seq s n)) = sum_upto n (fun i => f (s + i)%nat).
Proof.
  induction n as [|n IH]; intro s; [reflexivity|]. rewrite sum_upto_shift. cbn [seq map]. change (rsum (f s :: map f (seq (S s) n))) with (f s + rsum (map f (seq (S s) n))).
  rewrite IH. rewrite Nat.add_0_r. f_equal. apply sum_upto_ext. intros i _. f_equal. lia.
Qed.
Lemma xs_coordinates c d x : coordinates c d x -> config_xs (N:=RNum) c d = Ok (map x (seq 0 d)).
Proof.
  intro H. unfold config_xs. assert (G : forall s n, (s + n <= d)%nat -> mapM (fun i => config_item (N:=RNum) c (String.append "x" (dec (i + 1)))) (seq s n) = Ok (map x (seq s n))).
  { intros s n. revert s. induction n as [|n IH]; intros s Hs; [reflexivity|]. cbn [seq mapM map]. unfold config_item at 1. rewrite H by lia. cbn [cnum bind].
    etransitivity; [apply (f_equal (fun r => bind r _)); apply IH; lia|]. reflexivity. }
  apply G. lia.
Qed.
Lemma levy_formula n (c : config RNum) x : coordinates c (S n) x -> let w i := 1 + (x i - 1) / 4 in
  levy_value (S n) c = Ok (sin (PI * w 0%nat) ^ 2 + sum_upto n (fun i => (w i - 1) ^ 2 * (1 + 10 * sin (PI * w i + 1) ^ 2))
                           + (w n - 1) ^ 2 * (1 + sin (2 * PI * w n) ^ 2)).
Proof.
  intros H w. unfold levy_value. etransitivity; [apply (f_equal (fun r => bind r levy_of)); exact (xs_coordinates c (S n) x H)|]. cbn [bind].
  rewrite levy_of_eq by discriminate. assert (E : map levy_w (map x (seq 0 (S n))) = map w (seq 0 (S n))) by (rewrite map_map; reflexivity). rewrite E.
  rewrite seq_S, !map_app. cbn [map]. rewrite removelast_last, last_last, map_map, (rsum_nth (fun i => levy_term2 (w i))). destruct n; reflexivity.
Qed.
Lemma ackley_formula d (c : config RNum) x : coordinates c d x ->
  ackley_value d c = Ok (- 20 * exp (- (2 / 10) * sqrt (sum_upto d (fun i => x i ^ 2) / INR d)) - exp (sum_upto d (fun i => cos (2 * PI * x i)) / INR d) + 20 + exp 1).
Proof.
  intro H. unfold ackley_value. etransitivity; [apply (f_equal (fun r => bind r _)); exact (xs_coordinates c d x H)|]. cbn [bind]. unfold ackley_of.
  rewrite map_length, seq_length, !map_map, (rsum_nth (fun i => x i ^ 2)), (rsum_nth (fun i => cos (2 * PI * x i) / INR d)), sum_upto_scale. reflexivity.
Qed.
Lemma crossintray_formula (c : config RNum) x : coordinates c 2 x ->
  crossintray_value c = Ok (- (1 / 10000) * Rpower (Rabs (sin (x 0%nat) * sin (x 1%nat) * exp (Rabs (100 - sqrt (x 0%nat ^ 2 + x 1%nat ^ 2) / PI))) + 1) (1 / 10)).
Proof.
  intro H. pose proof (H 0%nat ltac:(lia)) as H0. pose proof (H 1%nat ltac:(lia)) as H1. unfold crossintray_value, config_item.
  change (String.append "x" (dec (0 + 1))) with "x1"%string in H0. change (String.append "x" (dec (1 + 1))) with "x2"%string in H1. rewrite H0, H1. reflexivity.
Qed.
Lemma stybtang_formula cs (c : config RNum) x : entries_of cs c x ->
  stybtang_value cs c = Ok (/ 2 * sum_upto (length cs) (fun k => x k ^ 4 - 16 * x k ^ 2 + 5 * x k)).
Proof.
  intro H. unfold stybtang_value. assert (G : mapM (fun h => config_item (N:=RNum) c (hp_name h)) cs = Ok (map x (seq 0 (length cs)))).
  { revert x H. induction cs as [|h cs IH]; intros x H; [reflexivity|]. cbn [mapM length seq map]. unfold config_item at 1. rewrite (H 0%nat h eq_refl). cbn [cnum bind].
    rewrite <- seq_shift, map_map. etransitivity; [apply (f_equal (fun r => bind r _)); apply (IH (fun i => x (S i))); intros k g E; exact (H (S k) g E)|]. reflexivity. }
  etransitivity; [apply (f_equal (fun r => bind r _)); exact G|]. cbn [bind]. unfold stybtang_of. rewrite map_map, (rsum_nth (fun i => x i ^ 4 - 16 * x i ^ 2 + 5 * x i)).
  f_equal. unfold Rdiv. rewrite Rmult_comm. reflexivity.
Qed.
Lemma entries_values (c : config RNum) x : entries c x -> config_values (N:=RNum) c = Ok (map x (seq 0 (length c))).
Proof.
  unfold config_values. revert x. induction c as [|p c IH]; intros x H; [reflexivity|]. cbn [mapM length seq map]. rewrite (H 0%nat p eq_refl). cbn [cnum bind].
  rewrite <- seq_shift, map_map. etransitivity; [apply (f_equal (fun r => bind r _)); apply (IH (fun i => x (S i))); intros k g E; exact (H (S k) g E)|]. reflexivity.
Qed.
Lemma square_formula (c : config RNum) x : entries c x ->
  square_value c = Ok (sum_upto (length c) (fun k => x k ^ 2)) /\ negative_square_value c = Ok (1 - sum_upto (length c) (fun k => x k ^ 2)).
Proof.
  intro H. unfold square_value, negative_square_value. split; (etransitivity; [apply (f_equal (fun r => bind r _)); exact (entries_values c x H)|]);
    cbn [bind]; rewrite map_map, (rsum_nth (fun i => x i ^ 2)); reflexivity.
Qed.

(** ** calls: BlackboxFunction.__call__ *)
Section Call.
Context {N : Num}.
Lemma make_configuration_ok (cs : cspace N) kw : (forall n, In n (map fst kw) -> In n (map hp_name cs)) ->
  (forall h, In h cs -> exists v, config_get kw (hp_name h) = Some v /\ legal_value h v = true) ->
  exists c, make_configuration cs kw = Ok c /\ map fst c = map hp_name cs /\
    Forall2 (fun h p => fst p = hp_name h /\ config_get kw (hp_name h) = Some (snd p)) cs c.
Proof.
  intros Hk Hl. unfold make_configuration.
  assert (G : forallb (fun p => existsb (fun h => String.eqb (hp_name h) (fst p)) cs) kw = true).
  { apply forallb_forall. intros p Hp. apply existsb_exists. destruct (proj1 (in_map_iff _ _ _) (Hk (fst p) (in_map fst _ _ Hp))) as (h & E & Hh). exists h. split; [exact Hh|]. apply String.eqb_eq. exact E. }
  rewrite G. cbn [guard bind]. clear G Hk. induction cs as [|h cs IH]; [exists []; repeat split; constructor|].
  destruct (Hl h (or_introl eq_refl)) as (v & Ev & Lv). destruct IH as (c & E & M & F); [intros g Hg; apply Hl; right; exact Hg|].
  exists ((hp_name h, v) :: c). cbn [mapM]. rewrite Ev, Lv. cbn [bind]. rewrite E. cbn [bind map fst]. rewrite M. repeat split. constructor; [split; [reflexivity|exact Ev]|exact F].
Qed.
Lemma forall2_get (cs : cspace N) (kw c : config N) : Forall2 (fun h p => fst p = hp_name h /\ config_get kw (hp_name h) = Some (snd p)) cs c ->
  forall n, In n (map hp_name cs) -> config_get c n = config_get kw n.
Proof.
  induction 1 as [|h p cs c [E1 E2] F IH]; intros n Hn; [destruct Hn|]. destruct p as [m v]. cbn in E1, E2 |- *. subst m. destruct (String.eqb_spec (hp_name h) n) as [<-|Ne]; [symmetry; exact E2|].
  apply IH. destruct Hn as [E|Hn]; [contradiction|exact Hn].
Qed.
(** a call hands over every keyword and nothing else, whatever their order; any other keywords raise *)
Lemma call_spec (cs : cspace N) kw {A} (value : config N -> res A) :
  ((forall n, In n (map fst kw) -> In n (map hp_name cs)) -> (forall h, In h cs -> exists v, config_get kw (hp_name h) = Some v /\ legal_value h v = true) ->
   exists c, bb_call value cs kw = value c /\ map fst c = map hp_name cs /\ forall n, In n (map hp_name cs) -> config_get c n = config_get kw n) /\
  ((exists n, In n (map fst kw) /\ ~ In n (map hp_name cs)) \/ (exists h, In h cs /\ forall v, config_get kw (hp_name h) = Some v -> legal_value h v = false) ->
   bb_call value cs kw = Err ValueError).
Proof.
  split.
  - intros Hk Hl. destruct (make_configuration_ok cs kw Hk Hl) as (c & E & M & F). exists c. unfold bb_call. rewrite E. repeat split; [exact M|]. exact (forall2_get cs kw c F).
  - intro H. assert (E : make_configuration cs kw = Err ValueError); [|unfold bb_call; rewrite E; reflexivity]. unfold make_configuration.
    destruct (forallb _ kw) eqn:G; cbn [guard bind]; [|reflexivity]. destruct H as [(n & Hn & Hc)|(h & Hh & Hv)].
    + exfalso. apply in_map_iff in Hn as (p & <- & Hp). rewrite forallb_forall in G. specialize (G p Hp). apply existsb_exists in G as (h & Hh & Eh). apply String.eqb_eq in Eh. apply Hc. rewrite <- Eh. apply in_map. exact Hh.
    + clear G. induction cs as [|g cs IH]; [destruct Hh|]. cbn [mapM]. destruct Hh as [->|Hh].
      * destruct (config_get kw (hp_name h)) as [v|] eqn:E; [rewrite (Hv v eq_refl)|]; reflexivity.
      * destruct (config_get kw (hp_name g)) as [v|]; [|reflexivity]. destruct (legal_value g v); [|reflexivity]. cbn [bind]. rewrite (IH Hh). reflexivity.
Qed.
Lemma config_get_perm (c c' : config N) n : NoDup (map fst c) -> Permutation c c' -> config_get c n = config_get c' n.
Proof.
  intros D P. revert D. induction P as [|[m v] a b P IH|[m v] [m' v'] a|a b b' P1 IH1 P2 IH2]; intro D; cbn [config_get].
  - reflexivity.
  - destruct (String.eqb m n); [reflexivity|]. apply IH. now inversion D.
  - destruct (String.eqb m n) eqn:E; destruct (String.eqb m' n) eqn:E'; try reflexivity. exfalso. apply String.eqb_eq in E, E'. subst m m'. inversion D as [|? ? Hn _]; subst. apply Hn. left. reflexivity.
  - rewrite IH1 by exact D. apply IH2. eapply Permutation_NoDup; [apply Permutation_map; exact P1|exact D].
Qed.
Lemma call_order (cs : cspace N) kw kw' {A} (value : config N -> res A) : NoDup (map fst kw) -> Permutation kw kw' -> bb_call value cs kw = bb_call value cs kw'.
Proof.
  intros D P. unfold bb_call. assert (E : make_configuration cs kw = make_configuration cs kw'); [|rewrite E; reflexivity]. unfold make_configuration.
  assert (G : forall f : string * cval N -> bool, forallb f kw = forallb f kw').
  { intro f. apply Bool.eq_iff_eq_true. rewrite !forallb_forall. split; intros H p Hp; apply H; [eapply Permutation_in; [apply Permutation_sym; exact P|exact Hp]|eapply Permutation_in; [exact P|exact Hp]]. }
  rewrite G. destruct (guard _ _); [|reflexivity]. cbn [bind].
  induction cs as [|h cs IH]; [reflexivity|]. cbn [mapM]. rewrite (config_get_perm kw kw' (hp_name h) D P), IH. reflexivity.
Qed.
End Call.
