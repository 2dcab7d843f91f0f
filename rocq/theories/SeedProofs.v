(** SeedProofs.v - seeds and ownership of configuration spaces (C32, C64). *)
From Verif Require Import Base ListLemmas Md5Model SeedModel SeedSpec.
From Coq Require Import ZArith Lia.
Local Open Scope Z_scope.
Local Open Scope list_scope.

Section Run.
Context {A B : Type}.
Variable draw : A -> origin -> list nat -> nat -> B.

Lemma py_nth_lt {X} (l : list X) i : (i < length l)%nat -> exists x, py_nth l i = Ok x /\ nth_error l i = Some x.
Proof. intro H. unfold py_nth. destruct (nth_error l i) eqn:E; [eauto|apply nth_error_None in E; lia]. Qed.
Lemma nth_error_snoc {X} (l : list X) x i : nth_error (l ++ [x]) i = if Nat.eqb i (length l) then Some x else nth_error l i.
Proof.
  destruct (Nat.eqb_spec i (length l)) as [->|N]; [rewrite nth_error_app2, Nat.sub_diag by lia; reflexivity|].
  destruct (Nat.ltb_spec i (length l)); [rewrite nth_error_app1 by assumption; reflexivity|]. rewrite (proj2 (nth_error_None l i)) by lia. apply nth_error_None. rewrite app_length. cbn. lia.
Qed.

(** the heap program and the streams describe the same state *)
Record rel (w : sworld) (hs : list nat) (s : sstate (A:=A)) : Prop := mkrel {
  rl_len : length hs = length (ss_names s);
  rl_ent : w_entropy w = ss_entropy s;
  rl_obj : forall h l x, nth_error hs h = Some l -> nth_error (ss_names s) h = Some x ->
             nth_error (w_heap w) l = Some (mkobj (n_space x) (n_origin x) (asked (n_stream x) (ss_log s)));
  rl_alias : forall h h' l l' x x', nth_error hs h = Some l -> nth_error hs h' = Some l' -> nth_error (ss_names s) h = Some x -> nth_error (ss_names s) h' = Some x' ->
             (l = l' <-> n_stream x = n_stream x');
  rl_root : forall h x, nth_error (ss_names s) h = Some x -> (n_stream x < length (ss_names s))%nat;
  rl_log : forall p, In p (ss_log s) -> (fst p < length (ss_names s))%nat
}.
Lemma asked_none r log : (forall p, In p log -> fst p <> r) -> asked r log = [].
Proof. unfold asked. induction log as [|p log IH]; intro H; [reflexivity|]. cbn [filter]. rewrite (proj2 (Nat.eqb_neq (fst p) r)) by (apply H; left; reflexivity). apply IH. intros q Hq. apply H. right. exact Hq. Qed.
Lemma asked_snoc r log q n : asked r (log ++ [(q, n)]) = if Nat.eqb q r then asked r log ++ [n] else asked r log.
Proof. unfold asked. rewrite filter_app, map_app. cbn [filter fst]. destruct (Nat.eqb q r); cbn; [reflexivity|apply app_nil_r]. Qed.
(** a fresh object *)
Lemma rel_fresh w hs s x o e : rel w hs s -> rel (mkw (w_heap w ++ [mkobj (n_space x) o []]) e) (hs ++ [length (w_heap w)]) (mkss (ss_names s ++ [mknamed (n_space x) (length (ss_names s)) o]) (ss_log s) e).
Proof.
  intros [L E O Al Ro Lo]. assert (BD : forall h l, nth_error hs h = Some l -> (l < length (w_heap w))%nat).
  { intros h l Hh. destruct (nth_error (ss_names s) h) as [y|] eqn:Ey. - apply nth_error_Some. rewrite (O h l y Hh Ey). discriminate. - exfalso. apply nth_error_None in Ey. assert (h < length hs)%nat by (apply nth_error_Some; rewrite Hh; discriminate). lia. }
  split; cbn [w_heap w_entropy ss_names ss_log ss_entropy].
  - rewrite !app_length, L. reflexivity.
  - reflexivity.
  - intros h l y Hh Hy. rewrite nth_error_snoc in Hh. rewrite nth_error_snoc in Hy. rewrite L in Hh. rewrite nth_error_snoc. destruct (Nat.eqb_spec h (length (ss_names s))) as [->|N].
    + injection Hh as <-. injection Hy as <-. rewrite Nat.eqb_refl. cbn [n_space n_origin n_stream]. rewrite asked_none; [reflexivity|]. intros p Hp. specialize (Lo p Hp). lia.
    + pose proof (BD h l Hh). rewrite (proj2 (Nat.eqb_neq l (length (w_heap w)))) by lia. exact (O h l y Hh Hy).
  - intros h h' l l' y y' Hh Hh' Hy Hy'. rewrite nth_error_snoc in Hh. rewrite nth_error_snoc in Hh'. rewrite nth_error_snoc in Hy. rewrite nth_error_snoc in Hy'. rewrite L in Hh, Hh'.
    destruct (Nat.eqb_spec h (length (ss_names s))) as [->|N], (Nat.eqb_spec h' (length (ss_names s))) as [->|N'].
    + injection Hh as <-. injection Hh' as <-. injection Hy as <-. injection Hy' as <-. tauto.
    + injection Hh as <-. injection Hy as <-. pose proof (BD h' l' Hh'). pose proof (Ro h' y' Hy'). cbn [n_stream]. lia.
    + injection Hh' as <-. injection Hy' as <-. pose proof (BD h l Hh). pose proof (Ro h y Hy). cbn [n_stream]. lia.
    + exact (Al h h' l l' y y' Hh Hh' Hy Hy').
  - intros h y Hy. rewrite nth_error_snoc in Hy. rewrite app_length. cbn [length]. destruct (Nat.eqb_spec h (length (ss_names s))) as [->|N]; [injection Hy as <-; cbn; lia|]. pose proof (Ro h y Hy). lia.
  - intros p Hp. rewrite app_length. specialize (Lo p Hp). lia.
Qed.
(** another name for an object *)
Lemma rel_alias w hs s h l x : rel w hs s -> nth_error hs h = Some l -> nth_error (ss_names s) h = Some x -> rel w (hs ++ [l]) (mkss (ss_names s ++ [x]) (ss_log s) (ss_entropy s)).
Proof.
  intros [L E O Al Ro Lo] H0 X0. split; cbn [ss_names ss_log ss_entropy].
  - rewrite !app_length, L. reflexivity.
  - exact E.
  - intros k m y Hk Hy. rewrite nth_error_snoc in Hk. rewrite nth_error_snoc in Hy. rewrite L in Hk. destruct (Nat.eqb_spec k (length (ss_names s))) as [->|N]; [injection Hk as <-; injection Hy as <-; exact (O h l x H0 X0)|exact (O k m y Hk Hy)].
  - intros k k' m m' y y' Hk Hk' Hy Hy'. rewrite nth_error_snoc in Hk. rewrite nth_error_snoc in Hk'. rewrite nth_error_snoc in Hy. rewrite nth_error_snoc in Hy'. rewrite L in Hk, Hk'.
    destruct (Nat.eqb_spec k (length (ss_names s))) as [->|N], (Nat.eqb_spec k' (length (ss_names s))) as [->|N'].
    + injection Hk as <-. injection Hk' as <-. injection Hy as <-. injection Hy' as <-. tauto.
    + injection Hk as <-. injection Hy as <-. exact (Al h k' l m' x y' H0 Hk' X0 Hy').
    + injection Hk' as <-. injection Hy' as <-. exact (Al k h m l y x Hk H0 Hy X0).
    + exact (Al k k' m m' y y' Hk Hk' Hy Hy').
  - intros k y Hy. rewrite nth_error_snoc in Hy. rewrite app_length. destruct (Nat.eqb_spec k (length (ss_names s))) as [->|N]; [injection Hy as <-; pose proof (Ro h x X0); lia|pose proof (Ro k y Hy); lia].
  - intros p Hp. rewrite app_length. specialize (Lo p Hp). lia.
Qed.
Lemma rel_sample w hs s h l x n : rel w hs s -> nth_error hs h = Some l -> nth_error (ss_names s) h = Some x ->
  rel (mkw (set_nth l (mkobj (n_space x) (n_origin x) (asked (n_stream x) (ss_log s) ++ [n])) (w_heap w)) (w_entropy w)) hs (mkss (ss_names s) (ss_log s ++ [(n_stream x, n)]) (ss_entropy s)).
Proof.
  intros [L E O Al Ro Lo] H0 X0. pose proof (O h l x H0 X0) as Ol. assert (Ll : (l < length (w_heap w))%nat) by (apply nth_error_Some; rewrite Ol; discriminate). split; cbn [w_heap w_entropy ss_names ss_log ss_entropy]; try assumption.
  - intros k m y Hk Hy. rewrite asked_snoc. pose proof (Al h k l m x y H0 Hk X0 Hy) as HA. destruct (Nat.eqb_spec (n_stream x) (n_stream y)) as [Es|Es].
    + apply HA in Es as Elm. subst m. rewrite nth_error_set_nth_eq by exact Ll. pose proof (O k l y Hk Hy) as Ok. rewrite Ol in Ok. injection Ok as E1 E2 E3. rewrite Es, E1, E2. reflexivity.
    + rewrite nth_error_set_nth_neq by (intro X; apply Es, HA; exact X). exact (O k m y Hk Hy).
  - intros p Hp. apply in_app_iff in Hp as [Hp|[<-|[]]]; [apply Lo; exact Hp|exact (Ro h x X0)].
Qed.

Lemma mod31 z : 0 <= z mod 2147483648 < 2147483648.
Proof. apply Z.mod_pos_bound. lia. Qed.
Lemma in_range_31 z : ((0 <=? z mod 2147483648) && (z mod 2147483648 <? 4294967296))%bool = true.
Proof. pose proof (mod31 z). apply andb_true_intro. split; [apply Z.leb_le|apply Z.ltb_lt]; lia. Qed.
Lemma rel_names w hs s h : rel w hs s -> nth_error (ss_names s) h = None -> nth_error hs h = None.
Proof. intros R H. apply nth_error_None in H. apply nth_error_None. rewrite (rl_len _ _ _ R). exact H. Qed.
Lemma rel_both w hs s h x : rel w hs s -> nth_error (ss_names s) h = Some x -> exists l, nth_error hs h = Some l.
Proof. intros R H. assert (h < length hs)%nat by (rewrite (rl_len _ _ _ R); apply nth_error_Some; rewrite H; discriminate). destruct (nth_error hs h) eqn:E; [eauto|apply nth_error_None in E; lia]. Qed.

Lemma copy_fresh w hs s h l x z : rel w hs s -> nth_error hs h = Some l -> nth_error (ss_names s) h = Some x -> ((0 <=? z) && (z <? 4294967296))%bool = true ->
  copy_config_space l (Some z) w = Ok (mkw (w_heap w ++ [mkobj (n_space x) (Seeded z) []]) (w_entropy w), length (w_heap w)).
Proof. intros R H0 X0 Hz. unfold copy_config_space, py_nth. rewrite (rl_obj _ _ _ R h l x H0 X0). cbn [bind seed_space]. rewrite Hz. reflexivity. Qed.

Lemma step_rel w hs s op : rel w hs s ->
  match spec_step draw s op with
  | Ok (s', out) => exists w' hs', seed_step draw (w, hs) op = Ok (w', hs', out) /\ rel w' hs' s'
  | Err e => seed_step draw (w, hs) op = Err e
  end.
Proof.
  intro R. destruct op as [cls clock seed src|seed src|h n]; cbn [spec_step seed_step].
  - destruct (nth_error (ss_names s) src) as [x|] eqn:Ex; [|unfold py_nth; rewrite (rel_names w hs s src R Ex); reflexivity]. destruct (rel_both w hs s src x R Ex) as (l & El). unfold py_nth. rewrite El. cbn [bind].
    assert (P : forall z, exists w' hs', (p <- copy_config_space l (Some (z mod 2147483648)) w;; Ok (fst p, hs ++ [snd p], [])) = Ok (w', hs', @nil (nat * B)) /\
      rel w' hs' (mkss (ss_names s ++ [mknamed (n_space x) (length (ss_names s)) (Seeded (z mod 2147483648))]) (ss_log s) (ss_entropy s))).
    { intro z. rewrite (copy_fresh w hs s src l x _ R El Ex (in_range_31 z)). cbn [bind fst snd]. do 2 eexists. split; [reflexivity|]. rewrite <- (rl_ent _ _ _ R). apply rel_fresh. exact R. }
    destruct seed as [| | |z]; unfold holder_init; cbn [holder_seed start_of].
    + apply (P clock).
    + cbn [bind fst snd]. do 2 eexists. split; [reflexivity|]. exact (rel_alias w hs s src l x R El Ex).
    + rewrite Z.add_0_r. apply (P (class_hash cls)).
    + apply (P (class_hash cls + z)).
  - destruct (nth_error (ss_names s) src) as [x|] eqn:Ex; [|unfold py_nth; rewrite (rel_names w hs s src R Ex); reflexivity]. destruct (rel_both w hs s src x R Ex) as (l & El). assert (EP : forall k, nth_error hs k = Some l -> py_nth hs k = Ok l) by (intros k Hk; unfold py_nth; rewrite Hk; reflexivity). rewrite (EP _ El). cbn [bind].
    destruct seed as [z|].
    + change (2 ^ 32) with 4294967296. destruct ((0 <=? z) && (z <? 4294967296))%bool eqn:Ez.
      * rewrite (copy_fresh w hs s src l x z R El Ex Ez). cbn [bind fst snd]. do 2 eexists. split; [reflexivity|]. rewrite <- (rl_ent _ _ _ R). apply rel_fresh. exact R.
      * unfold copy_config_space, py_nth. rewrite (rl_obj _ _ _ R src l x El Ex). cbn [bind seed_space]. rewrite Ez. reflexivity.
    + unfold copy_config_space, py_nth. rewrite (rl_obj _ _ _ R src l x El Ex). cbn [bind seed_space fst snd w_heap w_entropy o_space]. do 2 eexists. split; [reflexivity|]. rewrite <- (rl_ent _ _ _ R). apply rel_fresh. exact R.
  - destruct (nth_error (ss_names s) h) as [x|] eqn:Ex; [|unfold py_nth; rewrite (rel_names w hs s h R Ex); reflexivity]. destruct (rel_both w hs s h x R Ex) as (l & El). assert (EP : forall k, nth_error hs k = Some l -> py_nth hs k = Ok l) by (intros k Hk; unfold py_nth; rewrite Hk; reflexivity). rewrite (EP _ El). cbn [bind].
    unfold sample_space, py_nth. rewrite (rl_obj _ _ _ R h l x El Ex). cbn [bind fst snd o_space o_origin o_calls]. do 2 eexists. split; [reflexivity|]. exact (rel_sample w hs s h l x n R El Ex).
Qed.
Lemma run_rel ops : forall w hs s, rel w hs s ->
  match spec_run draw s ops with
  | Ok (s', out) => exists w' hs', seed_run draw (w, hs) ops = Ok (w', hs', out) /\ rel w' hs' s'
  | Err e => seed_run draw (w, hs) ops = Err e
  end.
Proof.
  induction ops as [|op ops IH]; intros w hs s R; cbn [spec_run seed_run]; [eauto|]. pose proof (step_rel w hs s op R) as S. destruct (spec_step draw s op) as [(s' & o)|e]; [|rewrite S; reflexivity].
  destruct S as (w' & hs' & E & R'). rewrite E. cbn [bind fst snd]. specialize (IH w' hs' s' R'). destruct (spec_run draw s' ops) as [(s'' & o')|e]; [|rewrite IH; reflexivity]. destruct IH as (w'' & hs'' & E' & R''). rewrite E'. cbn [bind fst snd]. eauto.
Qed.
Lemma start_nth {X Y} (f : nat * X -> Y) (l : list X) h : nth_error (map f (combine (seq 0 (length l)) l)) h = option_map (fun x => f (h, x)) (nth_error l h).
Proof.
  rewrite nth_error_map. assert (G : forall l k h, nth_error (combine (seq k (length l)) l) h = option_map (fun x : X => ((k + h)%nat, x)) (nth_error l h)).
  { induction l0 as [|y l0 IH]; intros k [|h']; cbn; try reflexivity; [rewrite Nat.add_0_r; reflexivity|]. rewrite IH. destruct (nth_error l0 h'); cbn; [|reflexivity]. do 2 f_equal. lia. }
  rewrite G. destruct (nth_error l h); reflexivity.
Qed.
Lemma start_rel (spaces : list A) : rel (fst (seed_start spaces)) (snd (seed_start spaces)) (spec_start spaces).
Proof.
  unfold seed_start, spec_start. cbn [fst snd]. assert (S : forall h l, nth_error (seq 0 (length spaces)) h = Some l -> l = h). { intros h l H. apply nth_error_nth with (d := 0%nat) in H as H'. rewrite seq_nth in H' by (rewrite <- (seq_length (length spaces) 0); apply nth_error_Some; rewrite H; discriminate). lia. }
  assert (N : forall h x, nth_error (ss_names (spec_start spaces)) h = Some x -> n_stream x = h /\ (h < length spaces)%nat). { intros h x H. unfold spec_start in H. cbn [ss_names] in H. rewrite start_nth in H. destruct (nth_error spaces h) eqn:E; [|discriminate]. injection H as <-. split; [reflexivity|apply nth_error_Some; rewrite E; discriminate]. }
  split; cbn [w_heap w_entropy ss_names ss_log ss_entropy].
  - rewrite map_length, combine_length, seq_length, Nat.min_id. reflexivity.
  - reflexivity.
  - intros h l x H Hx. apply S in H. subst l. rewrite start_nth in Hx. rewrite start_nth. destruct (nth_error spaces h) as [a|]; [|discriminate]. cbn [option_map] in Hx; injection Hx as <-. reflexivity.
  - intros h h' l l' x x' H H' Hx Hx'. apply S in H. apply S in H'. subst. destruct (N h x Hx) as [-> _], (N h' x' Hx') as [-> _]. tauto.
  - intros h x Hx. destruct (N h x Hx) as [-> H]. rewrite map_length, combine_length, seq_length, Nat.min_id. exact H.
  - intros p [].
Qed.
(** the programs return what the streams say *)
Theorem seed_streams (spaces : list A) ops : seed_outputs draw spaces ops = match spec_run draw (spec_start spaces) ops with Ok (_, out) => Ok out | Err e => Err e end.
Proof.
  unfold seed_outputs. pose proof (run_rel ops _ _ _ (start_rel spaces)) as H. replace (fst (seed_start spaces), snd (seed_start spaces)) with (seed_start spaces) in H by (destruct (seed_start spaces); reflexivity).
  destruct (spec_run draw (spec_start spaces) ops) as [(s' & out)|e]; [destruct H as (w' & hs' & E & _); rewrite E; reflexivity|rewrite H; reflexivity].
Qed.

(** ** non-interference *)
Lemma streams_app ops : forall names, exists more, streams names ops = names ++ more.
Proof.
  induction ops as [|op ops IH]; intro names; [exists []; cbn; rewrite app_nil_r; reflexivity|]. destruct op as [cls clock [| | |z] src|seed src|h n]; cbn [streams];
  match goal with |- exists more, streams ?m ops = _ => destruct (IH m) as (more & E) end; rewrite E; rewrite <- ?app_assoc; eauto.
Qed.
Lemma keep_run r ops : forall names s s' out log2, ss_names s = names -> spec_run draw s ops = Ok (s', out) -> asked r (ss_log s) = asked r log2 ->
  let final := streams (map n_stream names) ops in
  exists s2, spec_run draw (mkss (ss_names s) log2 (ss_entropy s)) (keep_stream final r ops) = Ok (s2, of_stream final r out) /\
    ss_names s2 = ss_names s' /\ ss_entropy s2 = ss_entropy s' /\ asked r (ss_log s2) = asked r (ss_log s').
Proof.
  induction ops as [|op ops IH]; intros names s s' out log2 <- E EL; cbn [spec_run] in E; [injection E as <- <-; cbn; eauto|].
  destruct (spec_step draw s op) as [(s1 & o)|] eqn:ES; [|discriminate]. destruct (spec_run draw s1 ops) as [(s2 & o')|] eqn:ER; [|discriminate]. injection E as <- <-.
  assert (G : (match op with OpSample _ _ => False | _ => True end) -> o = [] /\ ss_log s1 = ss_log s /\
    spec_step draw (mkss (ss_names s) log2 (ss_entropy s)) op = Ok (mkss (ss_names s1) log2 (ss_entropy s1), []) /\ streams (map n_stream (ss_names s)) (op :: ops) = streams (map n_stream (ss_names s1)) ops).
  { destruct op as [cls clock seed src|seed src|h n]; intros []; cbn [spec_step ss_names ss_log ss_entropy] in *.
    - destruct (nth_error (ss_names s) src) as [x|] eqn:Ex; [|discriminate]. injection ES as <- <-. split; [reflexivity|]. split; [destruct seed; reflexivity|]. split; [destruct seed; reflexivity|].
      destruct seed; cbn [streams ss_names]; rewrite map_app; cbn [map n_stream]; rewrite ?map_length; try reflexivity.
      rewrite (nth_indep _ 0%nat (n_stream x)) by (rewrite map_length; apply nth_error_Some; rewrite Ex; discriminate). rewrite map_nth, (nth_error_nth _ _ _ Ex). reflexivity.
    - destruct (nth_error (ss_names s) src) as [x|]; [|discriminate]. destruct seed as [z|]; [destruct ((0 <=? z) && (z <? 2 ^ 32))%bool|]; try discriminate; injection ES as <- <-; (split; [reflexivity|split; [reflexivity|split; [reflexivity|]]]); cbn [streams ss_names]; rewrite map_app, map_length; reflexivity. }
  destruct op as [cls clock seed src|seed src|h n].
  - destruct (G I) as (-> & HL & ES2 & EST). rewrite EST. cbv zeta. cbn [keep_stream filter spec_run app]. rewrite ES2. destruct (IH _ s1 s2 o' log2 eq_refl ER ltac:(rewrite HL; exact EL)) as (s3 & E3 & X). unfold keep_stream in E3. rewrite E3. cbn [app]. eauto.
  - destruct (G I) as (-> & HL & ES2 & EST). rewrite EST. cbv zeta. cbn [keep_stream filter spec_run app]. rewrite ES2. destruct (IH _ s1 s2 o' log2 eq_refl ER ltac:(rewrite HL; exact EL)) as (s3 & E3 & X). unfold keep_stream in E3. rewrite E3. cbn [app]. eauto.
  - clear G. cbn [spec_step] in ES. destruct (nth_error (ss_names s) h) as [x|] eqn:Ex; [|discriminate]. injection ES as <- <-. cbv zeta. cbn [streams].
    destruct (streams_app ops (map n_stream (ss_names s))) as (more & EM). assert (EN : nth h (streams (map n_stream (ss_names s)) ops) 0%nat = n_stream x).
    { rewrite EM. assert (h < length (ss_names s))%nat by (apply nth_error_Some; rewrite Ex; discriminate). rewrite app_nth1 by (rewrite map_length; assumption). rewrite (nth_indep _ 0%nat (n_stream x)) by (rewrite map_length; assumption). rewrite map_nth, (nth_error_nth _ _ _ Ex). reflexivity. }
    cbn [keep_stream filter of_stream app fst]. rewrite EN. destruct (Nat.eqb_spec (n_stream x) r) as [<-|NE].
    + cbn [spec_run spec_step ss_names ss_log]. rewrite Ex. destruct (IH (ss_names s) (mkss (ss_names s) (ss_log s ++ [(n_stream x, n)]) (ss_entropy s)) s2 o' (log2 ++ [(n_stream x, n)]) eq_refl ER) as (s3 & E3 & X); [cbn [ss_log]; rewrite !asked_snoc, Nat.eqb_refl, EL; reflexivity|].
      cbn [ss_names ss_entropy] in E3. unfold keep_stream in E3. cbn [ss_entropy]. rewrite E3, EL. cbn [app]. eauto.
    + apply (IH (ss_names s) (mkss (ss_names s) (ss_log s ++ [(n_stream x, n)]) (ss_entropy s)) s2 o' log2 eq_refl ER). cbn [ss_log]. rewrite asked_snoc. apply Nat.eqb_neq in NE. rewrite NE. exact EL.
Qed.
Theorem seed_private (spaces : list A) ops out r : seed_outputs draw spaces ops = Ok out ->
  let names := streams (seq 0 (length spaces)) ops in seed_outputs draw spaces (keep_stream names r ops) = Ok (of_stream names r out).
Proof.
  rewrite !seed_streams. destruct (spec_run draw (spec_start spaces) ops) as [(s' & o)|] eqn:E; [|discriminate]. intro H. injection H as ->. cbv zeta. rewrite seed_streams.
  assert (EN : seq 0 (length spaces) = map n_stream (ss_names (spec_start spaces))). { unfold spec_start. cbn [ss_names]. rewrite map_map. cbn [n_stream]. generalize 0%nat. clear. induction spaces as [|a l IH]; intro k; [reflexivity|]. cbn [length seq combine map fst]. rewrite <- IH. reflexivity. }
  destruct (keep_run r ops (ss_names (spec_start spaces)) (spec_start spaces) s' out [] eq_refl E eq_refl) as (s2 & E2 & _). rewrite EN. cbn [spec_start ss_names ss_entropy] in *. unfold spec_start. rewrite E2. reflexivity.
Qed.

(** ** one holder *)
Theorem holder_private cls clock seed l (w : sworld (A:=A)) o : seed <> SeedTrue -> nth_error (w_heap w) l = Some o ->
  exists w' s, holder_init cls clock seed l w = Ok (w', length (w_heap w)) /\ 0 <= s < 2 ^ 31 /\
    w_heap w' = w_heap w ++ [mkobj (o_space o) (Seeded s) []].
Proof.
  intros Hs Ho. unfold holder_init.
  assert (P : forall z, exists w', copy_config_space l (Some (z mod 2147483648)) w = Ok (w', length (w_heap w)) /\ w_heap w' = w_heap w ++ [mkobj (o_space o) (Seeded (z mod 2147483648)) []]).
  { intro z. unfold copy_config_space, py_nth. rewrite Ho. cbn [bind seed_space]. rewrite in_range_31. cbn [guard bind fst snd]. eexists. split; reflexivity. }
  change (2 ^ 31) with 2147483648. destruct seed as [| | |z]; [| congruence | |]; cbn [holder_seed];
  match goal with |- context [copy_config_space l (Some (?q mod _)) w] => destruct (P q) as (w' & E & H); exists w', (q mod 2147483648); pose proof (mod31 q) end; auto.
Qed.
Theorem holder_shares cls clock l (w : sworld (A:=A)) : holder_init cls clock SeedTrue l w = Ok (w, l).
Proof. reflexivity. Qed.
(** sampling changes the random state of its space and of no other *)
Theorem sample_only l n (w : sworld (A:=A)) w' b : sample_space draw l n w = Ok (w', b) ->
  exists o, nth_error (w_heap w) l = Some o /\ nth_error (w_heap w') l = Some (mkobj (o_space o) (o_origin o) (o_calls o ++ [n])) /\
    b = draw (o_space o) (o_origin o) (o_calls o) n /\ forall k, k <> l -> nth_error (w_heap w') k = nth_error (w_heap w) k.
Proof.
  unfold sample_space, py_nth. destruct (nth_error (w_heap w) l) as [o|] eqn:E; [|discriminate]. cbn [bind]. intro H. injection H as <- <-. exists o. split; [reflexivity|]. cbn [w_heap].
  assert (l < length (w_heap w))%nat by (apply nth_error_Some; rewrite E; discriminate). rewrite nth_error_set_nth_eq by assumption. split; [reflexivity|]. split; [reflexivity|]. intros k Hk. apply nth_error_set_nth_neq. auto.
Qed.
End Run.

(** ** seeds *)
Lemma same_origin cls z z' : z mod 2 ^ 31 = z' mod 2 ^ 31 <-> (class_hash cls + z) mod 2 ^ 31 = (class_hash cls + z') mod 2 ^ 31.
Proof.
  generalize (class_hash cls) as c. intro c. split; intro H.
  - rewrite <- (Z.add_mod_idemp_r c z), <- (Z.add_mod_idemp_r c z') by (compute; discriminate). rewrite H. reflexivity.
  - replace z with (c + z - c) by lia. replace z' with (c + z' - c) by lia. rewrite <- (Zminus_mod_idemp_l (c + z)), <- (Zminus_mod_idemp_l (c + z')). rewrite H. reflexivity.
Qed.
Theorem seed_congruent cls z z' : z mod 2 ^ 31 = z' mod 2 ^ 31 <->
  forall (A B : Type) (draw : A -> origin -> list nat -> nat -> B) (spaces : list A) src clock clock' sizes,
    seed_outputs draw spaces (OpHolder cls clock (SeedInt z) src :: map (OpSample (length spaces)) sizes) =
    seed_outputs draw spaces (OpHolder cls clock' (SeedInt z') src :: map (OpSample (length spaces)) sizes).
Proof.
  split.
  - intros H A B draw spaces src clock clock' sizes. rewrite !seed_streams. cbn [spec_run spec_step start_of]. apply (same_origin cls) in H. rewrite H. reflexivity.
  - intro H. specialize (H unit origin (fun _ o _ _ => o) [tt] 0%nat 0 0 [1%nat]). rewrite !seed_streams in H. cbn [spec_run spec_step start_of spec_start ss_names length seq combine map fst snd nth_error app n_space n_stream n_origin] in H. injection H as H.
    apply (same_origin cls). exact H.
Qed.
(** False is 0 *)
Theorem seed_false cls : forall (A B : Type) (draw : A -> origin -> list nat -> nat -> B) (spaces : list A) src clock clock' ops,
  seed_outputs draw spaces (OpHolder cls clock SeedFalse src :: ops) = seed_outputs draw spaces (OpHolder cls clock' (SeedInt 0) src :: ops).
Proof. intros. rewrite !seed_streams. cbn [spec_run spec_step start_of]. rewrite Z.add_0_r. reflexivity. Qed.

Fixpoint distinctb (l : list Z) : bool := match l with [] => true | x :: t => negb (existsb (Z.eqb x) t) && distinctb t end.
Lemma distinctb_nodup l : distinctb l = true -> NoDup l.
Proof. induction l as [|x l IH]; cbn; intro H; constructor; apply andb_prop in H as [H1 H2]; [|apply IH; exact H2]. intro Hin. apply negb_true_iff in H1. assert (existsb (Z.eqb x) l = true) by (apply existsb_exists; exists x; split; [exact Hin|apply Z.eqb_refl]). congruence. Qed.
Lemma classes_distinct : NoDup (map (fun c => class_hash c mod 2 ^ 31) holder_classes).
Proof. apply distinctb_nodup. vm_compute. reflexivity. Qed.
Lemma nodup_map_inj {X Y} (f : X -> Y) l a b : NoDup (map f l) -> In a l -> In b l -> f a = f b -> a = b.
Proof.
  induction l as [|x l IH]; intros ND Ha Hb E; [destruct Ha|]. inversion ND as [|? ? N ND']; subst. destruct Ha as [<-|Ha], Hb as [<-|Hb]; [reflexivity| | |apply IH; assumption]; exfalso; apply N; [rewrite E|rewrite <- E]; apply in_map; assumption.
Qed.
Theorem class_seeds c c' z : In c holder_classes -> In c' holder_classes -> c <> c' -> start_of c 0 (SeedInt z) <> start_of c' 0 (SeedInt z).
Proof.
  intros Hc Hc' N E. apply N. apply (nodup_map_inj (fun c => class_hash c mod 2 ^ 31) holder_classes); try assumption; [exact classes_distinct|]. cbn [start_of] in E. revert E. generalize (class_hash c) (class_hash c'). intros a b E.
  replace a with (a + z - z) by lia. replace b with (b + z - z) by lia. rewrite <- (Zminus_mod_idemp_l (a + z)), <- (Zminus_mod_idemp_l (b + z)). rewrite E. reflexivity.
Qed.

(** the digests that hashlib.md5 gives for the names of the classes *)
Definition digests : list (string * Z) :=
  [("ICE", 46499450645910497525708328380210370707);
   ("PDP", 286657732023655764925384621482596927691);
   ("DecisionTreePartitioner", 4699682571225718167170880187442027235);
   ("RandomForestPartitioner", 10269479149914109002739279036003673261);
   ("Region", 324703783194469103560369123800131171379);
   ("DTRegion", 246784720470128183988331510322496098462);
   ("SplitCondition", 77363903266886571601678604614530128009);
   ("RandomSampler", 119400593219501170246002527942585621045);
   ("GridSampler", 27799639112136843288448870025089108609);
   ("BayesianOptimizationSampler", 22241202928591573032958205185811911564);
   ("ExpectedImprovement", 333812712162144361823620612877867852178);
   ("ProbabilityOfImprovement", 233370809790588254231824478988822038761);
   ("LowerConfidenceBound", 141431811167880028753089154813430174521);
   ("SkLearnPipelineSurrogate", 251512550182332410127923828702233931196);
   ("GaussianProcessSurrogate", 180247728719248947810821443138744914642);
   ("Square", 274757783828951375709189814557536432900);
   ("NegativeSquare", 52916731292610912048413417759681540948);
   ("Levy", 295340149630257512900837977205704086525);
   ("Ackley", 218131694633032831321054938922255027815);
   ("CrossInTray", 262415254846651688049766889395093806920);
   ("StyblinskiTang", 155051179295152299196469258601435274232);
   ("CallableBlackboxFunction", 108691442019251810159109006875227810309);
   ("HPOBenchBlackbox", 159555443643523952312012760693253422485)]%string.
Lemma class_digests : Forall (fun p => class_hash (fst p) = snd p) digests /\ map fst digests = holder_classes.
Proof. split; [|reflexivity]. assert (E : map (fun p => class_hash (fst p)) digests = map snd digests) by (vm_compute; reflexivity).
  revert E. generalize digests. intro l. induction l as [|p l IH]; intro E; [constructor|]. cbn [map] in E. injection E as E1 E2. constructor; [exact E1|exact (IH E2)].
Qed.
(** an integer seed on the heap *)
Theorem class_start {A} cls d clock z l (w : sworld (A:=A)) o : In (cls, d) digests -> nth_error (w_heap w) l = Some o ->
  exists w', holder_init cls clock (SeedInt z) l w = Ok (w', length (w_heap w)) /\
    nth_error (w_heap w') (length (w_heap w)) = Some (mkobj (o_space o) (Seeded ((d + z) mod 2 ^ 31)) []).
Proof.
  intros Hin E. pose proof (proj1 (Forall_forall _ _) (proj1 class_digests) _ Hin) as Hd. cbn [fst snd] in Hd.
  unfold holder_init, holder_seed. rewrite Hd. unfold copy_config_space, py_nth. rewrite E. cbn [bind seed_space].
  change (2 ^ 31) with 2147483648. pose proof (Z.mod_pos_bound (d + z) 2147483648 ltac:(lia)) as B.
  unfold guard. replace ((0 <=? (d + z) mod 2147483648) && ((d + z) mod 2147483648 <? 4294967296)) with true by lia. cbn [bind fst snd].
  eexists. split; [reflexivity|]. cbn [w_heap]. rewrite nth_error_app2 by lia. rewrite Nat.sub_diag. reflexivity.
Qed.
Theorem class_states {A} c c' clock clock' z l (w : sworld (A:=A)) o : In c holder_classes -> In c' holder_classes -> c <> c' -> nth_error (w_heap w) l = Some o ->
  exists w1 w2 s1 s2, holder_init c clock (SeedInt z) l w = Ok (w1, length (w_heap w)) /\ holder_init c' clock' (SeedInt z) l w = Ok (w2, length (w_heap w)) /\
    nth_error (w_heap w1) (length (w_heap w)) = Some (mkobj (o_space o) (Seeded s1) []) /\
    nth_error (w_heap w2) (length (w_heap w)) = Some (mkobj (o_space o) (Seeded s2) []) /\ s1 <> s2.
Proof.
  intros Hc Hc' N E. pose proof (class_seeds c c' z Hc Hc' N) as D. rewrite <- (proj2 class_digests) in Hc, Hc'.
  apply in_map_iff in Hc, Hc'. destruct Hc as ([x d] & <- & Hd), Hc' as ([x' d'] & <- & Hd'). cbn [fst] in *.
  destruct (class_start x d clock z l w o Hd E) as (w1 & E1 & F1). destruct (class_start x' d' clock' z l w o Hd' E) as (w2 & E2 & F2).
  exists w1, w2, ((d + z) mod 2 ^ 31), ((d' + z) mod 2 ^ 31). refine (conj E1 (conj E2 (conj F1 (conj F2 _)))).
  pose proof (proj1 (Forall_forall _ _) (proj1 class_digests) _ Hd) as H. pose proof (proj1 (Forall_forall _ _) (proj1 class_digests) _ Hd') as H'. cbn [fst snd] in H, H'.
  unfold start_of in D. rewrite H, H' in D. exact D.
Qed.
