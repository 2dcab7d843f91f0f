(** AcquisitionProofs.v - candidates, calls on arrays (C47, C50). *)
From Verif Require Import Base Num NumLaws NumpyModel ConfigSpaceModel ListLemmas IceProofs SamplerModel SamplerSpec SamplerProofs2 AcquisitionModel AcquisitionSpec.
Local Open Scope nat_scope.
Local Open Scope list_scope.

Section Acq.
Context {N : Num} (L : order_laws N).

Lemma py_best_arg {A} better (l : list (A * N)) : forall pre b a x, nth_error pre b = Some (a, x) -> Forall ordinary (map snd (pre ++ l)) ->
  nth_error (pre ++ l) (arg_best better b x (length pre) (map snd l)) = Some (py_best better (a, x) l).
Proof.
  induction l as [|[c y] l IH]; intros pre b a x H FO; cbn [map snd arg_best py_best].
  - rewrite app_nil_r. exact H.
  - assert (Ox : ordinary x). { apply (proj1 (Forall_forall _ _) FO). apply in_map_iff. exists (a, x). split; [reflexivity|]. apply in_or_app. left. eapply nth_error_In. exact H. }
    assert (Oy : ordinary y). { apply (proj1 (Forall_forall _ _) FO). apply in_map_iff. exists (c, y). split; [reflexivity|]. apply in_or_app. right. left. reflexivity. }
    unfold ordinary in Ox, Oy. rewrite Ox, Oy. cbn [negb orb].
    assert (E : forall i p, nth_error (pre ++ [(c, y)]) i = Some p -> p = (fst p, snd p) ->
      nth_error (pre ++ (c, y) :: l) (arg_best better i (snd p) (S (length pre)) (map snd l)) = Some (py_best better p l)).
    { intros i [p1 p2] Hi _. cbn [snd]. change ((c, y) :: l) with ([(c, y)] ++ l). rewrite app_assoc.
      replace (S (length pre)) with (length (pre ++ [(c, y)])) by (rewrite app_length; cbn; lia). apply IH; [exact Hi|]. rewrite <- app_assoc. exact FO. }
    destruct (better y x).
    + apply (E (length pre) (c, y)); [|reflexivity]. rewrite nth_error_app2, Nat.sub_diag by lia. reflexivity.
    + apply (E b (a, x)); [|reflexivity]. rewrite nth_error_app1; [exact H|]. eapply nth_error_Some_lt. exact H.
Qed.

Lemma py_extreme_best {A} (mn : bool) (l : list A) (v : list N) : length l = length v -> l <> [] -> Forall ordinary v ->
  exists i a x, py_extreme (if mn then @nlt N else fun x y => nlt y x) (combine l v) = Ok (a, x) /\ nth_error l i = Some a /\ best_at mn v i x.
Proof.
  intros Hl Hne FO. destruct l as [|a0 l]; [congruence|]. destruct v as [|x0 v]; [discriminate|]. cbn [combine py_extreme].
  injection Hl as Hl. pose proof (np_arg_spec L mn (x0 :: v)) as B. destruct B as (x & HB); [discriminate|exact FO|].
  assert (Ev : map snd (combine l v) = v). { clear -Hl. revert v Hl. induction l as [|a l IH]; intros [|y v] H; try discriminate; [reflexivity|]. cbn. injection H as H. rewrite IH by exact H. reflexivity. }
  pose proof (py_best_arg (if mn then @nlt N else fun x y => nlt y x) (combine l v) [(a0, x0)] 0 a0 x0 eq_refl) as P. cbn [map app snd length] in P.
  rewrite Ev in P. specialize (P FO). cbn [np_arg] in HB. set (i := arg_best _ 0 x0 1 v) in *.
  destruct (py_best _ (a0, x0) (combine l v)) as [a y]. exists i, a, y. split; [reflexivity|].
  assert (Q : nth_error (a0 :: l) i = Some a /\ nth_error (x0 :: v) i = Some y).
  { change ((a0, x0) :: combine l v) with (combine (a0 :: l) (x0 :: v)) in P. revert P. generalize (x0 :: v), (a0 :: l), i. clear. intros v l i. revert v l.
    induction i as [|i IH]; intros [|y0 v] [|b l] H; try discriminate; cbn in *; [inversion H; auto|apply IH; exact H]. }
  destruct Q as [Q1 Q2]. split; [exact Q1|]. pose proof HB as (HB1 & _). rewrite HB1 in Q2. injection Q2 as ->. exact HB.
Qed.

Variable predict : list (list N) -> res (list N * list N).
Variables cdf pdf : N -> N.

Lemma acq_call_values a mn x v : acq_call predict cdf pdf a mn x = Ok v ->
  exists means stds, predict (convert_configs x) = Ok (means, stds) /\ length means = length stds /\ length v = length means /\
    forall i m s, nth_error means i = Some m -> nth_error stds i = Some s -> nth_error v i = Some (acq_value cdf pdf a mn m s).
Proof.
  unfold acq_call. destruct (predict (convert_configs x)) as [[m s]|e] eqn:E; [|discriminate]. cbn [bind fst snd]. unfold elementwise.
  destruct (Nat.eqb_spec (length m) (length s)) as [El|]; [|discriminate]. intro H. injection H as <-. exists m, s. split; [reflexivity|]. split; [exact El|].
  clear E. revert s El. induction m as [|m0 m IH]; intros [|s0 s] H; try discriminate; cbn [map2 length].
  - split; [reflexivity|]. intros [|i]; discriminate.
  - injection H as H. destruct (IH s H) as [I1 I2]. split; [rewrite I1; reflexivity|]. intros [|i] m' s' A B; cbn in *; [inversion A; inversion B; reflexivity|apply I2; assumption].
Qed.

Lemma convert_stands (x : xinput N) : stands_for x (convert_configs x).
Proof. destruct x as [c|l|rows]; cbn [convert_configs]; [constructor| |constructor]. induction l as [|[c|r] l IH]; cbn [map item_vec]; constructor; exact IH. Qed.
(** C47 *)
Theorem call_values a mn x v : acq_call predict cdf pdf a mn x = Ok v ->
  exists rows means stds, stands_for x rows /\ predict rows = Ok (means, stds) /\ length means = length stds /\ length v = length means /\
    forall i m s, nth_error means i = Some m -> nth_error stds i = Some s -> nth_error v i = Some (acq_value cdf pdf a mn m s).
Proof. intro H. destruct (acq_call_values _ _ _ _ H) as (m & s & H'). exists (convert_configs x), m, s. exact (conj (convert_stands x) H'). Qed.
(** C48 *)
Theorem after_updates a es e mn m s : acq_value cdf pdf (fold_left acq_update (es ++ [e]) a) mn m s =
  match a with AEI _ eps => ei_value cdf pdf e eps m s | API _ eps => pi_value cdf mn e eps m s | ALCB tau => lcb_value mn tau m s end.
Proof.
  rewrite fold_left_app. cbn [fold_left]. revert a. induction es as [|e' es IH]; intro a; cbn [fold_left]; [destruct a; reflexivity|].
  rewrite IH. destruct a; reflexivity.
Qed.

Lemma elements_list l : elements (DList l) = map (@EConf N) l. Proof. reflexivity. Qed.
Lemma convert_list l : convert_configs (as_input (DList l)) = map (@c_vec N) l.
Proof. cbn. rewrite map_map. reflexivity. Qed.

(** C47 *)
Theorem optimum_best a mn l v : l <> [] -> acq_call predict cdf pdf a mn (XList (map IConf l)) = Ok v -> length v = length l -> Forall ordinary v ->
  exists i c x, get_optimum_pair predict cdf pdf a mn (DList l) = Ok (EConf c, x) /\ get_optimum predict cdf pdf a mn (DList l) = Ok (EConf c) /\
    nth_error l i = Some c /\ best_at false v i x.
Proof.
  intros Hne E Hl FO. destruct (py_extreme_best false (map (@EConf N) l) v) as (i & e & x & P & Q & B); [rewrite map_length; auto|destruct l; [congruence|discriminate]|exact FO|].
  rewrite nth_error_map in Q. destruct (nth_error l i) as [c|] eqn:Ec; [|discriminate]. injection Q as <-. exists i, c, x.
  unfold get_optimum, get_optimum_pair. cbn [as_input elements]. rewrite E. cbn [bind]. rewrite P. cbn. auto.
Qed.
Theorem incumbent_of_surrogate mn l means stds : l <> [] -> predict (map (@c_vec N) l) = Ok (means, stds) -> length means = length l -> Forall ordinary means ->
  exists i c x, get_incumbent predict mn (DList l) = Ok (EConf c, x) /\ nth_error l i = Some c /\ best_at mn means i x.
Proof.
  intros Hne E Hl FO. destruct (py_extreme_best mn (map (@EConf N) l) means) as (i & e & x & P & Q & B); [rewrite map_length; auto|destruct l; [congruence|discriminate]|exact FO|].
  rewrite nth_error_map in Q. destruct (nth_error l i) as [c|] eqn:Ec; [|discriminate]. injection Q as <-. exists i, c, x.
  assert (S : surrogate_call predict (XList (map IConf l)) = Ok (SList means)).
  { destruct l as [|c0 l]; [congruence|]. cbn [map surrogate_call is_conf]. unfold predict_configs. change (map item_vec (IConf c0 :: map IConf l)) with (c_vec c0 :: map item_vec (map IConf l)).
    rewrite map_map. change (c_vec c0 :: map (fun x0 => item_vec (IConf x0)) l) with (map (@c_vec N) (c0 :: l)). rewrite E. reflexivity. }
  unfold get_incumbent. cbn [as_input elements]. rewrite S. cbn [bind]. rewrite P. auto.
Qed.
(** one candidate that is not wrapped in a list: the result is the name of a hyperparameter *)
Theorem optimum_bare a mn c v x name val rest : acq_call predict cdf pdf a mn (XConf c) = Ok v -> v = [x] -> c_vals c = (name, val) :: rest ->
  get_optimum predict cdf pdf a mn (DBare c) = Ok (EName name).
Proof. intros E -> Hc. unfold get_optimum, get_optimum_pair. cbn [as_input elements]. rewrite E, Hc. cbn [bind map combine]. rewrite combine_nil. reflexivity. Qed.
Theorem incumbent_bare mn c m s : predict [c_vec c] = Ok ([m], [s]) -> get_incumbent predict mn (DBare c) = Err TypeError.
Proof. intros E. unfold get_incumbent. cbn. unfold predict_config. rewrite E. reflexivity. Qed.
Lemma elementwise1 f (a b : N) : elementwise f [a] [b] = Ok [f a b]. Proof. reflexivity. Qed.
Theorem bare_candidate a mn c m s name val rest : predict [c_vec c] = Ok ([m], [s]) -> c_vals c = (name, val) :: rest ->
  get_optimum predict cdf pdf a mn (DBare c) = Ok (EName name) /\ get_incumbent predict mn (DBare c) = Err TypeError.
Proof.
  intros E Hc. split; [|apply (incumbent_bare mn c m s E)]. apply (optimum_bare a mn c [acq_value cdf pdf a mn m s] (acq_value cdf pdf a mn m s) name val rest); [|reflexivity|exact Hc].
  unfold acq_call. cbn [convert_configs]. rewrite E. reflexivity.
Qed.
(** no candidates *)
Theorem optimum_none a mn : (exists e, predict [] = Err e) \/ predict [] = Ok ([], []) -> exists e', get_optimum predict cdf pdf a mn (DList []) = Err e'.
Proof. unfold get_optimum, get_optimum_pair, acq_call. cbn. intros [[e ->] | ->]; cbn; eauto. Qed.

(** C50 *)
Theorem call_array rows : (forall X m s, predict X = Ok (m, s) -> length m = length X /\ length s = length X) ->
  match surrogate_call predict (XArr rows) with
  | Ok (SList _) => False
  | Ok (SFloat x) => length rows = 2 /\ exists m s, predict rows = Ok (m, s) /\ nth_error m 0 = Some x
  | Err e => e = IndexError /\ rows = [] \/ predict rows = Err e \/ e = ValueError /\ length rows <> 2
  end.
Proof.
  intros HP. unfold surrogate_call. destruct rows as [|r rows]; cbn [py_nth nth_error]; [left; auto|]. cbn [bind]. destruct (predict (r :: rows)) as [[m s]|e] eqn:E; cbn [bind fst]; [|auto].
  destruct (HP _ _ _ E) as [Hm Hs]. destruct m as [|a [|b [|]]]; cbn in *; try (right; right; split; [reflexivity|lia]). split; [lia|]. eauto.
Qed.
Theorem call_two_rows r1 r2 a b s : predict [r1; r2] = Ok ([a; b], s) -> surrogate_call predict (XArr [r1; r2]) = Ok (SFloat a).
Proof. intros E. cbn. rewrite E. reflexivity. Qed.
(** what the call does on configurations *)
Theorem call_list l : surrogate_call predict (XList (map IConf l)) = match predict (map (@c_vec N) l) with Ok p => Ok (SList (fst p)) | Err e => Err e end.
Proof. destruct l as [|c l]; [cbn; unfold predict_configs; cbn; destruct (predict []); reflexivity|]. cbn. unfold predict_configs. cbn. rewrite map_map. change (fun x => item_vec (IConf x)) with (@c_vec N). destruct (predict _); reflexivity. Qed.
Theorem call_conf c m s : predict [c_vec c] = Ok ([m], [s]) -> surrogate_call predict (XConf c) = Ok (SFloat m).
Proof. intros E. cbn. unfold predict_config. rewrite E. reflexivity. Qed.
Theorem call_rows_list r l : surrogate_call predict (XList (IRow r :: l)) = Err TypeError.
Proof. reflexivity. Qed.

Theorem score_raises x : surrogate_score predict x =
  match x with XConf c => if c_vals c then Ok ([], []) else Err TypeError | XList [] | XArr [] => Ok ([], []) | _ => Err TypeError end.
Proof. unfold surrogate_score. destruct x as [c|[|i l]|[|r rows]]; cbn; [destruct (c_vals c)|..]; reflexivity. Qed.

Theorem ei_no_maximize (eps : N) : acq_new (CEI eps) false = Err NotImplementedError.
Proof. reflexivity. Qed.
End Acq.
