(** WrapperProofs.v - surrogates and blackbox functions around foreign code (C83, C84). *)
From Coq Require Import DecimalString DecimalNat.
From Verif Require Import Base Num NumpyModel ConfigSpaceModel SamplerModel AcquisitionModel SyntheticModel SyntheticSpace SyntheticValues WrapperModel WrapperSpec.
Local Open Scope list_scope.

Section Surrogate.
Context {N : Num} {P : Type} (pipe_fit : P -> list (list N) -> list (json N) -> P * res unit) (pipe_predict : P -> list (list N) -> res (list N * list N)).
Notation run := (surrogate_run pipe_fit pipe_predict).
Notation step := (surrogate_step pipe_fit pipe_predict).

Lemma step_points s o : g_points (fst (step s o)) = match o with OFit x y => if is_ok (config_list_to_array x) then length y else g_points s | _ => g_points s end.
Proof. destruct o as [x y| |]; cbn; try reflexivity. unfold surrogate_fit_data. destruct (config_list_to_array x); reflexivity. Qed.
Theorem points_of_history s ops : g_points (run s ops) = match last_fit ops with Some d => length (snd d) | None => g_points s end.
Proof.
  unfold surrogate_run. revert s. induction ops as [|o t IH]; intro s; [reflexivity|]. cbn [fold_left last_fit]. rewrite IH, step_points. destruct (last_fit t); [reflexivity|].
  destruct o as [x y| |]; try reflexivity. destruct (config_list_to_array x); reflexivity.
Qed.
(** a pipeline whose fit forgets what it was fitted to before (as sklearn's do): only the last fit matters *)
Theorem predictions_of_history (F : list (list N) -> list (json N) -> P * res unit) : (forall p x y, pipe_fit p x y = F x y) ->
  forall s ops rows, pipe_predict (g_pipe (run s ops)) rows =
    match last_fit ops with Some d => pipe_predict (fst (F (fst d) (snd d))) rows | None => pipe_predict (g_pipe s) rows end.
Proof.
  intros H s ops rows. unfold surrogate_run. revert s. induction ops as [|o t IH]; intro s; [reflexivity|]. cbn [fold_left last_fit]. rewrite IH. destruct (last_fit t); [reflexivity|].
  destruct o as [x y| |]; try reflexivity. cbn. unfold surrogate_fit_data. destruct (config_list_to_array x); [|reflexivity]. cbn. rewrite H. reflexivity.
Qed.
(** predicting and calling change nothing; a fit whose points cannot be converted changes nothing *)
Theorem only_fit_changes s o : (forall x y rows, o = OFit x y -> config_list_to_array x = Ok rows -> False) -> fst (step s o) = s.
Proof. intro H. destruct o as [x y| |]; try reflexivity. cbn. unfold surrogate_fit_data. destruct (config_list_to_array x) eqn:E; [|reflexivity]. exfalso. exact (H x y a eq_refl E). Qed.
(** the text tells the number of points *)
Lemma append_suffix s a b : (a ++ s = b ++ s)%string -> a = b.
Proof.
  intro H. apply (f_equal list_ascii_of_string) in H.
  assert (A : forall x y, list_ascii_of_string (x ++ y)%string = list_ascii_of_string x ++ list_ascii_of_string y) by (induction x as [|c x IH]; intro y; cbn; [reflexivity|rewrite IH; reflexivity]).
  rewrite !A in H. apply app_inv_tail in H. rewrite <- (string_of_list_ascii_of_string a), <- (string_of_list_ascii_of_string b), H. reflexivity.
Qed.
Theorem str_points (name : string) (s s' : surrogate P) : surrogate_str name s = surrogate_str name s' <-> g_points s = g_points s'.
Proof.
  unfold surrogate_str. split; [|intros ->; reflexivity]. intro H. apply append_inj, append_inj, append_suffix, dec_inj in H. exact H.
Qed.
End Surrogate.

Section Blackbox.
Context {N : Num}.
Lemma dict_get_in (d : list (string * json N)) k v : NoDup (map fst d) -> In (k, v) d -> dict_get d k = Ok v.
Proof.
  induction d as [|[n w] t IH]; cbn; intros D H; [destruct H|]. inversion D as [|? ? Nn D']; subst. destruct (String.eqb_spec n k) as [->|Ne].
  - destruct H as [H|H]; [congruence|]. exfalso. apply Nn. apply (in_map fst _ _ H).
  - apply IH; [exact D'|]. destruct H as [H|H]; [congruence|exact H].
Qed.
Lemma dict_get_none (d : list (string * json N)) k : ~ In k (map fst d) -> dict_get d k = Err KeyError.
Proof. induction d as [|[n w] t IH]; cbn; intro H; [reflexivity|]. destruct (String.eqb_spec n k) as [->|]; [tauto|]. apply IH. tauto. Qed.
(** every call evaluates the benchmark at the configuration of the keywords with the seed of the constructor *)
Theorem hpo_calls (b : benchmark N) seed kw : let h := hpo_new b seed in
  hb_cs h = bm_space b seed /\
  (legal_keywords (hb_cs h) kw -> exists c, config_for (hb_cs h) kw c /\
     (forall d v, bm_objective b c seed = Ok d -> NoDup (map fst d) -> In ("function_value"%string, v) d -> hpo_call h kw = Ok v) /\
     (forall d, bm_objective b c seed = Ok d -> ~ In "function_value"%string (map fst d) -> hpo_call h kw = Err KeyError) /\
     (forall e, bm_objective b c seed = Err e -> hpo_call h kw = Err e)) /\
  (illegal_keywords (hb_cs h) kw -> hpo_call h kw = Err ValueError).
Proof.
  intro h. destruct (call_spec (hb_cs h) kw (hpo_value h)) as (A & B). split; [reflexivity|]. split; [|exact B]. intros (K1 & K2). destruct (A K1 K2) as (c & E & M & G). exists c. split; [split; assumption|].
  unfold hpo_call. rewrite E. unfold hpo_value. cbn [hb_bench hb_seed h hpo_new]. repeat split; intros; rewrite H; cbn [bind]; [apply dict_get_in; assumption|apply dict_get_none; assumption|reflexivity].
Qed.
Theorem callable_calls {A} (f : config N -> res A) (cs : cspace N) kw :
  (legal_keywords cs kw -> exists c, config_for cs kw c /\ callable_call f cs kw = f c) /\
  (illegal_keywords cs kw -> callable_call f cs kw = Err ValueError).
Proof. destruct (call_spec cs kw f) as (H & I). split; [|exact I]. intros (K1 & K2). destruct (H K1 K2) as (c & E & M & G). exists c. repeat split; assumption. Qed.
Theorem names (cs cs' : cspace N) cls n : callable_name cs (Some n) = n /\
  (callable_name cs None = callable_name cs' None <-> length cs = length cs') /\
  (forall d d', bb_name cls d = bb_name cls d' <-> d = d').
Proof.
  assert (B : forall cls d d', bb_name cls d = bb_name cls d' <-> d = d').
  { intros k d d'. unfold bb_name. split; [|intros ->; reflexivity]. intro H. apply append_inj, append_inj, append_suffix, dec_inj in H. exact H. }
  split; [reflexivity|]. split; [apply B|apply B].
Qed.
End Blackbox.
