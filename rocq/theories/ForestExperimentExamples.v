(** ForestExperimentExamples.v - a forest for C118: three samples, each in the incumbent's half of one hyperparameter only. *)
From Coq Require Import Reals QArith Lra.
From Verif Require Import Base Num NumLaws NumpyModel ConfigSpaceModel UtilsModel IceModel PartitionModel PartitionSpec ListLemmas IceProofs2 PartitionProofs4 RealProofs PartitionReal Examples
  ForestModel ForestSpec ForestProofs ForestExperimentModel ForestExperimentSpec.
Local Open Scope string_scope.
Local Open Scope nat_scope.
Local Open Scope list_scope.

Section Ex.
Context {N : Num}.
Definition fe_cs : cspace N := [mkhp "a" (KFloat n0 n1 false); mkhp "b" (KFloat n0 n1 false); mkhp "c" (KFloat n0 n1 false); mkhp "d" (KFloat n0 n1 false)].
Definition fe_rows : list (list N) :=
  [[frac 1 2; frac 3 10; frac 7 10; frac 7 10]; [frac 1 2; frac 7 10; frac 3 10; frac 7 10]; [frac 1 2; frac 7 10; frac 7 10; frac 3 10]].
(** mean = a, standard deviation = b *)
Definition fe_predict : predictor N := fun rows => Ok (map (fun r => nth 0 r n0) rows, map (fun r => nth 1 r n0) rows).
Definition fe_inc : config N := [("a", VNum (frac 1 2)); ("b", VNum (frac 3 10)); ("c", VNum (frac 3 10)); ("d", VNum (frac 3 10))].
Definition fe_ice : ice N := ice_new (mkalg fe_cs [mkhp "a" (KFloat n0 n1 false)] fe_rows 3) fe_predict.
(** every tree is drawn all three samples and one of b, c and d, in turn *)
Definition fe_rng : stream := fun i => nth (i mod 18) [0; 1; 2; 1; 0; 0;  0; 1; 2; 0; 1; 0;  0; 1; 2; 0; 0; 1] 0.
Definition fe_forest : forest N := mkforest fe_ice [mkhp "b" (KFloat n0 n1 false); mkhp "c" (KFloat n0 n1 false); mkhp "d" (KFloat n0 n1 false)] 100 10 fe_rng 0 None.

Lemma fe_start : forest_from_ice fe_ice fe_rng = Ok fe_forest.
Proof. reflexivity. Qed.
Lemma fe_starts : forest_start fe_forest.
Proof. exact (start_ice _ _ [] _ _ fe_start). Qed.
Lemma fe_ok : (forall x : N, ordinary x) -> experiment_ok fe_forest fe_inc.
Proof.
  intro O. constructor.
  - refine (conj _ (conj _ _)); cbn; [repeat constructor; cbn; intuition discriminate|repeat constructor|lia].
  - repeat constructor.
  - intros. apply O.
  - discriminate.
  - apply Forall_forall. intros row Hr.
    assert (T : forall k x, hp_transform (mkhp k (KFloat n0 n1 false)) x = Ok (Some (VNum (float_transform n0 n1 false x)))) by (intros k x; unfold hp_transform; rewrite (O x : neqb x x = true); reflexivity).
    assert (E : exists u v w z, row = [u; v; w; z]) by (destruct Hr as [<-|[<-|[<-|[]]]]; eauto 6).
    destruct E as (u & v & w & z & ->). eexists. split; [cbn [f_alg f_ice fe_forest fe_ice ic_alg ice_new a_cs fe_cs config_of_vector]; rewrite !T; reflexivity|].
    intros h [<-|[<-|[<-|[<-|[]]]]]; (eexists; split; [reflexivity|apply O]).
  - exists (mkhp "b" (KFloat n0 n1 false)). split; [right; left; reflexivity|cbn; intuition discriminate].
  - discriminate.
  - repeat constructor.
  - intro rows. do 2 eexists. refine (conj eq_refl (conj _ _)); apply map_length.
  - intros h [<-|[<-|[<-|[<-|[]]]]]; (eexists; split; [reflexivity|apply O]).
Qed.
End Ex.

Lemma fe_float : float_space (a_cs (f_alg (fe_forest (N:=RNum)))).
Proof. repeat constructor; exists 0%R, 1%R, false; (split; [reflexivity|]; split; [lra|discriminate]). Qed.

(** with three trees no sample lies in two of the regions *)
Definition row_summary (r : Z * option QNum * option QNum) : Z * bool := (fst (fst r), match snd r with Some _ => true | None => false end).
Lemma fe_rows_nan : match forest_experiment (N:=QNum) fe_ice fe_rng fe_inc 1 3 [1; 2; 3]%Z with
  | Ok (rows, row) => map row_summary rows = [(1, true); (2, true); (3, false)]%Z
  | Err _ => False end.
Proof. vm_compute. reflexivity. Qed.

(** the samples in the regions *)
Section Holds.
Context {N : Num}.
Definition samples_in (f : forest N) (nd : dnode N) : res (list nat) :=
  bs <- mapM (fun row => c <- config_of_vector (a_cs (f_alg f)) row ;; contains (a_cs (f_alg f)) (n_conds nd) c) (a_samples (f_alg f)) ;;
  Ok (filter (fun i => nth i bs false) (seq 0 (length bs))).
Lemma samples_in_of f nd idxs : samples_in f nd = Ok idxs -> samples_of f nd idxs.
Proof.
  unfold samples_in. intro H. apply bind_ok in H. destruct H as (bs & Hb & H). injection H as <-. pose proof (mapM_length _ _ _ Hb) as Len.
  split; [apply NoDup_filter, seq_NoDup|]. intro i. rewrite filter_In, in_seq. split.
  - intros [Hi Hn]. destruct (nth_error (a_samples (f_alg f)) i) as [row|] eqn:E; [|apply nth_error_None in E; lia].
    destruct (mapM_nth _ _ _ _ _ Hb E) as (b & Eb & Hc). apply bind_ok in Hc. destruct Hc as (c & Hc & Hk). rewrite (nth_error_nth _ _ _ Eb) in Hn. subst b.
    exists c. split; [exists row; auto|]. apply contains_spec in Hk. apply Hk. reflexivity.
  - intros (c & (row & E & Hc) & Hl). destruct (mapM_nth _ _ _ _ _ Hb E) as (b & Eb & Hc'). rewrite Hc in Hc'. cbn in Hc'. pose proof (nth_error_Some_lt _ _ _ Eb). split; [lia|].
    rewrite (nth_error_nth _ _ _ Eb). apply (contains_spec _ _ _ _ Hc'). exact Hl.
Qed.
Definition check_regions (f : forest N) (cfg : config N) : res (list (list nat)) :=
  match f_trees f with None => Err AssertionError | Some ts =>
    mapM (fun t => r <- tree_region cfg t ;; match r with None => Err TypeError | Some nd => samples_in f nd end) ts end.
Lemma check_regions_of f cfg Is : check_regions f cfg = Ok Is -> exists nds, incumbent_regions f cfg nds /\ Forall2 (samples_of f) nds Is.
Proof.
  unfold check_regions. destruct (f_trees f) as [ts|] eqn:Et; [|discriminate]. intro H.
  assert (K : exists nds, Forall2 (fun t nd => exists id, get_incumbent_region t cfg = Ok (Some id) /\ deref t id = Some nd) ts nds /\ Forall2 (samples_of f) nds Is).
  { clear Et. revert Is H. induction ts as [|t ts IH]; intros Is H; cbn in H.
    - injection H as <-. exists []. split; constructor.
    - apply bind_ok in H. destruct H as (I & HI & H). apply bind_ok in H. destruct H as (Is' & HIs & H). injection H as <-. destruct (IH Is' HIs) as (nds & F1 & F2).
      apply bind_ok in HI. destruct HI as (r & Hr & HI). destruct r as [nd|]; [|discriminate]. exists (nd :: nds). split; [constructor; [|exact F1]|constructor; [apply samples_in_of; exact HI|exact F2]].
      unfold tree_region in Hr. apply bind_ok in Hr. destruct Hr as (o & Ho & Hr). destruct o as [id|]; [|discriminate]. exists id. destruct (deref t id) eqn:E; [|discriminate]. injection Hr as <-. auto. }
  destruct K as (nds & F1 & F2). exists nds. split; [exists ts; auto|exact F2].
Qed.
End Holds.

Definition fe_forest3 : forest QNum := fst (forest_partition (N:=QNum) fe_forest 3 1 (Some 3%Z)).
Lemma fe_regions : exists nds, incumbent_regions fe_forest3 fe_inc nds /\ Forall2 (samples_of fe_forest3) nds [[0]; [1]; [2]].
Proof. apply check_regions_of. vm_compute. reflexivity. Qed.
Lemma fe_sizes : map (fun k => match snd (forest_incumbent_region fe_forest3 fe_inc (Some k)) with Ok r => Some (region_len r) | Err _ => None end) [1; 2]%Z = [Some 3; Some 0].
Proof. vm_compute. reflexivity. Qed.
