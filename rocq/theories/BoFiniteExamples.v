(** BoFiniteExamples.v - a surrogate that remembers, and runs for C125. *)
From Coq Require Import Reals Lra.
From Coquelicot Require Import Coquelicot.
From Verif Require Import Base Num NumLaws NumpyModel ConfigSpaceModel SamplerModel AcquisitionModel AcquisitionProofs Gauss AcquisitionReal SamplerSpec
  SamplerMetaReal BoRegretSpec BoRegret BoRegretExamples BoFiniteSpec BoFinite.
Local Open Scope R_scope.
Local Open Scope list_scope.

(** minimize f(x) = x; known values are predicted with deviation 0, all others as 0 with deviation |x| + 1 *)
Fixpoint recall (X : list (list RNum)) (ys : list (json RNum)) (x : R) : R * R :=
  match X, ys with
  | r :: X', JNum y :: ys' => if Req_EM_T (nth 0 r 0) x then (y, 0) else recall X' ys' x
  | _, _ => (0, Rabs x + 1)
  end.
Definition memo (p : option (list (list RNum) * list (json RNum))) (X : list (list RNum)) : res (list RNum * list RNum) :=
  match p with
  | Some (K, ys) => Ok (map (fun r => fst (recall K ys (nth 0 r 0)) : RNum) X, map (fun r => snd (recall K ys (nth 0 r 0)) : RNum) X)
  | None => Err ValueError
  end.
Notation J f := (fun c : conf RNum => @JNum RNum (f (c_vals c))).
Lemma recall_known known x : Forall rx_valid known -> In (rx_conf x) known -> recall (map (@c_vec RNum) known) (map (J rx_f) known) x = (x, 0).
Proof.
  induction 1 as [|c known [z ->] _ IH]; [intros []|]. intro H. cbn. destruct (Req_EM_T z x) as [->|NE]; [reflexivity|]. apply IH. destruct H as [H|H]; [|exact H].
  exfalso. injection H as H _. contradiction.
Qed.
Lemma recall_other known x : Forall rx_valid known -> ~ In (rx_conf x) known -> recall (map (@c_vec RNum) known) (map (J rx_f) known) x = (0, Rabs x + 1).
Proof.
  induction 1 as [|c known [z ->] _ IH]; [reflexivity|]. intro H. cbn. destruct (Req_EM_T z x) as [->|NE]; [exfalso; apply H; left; reflexivity|]. apply IH. intro I. apply H. right. exact I.
Qed.
(** each row of a prediction *)
Lemma memo_rows known l means stds : Forall rx_valid l -> fitted_on memo rx_f known (map (@c_vec RNum) l) = Ok (means, stds) ->
  length (A:=R) means = length l /\ length (A:=R) stds = length l /\ forall i c (m s : R), nth_error l i = Some c -> nth_error (A:=R) means i = Some m \/ nth_error (A:=R) stds i = Some s ->
  exists x, c = rx_conf x /\ (nth_error (A:=R) means i = Some m -> m = fst (recall (map (@c_vec RNum) known) (map (J rx_f) known) x)) /\
    (nth_error (A:=R) stds i = Some s -> s = snd (recall (map (@c_vec RNum) known) (map (J rx_f) known) x)).
Proof.
  intros Vl E. unfold fitted_on, memo in E. injection E as <- <-. rewrite !map_length. refine (conj eq_refl (conj eq_refl _)). intros i c m s Hc _.
  destruct (proj1 (Forall_forall _ _) Vl c (nth_error_In _ _ Hc)) as [x ->]. exists x. refine (conj eq_refl (conj _ _)); intro H; rewrite !nth_error_map, Hc in H; cbn in H; injection H as <-; reflexivity.
Qed.
Lemma in_dec_valid (c : conf RNum) known : In c known \/ ~ In c known. Proof. apply Classical_Prop.classic. Qed.
Lemma memo_sure : sure_of_known rx_valid memo rx_f.
Proof.
  intros known l means stds Vk Vl E i c s Hc Hs Ik. destruct (memo_rows known l means stds Vl E) as (_ & _ & R). destruct (R i c 0 s Hc (or_intror Hs)) as (x & -> & _ & S).
  rewrite (S Hs), (recall_known known x Vk Ik). reflexivity.
Qed.
Lemma memo_unsure : unsure_of_others rx_valid memo rx_f.
Proof.
  intros known l means stds Vk Vl E. destruct (memo_rows known l means stds Vl E) as (Lm & Ls & R). refine (conj Lm (conj Ls _)). intros i c s Hc Hs Ik.
  destruct (R i c 0 s Hc (or_intror Hs)) as (x & -> & _ & S). rewrite (S Hs), (recall_other known x Vk Ik). cbn. pose proof (Rabs_pos x). lra.
Qed.
Lemma memo_calibrated : calibrated rx_valid 1 rx_f memo.
Proof.
  intros known l means stds Vk Vl E. destruct (memo_rows known l means stds Vl E) as (Lm & Ls & R). refine (conj Lm (conj Ls _)). intros i c m s Hc Hm Hs.
  destruct (R i c m s Hc (or_introl Hm)) as (x & -> & M & S). rewrite (M Hm), (S Hs). change (rx_f (c_vals (rx_conf x))) with x.
  destruct (in_dec_valid (rx_conf x) known) as [I|I]; [rewrite (recall_known known x Vk I)|rewrite (recall_other known x Vk I)]; cbn [fst snd].
  - rewrite Rminus_eq_0, Rabs_R0. lra.
  - rewrite Rminus_0_r. lra.
Qed.
Lemma memo_answers : answers rx_valid memo rx_f.
Proof. intros known l _ _ _. eexists _, _. split; [reflexivity|]. rewrite !map_length. auto. Qed.

(** from the point 2, over the candidates 4, 1 and 3 *)
Definition mx_list : list (conf RNum) := [rx_conf 4; rx_conf 1; rx_conf 3].
Lemma mx_valid : Forall rx_valid mx_list.
Proof. exact (Forall_cons _ (ex_intro _ 4 eq_refl) (Forall_cons _ (ex_intro _ 1 eq_refl) (Forall_cons _ (ex_intro _ 3 eq_refl) (Forall_nil _)))). Qed.
Definition mx_v (a : acq RNum) : world RNum := with_choice rx_world memo a true (fun _ => DList mx_list) (Err ValueError).
Definition mx_s (a : acq RNum) : sampler RNum := fst (srun (mx_v a) [OSample 1] (sampler_new (mx_v a) (KBO 1) [] true EmptyString (fun _ => None))).
Lemma mx_start a : sreaches (mx_v a) (fun _ => None) (mx_s a) /\ s_kind (mx_s a) = KBO 1 /\ s_min (mx_s a) = true /\ s_cache (mx_s a) = [] /\ s_configs (mx_s a) = [rx_conf 2] /\ values_of rx_f (mx_s a).
Proof. split; [exists (KBO 1), [], true, EmptyString, [OSample 1]; reflexivity|]. repeat split. Qed.
Lemma mx_start_valid a : Forall rx_valid (s_configs (mx_s a)).
Proof. destruct (mx_start a) as (_ & _ & _ & _ & E & _). rewrite E. exact (Forall_cons _ (ex_intro _ 2 eq_refl) (Forall_nil _)). Qed.
Lemma mx_runs a n : exists s', sample (mx_v a) n (mx_s a) = (s', Ok tt).
Proof.
  destruct (mx_start a) as (H1 & H2 & _ & H4 & H5 & H6).
  apply (runs rx_world memo rx_valid a rx_f true mx_list (Err ValueError) memo_answers mx_valid ltac:(discriminate) (fun _ _ => eq_refl) (fun _ _ _ => eq_refl) (fun _ => None) (mx_s a) 1 n H1 H2 H4).
  - unfold slen. rewrite H5. cbn. lia.
  - unfold slen. rewrite H5. cbn. lia.
  - exact H6.
  - apply mx_start_valid.
Qed.
(** the incumbent after three steps with the lower confidence bound *)
Lemma mx_best : exists s' best y, sample (mx_v (ALCB (N:=RNum) 1)) 3 (mx_s (ALCB (N:=RNum) 1)) = (s', Ok tt) /\ incumbent s' = Ok (Some (best, y)) /\ nearly_best true rx_f mx_list y 0.
Proof.
  destruct (mx_runs (ALCB (N:=RNum) 1) 3) as (s' & E). destruct (mx_start (ALCB (N:=RNum) 1)) as (H1 & H2 & H3 & H4 & H5 & H6).
  destruct (finite_lcb rx_world memo rx_valid 1 rx_f true mx_list (Err ValueError) (fun _ => None) (mx_s (ALCB (N:=RNum) 1)) s' 1 3 memo_calibrated memo_sure mx_valid (mx_start_valid _) (fun _ _ => eq_refl) H1 H2 H3 H4) as (b & y & I & B).
  - unfold slen. rewrite H5. cbn. lia.
  - unfold slen. rewrite H5. cbn. lia.
  - exact H6.
  - exact E.
  - cbn. lia.
  - exists s', b, y. auto.
Qed.

(** one step over two candidates does not suffice *)
Definition fx_list : list (conf RNum) := [rx_conf 4; rx_conf 1].
Lemma fx_valid : Forall rx_valid fx_list.
Proof. exact (Forall_cons _ (ex_intro _ 4 eq_refl) (Forall_cons _ (ex_intro _ 1 eq_refl) (Forall_nil _))). Qed.
Definition fx_v : world RNum := with_choice rx_world memo (ALCB (N:=RNum) 1) true (fun _ => DList fx_list) (Err ValueError).
Definition fx_s : sampler RNum := fst (srun fx_v [OSample 1] (sampler_new fx_v (KBO 1) [] true EmptyString (fun _ => None))).
Lemma fx_start : sreaches fx_v (fun _ => None) fx_s /\ s_kind fx_s = KBO 1 /\ s_min fx_s = true /\ s_cache fx_s = [] /\ s_configs fx_s = [rx_conf 2] /\ values_of rx_f fx_s.
Proof. split; [exists (KBO 1), [], true, EmptyString, [OSample 1]; reflexivity|]. repeat split. Qed.
Lemma fx_choice : get_optimum (fitted_on memo rx_f [rx_conf 2]) norm_cdf norm_pdf (ALCB (N:=RNum) 1) true (DList fx_list) = Ok (EConf (rx_conf 4)).
Proof.
  assert (E : forall v4 v1 : R, v1 <= v4 -> py_extreme (N:=RNum) (fun x y => nlt y x) (combine [EConf (rx_conf 4); EConf (rx_conf 1)] [v4; v1]) = Ok (EConf (rx_conf 4), v4)).
  { intros v4 v1 L. cbn. destruct (Rltb_spec v4 v1); [exfalso; lra|reflexivity]. }
  assert (V2 : Forall rx_valid [rx_conf 2]) by exact (Forall_cons _ (ex_intro _ 2 eq_refl) (Forall_nil _)).
  assert (N4 : ~ In (rx_conf 4) [rx_conf 2]) by (intros [H|[]]; injection H as H _; lra).
  assert (N1 : ~ In (rx_conf 1) [rx_conf 2]) by (intros [H|[]]; injection H as H _; lra).
  pose proof (recall_other [rx_conf 2] 4 V2 N4) as R4. pose proof (recall_other [rx_conf 2] 1 V2 N1) as R1.
  assert (P : fitted_on memo rx_f [rx_conf 2] (map (@c_vec RNum) fx_list) = Ok ([(0 : RNum); (0 : RNum)], [(Rabs 4 + 1 : RNum); (Rabs 1 + 1 : RNum)])).
  { unfold fitted_on, memo. cbn [map fx_list rx_conf c_vec nth] in *. rewrite R4, R1. reflexivity. }
  unfold get_optimum, get_optimum_pair, acq_call. rewrite (convert_list fx_list), P. cbn [bind fst snd]. unfold elementwise. cbn [length Nat.eqb map2 bind elements map fx_list acq_value].
  assert (L : lcb_value (N:=RNum) true 1 0 (Rabs 1 + 1) <= lcb_value (N:=RNum) true 1 0 (Rabs 4 + 1)).
  { rewrite !lcb_R. rewrite !Rabs_pos_eq by lra. lra. }
  exact (f_equal (fun r => bind r (fun p => Ok (fst p))) (E _ _ L)).
Qed.
Lemma fx_misses : exists s', sample fx_v 1 fx_s = (s', Ok tt) /\ forall best y, incumbent s' = Ok (Some (best, y)) -> ~ nearly_best true rx_f fx_list y 0.
Proof.
  destruct fx_start as (H1 & H2 & H3 & H4 & H5 & H6).
  assert (L1 : (1 <= slen fx_s)%nat) by (unfold slen; rewrite H5; cbn; lia).
  assert (Vk : Forall rx_valid (s_configs fx_s)) by (rewrite H5; exact (Forall_cons _ (ex_intro _ 2 eq_refl) (Forall_nil _))).
  destruct (runs rx_world memo rx_valid (ALCB (N:=RNum) 1) rx_f true fx_list (Err ValueError) memo_answers fx_valid ltac:(discriminate) (fun _ _ => eq_refl) (fun _ _ _ => eq_refl)
    (fun _ => None) fx_s 1 1 H1 H2 H4 L1 L1 H6 Vk) as (s' & E).
  exists s'. split; [exact E|]. intros b0 y0 I0 NB.
  destruct (run_choices rx_world memo (ALCB (N:=RNum) 1) rx_f true (fun _ => DList fx_list) (Err ValueError) (fun _ => None) fx_s s' 1 1 (fun _ _ => eq_refl) H1 H2 H4 L1 L1 H6 E)
    as (V' & M' & cs & Lc & X' & Ch).
  destruct cs as [|c [|? ?]]; [discriminate Lc| |discriminate Lc]. destruct (Ch 0%nat c eq_refl) as (l & eta & El & _ & G). injection El as <-. cbv zeta in G. cbn [firstn acq_update] in G. rewrite app_nil_r, H5 in G.
  pose proof (eq_trans (eq_sym fx_choice) G) as Q. injection Q as <-. rewrite H5 in X'. cbn [app] in X'.
  destruct (incumbent_known rx_f s' V') as (b & y & I1 & Ey & Ib & _); [rewrite X'; intro Z; discriminate Z|].
  assert (y0 = y) as -> by (rewrite I0 in I1; injection I1 as _ ->; reflexivity). specialize (NB (rx_conf 1) (or_intror (or_introl eq_refl))). cbv iota in NB. change (rx_f (c_vals (rx_conf 1))) with 1 in NB.
  rewrite X' in Ib. destruct Ib as [<-|[<-|[]]]; [change (rx_f (c_vals (rx_conf 2))) with 2 in Ey|change (rx_f (c_vals (rx_conf 4))) with 4 in Ey]; lra.
Qed.
Lemma fx_refutes : exists (w : world RNum) surr valid (tau : R) f mn l none fs s s' ip n,
  let v := with_choice w surr (ALCB (N:=RNum) tau) mn (fun _ => DList l) none in
  (calibrated valid tau f surr /\ sure_of_known valid surr f /\ Forall valid l /\ Forall valid (s_configs s) /\ (forall k vals, w_obj w k vals = Ok (@JNum RNum (f vals)))) /\
  (sreaches v fs s /\ s_kind s = KBO ip /\ s_min s = mn /\ s_cache s = [] /\ (ip <= slen s)%nat /\ (0 < slen s)%nat /\ values_of f s) /\
  sample v n s = (s', Ok tt) /\ length l = S n /\ forall best y, incumbent s' = Ok (Some (best, y)) -> ~ nearly_best mn f l y 0.
Proof.
  destruct fx_misses as (s' & E & NB). destruct fx_start as (H1 & H2 & H3 & H4 & H5 & H6).
  assert (L1 : (1 <= slen fx_s)%nat) by (unfold slen; rewrite H5; cbn; lia).
  assert (Vk : Forall rx_valid (s_configs fx_s)) by (rewrite H5; exact (Forall_cons _ (ex_intro _ 2 eq_refl) (Forall_nil _))).
  exists rx_world, memo, rx_valid, 1, rx_f, true, fx_list, (Err ValueError), (fun _ => None), fx_s, s', 1%nat, 1%nat.
  refine (conj (conj memo_calibrated (conj memo_sure (conj fx_valid (conj Vk (fun _ _ => eq_refl))))) (conj (conj H1 (conj H2 (conj H3 (conj H4 (conj L1 (conj L1 H6)))))) (conj E (conj eq_refl NB)))).
Qed.

(** a new sampler with two initial points *)
Definition nx_s (a : acq RNum) : sampler RNum := sampler_new (mx_v a) (KBO 2) [] true EmptyString (fun _ => None).
Lemma nx_start a : sreaches (mx_v a) (fun _ => None) (nx_s a) /\ s_kind (nx_s a) = KBO 2 /\ s_min (nx_s a) = true /\ s_cache (nx_s a) = [] /\ slen (nx_s a) = 0%nat /\ values_of rx_f (nx_s a) /\
  Forall rx_valid (s_configs (nx_s a)).
Proof. split; [exists (KBO 2), [], true, EmptyString, []; reflexivity|]. repeat split. constructor. Qed.
Lemma nx_draws d k i : rx_valid (w_batch rx_world d k i).
Proof. exists 2. reflexivity. Qed.
(** five points find the best of three candidates *)
Lemma nx_best : exists s' best y, sample (mx_v (ALCB (N:=RNum) 1)) 5 (nx_s (ALCB (N:=RNum) 1)) = (s', Ok tt) /\ slen s' = 5%nat /\ incumbent s' = Ok (Some (best, y)) /\ nearly_best true rx_f mx_list y 0.
Proof.
  destruct (nx_start (ALCB (N:=RNum) 1)) as (H1 & H2 & H3 & H4 & H5 & H6 & H7).
  destruct (first_lcb rx_world memo rx_valid 1 rx_f true mx_list (Err ValueError) (fun _ => None) (nx_s (ALCB (N:=RNum) 1)) 2 5 memo_calibrated memo_sure memo_answers mx_valid
    ltac:(discriminate) H7 (fun _ _ => eq_refl) (fun _ _ _ => eq_refl) eq_refl nx_draws H1 H2 H3 H4) as (s' & E & L & b & y & I & B).
  - rewrite H5. lia.
  - exact H6.
  - cbn. lia.
  - exists s', b, y. rewrite H5 in L. auto.
Qed.
