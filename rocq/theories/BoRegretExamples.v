(** BoRegretExamples.v - a run for C123 with a calibrated surrogate, and choices of the other acquisition functions. *)
From Coq Require Import Reals Lra.
From Coquelicot Require Import Coquelicot.
From Verif Require Import Base Num NumLaws NumpyModel ConfigSpaceModel SamplerModel AcquisitionModel AcquisitionProofs Gauss AcquisitionReal SamplerSpec
  SamplerMetaReal BoRegretSpec BoRegret.
Local Open Scope R_scope.
Local Open Scope list_scope.

(** minimize f(x) = x; the surrogate predicts the first known value, with the distance from that point as deviation *)
Definition rx_conf (x : R) : conf RNum := mkconf [(x : RNum)] [("x"%string, VNum (x : RNum))].
Definition rx_f (vals : config RNum) : R := match vals with [(_, VNum x)] => x | _ => 0 end.
Definition rx_valid (c : conf RNum) : Prop := exists x, c = rx_conf x.
Definition rx_surr (p : option (list (list RNum) * list (json RNum))) (X : list (list RNum)) : res (list RNum * list RNum) :=
  match p with
  | Some ((x0 :: _) :: _, JNum y0 :: _) => Ok (map (fun _ => y0) X, map (fun r => Rabs (nth 0 r 0 - x0) : RNum) X)
  | _ => Err ValueError
  end.
Lemma rx_calibrated : calibrated rx_valid 1 rx_f rx_surr.
Proof.
  intros known l means stds Hk Hl E. destruct known as [|k0 known]; [discriminate|]. inversion_clear Hk as [|? ? H _]. destruct H as [x0 ->]. cbn in E. injection E as <- <-.
  unfold band. rewrite !map_length. refine (conj eq_refl (conj eq_refl _)).
  intros i c m s Hc Hm Hs. rewrite !nth_error_map in Hm, Hs. rewrite Hc in Hm, Hs. cbn in Hm, Hs.
  destruct (proj1 (Forall_forall _ _) Hl c (nth_error_In _ _ Hc)) as [x ->]. cbn in *. injection Hm as <-. injection Hs as <-. lra.
Qed.

Definition rx_world : world RNum :=
  mkworld (fun _ vals => Ok (JNum (rx_f vals : RNum))) (fun _ _ _ => rx_conf 2) true (fun _ => 0%nat) (fun _ _ => 1%nat) (fun _ _ _ _ => []) (fun _ _ _ => Ok tt)
    (fun _ _ _ => Err ValueError) (fun _ => Err ValueError) (fun _ => EmptyString) (fun t => t).
Definition rx_cand (_ : nat) : drawn RNum := DList [rx_conf 4; rx_conf 1].
Definition rx_v : world RNum := with_choice rx_world rx_surr (ALCB (N:=RNum) 1) true rx_cand (Err ValueError).
Definition rx_new : sampler RNum := sampler_new rx_v (KBO 1) [] true EmptyString (fun _ => None).
Definition rx_s : sampler RNum := fst (srun rx_v [OSample 1] rx_new).
Lemma rx_optimum eta : choose rx_surr (ALCB (N:=RNum) 1) true rx_cand (Err ValueError) 0 (Some ([[(2 : RNum)]], [JNum (2 : RNum)])) (Some eta) = Ok (rx_conf 4).
Proof.
  assert (A4 : Rabs (4 - 2) = 2) by (rewrite Rabs_pos_eq; lra). assert (A1 : Rabs (1 - 2) = 1) by (rewrite Rabs_left; lra).
  unfold choose, get_optimum, get_optimum_pair. cbn. rewrite A4, A1. destruct (Rltb_spec (-1 * 2 + 1 * 2) (-1 * 2 + 1 * 1)); [exfalso; lra|]. reflexivity.
Qed.
Lemma rx_start : sreaches rx_v (fun _ => None) rx_s /\ s_kind rx_s = KBO 1 /\ s_min rx_s = true /\ s_cache rx_s = [] /\ s_configs rx_s = [rx_conf 2] /\ values_of rx_f rx_s.
Proof. split; [exists (KBO 1), [], true, EmptyString, [OSample 1]; reflexivity|]. repeat split. Qed.
(** sample(1) in its steps *)
Lemma sample_one (v : world RNum) s s1 s2 s3 ip : s_kind s = KBO ip -> s_cache s = [] -> (ip <= slen s)%nat ->
  fit_surrogate v false (set_cache [] s) = (s1, Ok tt) -> bo_step v s1 = (s2, Ok tt) -> fit_surrogate v false s2 = (s3, Ok tt) -> sample v 1 s = (s3, Ok tt).
Proof.
  intros K C L E1 E2 E3. unfold sample. unfold bindM at 1. rewrite K. unfold sample_base. rewrite C, K.
  assert (H : (length (@nil (conf RNum * json RNum)) <? slen s + 1)%nat = true) by (apply Nat.ltb_lt; cbn; lia). rewrite H.
  unfold bindM at 1. cbn [replay]. cbn [set_cache s_cache]. change (0 <? 1)%nat with true. cbv iota. cbn [Nat.sub]. unfold sample_new, bo_sample.
  unfold bindM at 1, get at 1. assert (H' : (slen (set_cache [] s) <? ip)%nat = false) by (apply Nat.ltb_ge; exact L). rewrite H'.
  unfold bindM at 1, ret at 1. unfold bindM at 1. rewrite E1. cbn [Nat.sub times]. unfold bindM at 1. rewrite E2. unfold ret. exact E3.
Qed.
Section Run.
Variables (x y : R) (A : nat -> option (list (list RNum) * list (json RNum)) -> option RNum -> res (conf RNum)).
Hypothesis HA : A 0%nat (Some ([[(x : RNum)]], [JNum (x : RNum)])) (Some (x : RNum)) = Ok (rx_conf y).
Let v : world RNum := mkworld (fun _ vals => Ok (JNum (rx_f vals : RNum))) (fun _ _ _ => rx_conf x) true (fun _ => 0%nat) (fun _ _ => 1%nat) (fun _ _ _ _ => []) (fun _ _ _ => Ok tt)
    A (fun _ => Err ValueError) (fun _ => EmptyString) (fun t => t).
Lemma rx_run_with : let s := fst (srun v [OSample 1] (sampler_new v (KBO 1) [] true EmptyString (fun _ => None))) in
  exists s', sample v 1 s = (s', Ok tt) /\ s_configs s' = [rx_conf x; rx_conf y].
Proof.
  intro s. assert (S : exists t, s = t) by eauto. destruct S as (t & Et). rewrite Et. cbv -[RNum] in Et.
  eexists. split.
  - eapply (sample_one v t) with (ip := 1%nat); rewrite <- Et; [reflexivity|reflexivity|cbv -[RNum]; lia|cbv -[RNum]; reflexivity| |].
    + cbv -[RNum]. cbv -[RNum] in HA. rewrite HA. reflexivity.
    + cbv -[RNum]. reflexivity.
  - reflexivity.
Qed.
End Run.
Lemma rx_run : exists s', sample rx_v 1 rx_s = (s', Ok tt) /\ s_configs s' = [rx_conf 2; rx_conf 4].
Proof. exact (rx_run_with 2 4 _ (rx_optimum _)). Qed.

(** a surrogate that is certain and right everywhere *)
Definition sure_predict (X : list (list RNum)) : res (list RNum * list RNum) := Ok (map (fun r => nth 0 r (0 : RNum)) X, map (fun _ => (0 : RNum)) X).
Lemma sure_band tau (g : R) : band tau rx_f [rx_conf g; rx_conf 0] [g; 0] [0; 0].
Proof.
  refine (conj eq_refl (conj eq_refl _)). intros [|[|[|i]]] c m s Hc Hm Hs; cbn in *; try discriminate; injection Hc as <-; injection Hm as <-; injection Hs as <-; cbn;
    rewrite Rminus_eq_0, Rabs_R0; lra.
Qed.
Lemma sure_first a (g : R) : (forall tau, a <> ALCB (N:=RNum) tau) -> get_optimum sure_predict norm_cdf norm_pdf a true (DList [rx_conf g; rx_conf 0]) = Ok (EConf (rx_conf g)).
Proof.
  intro H. assert (E : forall m, acq_value (N:=RNum) norm_cdf norm_pdf a true m (0 : RNum) = (0 : RNum)).
  { intro m. destruct a as [eta eps|eta eps|tau]; [| |exfalso; exact (H tau eq_refl)]; cbn [acq_value]; unfold ei_value, pi_value;
      (replace (neqb (0 : RNum) (n0 : RNum)) with true; [reflexivity|cbn; unfold Reqb; destruct (Req_EM_T 0 0); congruence]). }
  unfold get_optimum, get_optimum_pair, acq_call. rewrite (convert_list [rx_conf g; rx_conf 0]). cbn [map sure_predict bind fst snd elementwise length Nat.eqb map2].
  unfold elementwise. cbn [length Nat.eqb map2 bind map2]. rewrite !E. cbn [combine elements map]. unfold py_extreme. cbn. destruct (Rltb_spec 0 0); [exfalso; lra|]. reflexivity.
Qed.
Lemma sure_zero (d : R) : In d [0; 0] -> d = 0. Proof. intros [<-|[<-|[]]]; reflexivity. Qed.
Lemma sure_gap (g : R) : rx_f (c_vals (rx_conf g)) = rx_f (c_vals (rx_conf 0)) + g. Proof. cbn. ring. Qed.
Lemma rx_cand_valid k l : rx_cand k = DList l -> Forall rx_valid l.
Proof. intro E. injection E as <-. exact (Forall_cons _ (ex_intro _ 4 eq_refl) (Forall_cons _ (ex_intro _ 1 eq_refl) (Forall_nil _))). Qed.
Lemma rx_start_valid : Forall rx_valid (s_configs rx_s).
Proof. destruct rx_start as (_ & _ & _ & _ & E & _). rewrite E. exact (Forall_cons _ (ex_intro _ 2 eq_refl) (Forall_nil _)). Qed.
