(** Prop_SamplerMeta.v - the unit and the sign of the objective: C90 (acquisition functions), C91 (samplers).

    [through fm fs predict] is the surrogate [predict] with means through fm and standard deviations through fs;
    [in_unit c b a] is the acquisition function [a] with eta = c * eta + b and exploration = c * exploration;
    [negated a] is [a] with -eta. *)
From Coq Require Import Reals QArith Lra.
From Flocq Require Import Core.Core IEEE754.BinarySingleNaN.
From Coquelicot Require Import Coquelicot.
From Verif Require Import Base Num NumLaws NumpyModel ConfigSpaceModel SamplerModel AcquisitionModel Gauss AcquisitionReal
  AcquisitionMeta SamplerMeta SamplerMetaReal SamplerMetaWitness SamplerExamples.
Local Open Scope R_scope.

(** ** C90 *)
Theorem C90_values : forall (predict : list (list RNum) -> res (list RNum * list RNum)) c b a mn x, 0 < c ->
  acq_call (through (fun m => c * m + b) (fun s => c * s) predict) norm_cdf norm_pdf (in_unit c b a) mn x =
  match acq_call predict norm_cdf norm_pdf a mn x with
  | Ok v => Ok (map (fun y : R => match a with AEI _ _ => c * y | API _ _ => y | ALCB _ => c * y + (if mn then - b else b) end) v)
  | Err e => Err e
  end.
Proof. exact call_in_unit. Qed.
Print Assumptions C90_values.

Theorem C90_optimum : forall (predict : list (list RNum) -> res (list RNum * list RNum)) c b a mn d, 0 < c ->
  get_optimum (through (fun m => c * m + b) (fun s => c * s) predict) norm_cdf norm_pdf (in_unit c b a) mn d =
  get_optimum predict norm_cdf norm_pdf a mn d.
Proof. exact optimum_in_unit. Qed.
Print Assumptions C90_optimum.

Theorem C90_negated : forall (predict : list (list RNum) -> res (list RNum * list RNum)) a mn, (match a with AEI _ _ => False | _ => True end) ->
  (forall x, acq_call (through Ropp (fun s => s) predict) norm_cdf norm_pdf (negated a) (negb mn) x = acq_call predict norm_cdf norm_pdf a mn x) /\
  (forall d, get_optimum (through Ropp (fun s => s) predict) norm_cdf norm_pdf (negated a) (negb mn) d = get_optimum predict norm_cdf norm_pdf a mn d).
Proof. exact (fun predict a mn H => conj (fun x => call_negated predict a mn x H) (fun d => optimum_negated predict a mn d H)). Qed.
Print Assumptions C90_negated.

Theorem C90_incumbent : forall (predict : list (list RNum) -> res (list RNum * list RNum)) c b mn d, 0 < c ->
  get_incumbent (through (fun m => c * m + b) (fun s => c * s) predict) mn d =
    match get_incumbent predict mn d with Ok (e, x) => Ok (e, c * x + b : RNum) | Err e => Err e end /\
  get_incumbent (through Ropp (fun s => s) predict) (negb mn) d =
    match get_incumbent predict mn d with Ok (e, x) => Ok (e, - x : RNum) | Err e => Err e end.
Proof. exact (fun predict c b mn d H => conj (incumbent_in_unit predict c b mn d H) (incumbent_negated predict mn d)). Qed.
Print Assumptions C90_incumbent.

(** the exploration has a unit: kept as it is while the objective is measured in tenths, another candidate is chosen *)
Theorem C90_same_exploration_refuted : exists (predict : list (list RNum) -> res (list RNum * list RNum)) (ka kb : conf RNum), ka <> kb /\
  get_optimum predict norm_cdf norm_pdf (API (0 : RNum) (1 : RNum)) true (DList [ka; kb]) = Ok (EConf kb) /\
  get_optimum (through (fun m => 10 * m + 0) (fun s => 10 * s) predict) norm_cdf norm_pdf (API (10 * 0 + 0 : RNum) (1 : RNum)) true (DList [ka; kb]) = Ok (EConf ka).
Proof. exact (ex_intro _ e_predict (ex_intro _ e_a (ex_intro _ e_b (conj e_ne (conj e_one e_ten_eta))))). Qed.
Print Assumptions C90_same_exploration_refuted.

(** with the exploration in the new unit the choice stays *)
Example C90_example :
  get_optimum (through (fun m => 10 * m + 3) (fun s => 10 * s) e_predict) norm_cdf norm_pdf (API (10 * 0 + 3 : RNum) (10 * 1 : RNum)) true (DList [e_a; e_b]) = Ok (EConf e_b).
Proof. etransitivity; [exact (C90_optimum e_predict 10 3 (API (0 : RNum) (1 : RNum)) true (DList [e_a; e_b]) ltac:(lra))|exact e_one]. Qed.

(** ** C91: a sampler on an objective of which the values go through f, [flip] if f reverses the order.
    [same_up_to f w w']: the worlds w and w' differ by f in what the objective returns, and fitting and
    choosing give the same on corresponding data *)
Theorem C91_run : forall (N : Num) (f : N -> N) (flip : bool) (w w' : world N),
  (forall x y, nlt (f x) (f y) = if flip then nlt y x else nlt x y) -> (forall x, neqb (f x) (f x) = neqb x x) -> same_up_to f w w' ->
  forall k cs mn key key' fs fs' ops, fs key = None -> fs' key' = None ->
  let r := srun w ops (sampler_new w k cs mn key fs) in
  let r' := srun w' ops (sampler_new w' k cs (if flip then negb mn else mn) key' fs') in
  snd r' = snd r /\
  s_configs (fst r') = s_configs (fst r) /\
  s_ys (fst r') = map (fun j => match j with JNum y => JNum (f y) | _ => j end) (s_ys (fst r)) /\
  s_draws (fst r') = s_draws (fst r) /\ s_calls (fst r') = s_calls (fst r) /\ s_fits (fst r') = s_fits (fst r) /\ s_acqs (fst r') = s_acqs (fst r) /\
  incumbent (fst r') = match incumbent (fst r) with Ok (Some (c, y)) => Ok (Some (c, f y)) | Ok None => Ok None | Err e => Err e end.
Proof. exact (fun N f flip w w' Hlt Hnan Hw k cs mn key key' fs fs' ops Hk Hk' => run_transported f flip key' Hlt Hnan w w' Hw k cs mn key fs fs' ops Hk Hk'). Qed.
Print Assumptions C91_run.

(** a search that looks at its data, in another unit and negated *)
Example C91_example : 
  (forall x y, nlt (h_unit x) (h_unit y) = nlt x y) /\ (forall x y, nlt (h_neg x) (h_neg y) = nlt y x) /\
  same_up_to h_unit (h_world h_obj) (h_world (fun k c => rmap (jmap h_unit) (h_obj k c))) /\
  same_up_to h_neg (h_world h_obj) (h_world (fun k c => rmap (jmap h_neg) (h_obj k c))) /\
  h_show (h_run (fun y => y) true) = ([1#2; 1#3; 1#6; 1#12; 13#24; 37#48], [9#100; 4#225; 1#900; 49#3600; 1681#14400; 18769#57600], [true; true])%Q /\
  h_show (h_run h_unit true) = ([1#2; 1#3; 1#6; 1#12; 13#24; 37#48], [-169#50; -117#25; -249#50; -951#200; -2319#800; 2769#3200], [true; true])%Q /\
  h_show (h_run h_neg false) = ([1#2; 1#3; 1#6; 1#12; 13#24; 37#48], [-9#100; -4#225; -1#900; -49#3600; -1681#14400; -18769#57600], [true; true])%Q.
Proof. exact (conj h_unit_lt (conj h_neg_lt (conj (h_same h_unit h_unit_eq) (conj (h_same h_neg h_neg_eq) h_runs)))). Qed.

(** with get_optimum of the package over a surrogate that follows the unit of its data *)
Theorem C91_unit : forall (w : world RNum) surr surr' a mn cand none fit' c b ip cs key key' fs fs' ops, 0 < c ->
  (forall p X, surr' (option_map (fun q => (fst q, map (jmap (fun y : RNum => c * y + b : RNum)) (snd q))) p) X = through (fun m => c * m + b) (fun s => c * s) (surr p) X) ->
  (forall k X ys, fit' k X (map (jmap (fun y : RNum => c * y + b : RNum)) ys) = w_fit w k X ys) -> fs key = None -> fs' key' = None ->
  let v := with_choice w surr a mn cand none in
  let v' := with_choice (with_values (fun y : RNum => c * y + b : RNum) w fit') surr' (in_unit c b a) mn cand none in
  let r := srun v ops (sampler_new v (KBO ip) cs mn key fs) in
  let r' := srun v' ops (sampler_new v' (KBO ip) cs mn key' fs') in
  snd r' = snd r /\ s_configs (fst r') = s_configs (fst r) /\
  s_ys (fst r') = map (fun j : json RNum => match j with JNum y => JNum (c * y + b : RNum) | _ => j end) (s_ys (fst r)).
Proof. exact bo_in_unit. Qed.
Print Assumptions C91_unit.

Theorem C91_negated : forall (w : world RNum) surr surr' a mn cand none fit' ip cs key key' fs fs' ops, (match a with AEI _ _ => False | _ => True end) ->
  (forall p X, surr' (option_map (fun q => (fst q, map (jmap (fun y : RNum => - y : RNum)) (snd q))) p) X = through Ropp (fun s => s) (surr p) X) ->
  (forall k X ys, fit' k X (map (jmap (fun y : RNum => - y : RNum)) ys) = w_fit w k X ys) -> fs key = None -> fs' key' = None ->
  let v := with_choice w surr a mn cand none in
  let v' := with_choice (with_values (fun y : RNum => - y : RNum) w fit') surr' (negated a) (negb mn) cand none in
  let r := srun v ops (sampler_new v (KBO ip) cs mn key fs) in
  let r' := srun v' ops (sampler_new v' (KBO ip) cs (negb mn) key' fs') in
  snd r' = snd r /\ s_configs (fst r') = s_configs (fst r) /\
  s_ys (fst r') = map (fun j : json RNum => match j with JNum y => JNum (- y : RNum) | _ => j end) (s_ys (fst r)).
Proof. exact bo_negated. Qed.
Print Assumptions C91_negated.

(** a surrogate that follows its data: the line through the first two values *)
Example C91_surrogate : (forall c b, 0 < c -> follows (fun y => c * y + b) (fun s => c * s) line line) /\ follows Ropp (fun s => s) line line /\
  line (Some ([[0 : RNum]; [1 : RNum]], [JNum (2 : RNum); JNum (5 : RNum)])) [[1/2 : RNum]] = Ok ([7/2 : RNum], [3/4 : RNum]).
Proof.
  refine (conj line_follows (conj line_follows_opp _)). unfold line. cbn. rewrite Rabs_pos_eq by lra.
  match goal with |- Ok ([?a], [?b]) = _ => assert (H1 : a = 7/2) by field; assert (H2 : b = 3/4) by field; exact (f_equal2 (fun u v => Ok ([u], [v])) H1 H2) end.
Qed.

(** binary64: a negated objective gives the negated run, exactly *)
Theorem C91_negated_binary64 : forall (fe fln fr : b64 -> b64) (w w' : world (B64 fe fln fr)), same_up_to (Bopp : B64 fe fln fr -> B64 fe fln fr) w w' ->
  forall k cs mn key key' fs fs' ops, fs key = None -> fs' key' = None ->
  let r := srun w ops (sampler_new w k cs mn key fs) in
  let r' := srun w' ops (sampler_new w' k cs (negb mn) key' fs') in
  snd r' = snd r /\ s_configs (fst r') = s_configs (fst r) /\
  s_ys (fst r') = map (fun j : json (B64 fe fln fr) => match j with JNum y => JNum (Bopp y : B64 fe fln fr) | _ => j end) (s_ys (fst r)) /\
  s_draws (fst r') = s_draws (fst r) /\ s_calls (fst r') = s_calls (fst r) /\ s_fits (fst r') = s_fits (fst r) /\ s_acqs (fst r') = s_acqs (fst r) /\
  incumbent (fst r') = match incumbent (fst r) with Ok (Some (c, y)) => Ok (Some (c, Bopp y : B64 fe fln fr)) | Ok None => Ok None | Err e => Err e end.
Proof. exact (fun fe fln fr w w' Hw k cs mn key key' fs fs' ops Hk Hk' => run_transported (N := B64 fe fln fr) Bopp true key' Bltb_opp Beqb_opp w w' Hw k cs mn key fs fs' ops Hk Hk'). Qed.
Print Assumptions C91_negated_binary64.
(** the values 1 and 0 minimized, -1 and -0 maximized: the second configuration both times *)
Example C91_negated_example : forall fe fln fr : b64 -> b64,
  same_up_to (Bopp : B64 fe fln fr -> B64 fe fln fr) (z_world fe fln fr (fun y => y)) (z_world fe fln fr Bopp) /\
  z_which fe fln fr (srun (z_world fe fln fr (fun y => y)) [OSample 2] (sampler_new (z_world fe fln fr (fun y => y)) KRandom [] true "k" (fun _ => None))) = Some false /\
  z_which fe fln fr (srun (z_world fe fln fr Bopp) [OSample 2] (sampler_new (z_world fe fln fr Bopp) KRandom [] false "k" (fun _ => None))) = Some false.
Proof. intros fe fln fr. refine (conj _ (conj _ _)); [constructor; reflexivity|vm_compute; reflexivity|vm_compute; reflexivity]. Qed.

(** ... but adding 2^53 to an objective with the values 1 and 0 makes them equal: another incumbent *)
Theorem C91_shift_binary64_refuted : forall fe fln fr : b64 -> b64, exists w w' : world (B64 fe fln fr),
  same_up_to (z_shift fe fln fr) w w' /\
  let r := srun w [OSample 2] (sampler_new w KRandom [] true "k" (fun _ => None)) in
  let r' := srun w' [OSample 2] (sampler_new w' KRandom [] true "k" (fun _ => None)) in
  z_which fe fln fr r = Some false /\ z_which fe fln fr r' = Some true.
Proof. exact (fun fe fln fr => ex_intro _ _ (ex_intro _ _ (conj (z_same fe fln fr) (z_differ fe fln fr)))). Qed.
Print Assumptions C91_shift_binary64_refuted.
