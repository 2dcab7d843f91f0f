(** AcquisitionMeta.v - what happens to the acquisition functions and to the choice of the next
    configuration when the objective is measured in another unit or negated (C90). *)
From Coq Require Import Reals Lra.
From Coquelicot Require Import Coquelicot.
From Verif Require Import Base Num NumLaws NumpyModel ConfigSpaceModel SamplerModel AcquisitionModel Gauss AcquisitionReal ListLemmas.
Local Open Scope R_scope.

(** ** the choice depends only on the comparisons *)
Section Choice.
Context {N : Num} {A : Type}.
Variables (f : N -> N) (better better' : N -> N -> bool).
Hypothesis Hb : forall x y, better' (f x) (f y) = better x y.
Definition on_snd (p : A * N) : A * N := (fst p, f (snd p)).
Lemma py_best_map (l : list (A * N)) : forall p, py_best better' (on_snd p) (map on_snd l) = on_snd (py_best better p l).
Proof.
  induction l as [|q l IH]; intro p; cbn [map py_best]; [reflexivity|]. cbn [on_snd snd]. rewrite Hb.
  destruct (better (snd q) (snd p)); apply IH.
Qed.
Lemma py_extreme_map (l : list (A * N)) :
  py_extreme better' (map on_snd l) = match py_extreme better l with Ok p => Ok (on_snd p) | Err e => Err e end.
Proof. destruct l as [|p l]; cbn [map py_extreme]; [reflexivity|]. rewrite py_best_map. reflexivity. Qed.
Lemma combine_on_snd (l : list A) : forall v, combine l (map f v) = map on_snd (combine l v).
Proof. induction l as [|a l IH]; intros [|x v]; cbn; try reflexivity. rewrite IH. reflexivity. Qed.
End Choice.

(** ** the values over the reals *)
(** a surrogate of which mean and standard deviation went through fm and fs *)
Definition through (fm fs : R -> R) (predict : list (list RNum) -> res (list RNum * list RNum)) (X : list (list RNum)) : res (list RNum * list RNum) :=
  match predict X with Ok (m, s) => Ok (map fm m, map fs s) | Err e => Err e end.
(** the same acquisition function in the unit c * y + b *)
Definition in_unit (c b : R) (a : acq RNum) : acq RNum :=
  match a with AEI eta eps => AEI (c * eta + b : RNum) (c * eps : RNum) | API eta eps => API (c * eta + b : RNum) (c * eps : RNum) | ALCB tau => ALCB tau end.
(** its values in that unit *)
Definition value_in_unit (c b : R) (a : acq RNum) (mn : bool) (v : R) : R :=
  match a with AEI _ _ => c * v | API _ _ => v | ALCB _ => c * v + (if mn then - b else b) end.

Lemma scaled_ne c s : 0 < c -> s <> 0 -> c * s <> 0. Proof. intros Hc Hs E. destruct (Rmult_integral _ _ E); lra. Qed.
Lemma ei_unit c b eta eps mean s : 0 < c -> ei (c * eta + b) (c * eps) (c * mean + b) (c * s) = c * ei eta eps mean s.
Proof.
  intro Hc. destruct (Req_dec s 0) as [->|Hs].
  - rewrite Rmult_0_r, !ei_zero. ring.
  - rewrite !ei_gain by (try exact Hs; apply scaled_ne; assumption).
    replace ((c * eta + b - (c * mean + b) - c * eps) / (c * s)) with ((eta - mean - eps) / s) by (field; lra). ring.
Qed.
Lemma pi_unit c b mn eta eps mean s : 0 < c -> pi mn (c * eta + b) (c * eps) (c * mean + b) (c * s) = pi mn eta eps mean s.
Proof.
  intro Hc. destruct (Req_dec s 0) as [->|Hs].
  - rewrite Rmult_0_r, !pi_zero. reflexivity.
  - rewrite !pi_cdf by (try exact Hs; apply scaled_ne; assumption). f_equal. destruct mn; field; lra.
Qed.
Lemma pi_neg mn eta eps mean s : pi (negb mn) (- eta) eps (- mean) s = pi mn eta eps mean s.
Proof.
  destruct (Req_dec s 0) as [->|Hs]; [rewrite !pi_zero; reflexivity|]. rewrite !pi_cdf by exact Hs.
  destruct mn; cbn [negb]; f_equal; field; exact Hs.
Qed.
Lemma lcb_unit c b (mn : bool) tau mean s : lcb mn tau (c * mean + b) (c * s) = c * lcb mn tau mean s + (if mn then - b else b).
Proof. rewrite !lcb_eq. destruct mn; ring. Qed.
Lemma lcb_neg mn tau mean s : lcb (negb mn) tau (- mean) s = lcb mn tau mean s.
Proof. rewrite !lcb_eq. destruct mn; cbn [negb]; ring. Qed.

Notation val := (acq_value (N := RNum) norm_cdf norm_pdf).
Lemma value_unit c b a mn mean s : 0 < c -> val (in_unit c b a) mn (c * mean + b) (c * s) = value_in_unit c b a mn (val a mn mean s).
Proof.
  intro Hc. destruct a as [eta eps|eta eps|tau]; cbn [in_unit acq_value value_in_unit].
  - exact (ei_unit c b eta eps mean s Hc).
  - exact (pi_unit c b mn eta eps mean s Hc).
  - exact (lcb_unit c b mn tau mean s).
Qed.
(** the other direction of a negated objective *)
Definition negated (a : acq RNum) : acq RNum :=
  match a with AEI eta eps => AEI (- eta : RNum) eps | API eta eps => API (- eta : RNum) eps | ALCB tau => ALCB tau end.
Definition both_directions (a : acq RNum) : Prop := match a with AEI _ _ => False | _ => True end.
Lemma value_neg a mn mean s : both_directions a -> val (negated a) (negb mn) (- mean) s = val a mn mean s.
Proof.
  destruct a as [eta eps|eta eps|tau]; cbn [negated acq_value both_directions]; intro H; [destruct H| |].
  - exact (pi_neg mn eta eps mean s).
  - exact (lcb_neg mn tau mean s).
Qed.

Lemma elementwise_through {N : Num} (g g' : N -> N -> N) (fm fs fv : N -> N) : (forall m s, g' (fm m) (fs s) = fv (g m s)) ->
  forall (a b : list N), elementwise g' (map fm a) (map fs b) = match elementwise g a b with Ok v => Ok (map fv v) | Err e => Err e end.
Proof.
  intros H a b. unfold elementwise. rewrite !map_length. destruct (Nat.eqb (length a) (length b)); [|reflexivity]. f_equal.
  revert b. induction a as [|x a IH]; intros [|y b]; cbn; try reflexivity. rewrite IH. f_equal. apply H.
Qed.
Lemma call_through predict (a a' : acq RNum) mn mn' fm fs fv : (forall m s : R, val a' mn' (fm m) (fs s) = fv (val a mn m s)) ->
  forall x, acq_call (through fm fs predict) norm_cdf norm_pdf a' mn' x =
    match acq_call predict norm_cdf norm_pdf a mn x with Ok v => Ok (map fv v) | Err e => Err e end.
Proof.
  intros H x. unfold acq_call, through. destruct (predict (convert_configs x)) as [[m s]|e]; cbn [bind fst snd]; [|reflexivity].
  exact (elementwise_through (N := RNum) (val a mn) (val a' mn') fm fs fv H m s).
Qed.
Lemma optimum_through predict (a a' : acq RNum) mn mn' fm fs (fv : R -> R) : (forall m s : R, val a' mn' (fm m) (fs s) = fv (val a mn m s)) ->
  (forall x y : R, Rltb (fv x) (fv y) = Rltb x y) ->
  forall d, get_optimum (through fm fs predict) norm_cdf norm_pdf a' mn' d = get_optimum predict norm_cdf norm_pdf a mn d.
Proof.
  intros H Hv d. unfold get_optimum, get_optimum_pair. rewrite (call_through _ _ _ _ _ _ _ _ H).
  destruct (acq_call predict norm_cdf norm_pdf a mn (as_input d)) as [v|e]; cbn [bind]; [|reflexivity].
  rewrite (combine_on_snd (N := RNum) fv). rewrite (py_extreme_map (N := RNum) fv (fun x y => nlt y x)) by (intros x y; apply Hv).
  destruct (py_extreme (fun x y : RNum => nlt y x) (combine (elements d) v)); reflexivity.
Qed.
Lemma lt_scaled c b x y : 0 < c -> Rltb (c * x + b) (c * y + b) = Rltb x y.
Proof. intro Hc. destruct (Rltb_spec (c * x + b) (c * y + b)), (Rltb_spec x y); try reflexivity; exfalso; nra. Qed.
Lemma lt_in_unit c b a mn x y : 0 < c -> Rltb (value_in_unit c b a mn x) (value_in_unit c b a mn y) = Rltb x y.
Proof.
  intro Hc. destruct a; cbn [value_in_unit]; [|reflexivity|apply lt_scaled; exact Hc].
  rewrite <- (lt_scaled c 0 x y Hc). rewrite !Rplus_0_r. reflexivity.
Qed.

(** ** C90 *)
Theorem call_in_unit predict c b a mn x : 0 < c ->
  acq_call (through (fun m => c * m + b) (fun s => c * s) predict) norm_cdf norm_pdf (in_unit c b a) mn x =
  match acq_call predict norm_cdf norm_pdf a mn x with Ok v => Ok (map (value_in_unit c b a mn) v) | Err e => Err e end.
Proof. intro Hc. apply call_through. intros m s. apply value_unit. exact Hc. Qed.
Theorem optimum_in_unit predict c b a mn d : 0 < c ->
  get_optimum (through (fun m => c * m + b) (fun s => c * s) predict) norm_cdf norm_pdf (in_unit c b a) mn d =
  get_optimum predict norm_cdf norm_pdf a mn d.
Proof.
  intro Hc. apply (optimum_through _ _ _ _ _ _ _ (value_in_unit c b a mn)).
  - intros m s. apply value_unit. exact Hc.
  - intros x y. apply lt_in_unit. exact Hc.
Qed.
Theorem call_negated predict a mn x : both_directions a ->
  acq_call (through Ropp (fun s => s) predict) norm_cdf norm_pdf (negated a) (negb mn) x = acq_call predict norm_cdf norm_pdf a mn x.
Proof.
  intro H. rewrite (call_through predict a (negated a) mn (negb mn) Ropp (fun s => s) (fun v => v)) by (intros m s; apply value_neg; exact H).
  destruct (acq_call predict norm_cdf norm_pdf a mn x); [rewrite map_id|]; reflexivity.
Qed.
Theorem optimum_negated predict a mn d : both_directions a ->
  get_optimum (through Ropp (fun s => s) predict) norm_cdf norm_pdf (negated a) (negb mn) d = get_optimum predict norm_cdf norm_pdf a mn d.
Proof. intro H. unfold get_optimum, get_optimum_pair. rewrite call_negated by exact H. reflexivity. Qed.

(** the incumbent of the surrogate *)
Lemma surrogate_call_through predict fm fs d : surrogate_call (through fm fs predict) (as_input d) =
  match surrogate_call predict (as_input d) with Ok (SFloat x) => Ok (SFloat (fm x : RNum)) | Ok (SList l) => Ok (SList (map fm l : list RNum)) | Err e => Err e end.
Proof.
  destruct d as [c|l]; cbn [as_input surrogate_call].
  - unfold predict_config, through. destruct (predict [c_vec c]) as [[m s]|e]; cbn [bind fst snd]; [|reflexivity].
    unfold py_nth. destruct m as [|x m]; cbn; [reflexivity|]. destruct s as [|y s]; cbn; reflexivity.
  - destruct l as [|c l]; cbn [map is_conf]; unfold predict_configs, through; cbn [map item_vec];
      match goal with |- context [predict ?X] => destruct (predict X) as [[m s]|e]; cbn [bind fst]; reflexivity end.
Qed.
Lemma incumbent_through predict fm fs (mn mn' : bool) d :
  (forall x y : R, (if mn' then Rltb (fm x) (fm y) else Rltb (fm y) (fm x)) = (if mn then Rltb x y else Rltb y x)) ->
  get_incumbent (through fm fs predict) mn' d =
  match get_incumbent predict mn d with Ok (e, x) => Ok (e, fm x : RNum) | Err e => Err e end.
Proof.
  intro H. unfold get_incumbent. rewrite surrogate_call_through. destruct (surrogate_call predict (as_input d)) as [[x|l]|e]; cbn [bind]; try reflexivity.
  rewrite (combine_on_snd (N := RNum) fm).
  rewrite (py_extreme_map (N := RNum) fm (if mn then nlt else fun x y => nlt y x)).
  - destruct (py_extreme (if mn then nlt else fun x y : RNum => nlt y x) (combine (elements d) l)) as [[e x]|e]; reflexivity.
  - intros x y. specialize (H x y). destruct mn, mn'; exact H.
Qed.
Theorem incumbent_in_unit predict c b mn d : 0 < c ->
  get_incumbent (through (fun m => c * m + b) (fun s => c * s) predict) mn d =
  match get_incumbent predict mn d with Ok (e, x) => Ok (e, c * x + b : RNum) | Err e => Err e end.
Proof. intro Hc. apply (incumbent_through predict (fun m => c * m + b)). intros x y. destruct mn; apply lt_scaled; exact Hc. Qed.
Theorem incumbent_negated predict mn d :
  get_incumbent (through Ropp (fun s => s) predict) (negb mn) d =
  match get_incumbent predict mn d with Ok (e, x) => Ok (e, - x : RNum) | Err e => Err e end.
Proof.
  apply (incumbent_through predict Ropp). intros x y. destruct mn; cbn [negb].
  - destruct (Rltb_spec (- y) (- x)), (Rltb_spec x y); try reflexivity; exfalso; lra.
  - destruct (Rltb_spec (- x) (- y)), (Rltb_spec y x); try reflexivity; exfalso; lra.
Qed.
