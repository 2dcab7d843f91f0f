(** SamplerMetaReal.v - C91 with the acquisition functions of the package: the choice of the world is
    get_optimum over a surrogate that follows the unit of its data; binary64. *)
From Coq Require Import Reals Lra.
From Flocq Require Import Core.Core IEEE754.BinarySingleNaN.
From Coquelicot Require Import Coquelicot.
From Verif Require Import Base Num NumLaws NumpyModel ConfigSpaceModel SamplerModel AcquisitionModel Gauss AcquisitionReal ListLemmas
  AcquisitionMeta SamplerMeta.
Local Open Scope R_scope.

(** ** the order of the numbers *)
Lemma affine_lt (c b : R) (x y : RNum) : 0 < c -> nlt (c * x + b : RNum) (c * y + b : RNum) = nlt x y.
Proof. apply lt_scaled. Qed.
Lemma neg_lt (x y : RNum) : nlt (- x : RNum) (- y : RNum) = nlt y x.
Proof. cbn. destruct (Rltb_spec (- x) (- y)), (Rltb_spec y x); try reflexivity; exfalso; lra. Qed.
Lemma R_nan (x y : RNum) : neqb x x = neqb y y.
Proof. cbn. unfold Reqb. destruct (Req_EM_T x x), (Req_EM_T y y); congruence. Qed.

(** ** a world with the acquisition function of the package *)
Section BO.
Notation fitted := (option (list (list RNum) * list (json RNum))).
Notation surrogate := (fitted -> list (list RNum) -> res (list RNum * list RNum)).
(** acq_func.update(eta); acq_func.get_optimum() over the candidates of that call; [none] for eta = inf *)
Definition choose (surr : surrogate) (a : acq RNum) (mn : bool) (cand : nat -> drawn RNum) (none : res (conf RNum))
  (k : nat) (p : fitted) (eta : option RNum) : res (conf RNum) :=
  match eta with
  | Some e => match get_optimum (surr p) norm_cdf norm_pdf (acq_update a e) mn (cand k) with
              | Ok (EConf c) => Ok c | Ok (EName _) => Err TypeError | Err e => Err e end
  | None => none
  end.
Definition with_choice (w : world RNum) surr a mn cand none : world RNum :=
  mkworld (w_obj w) (w_batch w) (w_bare w) (w_rand w) (w_steps w) (w_ints w) (w_fit w) (choose surr a mn cand none) (w_loads w) (w_dumps w) (w_md5 w).
(** the same world around an objective of which the values go through f *)
Definition with_values (f : RNum -> RNum) (w : world RNum) fit : world RNum :=
  mkworld (fun k c => rmap (jmap f) (w_obj w k c)) (w_batch w) (w_bare w) (w_rand w) (w_steps w) (w_ints w) fit (w_acq w) (w_loads w) (w_dumps w) (w_md5 w).

(** the surrogate follows its data *)
Definition follows (f fs : R -> R) (surr surr' : surrogate) : Prop :=
  forall p X, surr' (fitted_map (f : RNum -> RNum) p) X = through f fs (surr p) X.
(** fitting succeeds or fails alike *)
Definition fits_alike (f : R -> R) (fit fit' : nat -> list (list RNum) -> list (json RNum) -> res unit) : Prop :=
  forall k X ys, fit' k X (map (jmap (f : RNum -> RNum)) ys) = fit k X ys.

Lemma optimum_ext (predict predict' : list (list RNum) -> res (list RNum * list RNum)) a mn d : (forall X, predict' X = predict X) ->
  get_optimum predict' norm_cdf norm_pdf a mn d = get_optimum predict norm_cdf norm_pdf a mn d.
Proof. intro H. unfold get_optimum, get_optimum_pair, acq_call. rewrite H. reflexivity. Qed.
Lemma update_unit c b a (e : R) : acq_update (in_unit c b a) (c * e + b : RNum) = in_unit c b (acq_update a e).
Proof. destruct a; reflexivity. Qed.
Lemma update_neg a (e : R) : acq_update (negated a) (- e : RNum) = negated (acq_update a e).
Proof. destruct a; reflexivity. Qed.

Lemma unit_worlds w surr surr' a mn cand none fit' c b : 0 < c ->
  follows (fun y => c * y + b) (fun s => c * s) surr surr' -> fits_alike (fun y => c * y + b) (w_fit w) fit' ->
  same_up_to (fun y : RNum => c * y + b : RNum) (with_choice w surr a mn cand none)
    (with_choice (with_values (fun y : RNum => c * y + b : RNum) w fit') surr' (in_unit c b a) mn cand none).
Proof.
  intros Hc Hs Hf. constructor; try reflexivity.
  - exact Hf.
  - intros k p [e|]; [|reflexivity]. cbn [with_choice w_acq choose option_map]. rewrite update_unit.
    rewrite (optimum_ext _ _ _ _ _ (Hs p)). rewrite optimum_in_unit by exact Hc. reflexivity.
Qed.
Lemma both_update a (e : RNum) : both_directions a -> both_directions (acq_update a e). Proof. destruct a; exact (fun H => H). Qed.
Lemma negated_worlds w surr surr' a mn cand none fit' : both_directions a ->
  follows Ropp (fun s => s) surr surr' -> fits_alike Ropp (w_fit w) fit' ->
  same_up_to (fun y : RNum => - y : RNum) (with_choice w surr a mn cand none)
    (with_choice (with_values (fun y : RNum => - y : RNum) w fit') surr' (negated a) (negb mn) cand none).
Proof.
  intros Ha Hs Hf. constructor; try reflexivity.
  - exact Hf.
  - intros k p [e|]; [|reflexivity]. cbn [with_choice w_acq choose option_map]. rewrite update_neg.
    rewrite (optimum_ext _ _ _ _ _ (Hs p)). rewrite optimum_negated by (apply both_update; exact Ha). reflexivity.
Qed.

Theorem bo_in_unit w surr surr' a mn cand none fit' c b ip cs key key' fs fs' ops : 0 < c ->
  follows (fun y => c * y + b) (fun s => c * s) surr surr' -> fits_alike (fun y => c * y + b) (w_fit w) fit' -> fs key = None -> fs' key' = None ->
  let v := with_choice w surr a mn cand none in
  let v' := with_choice (with_values (fun y : RNum => c * y + b : RNum) w fit') surr' (in_unit c b a) mn cand none in
  let r := srun v ops (sampler_new v (KBO ip) cs mn key fs) in
  let r' := srun v' ops (sampler_new v' (KBO ip) cs mn key' fs') in
  snd r' = snd r /\ s_configs (fst r') = s_configs (fst r) /\
  s_ys (fst r') = map (fun j : json RNum => match j with JNum y => JNum (c * y + b : RNum) | _ => j end) (s_ys (fst r)).
Proof.
  intros Hc Hs Hf Hk Hk' v v' r r'.
  pose proof (run_transported (fun y : RNum => c * y + b : RNum) false key' (fun x y => affine_lt c b x y Hc) (fun x => R_nan _ _) v v'
    (unit_worlds w surr surr' a mn cand none fit' c b Hc Hs Hf) (KBO ip) cs mn key fs fs' ops Hk Hk') as H.
  cbv zeta in H. destruct H as (H1 & H2 & H3 & _). exact (conj H1 (conj H2 H3)).
Qed.
Theorem bo_negated w surr surr' a mn cand none fit' ip cs key key' fs fs' ops : both_directions a ->
  follows Ropp (fun s => s) surr surr' -> fits_alike Ropp (w_fit w) fit' -> fs key = None -> fs' key' = None ->
  let v := with_choice w surr a mn cand none in
  let v' := with_choice (with_values (fun y : RNum => - y : RNum) w fit') surr' (negated a) (negb mn) cand none in
  let r := srun v ops (sampler_new v (KBO ip) cs mn key fs) in
  let r' := srun v' ops (sampler_new v' (KBO ip) cs (negb mn) key' fs') in
  snd r' = snd r /\ s_configs (fst r') = s_configs (fst r) /\
  s_ys (fst r') = map (fun j : json RNum => match j with JNum y => JNum (- y : RNum) | _ => j end) (s_ys (fst r)).
Proof.
  intros Ha Hs Hf Hk Hk' v v' r r'.
  pose proof (run_transported (fun y : RNum => - y : RNum) true key' neg_lt (fun x => R_nan _ _) v v'
    (negated_worlds w surr surr' a mn cand none fit' Ha Hs Hf) (KBO ip) cs mn key fs fs' ops Hk Hk') as H.
  cbv zeta in H. destruct H as (H1 & H2 & H3 & _). exact (conj H1 (conj H2 H3)).
Qed.

(** a surrogate that follows its data: on one hyperparameter, the line through the first two values,
    certain at both ends *)
Definition two_values (p : fitted) : res (R * R) :=
  match p with Some (_, JNum y0 :: JNum y1 :: _) => Ok (y0, y1) | _ => Err ValueError end.
Definition line (p : fitted) (X : list (list RNum)) : res (list RNum * list RNum) :=
  match two_values p with
  | Ok (y0, y1) => Ok (map (fun r => y0 + nth 0 r 0 * (y1 - y0) : RNum) X, map (fun r => Rabs (y1 - y0) * nth 0 r 0 * (1 - nth 0 r 0) : RNum) X)
  | Err e => Err e
  end.
Lemma line_follows c b : 0 < c -> follows (fun y => c * y + b) (fun s => c * s) line line.
Proof.
  intros Hc p X. unfold line, through, two_values. destruct p as [[Y [|[y0| | | | |] [|[y1| | | | |] l]]]|]; cbn; try reflexivity.
  rewrite !map_map. f_equal. f_equal; apply map_ext; intro r.
  - ring.
  - replace (c * y1 + b - (c * y0 + b)) with (c * (y1 - y0)) by ring. rewrite Rabs_mult, (Rabs_pos_eq c) by lra. ring.
Qed.
Lemma line_follows_opp : follows Ropp (fun s => s) line line.
Proof.
  intros p X. unfold line, through, two_values. destruct p as [[Y [|[y0| | | | |] [|[y1| | | | |] l]]]|]; cbn; try reflexivity.
  rewrite !map_map. f_equal. f_equal; apply map_ext; intro r.
  - ring.
  - replace (- y1 - - y0) with (- (y1 - y0)) by ring. rewrite Rabs_Ropp. reflexivity.
Qed.
End BO.

(** ** exploration is not relative: the same eps in another unit chooses another candidate *)
Definition e_predict : list (list RNum) -> res (list RNum * list RNum) :=
  fun X => Ok (map (fun r => nth 0 r 0 : RNum) X, map (fun r => nth 1 r 0 : RNum) X).
Definition e_a : conf RNum := mkconf [(-2 : RNum); (1 : RNum)] [].
Definition e_b : conf RNum := mkconf [(-10 : RNum); (6 : RNum)] [].
Lemma e_optimum c (k : conf RNum) : 0 < c ->
  (let za := (2 * c - 1) / c in let zb := (10 * c - 1) / (6 * c) in if Rltb za zb then k = e_b else k = e_a) ->
  get_optimum (through (fun m => c * m + 0) (fun s => c * s) e_predict) norm_cdf norm_pdf (API (0 : RNum) (1 : RNum)) true (DList [e_a; e_b]) = Ok (EConf k).
Proof.
  intros Hc H. cbv zeta in H. unfold get_optimum, get_optimum_pair, acq_call, through, e_predict. cbn [as_input convert_configs map item_vec c_vec e_a e_b nth bind fst snd elementwise length Nat.eqb map2 acq_value].
  set (va := pi_value (N := RNum) norm_cdf true (0 : RNum) (1 : RNum) (c * -2 + 0 : RNum) (c * 1 : RNum)).
  set (vb := pi_value (N := RNum) norm_cdf true (0 : RNum) (1 : RNum) (c * -10 + 0 : RNum) (c * 6 : RNum)).
  assert (Ea : va = norm_cdf ((2 * c - 1) / c)). { unfold va. etransitivity; [apply (pi_cdf true); lra|]. f_equal. field. lra. }
  assert (Eb : vb = norm_cdf ((10 * c - 1) / (6 * c))). { unfold vb. etransitivity; [apply (pi_cdf true); lra|]. f_equal. field. lra. }
  cbn [elements map combine py_extreme py_best bind fst snd]. change (@nlt RNum va vb) with (Rltb va vb). rewrite Ea, Eb.
  destruct (Rltb_spec ((2 * c - 1) / c) ((10 * c - 1) / (6 * c))) as [L|L].
  - subst k. destruct (Rltb_spec (norm_cdf ((2 * c - 1) / c)) (norm_cdf ((10 * c - 1) / (6 * c)))) as [_|Hn]; [reflexivity|]. exfalso. apply Hn. apply cdf_increasing. exact L.
  - subst k. destruct (Rltb_spec (norm_cdf ((2 * c - 1) / c)) (norm_cdf ((10 * c - 1) / (6 * c)))) as [Hn|_]; [|reflexivity]. exfalso.
    destruct (Rle_lt_or_eq_dec _ _ (Rnot_lt_le _ _ L)) as [G|G]; [pose proof (cdf_increasing _ _ G)|rewrite G in Hn]; lra.
Qed.
Lemma e_one : get_optimum e_predict norm_cdf norm_pdf (API (0 : RNum) (1 : RNum)) true (DList [e_a; e_b]) = Ok (EConf e_b).
Proof.
  assert (E := e_optimum 1 e_b Rlt_0_1). cbv zeta in E. 
  assert (X : forall X, through (fun m => 1 * m + 0) (fun s => 1 * s) e_predict X = e_predict X).
  { intro X. unfold through, e_predict. rewrite !map_map. match goal with |- Ok (?a, ?b) = Ok (?c, ?d) => assert (H1 : a = c) by (apply map_ext; intro r; cbn; ring); assert (H2 : b = d) by (apply map_ext; intro r; cbn; ring); exact (f_equal2 (fun u v => Ok (u, v)) H1 H2) end. }
  rewrite (optimum_ext _ _ _ _ _ X) in E. apply E. destruct (Rltb_spec ((2 * 1 - 1) / 1) ((10 * 1 - 1) / (6 * 1))); [reflexivity|]. exfalso. lra.
Qed.
Lemma e_ten : get_optimum (through (fun m => 10 * m + 0) (fun s => 10 * s) e_predict) norm_cdf norm_pdf (API (0 : RNum) (1 : RNum)) true (DList [e_a; e_b]) = Ok (EConf e_a).
Proof. apply e_optimum; [lra|]. cbv zeta. destruct (Rltb_spec ((2 * 10 - 1) / 10) ((10 * 10 - 1) / (6 * 10))); [exfalso; lra|reflexivity]. Qed.

Lemma e_ne : e_a <> e_b.
Proof. intro E. apply (f_equal (fun k => hd (0 : RNum) (c_vec k))) in E. cbn in E. lra. Qed.
Lemma e_ten_eta : get_optimum (through (fun m => 10 * m + 0) (fun s => 10 * s) e_predict) norm_cdf norm_pdf (API (10 * 0 + 0 : RNum) (1 : RNum)) true (DList [e_a; e_b]) = Ok (EConf e_a).
Proof. assert (E : 10 * 0 + 0 = 0) by ring. rewrite E. exact e_ten. Qed.

(** ** binary64: negation reverses the order exactly; a shift does not keep it *)
Lemma Bopp_key (x : b64) : b64_key (Bopp x) = option_map (fun k => ((- fst k)%Z, (- snd k)%R)) (b64_key x).
Proof.
  destruct x as [s|[|]| |s m e H]; cbn; try reflexivity; try (rewrite Ropp_0; reflexivity).
  f_equal. f_equal. exact (B2R_Bopp 53 1024 (B754_finite s m e H)).
Qed.
Lemma Bltb_opp (x y : b64) : Bltb (Bopp x) (Bopp y) = Bltb y x.
Proof.
  apply Bool.eq_iff_eq_true. rewrite !Bltb_key, !Bopp_key. split.
  - intros (a & b & Ha & Hb & L). destruct (b64_key x) as [kx|]; [|discriminate]. destruct (b64_key y) as [ky|]; [|discriminate].
    injection Ha as <-. injection Hb as <-. exists ky, kx. refine (conj eq_refl (conj eq_refl _)). unfold key_lt in *. cbn in L. destruct L as [L|[L L']]; [left; lia|right; split; [lia|lra]].
  - intros (a & b & Ha & Hb & L). rewrite Ha, Hb. do 2 eexists. refine (conj eq_refl (conj eq_refl _)). unfold key_lt in *. cbn. destruct L as [L|[L L']]; [left; lia|right; split; [lia|lra]].
Qed.
Lemma Beqb_opp (x : b64) : Beqb (Bopp x) (Bopp x) = Beqb x x.
Proof. rewrite !Beqb_refl. destruct x; reflexivity. Qed.
