(** Prop_Synthetic.v - synthetic blackbox functions (C51-C53, C81). *)
From Coq Require Import QArith Reals Lra Lia.
From Coquelicot Require Import Coquelicot.
From Verif Require Import Base Num NumLaws ConfigSpaceModel UtilsModel SyntheticModel SyntheticSpec SyntheticPd SyntheticBounds SyntheticSpace SyntheticProofs SyntheticValues.
Local Open Scope R_scope.
Local Open Scope list_scope.

(** ** C51 *)
Theorem C51_pd_integral : forall (cs : cspace RNum) args hps, args <> [] -> convert_hyperparameters (N:=RNum) (SelList args) cs = Ok hps ->
  NoDup (map hp_name cs) -> NoDup (map hp_name hps) -> incl hps cs -> Forall float_range hps ->
  exists p, pd_integral cs args = Ok p /\
    (forall h, In h (fst p) <-> In h cs /\ ~ In (hp_name h) (map hp_name hps)) /\
    forall a, pd_value p (conf_at (fst p) a) = Ok (average hps (fun b => match stybtang_value cs (conf_at cs b) with Ok v => v | Err _ => 0 end) a).
Proof. exact pd_is_average. Qed.
Print Assumptions C51_pd_integral.

(** the integrand above is always defined *)
Theorem C51_integrand : forall (cs : cspace RNum) (a : assignment), exists v, stybtang_value cs (conf_at cs a) = Ok v.
Proof. exact stybtang_defined. Qed.
Print Assumptions C51_integrand.

Theorem C51_repeated : forall (cs : cspace RNum) h p, pd_integral cs [SHp h] = Ok p -> pd_integral cs [SHp h; SHp h] = Ok (fst p, snd p + snd p).
Proof. exact pd_repeated. Qed.
Print Assumptions C51_repeated.

Theorem C51_errors : forall (cs : cspace RNum), pd_integral cs [] = Err ValueError /\
  forall h, is_numerical h = false -> pd_integral cs [SHp h] = Err AssertionError.
Proof. exact (fun cs => conj (pd_no_argument cs) (pd_not_numerical cs)). Qed.
Print Assumptions C51_errors.
(** wherever the non-numerical hyperparameter stands; an argument that is not found raises what the lookup raises *)
Theorem C51_errors_anywhere : forall (cs : cspace RNum) args, args <> [] ->
  (forall hps, convert_hyperparameters (N:=RNum) (SelList args) cs = Ok hps -> (exists h, In h hps /\ is_numerical h = false) -> pd_integral cs args = Err AssertionError) /\
  (forall e, convert_hyperparameters (N:=RNum) (SelList args) cs = Err e -> pd_integral cs args = Err e).
Proof. exact (fun cs args H => conj (fun hps => pd_not_numerical_anywhere cs args hps H) (fun e => pd_unknown cs args e H)). Qed.
Print Assumptions C51_errors_anywhere.

(** an integer hyperparameter is averaged over the interval, not over its values *)
Theorem C51_integer_hyperparameter : exists (cs : cspace RNum) h p, pd_integral cs [SHp h] = Ok p /\ In h cs /\ hp_kind h = KInt 0 1 false /\
  exists v0 v1 w, stybtang_value cs [("x"%string, VNum (N:=RNum) 0)] = Ok v0 /\ stybtang_value cs [("x"%string, VNum (N:=RNum) 1)] = Ok v1 /\
    pd_value p [] = Ok w /\ w <> (v0 + v1) / 2.
Proof. exact pd_integer. Qed.
Print Assumptions C51_integer_hyperparameter.

Definition bx1 : hp RNum := mkhp "x1" (KFloat (-5 : RNum) (5 : RNum) false).
Definition bx2 : hp RNum := mkhp "x2" (KFloat (-1 : RNum) (2 : RNum) false).
Definition bx3 : hp RNum := mkhp "x3" (KFloat (0 : RNum) (1 : RNum) true).
Example C51_example : exists hps, convert_hyperparameters (N:=RNum) (SelList [SName "x3"; SHp bx1]) [bx1; bx2; bx3] = Ok hps /\
  NoDup (map hp_name [bx1; bx2; bx3]) /\ NoDup (map hp_name hps) /\ incl hps [bx1; bx2; bx3] /\ Forall float_range hps.
Proof.
  exists [bx3; bx1]. refine (conj eq_refl (conj _ (conj _ (conj _ _)))).
  - cbn. repeat constructor; cbn; intuition discriminate.
  - cbn. repeat constructor; cbn; intuition discriminate.
  - intros h [<-|[<-|[]]]; cbn; auto.
  - repeat constructor; [exists 0, 1, true|exists (-5), 5, false]; (split; [reflexivity|lra]).
Qed.
Example C51_example_value : exists p, pd_integral [bx1; bx2] [SName "x1"] = Ok p /\ fst p = [bx2] /\ snd p = - (25 / 6).
Proof. eexists. split; [reflexivity|]. split; [reflexivity|]. cbn. unfold stybtang_integral. lra. Qed.

(** ** C52 *)
Theorem C52_square : forall (c : config RNum) v, square_value c = Ok v -> 0 <= v /\ (v = 0 <-> forall n (x : R), In (n, VNum (N:=RNum) x) c -> x = 0).
Proof. exact square_bound. Qed.
Print Assumptions C52_square.

Theorem C52_negative_square : forall (c : config RNum) v, negative_square_value c = Ok v -> v <= 1 /\ (v = 1 <-> forall n (x : R), In (n, VNum (N:=RNum) x) c -> x = 0).
Proof. exact negative_square_bound. Qed.
Print Assumptions C52_negative_square.

Theorem C52_levy : forall d (c : config RNum) v, levy_value d c = Ok v ->
  0 <= v /\ (v = 0 <-> forall i, (i < d)%nat -> config_item (N:=RNum) c (String.append "x" (dec (i + 1))) = Ok 1).
Proof. exact levy_bound. Qed.
Print Assumptions C52_levy.

Theorem C52_ackley : forall d (c : config RNum) v, (1 <= d)%nat -> ackley_value d c = Ok v ->
  0 <= v /\ (v = 0 <-> forall i, (i < d)%nat -> config_item (N:=RNum) c (String.append "x" (dec (i + 1))) = Ok 0).
Proof. exact ackley_bound. Qed.
Print Assumptions C52_ackley.

Theorem C52_styblinski_tang : forall cs (c : config RNum) v, stybtang_value cs c = Ok v -> - (391662 / 10000) * INR (length cs) <= v.
Proof. exact stybtang_bound. Qed.
Print Assumptions C52_styblinski_tang.

(** the minimum in the docstring, -39.16599 * d, is not a lower bound *)
Theorem C52_styblinski_tang_docstring : forall d, (0 < d)%nat -> stybtang_of (repeat (- (29035 / 10000)) d) < - (3916599 / 100000) * INR d.
Proof. exact stybtang_witness. Qed.
Print Assumptions C52_styblinski_tang_docstring.

(** symmetric, negative, and minimal at tan t = pi sqrt 2 (t = 1.3494) on the default box *)
Theorem C52_cross_in_tray : forall (c : config RNum) v x1 x2, crossintray_value c = Ok v -> config_item (N:=RNum) c "x1" = Ok x1 -> config_item (N:=RNum) c "x2" = Ok x2 ->
  v < 0 /\ v = crossintray_of x1 x2 /\ v = crossintray_of x2 x1 /\ v = crossintray_of (- x1) x2 /\ v = crossintray_of x1 (- x2) /\
  (-10 <= x1 <= 10 -> -10 <= x2 <= 10 -> crossintray_of (atan (PI * sqrt 2)) (atan (PI * sqrt 2)) <= v).
Proof. exact crossintray_bound. Qed.
Print Assumptions C52_cross_in_tray.

Theorem C52_defined : forall d (c : config RNum), (forall i, (i < d)%nat -> exists x : R, config_get c (String.append "x" (dec (i + 1))) = Some (VNum (N:=RNum) x)) ->
  ((1 <= d)%nat -> exists v, levy_value d c = Ok v) /\ (exists v, ackley_value d c = Ok v) /\ ((2 <= d)%nat -> exists v, crossintray_value c = Ok v) /\
  levy_value 0 c = Err IndexError.
Proof. exact synthetic_total. Qed.
Print Assumptions C52_defined.

Definition bx_c : config RNum := [("x1"%string, VNum (N:=RNum) 1); ("x2"%string, VNum (N:=RNum) 1)].
Example C52_example : levy_value 2 bx_c = Ok 0 /\ square_value bx_c = Ok 2 /\ stybtang_value [bx1; bx2] bx_c = Ok (-10).
Proof.
  destruct (synthetic_total 2 bx_c) as (T & _). { intros [|[|i]] Hi; [exists 1; reflexivity|exists 1; reflexivity|lia]. }
  destruct (T ltac:(lia)) as (v & E). destruct (levy_bound _ _ _ E) as (_ & Z). refine (conj _ (conj _ _)).
  - rewrite E. f_equal. apply Z. intros [|[|i]] Hi; [reflexivity|reflexivity|lia].
  - unfold square_value, rsum. cbn. f_equal. lra.
  - unfold stybtang_value, stybtang_of, rsum. cbn. f_equal. lra.
Qed.

(** ** C53 *)
Theorem C53_scalar_bounds : forall (N : Num) d (l u : N) b prefix, (neqb l u = true \/ (nlt l u = true /\ (b = true -> nlt n0 l = true))) ->
  exists cs, config_space_nd d (PScalar l) (PScalar u) (PScalar b) prefix = Ok cs /\ length cs = Z.to_nat d /\ NoDup (map hp_name cs) /\
    forall i, (i < Z.to_nat d)%nat -> cs_get cs (String.append prefix (dec (i + 1))) =
      Ok (mkhp (String.append prefix (dec (i + 1))) (if neqb l u then KConst (VNum l) else KFloat l u b)).
Proof. exact @nd_scalar. Qed.
Print Assumptions C53_scalar_bounds.

Theorem C53_any_bounds : forall (N : Num) d (lo up : param N) (lg : param bool) prefix cs, config_space_nd d lo up lg prefix = Ok cs ->
  length cs = Nat.min (param_len d lo) (Nat.min (param_len d up) (param_len d lg)) /\ NoDup (map hp_name cs) /\
  forall k l u b, param_at d lo k = Some l -> param_at d up k = Some u -> param_at d lg k = Some b ->
    cs_get cs (String.append prefix (dec (k + 1))) =
      Ok (mkhp (String.append prefix (dec (k + 1))) (if neqb l u then KConst (VNum l) else KFloat l u b)).
Proof. exact @nd_space. Qed.
Print Assumptions C53_any_bounds.

Theorem C53_errors : forall (N : Num) d (lo up : param N) (lg : param bool) prefix,
  ((exists cs, config_space_nd d lo up lg prefix = Ok cs) <->
   forall k l u b, param_at d lo k = Some l -> param_at d up k = Some u -> param_at d lg k = Some b ->
     neqb l u = true \/ (nlt l u = true /\ (b = true -> nlt n0 l = true))) /\
  (forall e, config_space_nd d lo up lg prefix = Err e -> e = ValueError).
Proof. exact @nd_space_total. Qed.
Print Assumptions C53_errors.

Theorem C53_dimensions_ignored : forall (N : Num) d d' (lo up : list N) lg prefix,
  config_space_nd d (PIter lo) (PIter up) (PIter lg) prefix = config_space_nd d' (PIter lo) (PIter up) (PIter lg) prefix.
Proof. exact @nd_iterables. Qed.
Print Assumptions C53_dimensions_ignored.

Theorem C53_for_n_dimensions : forall (N : Num) (dlo dup : N) (log : bool) d lower upper,
  (forall l, lower = Some (PScalar l) \/ (lower = None /\ l = dlo) -> forall u, upper = Some (PScalar u) \/ (upper = None /\ u = dup) ->
     nlt l u = true -> neqb l u = false -> (log = true -> nlt n0 l = true) ->
     exists cs, for_n_dimensions dlo dup log d lower upper = Ok cs /\ length cs = Z.to_nat d /\
       forall i, (i < Z.to_nat d)%nat -> cs_get cs (String.append "x" (dec (i + 1))) = Ok (mkhp (String.append "x" (dec (i + 1))) (KFloat l u log))).
Proof. exact @nd_for_n. Qed.
Print Assumptions C53_for_n_dimensions.

(** three dimensions asked for, two bounds given, the second pair equal; and an inverted pair *)
Example C53_example :
  match config_space_nd (N:=QNum) 3 (PIter [0; 1]%Q) (PScalar 1%Q) (PScalar false) "p" with
  | Ok [h1; h2] => (hp_name h1, hp_name h2) = ("p1"%string, "p2"%string) /\ (exists a b, hp_kind h1 = KFloat a b false) /\ (exists a, hp_kind h2 = KConst a)
  | _ => False end /\
  config_space_nd (N:=QNum) 3 (PScalar 2%Q) (PScalar 1%Q) (PScalar false) "p" = Err ValueError /\
  match config_space_nd (N:=QNum) 12 (PScalar 0%Q) (PScalar 1%Q) (PScalar false) "x" with Ok cs => map hp_name cs | _ => [] end
    = ["x1"; "x2"; "x3"; "x4"; "x5"; "x6"; "x7"; "x8"; "x9"; "x10"; "x11"; "x12"]%string.
Proof. refine (conj _ (conj _ _)); [cbn; split; [reflexivity|split; repeat eexists]|reflexivity|vm_compute; reflexivity]. Qed.

(** ** C81 *)
(** [coordinates c d x]: the entry of [c] named x(i + 1) is [x i], for i < d *)
Theorem C81_levy : forall n (c : config RNum) x, coordinates c (S n) x -> let w i := 1 + (x i - 1) / 4 in
  levy_value (S n) c = Ok (sin (PI * w 0%nat) ^ 2 + sum_upto n (fun i => (w i - 1) ^ 2 * (1 + 10 * sin (PI * w i + 1) ^ 2))
                           + (w n - 1) ^ 2 * (1 + sin (2 * PI * w n) ^ 2)).
Proof. exact levy_formula. Qed.
Print Assumptions C81_levy.

Theorem C81_ackley : forall d (c : config RNum) x, coordinates c d x -> (1 <= d)%nat ->
  ackley_value d c = Ok (- 20 * exp (- (2 / 10) * sqrt (sum_upto d (fun i => x i ^ 2) / INR d)) - exp (sum_upto d (fun i => cos (2 * PI * x i)) / INR d) + 20 + exp 1).
Proof. exact (fun d c x H _ => ackley_formula d c x H). Qed.
Print Assumptions C81_ackley.

Theorem C81_cross_in_tray : forall (c : config RNum) x, coordinates c 2 x ->
  crossintray_value c = Ok (- (1 / 10000) * Rpower (Rabs (sin (x 0%nat) * sin (x 1%nat) * exp (Rabs (100 - sqrt (x 0%nat ^ 2 + x 1%nat ^ 2) / PI))) + 1) (1 / 10)).
Proof. exact crossintray_formula. Qed.
Print Assumptions C81_cross_in_tray.

(** [entries_of cs c x]: the entry of [c] for the k-th hyperparameter of [cs] is [x k] *)
Theorem C81_styblinski_tang : forall cs (c : config RNum) x, entries_of cs c x ->
  stybtang_value cs c = Ok (/ 2 * sum_upto (length cs) (fun k => x k ^ 4 - 16 * x k ^ 2 + 5 * x k)).
Proof. exact stybtang_formula. Qed.
Print Assumptions C81_styblinski_tang.

(** [entries c x]: the k-th entry of [c] is [x k] *)
Theorem C81_squares : forall (c : config RNum) x, entries c x ->
  square_value c = Ok (sum_upto (length c) (fun k => x k ^ 2)) /\ negative_square_value c = Ok (1 - sum_upto (length c) (fun k => x k ^ 2)).
Proof. exact square_formula. Qed.
Print Assumptions C81_squares.

(** a call with keywords hands the configuration with exactly these values over; an unknown keyword, a
    missing one or an illegal value raises *)
Theorem C81_calls : forall (N : Num) (cs : cspace N) kw A (value : config N -> res A),
  ((forall n, In n (map fst kw) -> In n (map hp_name cs)) -> (forall h, In h cs -> exists v, config_get kw (hp_name h) = Some v /\ legal_value h v = true) ->
   exists c, bb_call value cs kw = value c /\ map fst c = map hp_name cs /\ forall n, In n (map hp_name cs) -> config_get c n = config_get kw n) /\
  ((exists n, In n (map fst kw) /\ ~ In n (map hp_name cs)) \/ (exists h, In h cs /\ forall v, config_get kw (hp_name h) = Some v -> legal_value h v = false) ->
   bb_call value cs kw = Err ValueError).
Proof. exact @call_spec. Qed.
Print Assumptions C81_calls.

Theorem C81_keyword_order : forall (N : Num) (cs : cspace N) kw kw' A (value : config N -> res A),
  NoDup (map fst kw) -> Permutation kw kw' -> bb_call value cs kw = bb_call value cs kw'.
Proof. exact @call_order. Qed.
Print Assumptions C81_keyword_order.

(** x1 = 1 / 2 and x2 = -1, given as keywords in the other order; and 3 for x2, above its range *)
Definition bx_kw : config RNum := [("x2"%string, VNum (N:=RNum) (-1)); ("x1"%string, VNum (N:=RNum) (1 / 2))].
Definition bx_at (i : nat) : R := match i with O => 1 / 2 | _ => -1 end.
Example C81_example : coordinates bx_kw 2 bx_at /\ entries_of [bx1; bx2] bx_kw bx_at /\ NoDup (map fst bx_kw) /\
  bb_call (N:=RNum) square_value [bx1; bx2] bx_kw = Ok (5 / 4) /\
  bb_call (N:=RNum) square_value [bx1; bx2] [("x1"%string, VNum (N:=RNum) 1); ("x2"%string, VNum (N:=RNum) 3)] = Err ValueError.
Proof.
  refine (conj _ (conj _ (conj _ (conj _ _)))).
  - intros [|[|i]] Hi; [reflexivity|reflexivity|lia].
  - intros [|[|k]] h E; cbn in E; [injection E as <-; reflexivity|injection E as <-; reflexivity|destruct k; discriminate].
  - repeat constructor; cbn; intuition discriminate.
  - destruct (proj1 (call_spec (N:=RNum) [bx1; bx2] bx_kw square_value)) as (c & E & M & G).
    { cbn. tauto. }
    { intros h [<-|[<-|[]]]; eexists; (split; [reflexivity|]); unfold legal_value; cbn; unfold Rleb; repeat destruct (Rle_dec _ _); try reflexivity; lra. }
    destruct c as [|[n1 v1] [|[n2 v2] [|? ?]]]; try discriminate M. injection M as -> ->. pose proof (G "x1"%string (or_introl eq_refl)) as G1. pose proof (G "x2"%string (or_intror (or_introl eq_refl))) as G2.
    cbn in G1, G2. injection G1 as ->. injection G2 as ->. rewrite E. destruct (square_formula [("x1"%string, VNum (N:=RNum) (1 / 2)); ("x2"%string, VNum (N:=RNum) (-1))] bx_at) as (F & _).
    { intros [|[|k]] p Ep; cbn in Ep; [injection Ep as <-; reflexivity|injection Ep as <-; reflexivity|destruct k; discriminate]. }
    etransitivity; [exact F|]. cbn. f_equal. lra.
  - apply (proj2 (call_spec (N:=RNum) [bx1; bx2] _ square_value)). right. exists bx2. split; [right; left; reflexivity|]. intros v Ev. cbn in Ev. injection Ev as <-.
    unfold legal_value. cbn. unfold Rleb. destruct (Rle_dec 3 2); [lra|]. apply Bool.andb_false_r.
Qed.
