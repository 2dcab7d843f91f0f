(** SyntheticPd.v - StyblinskiTang.pd_integral is the average (C51). *)
From Coq Require Import Reals Lra.
From Coquelicot Require Import Coquelicot.
From Verif Require Import Base Num ConfigSpaceModel UtilsModel SyntheticModel SyntheticSpec.
Local Open Scope R_scope.
Local Open Scope list_scope.

Definition g (t : R) : R := t ^ 4 - 16 * t ^ 2 + 5 * t.
Lemma g_derive (t : R) : is_derive stybtang_integral t (g t / 2).
Proof. unfold stybtang_integral, g. auto_derive; [trivial|]. field. Qed.
Lemma g_int (K lo up : R) : is_RInt (fun t => K + g t / 2) lo up (K * (up - lo) + (stybtang_integral up - stybtang_integral lo)).
Proof.
  replace (K * (up - lo) + (stybtang_integral up - stybtang_integral lo)) with (minus ((fun t => K * t + stybtang_integral t) up) ((fun t => K * t + stybtang_integral t) lo)) by (unfold minus, plus, opp; cbn; ring).
  apply (is_RInt_derive (V := R_CompleteNormedModule) (fun t => K * t + stybtang_integral t)); intros x _.
  - auto_derive; [|rewrite (is_derive_unique (fun x : R => stybtang_integral x) x _ (g_derive x)); unfold g; field]. eexists; exact (g_derive x).
  - apply (ex_derive_continuous (V := R_NormedModule) (fun t => K + g t / 2)). unfold g. auto_derive. trivial.
Qed.

(** the average of one coordinate *)
Definition hp_mean (h : hp RNum) : R :=
  match hp_kind h with KFloat lo up _ => (stybtang_integral up - stybtang_integral lo) / (up - lo) | _ => 0 end.
Definition asum (L : list (hp RNum)) (a : assignment) : R := rsum (map (fun h => g (a (hp_name h)) / 2) L).
Definition others (hps L : list (hp RNum)) : list (hp RNum) := filter (fun h => negb (existsb (String.eqb (hp_name h)) (map hp_name hps))) L.

Lemma rsum_app l m : rsum (l ++ m) = rsum l + rsum m.
Proof. unfold rsum. induction l as [|x l IH]; cbn [app fold_right]; [ring|]. rewrite IH. ring. Qed.
Lemma others_cons h hps L : others (h :: hps) L = filter (fun k => negb (String.eqb (hp_name k) (hp_name h))) (others hps L).
Proof.
  unfold others. induction L as [|k L IH]; [reflexivity|]. cbn [filter].
  set (f := fun h0 : hp RNum => negb (existsb (String.eqb (hp_name h0)) (map hp_name (h :: hps)))) in *.
  assert (E : f k = negb (String.eqb (hp_name k) (hp_name h)) && negb (existsb (String.eqb (hp_name k)) (map hp_name hps))).
  { unfold f. cbn [map existsb]. apply negb_orb. }
  change (negb (existsb (String.eqb (hp_name k)) (map hp_name (h :: hps)))) with (f k). rewrite E. destruct (negb (existsb (String.eqb (hp_name k)) (map hp_name hps))); cbn [filter]; destruct (negb (String.eqb (hp_name k) (hp_name h))); cbn [andb]; rewrite IH; reflexivity.
Qed.
Lemma nodup_filter (f : hp RNum -> bool) L : NoDup (map hp_name L) -> NoDup (map hp_name (filter f L)).
Proof.
  induction L as [|k L IH]; intro H; [constructor|]. inversion H; subst. cbn. destruct (f k); cbn; [constructor|]; auto.
  intro Hin. apply H2. apply in_map_iff in Hin as (x & <- & Hx). apply filter_In in Hx as [Hx _]. apply in_map. exact Hx.
Qed.
Lemma asum_out L a n t : ~ In n (map hp_name L) -> asum L (assign a n t) = asum L a.
Proof.
  unfold asum. intro H. f_equal. apply map_ext_in. intros k Hk. unfold assign. destruct (String.eqb_spec (hp_name k) n) as [E|]; [|reflexivity].
  exfalso. apply H. rewrite <- E. apply in_map. exact Hk.
Qed.
Lemma asum_split L h a t : NoDup (map hp_name L) -> In h L ->
  asum L (assign a (hp_name h) t) = g t / 2 + asum (filter (fun k => negb (String.eqb (hp_name k) (hp_name h))) L) a.
Proof.
  induction L as [|k L IH]; intros ND Hin; [destruct Hin|]. inversion ND as [|? ? Hk ND']; subst. cbn [filter]. unfold asum in *. cbn [map rsum fold_right].
  destruct Hin as [-> | Hin].
  - unfold assign at 1. rewrite String.eqb_refl. cbn [negb]. f_equal. pose proof (asum_out L a (hp_name h) t Hk) as O. unfold asum in O. fold (rsum (map (fun h0 => g (assign a (hp_name h) t (hp_name h0)) / 2) L)). rewrite O.
    f_equal. f_equal. symmetry. clear -Hk. induction L as [|k L IH]; [reflexivity|]. cbn [filter]. destruct (String.eqb_spec (hp_name k) (hp_name h)) as [E|E].
    + exfalso. apply Hk. left. exact E.
    + cbn [negb]. f_equal. apply IH. intro HH. apply Hk. right. exact HH.
  - assert (E : hp_name k <> hp_name h) by (intro E; apply Hk; rewrite E; apply in_map; exact Hin).
    destruct (String.eqb_spec (hp_name k) (hp_name h)) as [|_]; [contradiction|]. cbn [negb map rsum fold_right]. unfold assign at 1. destruct (String.eqb_spec (hp_name k) (hp_name h)) as [|_]; [contradiction|].
    specialize (IH ND' Hin). unfold rsum in *. rewrite IH. ring.
Qed.

Lemma average_ext hps F G a : (forall b, F b = G b) -> average hps F a = average hps G a.
Proof.
  revert a. induction hps as [|h hps IH]; intros a H; cbn [average]; [apply H|]. destruct (hp_kind h) as [lo up lg| | | |]; try reflexivity.
  apply (f_equal (fun z : R => z / (up - lo))). apply (RInt_ext (V := R_CompleteNormedModule)). intros x _. apply IH. exact H.
Qed.
Lemma average_sum hps : forall L a, NoDup (map hp_name L) -> NoDup (map hp_name hps) -> incl hps L -> Forall float_range hps ->
  average hps (asum L) a = asum (others hps L) a + rsum (map hp_mean hps).
Proof.
  induction hps as [|h hps IH]; intros L a ND NH I F.
  - cbn. unfold others. cbn. rewrite Rplus_0_r. f_equal. induction L as [|k L IHL]; [reflexivity|]. cbn. f_equal. apply IHL; [inversion ND; assumption|intros x []].
  - inversion NH as [|? ? Hh NH']; subst. pose proof (Forall_inv F) as (lo & up & lg & EK & Hlt). pose proof (Forall_inv_tail F) as F'. cbn [average]. rewrite EK.
    rewrite others_cons. set (M := others hps L) in *.
    assert (HM : In h M). { unfold M, others. apply filter_In. split; [apply I; left; reflexivity|]. apply negb_true_iff. apply not_true_iff_false. intro Hx. apply existsb_exists in Hx as (n & Hn & En). apply String.eqb_eq in En. subst n. contradiction. }
    assert (NM : NoDup (map hp_name M)) by (apply nodup_filter; exact ND).
    set (K := asum (filter (fun k => negb (String.eqb (hp_name k) (hp_name h))) M) a + rsum (map hp_mean hps)).
    assert (E : RInt (fun t => average hps (asum L) (assign a (hp_name h) t)) lo up = K * (up - lo) + (stybtang_integral up - stybtang_integral lo)).
    { apply is_RInt_unique. apply (is_RInt_ext (V := R_NormedModule) (fun t => K + g t / 2)); [|apply g_int]. intros t _. symmetry. rewrite IH by (auto; intros x Hx; apply I; right; exact Hx).
      fold M. rewrite asum_split by assumption. unfold K. change (plus (g t / 2) (asum (filter (fun k => negb (String.eqb (hp_name k) (hp_name h))) M) a)) with (g t / 2 + asum (filter (fun k => negb (String.eqb (hp_name k) (hp_name h))) M) a). lra. }
    rewrite E. cbn [map rsum fold_right]. unfold hp_mean at 1. rewrite EK. unfold K. unfold rsum. field. lra.
Qed.

(** ** the model computes these sums *)
Lemma config_get_at cs (a : assignment) n : In n (map hp_name cs) -> config_get (conf_at cs a) n = Some (VNum (N:=RNum) (a n)).
Proof.
  induction cs as [|h cs IH]; intro H; [destruct H|]. cbn. destruct (String.eqb_spec (hp_name h) n) as [->|E]; [reflexivity|]. apply IH. destruct H; [contradiction|assumption].
Qed.
Lemma mapM_items (cs : cspace RNum) (a : assignment) (sub : list (hp RNum)) : incl (map hp_name sub) (map hp_name cs) ->
  mapM (fun h => config_item (N:=RNum) (conf_at cs a) (hp_name h)) sub = Ok (map (fun h => a (hp_name h)) sub).
Proof.
  induction sub as [|h sub IH]; intro I; [reflexivity|]. cbn [mapM map]. unfold config_item at 1. rewrite config_get_at by (apply I; left; reflexivity). cbn [cnum bind].
  rewrite IH by (intros x Hx; apply I; right; exact Hx). reflexivity.
Qed.
Lemma stybtang_at (cs : cspace RNum) a : stybtang_value cs (conf_at cs a) = Ok (asum cs a).
Proof.
  unfold stybtang_value. rewrite mapM_items by (intros x Hx; exact Hx). cbn [bind]. f_equal. unfold stybtang_of, asum. rewrite map_map. fold g. unfold rsum.
  induction cs as [|h cs IH]; cbn [map fold_right]; [lra|]. rewrite <- IH. unfold g. lra.
Qed.
Lemma pd_offset_mean hps : Forall float_range hps -> pd_offset hps = Ok (rsum (map hp_mean hps)).
Proof.
  unfold pd_offset. assert (G : forall off, Forall float_range hps -> foldM (fun off h => _ <- guard (is_numerical h) AssertionError ;; lower <- hp_lower (N:=RNum) h ;; upper <- hp_upper (N:=RNum) h ;;
    Ok (off + (stybtang_integral upper - stybtang_integral lower) / (upper - lower))) hps off = Ok (off + rsum (map hp_mean hps))).
  { induction hps as [|h hps IH]; intros off F; cbn [foldM map rsum fold_right]; [f_equal; cbn; ring|]. pose proof (Forall_inv F) as (lo & up & lg & EK & Hlt).
    unfold is_numerical, hp_lower, hp_upper. rewrite EK. cbn [guard bind]. rewrite IH by (apply (Forall_inv_tail F)). f_equal. unfold hp_mean at 2. rewrite EK. unfold rsum. ring. }
  intro F. rewrite G by exact F. f_equal. ring.
Qed.

Theorem pd_is_average (cs : cspace RNum) args hps : args <> [] -> convert_hyperparameters (N:=RNum) (SelList args) cs = Ok hps ->
  NoDup (map hp_name cs) -> NoDup (map hp_name hps) -> incl hps cs -> Forall float_range hps ->
  exists p, pd_integral cs args = Ok p /\
    (forall h, In h (fst p) <-> In h cs /\ ~ In (hp_name h) (map hp_name hps)) /\
    forall a, pd_value p (conf_at (fst p) a) = Ok (average hps (fun b => match stybtang_value cs (conf_at cs b) with Ok v => v | Err _ => 0 end) a).
Proof.
  intros Ha Hc ND NH I F. exists (pd_space cs hps, rsum (map hp_mean hps)). refine (conj _ (conj _ _)).
  - unfold pd_integral. destruct args; [congruence|]. cbn [length Nat.eqb negb guard bind]. rewrite Hc. cbn [bind]. rewrite pd_offset_mean by exact F. reflexivity.
  - intro h. cbn [fst]. unfold pd_space. rewrite filter_In. apply and_iff_compat_l. rewrite negb_true_iff. rewrite <- not_true_iff_false. apply not_iff_compat. rewrite existsb_exists. split.
    + intros (n & Hn & E). apply String.eqb_eq in E. rewrite E. exact Hn.
    + intro Hn. exists (hp_name h). split; [exact Hn|apply String.eqb_refl].
  - intro a. unfold pd_value. cbn [fst snd]. rewrite stybtang_at. cbn [bind]. f_equal. rewrite (average_ext hps _ (asum cs)) by (intro b; rewrite stybtang_at; reflexivity).
    rewrite average_sum by assumption. reflexivity.
Qed.

(** a repeated hyperparameter *)
Theorem pd_repeated (cs : cspace RNum) h p : pd_integral cs [SHp h] = Ok p -> pd_integral cs [SHp h; SHp h] = Ok (fst p, snd p + snd p).
Proof.
  unfold pd_integral. cbn [length Nat.eqb negb guard bind convert_hyperparameters mapM sel_item]. unfold pd_offset. cbn [foldM].
  destruct (guard (is_numerical h) AssertionError); cbn [bind]; [|discriminate]. destruct (hp_lower h) as [lo|]; cbn [bind]; [|discriminate]. destruct (hp_upper h) as [up|]; cbn [bind]; [|discriminate].
  intro H. injection H as <-. cbn [fst snd]. f_equal. f_equal; [|ring].
  unfold pd_space. cbn [map existsb]. apply filter_ext. intro k. destruct (String.eqb (hp_name k) (hp_name h)); reflexivity.
Qed.
(** errors *)
Theorem pd_no_argument (cs : cspace RNum) : pd_integral cs [] = Err ValueError.
Proof. reflexivity. Qed.
Theorem pd_not_numerical (cs : cspace RNum) h : is_numerical h = false -> pd_integral cs [SHp h] = Err AssertionError.
Proof. intro E. unfold pd_integral, pd_offset. cbn. rewrite E. reflexivity. Qed.

Theorem pd_not_numerical_anywhere (cs : cspace RNum) args hps : args <> [] -> convert_hyperparameters (N:=RNum) (SelList args) cs = Ok hps ->
  (exists h, In h hps /\ is_numerical h = false) -> pd_integral cs args = Err AssertionError.
Proof.
  intros Ha Hc (h & Hh & E). unfold pd_integral. destruct args; [congruence|]. cbn [length Nat.eqb negb guard bind]. rewrite Hc. cbn [bind]. unfold pd_offset.
  match goal with |- context [foldM ?f hps 0] => assert (G : forall off, foldM f hps off = Err AssertionError) end.
  { clear Hc. induction hps as [|k hps IH]; intro off; [destruct Hh|]. cbn [foldM]. destruct (is_numerical k) eqn:Ek; [|reflexivity].
    destruct Hh as [->|Hh]; [congruence|]. destruct k as [n k]. destruct k; try discriminate Ek; cbn; apply IH; exact Hh. }
  rewrite G. reflexivity.
Qed.
Theorem pd_unknown (cs : cspace RNum) args e : args <> [] -> convert_hyperparameters (N:=RNum) (SelList args) cs = Err e -> pd_integral cs args = Err e.
Proof. intros Ha Hc. unfold pd_integral. destruct args; [congruence|]. cbn [length Nat.eqb negb guard bind]. rewrite Hc. reflexivity. Qed.

(** an integer hyperparameter: the average over its range of reals, not over its values *)
Theorem pd_integer : exists (cs : cspace RNum) h p, pd_integral cs [SHp h] = Ok p /\ In h cs /\ hp_kind h = KInt 0 1 false /\
  exists v0 v1 w, stybtang_value cs [("x"%string, VNum (N:=RNum) 0)] = Ok v0 /\ stybtang_value cs [("x"%string, VNum (N:=RNum) 1)] = Ok v1 /\
    pd_value p [] = Ok w /\ w <> (v0 + v1) / 2.
Proof.
  exists [mkhp "x" (KInt 0 1 false)], (mkhp "x" (KInt 0 1 false)). eexists. split; [reflexivity|]. split; [left; reflexivity|]. split; [reflexivity|].
  do 3 eexists. split; [reflexivity|]. split; [reflexivity|]. split; [reflexivity|]. cbn. unfold stybtang_of, stybtang_integral, rsum. cbn. lra.
Qed.
Theorem stybtang_defined (cs : cspace RNum) (a : assignment) : exists v, stybtang_value cs (conf_at cs a) = Ok v.
Proof. exists (asum cs a). apply stybtang_at. Qed.
