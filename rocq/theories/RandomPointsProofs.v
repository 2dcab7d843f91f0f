(** RandomPointsProofs.v - algorithms on random samples (C85). *)
From Verif Require Import Base Num NumpyModel ConfigSpaceModel UtilsModel IceModel PartitionModel PartitionSpec ListLemmas SeedModel SeedSpec SeedProofs RandomPointsModel.
From Coq Require Import ZArith Lia.
Local Open Scope list_scope.

Section RandomPoints.
Context {N : Num} {X : Type}.
Variable draw : cspace N -> origin -> list nat -> nat -> list (list N).

Lemma copy_at l seed (w : sworld (A:=cspace N)) o : nth_error (w_heap w) l = Some o ->
  match seed with Some z => (0 <= z < 2 ^ 32)%Z | None => True end ->
  copy_config_space l seed w =
  Ok (mkw (w_heap w ++ [mkobj (o_space o) (match seed with Some z => Seeded z | None => Entropy (w_entropy w) end) []])
          (match seed with Some _ => w_entropy w | None => w_entropy w + 1 end), length (w_heap w)).
Proof.
  intros E R. unfold copy_config_space, py_nth. rewrite E. cbn [bind]. unfold seed_space. destruct seed as [z|]; [|reflexivity].
  assert (G : ((0 <=? z) && (z <? 4294967296))%Z = true) by (change (2 ^ 32)%Z with 4294967296%Z in R; lia). rewrite G. reflexivity.
Qed.
Lemma snoc_at {Y} (l : list Y) y : nth_error (l ++ [y]) (length l) = Some y.
Proof. rewrite nth_error_app2, Nat.sub_diag by lia. reflexivity. Qed.
Lemma py_snoc {Y} (l : list Y) y : py_nth (l ++ [y]) (length l) = Ok y.
Proof. unfold py_nth. rewrite snoc_at. reflexivity. Qed.
Lemma set_snoc {Y} (l : list Y) y z : set_nth (length l) z (l ++ [y]) = l ++ [z].
Proof. induction l as [|a l IH]; [reflexivity|]. cbn [length app set_nth]. rewrite IH. reflexivity. Qed.

(** the three steps before the constructor *)
Lemma sampled l seed (w : sworld (A:=cspace N)) o n bare : nth_error (w_heap w) l = Some o ->
  match raw_seed seed with Some z => (0 <= z < 2 ^ 32)%Z | None => True end -> bare && Nat.eqb n 1 = false ->
  let og := match raw_seed seed with Some z => Seeded z | None => Entropy (w_entropy w) end in
  exists w2, w_heap w2 = w_heap w ++ [mkobj (o_space o) og [n]] /\
    w_entropy w2 = (match raw_seed seed with Some _ => w_entropy w | None => w_entropy w + 1 end) /\
    forall cls clock (build : cspace N -> list (list N) -> res X),
    from_random_points draw bare cls clock build n seed l w =
    bind (holder_init cls clock seed l w2) (fun h => bind (py_nth (w_heap (fst h)) (snd h)) (fun o' =>
      bind (build (o_space o') (draw (o_space o) og [] n)) (fun x => Ok (fst h, (snd h, x))))).
Proof.
  intros E R NB og. eexists (mkw (w_heap w ++ [mkobj (o_space o) og [n]]) _). split; [reflexivity|]. split; [reflexivity|]. intros cls clock build.
  unfold from_random_points. rewrite (copy_at _ _ _ _ E R). fold og. cbn [bind fst snd w_heap]. unfold sample_space. cbn [w_heap]. rewrite !py_snoc.
  cbn [bind fst snd w_heap w_entropy o_space o_origin o_calls]. rewrite set_snoc. unfold sample_array. rewrite NB. cbn [bind app]. reflexivity.
Qed.

(** who holds what afterwards *)
Lemma holder_at cls clock seed l (w : sworld (A:=cspace N)) o : nth_error (w_heap w) l = Some o ->
  exists w' k, holder_init cls clock seed l w = Ok (w', k) /\ (exists tl, w_heap w' = w_heap w ++ tl) /\
    (seed = SeedTrue -> k = l /\ w' = w) /\ (seed <> SeedTrue -> k = length (w_heap w)) /\ w_entropy w' = w_entropy w /\
    exists o', nth_error (w_heap w') k = Some o' /\ o_space o' = o_space o.
Proof.
  intro E. assert (D : seed = SeedTrue \/ seed <> SeedTrue) by (destruct seed; (left; reflexivity) || (right; discriminate)). destruct D as [->|NT].
  - exists w, l. split; [reflexivity|]. split; [exists []; rewrite app_nil_r; reflexivity|]. split; [split; reflexivity|]. split; [intro H; contradiction|]. split; [reflexivity|]. exists o. split; [exact E|reflexivity].
  - assert (H : exists s, holder_seed cls clock seed = Some s /\ (0 <= s < 2 ^ 32)%Z).
    { destruct seed; try contradiction; cbn [holder_seed]; eexists; (split; [reflexivity|]);
      match goal with |- context [(?a mod _)%Z] => pose proof (Z.mod_pos_bound a 2147483648 ltac:(lia)) end; lia. }
    destruct H as (s & HS & RS). unfold holder_init. rewrite HS. rewrite (copy_at l (Some s) w o E RS). do 2 eexists. split; [reflexivity|]. cbn [w_heap w_entropy].
    split; [eexists; reflexivity|]. split; [intro; contradiction|]. split; [reflexivity|]. split; [reflexivity|]. eexists. split; [apply snoc_at|reflexivity].
Qed.

(** with a seed that RandomState takes: the samples, the heap and the space of the object *)
Theorem random_points l seed (w : sworld (A:=cspace N)) o n bare cls clock (build : cspace N -> list (list N) -> res X) :
  nth_error (w_heap w) l = Some o -> match raw_seed seed with Some z => (0 <= z < 2 ^ 32)%Z | None => True end -> bare && Nat.eqb n 1 = false ->
  let samples := draw (o_space o) (match raw_seed seed with Some z => Seeded z | None => Entropy (w_entropy w) end) [] n in
  (forall e, build (o_space o) samples = Err e -> from_random_points draw bare cls clock build n seed l w = Err e) /\
  (forall x, build (o_space o) samples = Ok x -> exists w' k,
     from_random_points draw bare cls clock build n seed l w = Ok (w', (k, x)) /\
     (forall i, i < length (w_heap w) -> nth_error (w_heap w') i = nth_error (w_heap w) i) /\
     (seed = SeedTrue -> k = l) /\ (seed <> SeedTrue -> length (w_heap w) <= k) /\
     w_entropy w' = (match seed with SeedNone => w_entropy w + 1 | _ => w_entropy w end)).
Proof.
  intros E R NB. destruct (sampled l seed w o n bare E R NB) as (w2 & H2 & E2 & F).
  assert (E' : nth_error (w_heap w2) l = Some o) by (rewrite H2, nth_error_app1 by (apply nth_error_Some; rewrite E; discriminate); exact E).
  destruct (holder_at cls clock seed l w2 o E') as (w' & k & HI & (tl & HT) & KT & KN & EN & o' & Ho & So). rewrite F, HI. cbn [bind fst snd]. unfold py_nth. rewrite Ho. cbn [bind]. rewrite So.
  split; [intros e ->; reflexivity|]. intros x ->. exists w', k. split; [reflexivity|]. split.
  { intros i Hi. rewrite HT, H2, <- app_assoc, nth_error_app1 by exact Hi. reflexivity. }
  split; [intro T; apply KT; exact T|]. split; [intro T; rewrite (KN T), H2, app_length; lia|]. rewrite EN, E2. destruct seed; reflexivity.
Qed.
(** what a seed gives does not depend on the class, the clock, or what was drawn before *)
Theorem random_points_same seed seed' z (w v : sworld (A:=cspace N)) l m o p n bare cls cls' clock clock' (build : cspace N -> list (list N) -> res X) r r' :
  nth_error (w_heap w) l = Some o -> nth_error (w_heap v) m = Some p -> o_space o = o_space p -> raw_seed seed = Some z -> raw_seed seed' = Some z ->
  from_random_points draw bare cls clock build n seed l w = Ok r -> from_random_points draw bare cls' clock' build n seed' m v = Ok r' -> snd (snd r) = snd (snd r').
Proof.
  intros E1 E2 SE S1 S2. assert (P1 : py_nth (w_heap w) l = Ok o) by (unfold py_nth; rewrite E1; reflexivity). assert (P2 : py_nth (w_heap v) m = Ok p) by (unfold py_nth; rewrite E2; reflexivity).
  destruct (Bool.bool_dec (bare && Nat.eqb n 1) false) as [NB|B]; cycle 1.
  { apply Bool.not_false_is_true in B. unfold from_random_points. rewrite S1, S2. unfold copy_config_space. rewrite P1, P2. cbn [bind].
    unfold seed_space. destruct (guard ((0 <=? z) && (z <? 4294967296))%Z ValueError) as [u|e]; [|discriminate]. cbn [bind fst snd w_heap w_entropy]. unfold sample_space. cbn [w_heap]. rewrite !py_snoc. cbn [bind fst snd o_space].
    unfold sample_array. rewrite B, SE. destruct (o_space p) eqn:P; [|discriminate]. cbn [bind].
    set (w2 := mkw (set_nth _ _ _) _). set (v2 := mkw (set_nth _ _ (w_heap v ++ _)) _).
    assert (F1 : nth_error (w_heap w2) l = Some o). { unfold w2. cbn [w_heap]. rewrite set_snoc, nth_error_app1 by (apply nth_error_Some; rewrite E1; discriminate). exact E1. }
    assert (F2 : nth_error (w_heap v2) m = Some p). { unfold v2. cbn [w_heap]. rewrite set_snoc, nth_error_app1 by (apply nth_error_Some; rewrite E2; discriminate). exact E2. }
    destruct (holder_at cls clock seed l w2 o F1) as (a & k & -> & _ & _ & _ & _ & oa & A1 & A2). destruct (holder_at cls' clock' seed' m v2 p F2) as (b & k' & -> & _ & _ & _ & _ & ob & B1 & B2).
    cbn [bind fst snd]. unfold py_nth. rewrite A1, B1. cbn [bind]. rewrite A2, B2, SE, P. destruct (build [] []); [|discriminate]. cbn [bind]. intros H1 H2. injection H1 as <-. injection H2 as <-. reflexivity. }
  destruct (Z.leb_spec 0 z) as [Z0|Z0], (Z.ltb_spec z (2 ^ 32)) as [Z1|Z1].
  2,3,4: unfold from_random_points, copy_config_space; rewrite P1, S1; cbn [bind]; unfold seed_space;
    replace ((0 <=? z) && (z <? 4294967296))%Z with false by (symmetry; lia); cbn [guard bind]; discriminate.
  assert (R1 : match raw_seed seed with Some z => (0 <= z < 2 ^ 32)%Z | None => True end) by (rewrite S1; lia).
  assert (R2 : match raw_seed seed' with Some z => (0 <= z < 2 ^ 32)%Z | None => True end) by (rewrite S2; lia).
  destruct (random_points l seed w o n bare cls clock build E1 R1 NB) as (A1 & A2). destruct (random_points m seed' v p n bare cls' clock' build E2 R2 NB) as (B1 & B2).
  rewrite S1 in A1, A2. rewrite S2 in B1, B2. rewrite SE in A1, A2. cbv zeta in *.
  destruct (build (o_space p) (draw (o_space p) (Seeded z) [] n)) as [x|e].
  - destruct (A2 x eq_refl) as (w' & k & -> & _). destruct (B2 x eq_refl) as (v' & k' & -> & _). intros H1 H2. injection H1 as <-. injection H2 as <-. reflexivity.
  - rewrite (A1 e eq_refl). discriminate.
Qed.
(** a seed outside of the range of RandomState *)
Theorem random_points_seed l z (w : sworld (A:=cspace N)) o n bare cls clock (build : cspace N -> list (list N) -> res X) :
  nth_error (w_heap w) l = Some o -> ~ (0 <= z < 2 ^ 32)%Z ->
  from_random_points draw bare cls clock build n (SeedInt z) l w = Err ValueError /\ exists w' k, holder_init cls clock (SeedInt z) l w = Ok (w', k).
Proof.
  intros E R. split.
  - unfold from_random_points, copy_config_space, py_nth. rewrite E. cbn [bind raw_seed seed_space]. unfold seed_space. assert (G : ((0 <=? z) && (z <? 4294967296))%Z = false) by (change (2 ^ 32)%Z with 4294967296%Z in R; lia).
    rewrite G. reflexivity.
  - destruct (holder_at cls clock (SeedInt z) l w o E) as (w' & k & H & _). eauto.
Qed.
(** one sample *)
Theorem random_points_one l seed (w : sworld (A:=cspace N)) o cls clock (build : cspace N -> list (list N) -> res X) :
  nth_error (w_heap w) l = Some o -> match raw_seed seed with Some z => (0 <= z < 2 ^ 32)%Z | None => True end -> o_space o <> [] ->
  from_random_points draw true cls clock build 1 seed l w = Err AttributeError.
Proof.
  intros E R NE. unfold from_random_points. rewrite (copy_at _ _ _ _ E R). cbn [bind fst snd w_heap]. unfold sample_space. cbn [w_heap]. rewrite !py_snoc.
  cbn [bind fst snd w_heap w_entropy o_space]. unfold sample_array. cbn [andb Nat.eqb]. destruct (o_space o); [contradiction|reflexivity].
Qed.

(** the statements of C85 *)
Lemma raw_range seed : match seed with SeedInt z => (0 <= z < 2 ^ 32)%Z | _ => True end -> match raw_seed seed with Some z => (0 <= z < 2 ^ 32)%Z | None => True end.
Proof. destruct seed; cbn [raw_seed]; lia. Qed.
Theorem random_points_samples l seed (w : sworld (A:=cspace N)) o n bare cls clock (build : cspace N -> list (list N) -> res X) :
  nth_error (w_heap w) l = Some o ->
  match seed with SeedInt z => (0 <= z < 2 ^ 32)%Z | _ => True end -> bare && Nat.eqb n 1 = false ->
  let samples := draw (o_space o) (match seed with SeedInt z => Seeded z | SeedTrue => Seeded 1 | SeedFalse => Seeded 0 | SeedNone => Entropy (w_entropy w) end) [] n in
  (forall e, build (o_space o) samples = Err e -> from_random_points draw bare cls clock build n seed l w = Err e) /\
  (forall x, build (o_space o) samples = Ok x -> exists w' k,
     from_random_points draw bare cls clock build n seed l w = Ok (w', (k, x)) /\
     (forall i, i < length (w_heap w) -> nth_error (w_heap w') i = nth_error (w_heap w) i) /\
     (seed = SeedTrue -> k = l) /\ (seed <> SeedTrue -> length (w_heap w) <= k) /\
     w_entropy w' = (match seed with SeedNone => w_entropy w + 1 | _ => w_entropy w end)).
Proof. intros E R NB. pose proof (random_points l seed w o n bare cls clock build E (raw_range seed R) NB) as H. destruct seed; exact H. Qed.
Theorem random_points_same_int z (w v : sworld (A:=cspace N)) l m o p n bare cls cls' clock clock' (build : cspace N -> list (list N) -> res X) r r' :
  nth_error (w_heap w) l = Some o -> nth_error (w_heap v) m = Some p -> o_space o = o_space p ->
  from_random_points draw bare cls clock build n (SeedInt z) l w = Ok r -> from_random_points draw bare cls' clock' build n (SeedInt z) m v = Ok r' ->
  snd (snd r) = snd (snd r').
Proof. intros E1 E2 SE. exact (random_points_same (SeedInt z) (SeedInt z) z w v l m o p n bare cls cls' clock clock' build r r' E1 E2 SE eq_refl eq_refl). Qed.
Theorem random_points_one_seed l seed (w : sworld (A:=cspace N)) o cls clock (build : cspace N -> list (list N) -> res X) :
  nth_error (w_heap w) l = Some o -> match seed with SeedInt z => (0 <= z < 2 ^ 32)%Z | _ => True end -> o_space o <> [] ->
  from_random_points draw true cls clock build 1 seed l w = Err AttributeError.
Proof. intros E R. exact (random_points_one l seed w o cls clock build E (raw_range seed R)). Qed.
End RandomPoints.

(** a tree from random points is the tree of the setup with the default arguments *)
Theorem random_points_tree {N : Num} draw l seed (w : sworld (A:=cspace N)) o n bare cls clock (predict : predictor N) sel gpa w' k p :
  nth_error (w_heap w) l = Some o ->
  match seed with SeedInt z => (0 <= z < 2 ^ 32)%Z | _ => True end -> bare && Nat.eqb n 1 = false ->
  from_random_points draw bare cls clock (build_tree predict sel gpa) n seed l w = Ok (w', (k, p)) ->
  let samples := draw (o_space o) (match seed with SeedInt z => Seeded z | SeedTrue => Seeded 1 | SeedFalse => Seeded 0 | SeedNone => Entropy (w_entropy w) end) [] n in
  let s := mksetup (o_space o) predict sel samples gpa 100 10 None in
  construct s = Ok p /\ reaches s p /\ d_nsplits p = 100 /\ d_minpts p = 10.
Proof.
  intros E R NB H samples s. destruct (random_points_samples draw l seed w o n bare cls clock (build_tree predict sel gpa) E R NB) as [A B].
  fold samples in A, B. destruct (build_tree predict sel gpa (o_space o) samples) as [x|e] eqn:Eb; [|rewrite (A e eq_refl) in H; discriminate].
  destruct (B x eq_refl) as (w2 & k2 & H2 & _). rewrite H2 in H. injection H as _ _ <-.
  assert (C : construct s = Ok x) by exact Eb. split; [exact C|]. split; [exists x, []; split; [exact C|reflexivity]|].
  unfold construct, dt_new in C. cbn [s su_splits su_minpts su_cs su_predict su_sel su_samples su_gpa su_nots] in C.
  destruct (algorithm_new _ _ _ _); [|discriminate]. cbn [bind] in C. destruct (ice_calculate _ _ _); [|discriminate]. cbn [bind] in C.
  destruct (region_new _ _ _); [|discriminate]. cbn [bind] in C. injection C as <-. split; reflexivity.
Qed.
