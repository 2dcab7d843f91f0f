(** MmdProofs2.v - what the maximum mean discrepancy computes (C54). *)
From Coq Require Import Reals Lra Lia Permutation Sorted.
From Verif Require Import Base Num MmdModel MmdProofs MmdSpec.
Local Open Scope R_scope.
Local Open Scope list_scope.

(** ** proofs *)
Lemma filter_all {A} (l : list A) : filter (fun _ => true) l = l.
Proof. induction l; cbn; congruence. Qed.
Lemma map_seq_nth {A B} (f : A -> B) (X : list A) d : map (fun i => f (nth i X d)) (seq 0 (length X)) = map f X.
Proof.
  rewrite <- (map_map (fun i => nth i X d) f). f_equal. induction X as [|x X IH]; [reflexivity|]. cbn [length seq map nth]. f_equal. rewrite <- seq_shift, map_map. exact IH.
Qed.
Lemma sum_all {A} (f : A -> R) X d : sum_if (length X) (fun _ => true) (fun i => f (nth i X d)) = rtotal (map f X).
Proof. unfold sum_if. rewrite filter_all, map_seq_nth. reflexivity. Qed.
Lemma sum_skip f i : forall n k, (k <= i < k + n)%nat -> rtotal (map f (filter (fun j => negb (Nat.eqb i j)) (seq k n))) = rtotal (map f (seq k n)) - f i.
Proof.
  induction n as [|n IH]; intros k H; [lia|]. cbn [seq filter map rtotal]. destruct (Nat.eqb_spec i k) as [->|N]; cbn [negb].
  - assert (E : filter (fun j => negb (Nat.eqb k j)) (seq (S k) n) = seq (S k) n).
    { assert (G : forall l, (forall j, In j l -> k <> j) -> filter (fun j => negb (Nat.eqb k j)) l = l). { induction l as [|a l IHl]; intro Hl; [reflexivity|]. cbn [filter]. rewrite (proj2 (Nat.eqb_neq k a)) by (apply Hl; left; reflexivity). cbn [negb]. rewrite IHl by (intros; apply Hl; right; assumption). reflexivity. }
      apply G. intros j Hj. apply in_seq in Hj. lia. }
    rewrite E. lra.
  - cbn [map rtotal]. rewrite IH by lia. lra.
Qed.
Lemma sqdist_sum : forall x y, length x = length y -> sqdist x y = sum_if (length x) (fun _ => true) (fun k => (nth k x 0 - nth k y 0) ^ 2).
Proof.
  intros x y H. unfold sum_if. rewrite filter_all. unfold sqdist. revert y H. induction x as [|a x IH]; intros [|b y] H; try discriminate; [reflexivity|]. cbn [combine map length seq rtotal fst snd nth]. f_equal.
  rewrite IH by (cbn in H; lia). rewrite <- seq_shift, map_map. reflexivity.
Qed.
Lemma sqdist_zero : forall x y, length x = length y -> sqdist x y = 0 -> x = y.
Proof.
  induction x as [|a x IH]; intros [|b y] H E; try discriminate; [reflexivity|]. unfold sqdist in *. cbn [combine map rtotal fst snd] in E. pose proof (sqdist_nonneg x y) as P. unfold sqdist in P. pose proof (pow2_ge_0 (a - b)). f_equal; [|apply IH; [cbn in H; lia|lra]].
  assert ((a - b) ^ 2 = 0) by lra. nra.
Qed.
Lemma euclid_sq x y : length x = length y -> euclid x y = sqrt (sqdist x y).
Proof. intro H. unfold euclid. rewrite sqdist_sum by exact H. reflexivity. Qed.
Lemma kern_entry l x y : l <> 0 -> length x = length y -> kern l x y = rbf_entry l x y.
Proof.
  intros Hl H. unfold kern, rbf_entry. rewrite euclid_sq by exact H. rewrite sqdist_scale by exact Hl. f_equal. replace (sqrt (sqdist x y) ^ 2) with (sqdist x y) by (cbn [pow]; rewrite Rmult_1_r, sqrt_sqrt by apply sqdist_nonneg; reflexivity). field. exact Hl.
Qed.

Lemma rinsert_sorted x l : StronglySorted Rle l -> StronglySorted Rle (rinsert x l).
Proof.
  induction l as [|y l IH]; intro S; cbn [rinsert]; [repeat constructor|]. inversion S as [|? ? S' F]; subst. destruct (Rle_dec x y) as [L|L].
  - constructor; [exact S|]. constructor; [exact L|]. rewrite Forall_forall in *. intros z Hz. specialize (F z Hz). lra.
  - constructor; [apply IH; exact S'|]. rewrite Forall_forall in *. intros z Hz. apply (Permutation_in _ (Permutation_sym (rinsert_perm x l))) in Hz as [<-|Hz]; [lra|apply F; exact Hz].
Qed.
Lemma rsort_sorted l : StronglySorted Rle (rsort l).
Proof. induction l as [|x l IH]; cbn; [constructor|]. apply rinsert_sorted. exact IH. Qed.
Lemma np_median_is ds l : np_median ds = Some l -> is_median l ds.
Proof.
  unfold np_median. cbv zeta. destruct (Nat.eqb_spec (length ds) 0) as [|N0]; [discriminate|]. intro E. exists (rsort ds). assert (L : length (rsort ds) = length ds) by (symmetry; apply Permutation_length, rsort_perm). rewrite L. split; [exact (rsort_perm ds)|]. split; [exact (rsort_sorted ds)|]. split; [lia|].
  destruct (Nat.odd (length ds)) eqn:O.
  - injection E as <-. apply Nat.odd_spec in O as (k & Hk). rewrite Hk. replace (2 * k + 1 - 1)%nat with (2 * k)%nat by lia. replace (2 * k + 1)%nat with (S (2 * k)) by lia. rewrite Nat.div2_double, Nat.div2_succ_double. lra.
  - injection E as <-. rewrite <- Nat.negb_even in O. apply negb_false_iff, Nat.even_spec in O as (k & Hk). rewrite Hk. rewrite Nat.div2_double. replace (2 * k - 1)%nat with (S (2 * (k - 1))) by lia. rewrite Nat.div2_succ_double. reflexivity.
Qed.
Lemma concat_prod {A B C} (f : A -> B -> C) X Y : concat (map (fun x => map (fun y => f x y) Y) X) = map (fun p => f (fst p) (snd p)) (list_prod X Y).
Proof. induction X as [|x X IH]; [reflexivity|]. cbn [map concat list_prod]. rewrite map_app, IH, map_map. reflexivity. Qed.
Lemma filter_map' {A B} (f : A -> B) (c : B -> bool) l : filter c (map f l) = map f (filter (fun x => c (f x)) l).
Proof. induction l as [|x l IH]; [reflexivity|]. cbn [map filter]. destruct (c (f x)); cbn [map]; rewrite IH; reflexivity. Qed.
Lemma distances_eq d Z : Forall (fun x => length x = d) Z -> nonzero_distances Z = pair_distances Z.
Proof.
  intro F. rewrite Forall_forall in F. unfold nonzero_distances, pair_distances, all_distances. rewrite concat_prod, filter_map'.
  assert (E : forall p, In p (list_prod Z Z) -> sqrt (sqdist (snd p) (fst p)) = euclid (fst p) (snd p)).
  { intros (x & y) Hp. apply in_prod_iff in Hp as [Hx Hy]. cbn [fst snd]. rewrite euclid_sq by (rewrite (F x Hx), (F y Hy); reflexivity). rewrite sqdist_sym. reflexivity. }
  rewrite (filter_ext_in _ (fun p => if point_eq_dec (fst p) (snd p) then false else true)).
  - apply map_ext_in. intros p Hp. apply filter_In in Hp as [Hp _]. apply E. exact Hp.
  - intros (x & y) Hp. apply in_prod_iff in Hp as [Hx Hy]. cbn [fst snd]. destruct (point_eq_dec x y) as [->|N].
    + rewrite sqdist_refl, sqrt_0. destruct (Req_EM_T 0 0); congruence.
    + destruct (Req_EM_T (sqrt (sqdist y x)) 0) as [S0|]; [|reflexivity]. exfalso. apply N. symmetry. apply sqdist_zero; [rewrite (F x Hx), (F y Hy); reflexivity|]. apply sqrt_eq_0; [apply sqdist_nonneg|exact S0].
Qed.
Lemma pair_mean_eq l d X : l <> 0 -> Forall (fun x => length x = d) X -> pair_mean (kern l) X = (ksum l X X - INR (length X)) / (INR (length X) * (INR (length X) - 1)).
Proof.
  intros Hl F. unfold pair_mean. cbv zeta. f_equal. rewrite Forall_forall in F. unfold sum_if at 1. rewrite filter_all.
  rewrite (map_ext_in _ (fun i => rtotal (map (rbf_entry l (nth i X [])) X) - 1)).
  - rewrite (map_seq_nth (fun x => rtotal (map (rbf_entry l x) X) - 1) X []). rewrite (rtotal_minus (fun x => rtotal (map (rbf_entry l x) X)) (fun _ => 1)). unfold ksum. f_equal.
    clear. induction X as [|x X IH]; [reflexivity|]. cbn [map rtotal length]. rewrite S_INR, IH. ring.
  - intros i Hi. apply in_seq in Hi. unfold sum_if. rewrite sum_skip by lia. pose proof (F _ (nth_In X [] (proj2 Hi))) as Li. f_equal.
    + rewrite (map_ext_in _ (fun j => rbf_entry l (nth i X []) (nth j X []))); [rewrite (map_seq_nth (rbf_entry l (nth i X [])) X []); reflexivity|]. intros j Hj. apply in_seq in Hj. apply kern_entry; [exact Hl|]. rewrite Li, (F _ (nth_In X [] (proj2 Hj))). reflexivity.
    + rewrite kern_entry by (exact Hl || reflexivity). apply entry_refl.
Qed.
Lemma cross_mean_eq l d X U : l <> 0 -> Forall (fun x => length x = d) (X ++ U) -> cross_mean (kern l) X U = ksum l X U / (INR (length X) * INR (length U)).
Proof.
  intros Hl F. unfold cross_mean. f_equal. rewrite Forall_forall in F. rewrite (sum_all (fun x => sum_if (length U) (fun _ => true) (fun j => kern l x (nth j U []))) X []). unfold ksum. f_equal. apply map_ext_in. intros x Hx. rewrite (sum_all (kern l x) U []). f_equal. apply map_ext_in. intros y Hy.
  apply kern_entry; [exact Hl|]. rewrite !F by (apply in_app_iff; tauto). reflexivity.
Qed.
Lemma clip_sqrt s : (if Rlt_dec s 0 then 0 else sqrt s) = sqrt (Rmax 0 s).
Proof. unfold Rmax. destruct (Rlt_dec s 0), (Rle_dec 0 s); try lra; try reflexivity. symmetry. apply sqrt_0. Qed.
Lemma points_differ d Z : Forall (fun x => length x = d) Z -> (exists x y, In x Z /\ In y Z /\ x <> y) -> exists x y, In x Z /\ In y Z /\ sqdist x y <> 0.
Proof. intros F (x & y & Hx & Hy & N). exists x, y. refine (conj Hx (conj Hy _)). intro E. apply N. rewrite Forall_forall in F. apply sqdist_zero; [rewrite (F x Hx), (F y Hy); reflexivity|exact E]. Qed.

Theorem mmd_formula d X U : Forall (fun x => length x = d) (X ++ U) -> (2 <= length X)%nat -> (2 <= length U)%nat ->
  (exists x y, In x (X ++ U) /\ In y (X ++ U) /\ x <> y) ->
  exists l, 0 < l /\ is_median l (pair_distances (X ++ U)) /\
    mmd X U = Ok (Some (sqrt (Rmax 0 (pair_mean (kern l) X + pair_mean (kern l) U - 2 * cross_mean (kern l) X U)))).
Proof.
  intros F HX HU HD. destruct (median_distance_some _ (points_differ _ _ F HD)) as (l & El & Hl). exists l. refine (conj Hl (conj _ _)).
  - rewrite <- (distances_eq d) by exact F. apply np_median_is. exact El.
  - pose proof (proj1 (Forall_app _ _ _) F) as [FX FU]. rewrite mmd_eq by lia. rewrite El. destruct (Nat.eqb_spec (length X) 1); [lia|]. cbv zeta. rewrite clip_sqrt. do 5 f_equal.
    + rewrite (pair_mean_eq l d), (pair_mean_eq l d) by (assumption || lra). reflexivity.
    + rewrite (cross_mean_eq l d) by (assumption || lra). unfold Rdiv. ring.
Qed.
Theorem mmd_range' d X U : Forall (fun x => length x = d) (X ++ U) -> (2 <= length X)%nat -> (2 <= length U)%nat ->
  (exists x y, In x (X ++ U) /\ In y (X ++ U) /\ x <> y) -> exists v, mmd X U = Ok (Some v) /\ 0 <= v < sqrt 2.
Proof. intros F HX HU HD. apply mmd_range; [exact HX|exact HU|exact (points_differ d _ F HD)]. Qed.
(** all points equal, or one sample *)
Theorem mmd_nan' X U : (1 <= length X)%nat -> (2 <= length U)%nat -> (length X = 1%nat \/ (forall x y, In x (X ++ U) -> In y (X ++ U) -> x = y)) -> mmd X U = Ok None.
Proof. intros HX HU [H|H]; apply mmd_nan; try assumption; [left; exact H|right]. intros x y Hx Hy. rewrite (H x y Hx Hy). apply sqdist_refl. Qed.
