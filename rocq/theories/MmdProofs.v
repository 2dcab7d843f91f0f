(** MmdProofs.v - maximum mean discrepancy (C54). *)
From Coq Require Import Reals Lra Lia Permutation Psatz.
From Verif Require Import Base Num MmdModel.
Local Open Scope R_scope.
Local Open Scope list_scope.

(** ** sums *)
Lemma rtotal_app l m : rtotal (l ++ m) = rtotal l + rtotal m.
Proof. induction l as [|x l IH]; cbn [app rtotal]; [ring|]. rewrite IH. ring. Qed.
Lemma rtotal_perm l m : Permutation l m -> rtotal l = rtotal m.
Proof. induction 1; cbn [rtotal]; try lra. Qed.
Lemma rtotal_concat ls : rtotal (concat ls) = rtotal (map rtotal ls).
Proof. induction ls as [|x l IH]; cbn [concat map rtotal]; [reflexivity|]. rewrite rtotal_app, IH. reflexivity. Qed.
Lemma rtotal_nonneg l : (forall x, In x l -> 0 <= x) -> 0 <= rtotal l.
Proof. induction l as [|x l IH]; intro H; cbn [rtotal]; [lra|]. pose proof (H x (or_introl eq_refl)). pose proof (IH (fun y Hy => H y (or_intror Hy))). lra. Qed.
Lemma rtotal_le_len l : (forall x, In x l -> x <= 1) -> rtotal l <= INR (length l).
Proof. induction l as [|x l IH]; intro H; [cbn; lra|]. cbn [rtotal length]. rewrite S_INR. pose proof (H x (or_introl eq_refl)). pose proof (IH (fun y Hy => H y (or_intror Hy))). lra. Qed.
Lemma rtotal_minus {A} (f h : A -> R) l : rtotal (map (fun x => f x - h x) l) = rtotal (map f l) - rtotal (map h l).
Proof. induction l as [|x l IH]; cbn [map rtotal]; [ring|]. rewrite IH. ring. Qed.
Lemma rtotal_plus {A} (f h : A -> R) l : rtotal (map (fun x => f x + h x) l) = rtotal (map f l) + rtotal (map h l).
Proof. induction l as [|x l IH]; cbn [map rtotal]; [ring|]. rewrite IH. ring. Qed.
Lemma rtotal_swap {A B} (f : A -> B -> R) la lb : rtotal (map (fun a => rtotal (map (f a) lb)) la) = rtotal (map (fun b => rtotal (map (fun a => f a b) la)) lb).
Proof.
  induction la as [|a la IH]; cbn [map rtotal].
  - induction lb as [|b lb IHb]; cbn [map rtotal] in *; [reflexivity|]. rewrite <- IHb. ring.
  - rewrite IH. rewrite <- rtotal_plus. reflexivity.
Qed.

(** ** kernel *)
Lemma sqdist_nonneg x y : 0 <= sqdist x y.
Proof. apply rtotal_nonneg. intros z Hz. apply in_map_iff in Hz as (p & <- & _). apply pow2_ge_0. Qed.
Lemma sqdist_refl x : sqdist x x = 0.
Proof. unfold sqdist. induction x as [|a x IH]; cbn [combine map rtotal fst snd]; [reflexivity|]. rewrite IH. ring. Qed.
Lemma sqdist_sym x y : sqdist x y = sqdist y x.
Proof. unfold sqdist. revert y. induction x as [|a x IH]; intros [|b y]; cbn [combine map rtotal fst snd]; try reflexivity. rewrite IH. ring. Qed.
Lemma sqdist_scale l x y : l <> 0 -> sqdist (map (fun t => t / l) x) (map (fun t => t / l) y) = sqdist x y / l ^ 2.
Proof. intro Hl. unfold sqdist. revert y. induction x as [|a x IH]; intros [|b y]; cbn [combine map rtotal fst snd]; try (field; exact Hl). rewrite IH. field. exact Hl. Qed.
Lemma entry_pos l x y : 0 < rbf_entry l x y.
Proof. apply exp_pos. Qed.
Lemma entry_le1 l x y : rbf_entry l x y <= 1.
Proof.
  unfold rbf_entry. pose proof (sqdist_nonneg (map (fun t => t / l) x) (map (fun t => t / l) y)) as H. apply Rle_trans with (exp 0); [|rewrite exp_0; lra]. destruct H as [H|H]; [left; apply exp_increasing; lra|right; f_equal; rewrite <- H; ring].
Qed.
Lemma entry_refl l x : rbf_entry l x x = 1.
Proof. unfold rbf_entry. rewrite sqdist_refl, Rmult_0_r. apply exp_0. Qed.
Lemma entry_sym l x y : rbf_entry l x y = rbf_entry l y x.
Proof. unfold rbf_entry. rewrite sqdist_sym. reflexivity. Qed.

(** ** enumerations *)
Lemma enum_from {A} (X : list A) : forall i p, In p (combine (seq i (length X)) X) -> (i <= fst p)%nat /\ nth_error X (fst p - i) = Some (snd p).
Proof.
  induction X as [|x X IH]; intros i p H; [destruct H|]. cbn [length seq combine] in H. destruct H as [<-|H].
  - cbn [fst snd]. rewrite Nat.sub_diag. split; [lia|reflexivity].
  - apply IH in H as [A1 A2]. split; [lia|]. replace (fst p - i)%nat with (S (fst p - S i)) by lia. exact A2.
Qed.
Lemma map_snd_enum {A B} (f : A -> B) (X : list A) : map (fun p => f (snd p)) (enum X) = map f X.
Proof.
  unfold enum. generalize 0%nat as i. induction X as [|x X IH]; intro i; [reflexivity|]. cbn [length seq combine map snd]. rewrite IH. reflexivity.
Qed.
Lemma rbf_matrix l Z : rbf l Z = map (fun x => map (rbf_entry l x) Z) Z.
Proof.
  unfold rbf. rewrite <- (map_snd_enum (fun x => map (rbf_entry l x) Z) Z). apply map_ext_in. intros p Hp. rewrite <- (map_snd_enum (rbf_entry l (snd p)) Z). apply map_ext_in. intros q Hq.
  destruct (Nat.eqb_spec (fst p) (fst q)) as [E|]; [|reflexivity]. apply enum_from in Hp as [_ Hp]. apply enum_from in Hq as [_ Hq]. rewrite E in Hp. rewrite Hp in Hq. injection Hq as <-. symmetry. apply entry_refl.
Qed.
Lemma off_row (i : nat) (row : list R) (d : R) : (i < length row)%nat ->
  rtotal (map (fun q => (1 - (if Nat.eqb i (fst q) then 1 else 0)) * snd q) (enum row)) = rtotal row - nth i row d.
Proof.
  unfold enum. enough (G : forall k, (k <= i < k + length row)%nat -> rtotal (map (fun q => (1 - (if Nat.eqb i (fst q) then 1 else 0)) * snd q) (combine (seq k (length row)) row)) = rtotal row - nth (i - k) row d).
  { intro H. rewrite (G 0%nat) by lia. rewrite Nat.sub_0_r. reflexivity. }
  induction row as [|x row IH]; intros k H; [cbn in H; lia|]. cbn [length] in H. cbn [length seq combine map rtotal fst snd]. destruct (Nat.eqb_spec i k) as [->|N].
  - rewrite Nat.sub_diag. cbn [nth]. replace (rtotal (map (fun q => (1 - (if Nat.eqb k (fst q) then 1 else 0)) * snd q) (combine (seq (S k) (length row)) row))) with (rtotal row); [ring|].
    rewrite <- (map_id row) at 1. clear. assert (G : forall j, (k < j)%nat -> rtotal (map (fun x => x) row) = rtotal (map (fun q => (1 - (if Nat.eqb k (fst q) then 1 else 0)) * snd q) (combine (seq j (length row)) row))); [|apply G; lia].
    induction row as [|x row IH]; intros j Hj; [reflexivity|]. cbn [length seq combine map rtotal fst snd]. destruct (Nat.eqb_spec k j); [lia|]. rewrite (IH (S j)) by lia. ring.
  - rewrite IH by lia. replace (i - k)%nat with (S (i - S k)) by lia. cbn [nth]. ring.
Qed.
Lemma trace_sum {A} (f : A -> A -> R) (d : A) (X : list A) : rtotal (map (fun p => nth (fst p) (map (f (snd p)) X) 0) (enum X)) = rtotal (map (fun x => f x x) X).
Proof.
  rewrite <- (map_snd_enum (fun x => f x x) X). f_equal. apply map_ext_in. intros p Hp. apply enum_from in Hp as [_ Hp]. rewrite Nat.sub_0_r in Hp.
  rewrite (nth_indep _ 0 (f (snd p) d)). 2:{ rewrite map_length. apply nth_error_Some. rewrite Hp. discriminate. }
  rewrite map_nth. f_equal. apply nth_error_nth. exact Hp.
Qed.
Lemma enum_map {A B} (f : A -> B) X : enum (map f X) = map (fun p => (fst p, f (snd p))) (enum X).
Proof. unfold enum. rewrite map_length. generalize 0%nat. induction X as [|x X IH]; intro i; [reflexivity|]. cbn [length seq combine map fst snd]. rewrite IH. reflexivity. Qed.
Lemma off_matrix {A} (f : A -> A -> R) (X : list A) : off_diagonal (map (fun x => map (f x) X) X) = rtotal (map (fun x => rtotal (map (f x) X)) X) - rtotal (map (fun x => f x x) X).
Proof.
  destruct X as [|d X']; [cbn; ring|]. set (X := d :: X'). unfold off_diagonal. rewrite enum_map, map_map. cbn [fst snd]. rewrite <- (trace_sum f d X). rewrite <- (map_snd_enum (fun x => rtotal (map (f x) X)) X). rewrite <- rtotal_minus. f_equal. apply map_ext_in.
  intros p Hp. apply off_row. rewrite map_length. apply enum_from in Hp as [_ Hp]. rewrite Nat.sub_0_r in Hp. apply nth_error_Some. rewrite Hp. discriminate.
Qed.

(** ** the blocks *)
Definition ksum l (X Y : list (list R)) : R := rtotal (map (fun x => rtotal (map (rbf_entry l x) Y)) X).
Lemma firstn_map_app {A B} (f : A -> B) X U : firstn (length X) (map f (X ++ U)) = map f X.
Proof. rewrite map_app, <- (map_length f X). rewrite firstn_app, Nat.sub_diag, firstn_all. cbn. apply app_nil_r. Qed.
Lemma skipn_map_app {A B} (f : A -> B) X U : skipn (length X) (map f (X ++ U)) = map f U.
Proof. rewrite map_app, <- (map_length f X). rewrite skipn_app, Nat.sub_diag, skipn_all. reflexivity. Qed.
Lemma trace_one l (X : list (list R)) : rtotal (map (fun x => rbf_entry l x x) X) = INR (length X).
Proof. induction X as [|x X IH]; [reflexivity|]. cbn [map rtotal length]. rewrite S_INR, IH, entry_refl. ring. Qed.
Lemma mmd_eq X U : (1 <= length X)%nat -> (2 <= length U)%nat -> mmd X U =
  match median_distance (X ++ U) with
  | None => Ok None
  | Some l => Ok (if Nat.eqb (length X) 1 then None else
      let s := (ksum l X X - INR (length X)) / (INR (length X) * (INR (length X) - 1)) + (ksum l U U - INR (length U)) / (INR (length U) * (INR (length U) - 1))
               - ksum l X U * 2 / (INR (length X) * INR (length U)) in Some (if Rlt_dec s 0 then 0 else sqrt s))
  end.
Proof.
  intros HX HU. unfold mmd. rewrite (proj2 (Nat.leb_le _ _) HX), (proj2 (Nat.leb_le _ _) HU). cbn [andb guard bind]. destruct (median_distance (X ++ U)) as [l|]; [|reflexivity]. f_equal. cbv zeta.
  rewrite rbf_matrix. unfold block_ll, block_gg, block_lg. rewrite firstn_map_app, skipn_map_app, !map_map.
  rewrite (map_ext (fun x => firstn (length X) (map (rbf_entry l x) (X ++ U))) (fun x => map (rbf_entry l x) X)) by (intro; apply firstn_map_app).
  rewrite (map_ext (fun x => skipn (length X) (map (rbf_entry l x) (X ++ U))) (fun x => map (rbf_entry l x) U)) by (intro; apply skipn_map_app).
  rewrite !off_matrix, !trace_one, rtotal_concat, map_map.
  rewrite (map_ext (fun x => rtotal (skipn (length X) (map (rbf_entry l x) (X ++ U)))) (fun x => rtotal (map (rbf_entry l x) U))) by (intro; rewrite skipn_map_app; reflexivity). unfold div_nan, ksum. assert (1 <= INR (length X)) by (change 1 with (INR 1); apply le_INR; exact HX).
  destruct (Req_EM_T (INR (length X) * (INR (length X) - 1)) 0) as [E|E]; destruct (Nat.eqb_spec (length X) 1) as [E1|E1]; try reflexivity.
  - exfalso. assert (2 <= INR (length X)) by (change 2 with (INR 2); apply le_INR; lia). nra.
  - exfalso. apply E. rewrite E1. cbn. ring.
Qed.

(** ** the median *)
Lemma rinsert_perm x l : Permutation (x :: l) (rinsert x l).
Proof. induction l as [|y l IH]; cbn; [reflexivity|]. destruct (Rle_dec x y); [reflexivity|]. rewrite perm_swap. constructor. exact IH. Qed.
Lemma rsort_perm l : Permutation l (rsort l).
Proof. induction l as [|x l IH]; cbn; [reflexivity|]. rewrite <- rinsert_perm. constructor. exact IH. Qed.
Lemma rinsert_comm x y l : rinsert x (rinsert y l) = rinsert y (rinsert x l).
Proof.
  induction l as [|z l IH]; cbn.
  - destruct (Rle_dec x y); destruct (Rle_dec y x); try reflexivity; [replace x with y by lra; reflexivity|lra].
  - destruct (Rle_dec y z); destruct (Rle_dec x z); cbn.
    + destruct (Rle_dec x y); destruct (Rle_dec y x); try (replace x with y by lra; reflexivity); try lra.
      * destruct (Rle_dec y z); [reflexivity|lra].
      * destruct (Rle_dec x z); [reflexivity|lra].
    + destruct (Rle_dec x y); [lra|]. destruct (Rle_dec x z); [lra|]. destruct (Rle_dec y z); [reflexivity|lra].
    + destruct (Rle_dec x z); [|lra]. destruct (Rle_dec y x); [lra|]. destruct (Rle_dec y z); [lra|reflexivity].
    + destruct (Rle_dec x z); [lra|]. destruct (Rle_dec y z); [lra|]. rewrite IH. reflexivity.
Qed.
Lemma rsort_unique l m : Permutation l m -> rsort l = rsort m.
Proof.
  induction 1; [reflexivity|exact (f_equal (rinsert x) IHPermutation)|apply rinsert_comm|congruence].
Qed.
Lemma median_perm l m : Permutation l m -> np_median l = np_median m.
Proof. intro P. unfold np_median. cbv zeta. rewrite (Permutation_length P), (rsort_unique l m P). reflexivity. Qed.
Lemma filter_perm {A} (f : A -> bool) l m : Permutation l m -> Permutation (filter f l) (filter f m).
Proof.
  induction 1; cbn; [constructor|destruct (f x); [constructor|]; assumption| |etransitivity; eassumption]. destruct (f x); destruct (f y); try constructor; reflexivity.
Qed.
Lemma concat_perm {A} (l m : list (list A)) : Permutation l m -> Permutation (concat l) (concat m).
Proof. induction 1; cbn; [constructor|apply Permutation_app_head; assumption|rewrite !app_assoc; apply Permutation_app_tail; apply Permutation_app_comm|etransitivity; eassumption]. Qed.
Lemma concat_pointwise {A B} (f h : A -> list B) l : (forall x, Permutation (f x) (h x)) -> Permutation (concat (map f l)) (concat (map h l)).
Proof. intro H. induction l as [|x l IH]; cbn; [constructor|]. apply Permutation_app; auto. Qed.
Lemma distances_perm Z Z' : Permutation Z Z' -> Permutation (all_distances Z) (all_distances Z').
Proof.
  intro P. unfold all_distances. etransitivity; [apply concat_perm; apply Permutation_map; exact P|]. apply concat_pointwise. intro x. apply Permutation_map. exact P.
Qed.
Lemma median_distance_perm Z Z' : Permutation Z Z' -> median_distance Z = median_distance Z'.
Proof. intro P. apply median_perm, filter_perm, distances_perm, P. Qed.
Lemma nonzero_in Z d : In d (nonzero_distances Z) <-> d <> 0 /\ exists x y, In x Z /\ In y Z /\ d = sqrt (sqdist y x).
Proof.
  unfold nonzero_distances, all_distances. rewrite filter_In, in_concat. split.
  - intros [(r & Hr & Hd) H]. destruct (Req_EM_T d 0); [discriminate|]. split; [assumption|]. apply in_map_iff in Hr as (x & <- & Hx). apply in_map_iff in Hd as (y & <- & Hy). exists x, y. auto.
  - intros [H (x & y & Hx & Hy & ->)]. split; [|destruct (Req_EM_T _ 0); [contradiction|reflexivity]]. exists (map (fun y => sqrt (sqdist y x)) Z). split; [apply (in_map (fun x => map (fun y => sqrt (sqdist y x)) Z)); exact Hx|apply (in_map (fun y => sqrt (sqdist y x))); exact Hy].
Qed.
Lemma np_median_some l : l <> [] -> (forall x, In x l -> 0 < x) -> exists v, np_median l = Some v /\ 0 < v.
Proof.
  intros N P. unfold np_median. cbv zeta. destruct (Nat.eqb_spec (length l) 0) as [E|E]; [destruct l; [congruence|discriminate]|].
  assert (S : forall i, (i < length l)%nat -> 0 < nth i (rsort l) 0). { intros i Hi. apply P. eapply Permutation_in; [apply Permutation_sym, rsort_perm|]. apply nth_In. rewrite <- (Permutation_length (rsort_perm l)). exact Hi. }
  assert (D : (Nat.div2 (length l) < length l)%nat) by (apply Nat.lt_div2; lia). destruct (Nat.odd (length l)); eexists; (split; [reflexivity|]); [apply S; exact D|].
  pose proof (S _ D). pose proof (S (Nat.div2 (length l) - 1)%nat ltac:(lia)). lra.
Qed.
Lemma median_distance_some Z : (exists x y, In x Z /\ In y Z /\ sqdist x y <> 0) -> exists l, median_distance Z = Some l /\ 0 < l.
Proof.
  intros (x & y & Hx & Hy & H). apply np_median_some.
  - intro E. assert (Hin : In (sqrt (sqdist x y)) (nonzero_distances Z)); [|rewrite E in Hin; destruct Hin]. apply nonzero_in. split; [|exists y, x; auto]. pose proof (sqdist_nonneg x y). intro Q. apply sqrt_eq_0 in Q; lra.
  - intros d Hd. apply nonzero_in in Hd as (Hd & a & b & _ & _ & ->). pose proof (sqrt_pos (sqdist b a)). lra.
Qed.
Lemma median_distance_none Z : (forall x y, In x Z -> In y Z -> sqdist x y = 0) -> median_distance Z = None.
Proof.
  intro H. unfold median_distance. destruct (nonzero_distances Z) as [|d l] eqn:E; [reflexivity|]. exfalso. assert (Hd : In d (nonzero_distances Z)) by (rewrite E; left; reflexivity). apply nonzero_in in Hd as (Hd & x & y & Hx & Hy & ->). apply Hd. rewrite (H y x Hy Hx). apply sqrt_0.
Qed.

(** ** the theorems *)
Lemma ksum_bounds l X Y : 0 <= ksum l X Y <= INR (length X) * INR (length Y).
Proof.
  unfold ksum. induction X as [|x X IH]; [cbn; lra|]. cbn [map rtotal length]. rewrite S_INR.
  assert (0 <= rtotal (map (rbf_entry l x) Y)) by (apply rtotal_nonneg; intros z Hz; apply in_map_iff in Hz as (y & <- & _); left; apply entry_pos).
  assert (rtotal (map (rbf_entry l x) Y) <= INR (length Y)). { rewrite <- (map_length (rbf_entry l x) Y). apply rtotal_le_len. intros z Hz. apply in_map_iff in Hz as (y & <- & _). apply entry_le1. } lra.
Qed.
Lemma ksum_pos l X Y : X <> [] -> Y <> [] -> 0 < ksum l X Y.
Proof.
  intros HX HY. destruct X as [|x X]; [congruence|]. destruct Y as [|y Y]; [congruence|]. unfold ksum. cbn [map rtotal].
  pose proof (proj1 (ksum_bounds l X (y :: Y))) as A. unfold ksum in A. assert (0 <= rtotal (map (rbf_entry l x) Y)) by (apply rtotal_nonneg; intros z Hz; apply in_map_iff in Hz as (u & <- & _); left; apply entry_pos). pose proof (entry_pos l x y). cbn [map rtotal] in A. lra.
Qed.
Lemma mean_offdiag k n : 2 <= n -> k <= n * n -> (k - n) / (n * (n - 1)) <= 1.
Proof. intros Hn Hk. apply (Rmult_le_reg_r (n * (n - 1))); [nra|]. unfold Rdiv. rewrite Rmult_assoc, Rinv_l by nra. nra. Qed.

Theorem mmd_range X U : (2 <= length X)%nat -> (2 <= length U)%nat -> (exists x y, In x (X ++ U) /\ In y (X ++ U) /\ sqdist x y <> 0) ->
  exists v, mmd X U = Ok (Some v) /\ 0 <= v < sqrt 2.
Proof.
  intros HX HU HD. rewrite mmd_eq by lia. destruct (median_distance_some _ HD) as (l & -> & Hl). destruct (Nat.eqb_spec (length X) 1) as [?|_]; [lia|]. cbv zeta.
  set (a := (ksum l X X - INR (length X)) / _). set (b := (ksum l U U - INR (length U)) / _). set (c := ksum l X U * 2 / _).
  assert (NX : 2 <= INR (length X)) by (change 2 with (INR 2); apply le_INR; exact HX). assert (NU : 2 <= INR (length U)) by (change 2 with (INR 2); apply le_INR; exact HU).
  assert (A : a <= 1) by (apply mean_offdiag; [exact NX|apply ksum_bounds]). assert (B : b <= 1) by (apply mean_offdiag; [exact NU|apply ksum_bounds]).
  assert (C : 0 < c). { unfold c. apply Rmult_lt_0_compat; [|apply Rinv_0_lt_compat; nra]. assert (0 < ksum l X U); [|lra]. apply ksum_pos; intros ->; cbn in *; lia. }
  eexists. split; [reflexivity|]. destruct (Rlt_dec (a + b - c) 0) as [L|L].
  - split; [lra|apply sqrt_lt_R0; lra].
  - split; [apply sqrt_pos|apply sqrt_lt_1; lra].
Qed.
Theorem mmd_order X X' U U' : Permutation X X' -> Permutation U U' -> mmd X U = mmd X' U'.
Proof.
  intros PX PU. assert (KX : forall l Y, ksum l X Y = ksum l X' Y) by (intros l Y; apply rtotal_perm; apply (Permutation_map (fun x => rtotal (map (rbf_entry l x) Y))); exact PX).
  assert (KR : forall l A B C, Permutation B C -> ksum l A B = ksum l A C) by (intros l A B C P; unfold ksum; f_equal; apply map_ext; intro x; apply rtotal_perm, Permutation_map, P).
  assert (KU : forall l Y, ksum l U Y = ksum l U' Y) by (intros l Y; apply rtotal_perm; apply (Permutation_map (fun x => rtotal (map (rbf_entry l x) Y))); exact PU).
  destruct (Nat.leb_spec 1 (length X)) as [HX|HX].
  2:{ unfold mmd. rewrite <- (Permutation_length PX), <- (Permutation_length PU). rewrite (proj2 (Nat.leb_gt _ _) HX). reflexivity. }
  destruct (Nat.leb_spec 2 (length U)) as [HU|HU].
  2:{ unfold mmd. rewrite <- (Permutation_length PX), <- (Permutation_length PU). rewrite (proj2 (Nat.leb_gt _ _) HU), andb_false_r. reflexivity. }
  rewrite (mmd_eq X U HX HU), (mmd_eq X' U'). 2:{ rewrite <- (Permutation_length PX). exact HX. } 2:{ rewrite <- (Permutation_length PU). exact HU. }
  rewrite (median_distance_perm (X ++ U) (X' ++ U')) by (apply Permutation_app; assumption). rewrite <- (Permutation_length PX), <- (Permutation_length PU).
  destruct (median_distance (X' ++ U')) as [l|]; [|reflexivity]. rewrite !KX, !KU. rewrite (KR l X' X X' PX), (KR l U' U U' PU), (KR l X' U U' PU). reflexivity.
Qed.
(** swapping the samples with the uniform configurations *)
Theorem mmd_swap X U : (2 <= length X)%nat -> (2 <= length U)%nat -> mmd X U = mmd U X.
Proof.
  intros HX HU. rewrite !mmd_eq by lia. rewrite (median_distance_perm (X ++ U) (U ++ X)) by apply Permutation_app_comm. destruct (median_distance (U ++ X)) as [l|]; [|reflexivity].
  destruct (Nat.eqb_spec (length X) 1) as [?|_]; [lia|]. destruct (Nat.eqb_spec (length U) 1); [lia|]. cbv zeta.
  assert (S : ksum l X U = ksum l U X). { unfold ksum. rewrite rtotal_swap. f_equal. apply map_ext. intro y. f_equal. apply map_ext. intro x. apply entry_sym. }
  rewrite S. rewrite (Rmult_comm (INR (length X)) (INR (length U))). 
  match goal with |- Ok (Some (if Rlt_dec (?a + ?b - ?c) 0 then _ else _)) = _ => rewrite (Rplus_comm a b) end. reflexivity.
Qed.
(** the samples themselves as uniform configurations *)
Theorem mmd_same X : (2 <= length X)%nat -> (exists x y, In x X /\ In y X /\ sqdist x y <> 0) -> mmd X X = Ok (Some 0).
Proof.
  intros HX (x & y & Hx & Hy & H). rewrite mmd_eq by lia. destruct (median_distance_some (X ++ X)) as (l & -> & Hl); [exists x, y; rewrite !in_app_iff; auto|]. destruct (Nat.eqb_spec (length X) 1) as [?|_]; [lia|]. cbv zeta. do 2 f_equal.
  assert (NX : 2 <= INR (length X)) by (change 2 with (INR 2); apply le_INR; exact HX). pose proof (proj2 (ksum_bounds l X X)) as B. set (n := INR (length X)) in *. set (k := ksum l X X) in *.
  set (s := (k - n) / (n * (n - 1)) + (k - n) / (n * (n - 1)) - k * 2 / (n * n)). assert (E : s = 2 * (k - n * n) / (n * n * (n - 1))) by (unfold s; field; lra).
  assert (s <= 0). { rewrite E. apply (Rmult_le_reg_r (n * n * (n - 1))); [nra|]. unfold Rdiv. rewrite Rmult_assoc, Rinv_l by nra. nra. }
  destruct (Rlt_dec s 0); [reflexivity|]. replace s with 0 by lra. apply sqrt_0.
Qed.
(** nan: one sample, or all points equal; errors *)
Theorem mmd_nan X U : (1 <= length X)%nat -> (2 <= length U)%nat -> (length X = 1%nat \/ (forall x y, In x (X ++ U) -> In y (X ++ U) -> sqdist x y = 0)) -> mmd X U = Ok None.
Proof.
  intros HX HU [H|H]; rewrite mmd_eq by assumption; [rewrite H; cbn; destruct (median_distance (X ++ U)); reflexivity|]. rewrite median_distance_none by exact H. reflexivity.
Qed.
Theorem mmd_error X U : (length X = 0)%nat \/ (length U < 2)%nat -> mmd X U = Err ValueError.
Proof.
  intros [H|H]; unfold mmd; [rewrite H; reflexivity|]. rewrite (proj2 (Nat.leb_gt _ _) H), andb_false_r. reflexivity.
Qed.
(** moving or scaling all points *)
Definition affine (a : R) (b : list R) (x : list R) : list R := map (fun p => a * fst p + snd p) (combine x b).
Lemma sqdist_affine a b x y : length x = length b -> length y = length b -> sqdist (affine a b x) (affine a b y) = a ^ 2 * sqdist x y.
Proof.
  unfold sqdist, affine. revert x y. induction b as [|c b IH]; intros [|u x] [|v y] Hx Hy; try discriminate; cbn [combine map rtotal fst snd]; [ring|]. cbn in Hx, Hy. rewrite IH by lia. ring.
Qed.
Lemma rsort_scale a l : 0 < a -> rsort (map (fun x => a * x) l) = map (fun x => a * x) (rsort l).
Proof.
  intro Ha. induction l as [|x l IH]; cbn [map rsort fold_right]; [reflexivity|]. fold (rsort (map (fun x => a * x) l)) (rsort l). rewrite IH. generalize (rsort l) as s. induction s as [|y s IHs]; cbn [map rinsert]; [reflexivity|].
  destruct (Rle_dec (a * x) (a * y)); destruct (Rle_dec x y); cbn [map]; try nra; [reflexivity|rewrite IHs; reflexivity].
Qed.
Lemma np_median_scale a l : 0 < a -> np_median (map (fun x => a * x) l) = option_map (fun x => a * x) (np_median l).
Proof.
  intro Ha. unfold np_median. cbv zeta. rewrite map_length, rsort_scale by exact Ha. destruct (Nat.eqb (length l) 0); [reflexivity|].
  assert (E : forall i, nth i (map (fun x => a * x) (rsort l)) 0 = a * nth i (rsort l) 0) by (intro i; replace 0 with ((fun x => a * x) 0) at 1 by ring; apply (map_nth (fun x => a * x))).
  destruct (Nat.odd (length l)); cbn [option_map]; rewrite !E; f_equal; field.
Qed.
Lemma filter_scale a l : 0 < a -> filter (fun d => if Req_EM_T d 0 then false else true) (map (fun x => a * x) l) = map (fun x => a * x) (filter (fun d => if Req_EM_T d 0 then false else true) l).
Proof.
  intro Ha. induction l as [|x l IH]; cbn [map filter]; [reflexivity|]. destruct (Req_EM_T (a * x) 0) as [E|E]; destruct (Req_EM_T x 0) as [E'|E']; cbn [map]; try (rewrite IH; reflexivity).
  - exfalso. apply Rmult_integral in E as [E|E]; lra.
  - exfalso. apply E. rewrite E'. ring.
Qed.
Lemma median_affine a b Z : 0 < a -> Forall (fun x => length x = length b) Z -> median_distance (map (affine a b) Z) = option_map (fun x => a * x) (median_distance Z).
Proof.
  intros Ha F. unfold median_distance, nonzero_distances, all_distances. rewrite Forall_forall in F.
  assert (E : concat (map (fun x => map (fun y => sqrt (sqdist y x)) (map (affine a b) Z)) (map (affine a b) Z)) = map (fun d => a * d) (concat (map (fun x => map (fun y => sqrt (sqdist y x)) Z) Z))).
  { rewrite concat_map, !map_map. f_equal. apply map_ext_in. intros x Hx. rewrite !map_map. apply map_ext_in. intros y Hy. rewrite sqdist_affine by auto. rewrite sqrt_mult by (try apply sqdist_nonneg; apply pow2_ge_0). rewrite sqrt_pow2 by lra. reflexivity. }
  rewrite E, filter_scale by exact Ha. apply np_median_scale. exact Ha.
Qed.
Theorem mmd_affine a b X U : 0 < a -> Forall (fun x => length x = length b) (X ++ U) -> mmd (map (affine a b) X) (map (affine a b) U) = mmd X U.
Proof.
  intros Ha F. destruct (Nat.leb_spec 1 (length X)) as [HX|HX]; [destruct (Nat.leb_spec 2 (length U)) as [HU|HU]|].
  2:{ rewrite !mmd_error by (right; rewrite ?map_length; lia). reflexivity. }
  2:{ rewrite !mmd_error by (left; rewrite ?map_length; lia). reflexivity. }
  rewrite !mmd_eq by (rewrite ?map_length; assumption). rewrite <- map_app, median_affine by assumption. destruct (median_distance (X ++ U)) as [l|] eqn:EM; [|reflexivity]. cbn [option_map]. rewrite !map_length.
  assert (Hl : l <> 0). { destruct (nonzero_distances (X ++ U)) as [|d t] eqn:EN; [unfold median_distance in EM; rewrite EN in EM; discriminate|].
    destruct (np_median_some (nonzero_distances (X ++ U))) as (v & Ev & Hv); [rewrite EN; discriminate| |]. { intros z Hz. apply nonzero_in in Hz as (Hz & p & q & _ & _ & ->). pose proof (sqrt_pos (sqdist q p)). lra. } unfold median_distance in EM. rewrite Ev in EM. injection EM as <-. lra. }
  assert (K : forall A B, incl A (X ++ U) -> incl B (X ++ U) -> ksum (a * l) (map (affine a b) A) (map (affine a b) B) = ksum l A B).
  { intros A B IA IB. unfold ksum. rewrite map_map. f_equal. apply map_ext_in. intros x Hx. rewrite map_map. f_equal. apply map_ext_in. intros y Hy. unfold rbf_entry. f_equal. f_equal. rewrite Forall_forall in F.
    rewrite !sqdist_scale by (try exact Hl; intro Q; apply Rmult_integral in Q as [Q|Q]; lra). rewrite sqdist_affine by (apply F; auto). field. split; lra. }
  rewrite !K by (intros z Hz; apply in_or_app; auto). reflexivity.
Qed.
