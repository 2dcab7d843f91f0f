(** NumLaws.v - the three number instances satisfy the comparison laws. *)
From Coq Require Import Reals QArith Lra.
From Flocq Require Import Core.Core IEEE754.BinarySingleNaN.
From Verif Require Import Base Num.

Lemma Rleb_spec x y : reflect (x <= y)%R (Rleb x y).
Proof. unfold Rleb; destruct (Rle_dec x y); constructor; assumption. Qed.
Lemma Rltb_spec x y : reflect (x < y)%R (Rltb x y).
Proof. unfold Rltb; destruct (Rlt_dec x y); constructor; assumption. Qed.
Lemma Reqb_spec x y : reflect (x = y) (Reqb x y).
Proof. unfold Reqb; destruct (Req_EM_T x y); constructor; assumption. Qed.

Lemma R_ordinary (x : RNum) : ordinary x.
Proof. unfold ordinary; cbn. destruct (Reqb_spec x x); congruence. Qed.

Lemma R_order_laws : order_laws RNum.
Proof.
  constructor; cbn; intros; try (split; apply R_ordinary); auto.
  - destruct (Rltb_spec x x); [lra|reflexivity].
  - destruct (Rltb_spec x y), (Rltb_spec y z), (Rltb_spec x z); try discriminate; try reflexivity; lra.
  - destruct (Rltb_spec y x), (Rleb_spec x y); try reflexivity; lra.
  - destruct (Rltb_spec x z), (Rltb_spec x y), (Rltb_spec y z); try discriminate; auto; lra.
  - apply R_ordinary.
Qed.

Lemma Q_ordinary (x : QNum) : ordinary x.
Proof. unfold ordinary; cbn. apply Qeq_bool_iff. reflexivity. Qed.

Lemma Q_order_laws : order_laws QNum.
Proof.
  assert (L : forall x y, reflect (x <= y)%Q (Qle_bool x y)).
  { intros x y. destruct (Qle_bool x y) eqn:E; constructor.
    - apply Qle_bool_iff; exact E.
    - intro H. apply Qle_bool_iff in H. congruence. }
  constructor; cbn; intros; try (split; apply Q_ordinary); auto.
  - destruct (L x x) as [_|H]; [reflexivity|]. exfalso. apply H. apply Qle_refl.
  - destruct (L y x) as [|H1], (L z y) as [|H2], (L z x) as [H3|]; try discriminate; try reflexivity.
    apply Qnot_le_lt in H1, H2. exfalso.
    apply (Qlt_irrefl x). eapply Qlt_le_trans; [|exact H3]. eapply Qlt_trans; eassumption.
  - destruct (L x y); reflexivity.
  - destruct (L z x) as [|H1], (L y x) as [H2|], (L z y) as [H3|]; try discriminate; auto.
    exfalso. apply H1. eapply Qle_trans; eassumption.
  - apply Q_ordinary.
Qed.

(** ** binary64: every non-NaN value has a key in a linear order *)
Definition b64_key (x : b64) : option (Z * R) :=
  match x with
  | B754_nan => None
  | B754_infinity true => Some (-1, 0%R)%Z
  | B754_infinity false => Some (1, 0%R)%Z
  | _ => Some (0%Z, B2R x)
  end.
Definition key_lt (a b : Z * R) : Prop := (fst a < fst b)%Z \/ (fst a = fst b /\ (snd a < snd b)%R).

Lemma b64_key_finite x : is_finite x = true -> b64_key x = Some (0%Z, B2R x).
Proof. destruct x; cbn; try discriminate; reflexivity. Qed.

Ltac b64_cases x := destruct x as [?s|[|]| |?s ?m ?e ?H].

Lemma Bltb_key x y :
  Bltb x y = true <-> exists a b, b64_key x = Some a /\ b64_key y = Some b /\ key_lt a b.
Proof.
  destruct (is_finite x) eqn:Fx; destruct (is_finite y) eqn:Fy.
  - rewrite (Bltb_correct _ _ x y Fx Fy), (b64_key_finite x Fx), (b64_key_finite y Fy).
    case Rlt_bool_spec; intro H; split; try discriminate; intros; try reflexivity.
    + exists (0%Z, B2R x), (0%Z, B2R y). repeat split. right. cbn. split; [reflexivity|assumption].
    + destruct H0 as (a & b & Ha & Hb & [K|[_ K]]); inversion Ha; inversion Hb; subst; cbn in K; [lia|lra].
  - b64_cases x; try discriminate Fx; b64_cases y; try discriminate Fy; cbn; split; intro K;
    try discriminate K; try reflexivity; try (destruct K as (a & b & Ha & Hb & [K|[K K']]); inversion Ha; inversion Hb; subst; cbn in *; lia);
    try (do 2 eexists; repeat split; left; cbn; lia).
  - b64_cases x; try discriminate Fx; b64_cases y; try discriminate Fy; cbn; split; intro K;
    try discriminate K; try reflexivity; try (destruct K as (a & b & Ha & Hb & [K|[K K']]); inversion Ha; inversion Hb; subst; cbn in *; lia);
    try (do 2 eexists; repeat split; left; cbn; lia).
  - b64_cases x; try discriminate Fx; b64_cases y; try discriminate Fy; cbn; split; intro K;
    try discriminate K; try reflexivity; try (destruct K as (a & b & Ha & Hb & [K|[K K']]); inversion Ha; inversion Hb; subst; cbn in *; try lia; lra);
    try (do 2 eexists; repeat split; left; cbn; lia).
Qed.

Lemma Bleb_key x y :
  Bleb x y = true <-> exists a b, b64_key x = Some a /\ b64_key y = Some b /\ ~ key_lt b a.
Proof.
  unfold key_lt.
  destruct (is_finite x) eqn:Fx; destruct (is_finite y) eqn:Fy.
  - rewrite (Bleb_correct _ _ x y Fx Fy), (b64_key_finite x Fx), (b64_key_finite y Fy).
    case Rle_bool_spec; intro H; split; try discriminate; intros; try reflexivity.
    + exists (0%Z, B2R x), (0%Z, B2R y). repeat split. cbn. intros [K|[_ K]]; [lia|lra].
    + destruct H0 as (a & b & Ha & Hb & K); inversion Ha; inversion Hb; subst; cbn in K.
      exfalso. apply K. right. split; [reflexivity|assumption].
  - b64_cases x; try discriminate Fx; b64_cases y; try discriminate Fy; cbn; split; intro K;
    try discriminate K; try reflexivity; try (destruct K as (a & b & Ha & Hb & K); inversion Ha; inversion Hb; subst; exfalso; apply K; left; cbn; lia);
    try (do 2 eexists; repeat split; cbn; intros [K'|[K' K'']]; lia).
  - b64_cases x; try discriminate Fx; b64_cases y; try discriminate Fy; cbn; split; intro K;
    try discriminate K; try reflexivity; try (destruct K as (a & b & Ha & Hb & K); inversion Ha; inversion Hb; subst; exfalso; apply K; left; cbn; lia);
    try (do 2 eexists; repeat split; cbn; intros [K'|[K' K'']]; lia).
  - b64_cases x; try discriminate Fx; b64_cases y; try discriminate Fy; cbn; split; intro K;
    try discriminate K; try reflexivity; try (destruct K as (a & b & Ha & Hb & K); inversion Ha; inversion Hb; subst; exfalso; apply K; left; cbn; lia);
    try (do 2 eexists; repeat split; cbn; intros [K'|[K' K'']]; try lia; lra).
Qed.

Lemma b64_ordinary_key fe fl fr (x : B64 fe fl fr) :
  ordinary x <-> exists a, b64_key x = Some a.
Proof.
  unfold ordinary; cbn. rewrite Beqb_refl.
  b64_cases x; cbn; split; intro K; try discriminate; try reflexivity; try (eexists; reflexivity).
  destruct K; discriminate.
Qed.

Lemma key_lt_trans a b c : key_lt a b -> key_lt b c -> key_lt a c.
Proof. unfold key_lt. intros [H|[H H']] [K|[K K']]; try (left; lia). right. split; [lia|lra]. Qed.
Lemma key_lt_dec a b : key_lt a b \/ ~ key_lt a b.
Proof.
  unfold key_lt. destruct a as [z r], b as [z' r']; cbn.
  destruct (Z.lt_trichotomy z z') as [H|[H|H]].
  - left; left; exact H.
  - destruct (Rlt_dec r r'); [left; right; auto|right; intros [K|[_ K]]; [lia|contradiction]].
  - right; intros [K|[K _]]; lia.
Qed.

Lemma B64_order_laws fe fl fr : order_laws (B64 fe fl fr).
Proof.
  constructor; cbn [nlt nle nltinf B64 carrier].
  - intros x. destruct (Bltb x x) eqn:E; [|reflexivity].
    apply Bltb_key in E. destruct E as (a & b & Ha & Hb & K). rewrite Ha in Hb. inversion Hb; subst.
    unfold key_lt in K. destruct K as [K|[_ K]]; [lia|lra].
  - intros x y z Hxy Hyz. apply Bltb_key in Hxy, Hyz. apply Bltb_key.
    destruct Hxy as (a & b & Ha & Hb & K), Hyz as (b' & c & Hb' & Hc & K').
    rewrite Hb in Hb'; inversion Hb'; subst. exists a, c. repeat split; try assumption.
    eapply key_lt_trans; eassumption.
  - intros x y Hx Hy. apply b64_ordinary_key in Hx, Hy. destruct Hx as [a Ha], Hy as [b Hb].
    destruct (Bltb y x) eqn:E; cbn.
    + apply Bltb_key in E. destruct E as (b' & a' & Hb' & Ha' & K).
      destruct (Bleb x y) eqn:E'; [|reflexivity]. apply Bleb_key in E'.
      destruct E' as (a2 & b2 & Ha2 & Hb2 & K2). exfalso. apply K2. congruence.
    + apply Bleb_key. exists a, b. repeat split; try assumption. intro K.
      assert (Bltb y x = true) by (apply Bltb_key; exists b, a; auto). congruence.
  - intros x y z Hy Hxz. apply b64_ordinary_key in Hy. destruct Hy as [b Hb].
    apply Bltb_key in Hxz. destruct Hxz as (a & c & Ha & Hc & K).
    destruct (key_lt_dec a b) as [H|H].
    + left. apply Bltb_key. exists a, b. auto.
    + right. apply Bltb_key. exists b, c. repeat split; auto.
      unfold key_lt in *. destruct a as [z1 r1], b as [z2 r2], c as [z3 r3]; cbn in *.
      destruct (Z.lt_trichotomy z1 z2) as [L|[L|L]]; [exfalso; apply H; left; lia| |].
      * destruct K as [K|[K K']]; [left; lia|]. right. split; [lia|].
        destruct (Rlt_dec r1 r2); [exfalso; apply H; right; auto|lra].
      * left. destruct K as [K|[K K']]; lia.
  - intros x y H. apply Bltb_key in H. destruct H as (a & b & Ha & Hb & _).
    split; apply b64_ordinary_key; eauto.
  - intros x y H. apply Bleb_key in H. destruct H as (a & b & Ha & Hb & _).
    split; apply b64_ordinary_key; eauto.
  - intros x y Hxy Hy. apply Bltb_key in Hxy, Hy. apply Bltb_key.
    destruct Hxy as (a & b & Ha & Hb & K), Hy as (b' & c & Hb' & Hc & K').
    rewrite Hb in Hb'; inversion Hb'; subst. exists a, c. repeat split; try assumption.
    eapply key_lt_trans; eassumption.
  - intros x H. apply Bltb_key in H. destruct H as (a & b & Ha & _). apply b64_ordinary_key. eauto.
Qed.
