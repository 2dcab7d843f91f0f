(** BoxProofs.v - samples spread evenly, restricted to a box (C116). *)
From Coq Require Import Reals Lra.
From Coquelicot Require Import Coquelicot.
From Verif Require Import Base Num NumLaws ListLemmas RealSums SpreadSpec SpreadProofs BoxSpec.
Local Open Scope R_scope.
Local Open Scope list_scope.

(** ** a range of cells for each coordinate *)
Record range := mkrange { qj : nat; qk : nat; qa : nat; qb : nat }.
Definition qJk (q : range) : nat * nat := (qj q, qk q).
Definition qok (q : range) : Prop := (1 <= qb q <= qk q)%nat.
Definition keep1 (q : range) (row : list R) : bool :=
  match nth_error row (qj q) with
  | Some x => (Nat.eqb (qa q) 0 || Rltb (INR (qa q) / INR (qk q)) x) && Rleb x (INR (qb q) / INR (qk q))
  | None => false
  end.
Definition keep (Q : list range) (row : list R) : bool := forallb (fun q => keep1 q row) Q.

Lemma frac_le (a b k : nat) : (0 < k)%nat -> (a <= b)%nat -> INR a / INR k <= INR b / INR k.
Proof. intros Hk H. apply Rmult_le_compat_r; [left; apply Rinv_0_lt_compat, lt_0_INR, Hk|apply le_INR, H]. Qed.
Lemma keep1_cell q i row : qok q -> in_cell_of (qj q) (qk q) i row -> keep1 q row = (qa q <=? i)%nat && (i <? qb q)%nat.
Proof.
  intros [B1 B2] (x & Ex & X0 & Hlo & Hup). unfold keep1. rewrite Ex. assert (Hk : (0 < qk q)%nat) by lia.
  destruct (Nat.leb_spec (qa q) i) as [Ha|Ha]; cbn [andb].
  - assert (A : (Nat.eqb (qa q) 0 || Rltb (INR (qa q) / INR (qk q)) x) = true).
    { destruct (Nat.eqb_spec (qa q) 0) as [|Na]; [reflexivity|]. cbn [orb]. destruct (Rltb_spec (INR (qa q) / INR (qk q)) x) as [|Hn]; [reflexivity|]. exfalso. apply Hn.
      destruct Hlo as [->|Hlo]; [lia|]. pose proof (frac_le (qa q) i (qk q) Hk Ha). lra. }
    rewrite A. cbn [andb]. destruct (Nat.ltb_spec i (qb q)) as [Hb|Hb].
    + destruct (Rleb_spec x (INR (qb q) / INR (qk q))) as [|Hn]; [reflexivity|]. exfalso. apply Hn. pose proof (frac_le (i + 1) (qb q) (qk q) Hk). assert (INR (i + 1) / INR (qk q) <= INR (qb q) / INR (qk q)) by (apply H; lia). lra.
    + destruct (Rleb_spec x (INR (qb q) / INR (qk q))) as [Hn|]; [|reflexivity]. exfalso. destruct Hlo as [->|Hlo]; [lia|]. pose proof (frac_le (qb q) i (qk q) Hk Hb). lra.
  - assert (A : (Nat.eqb (qa q) 0 || Rltb (INR (qa q) / INR (qk q)) x) = false).
    { destruct (Nat.eqb_spec (qa q) 0) as [|Na]; [lia|]. cbn [orb]. destruct (Rltb_spec (INR (qa q) / INR (qk q)) x) as [Hn|]; [|reflexivity]. exfalso.
      pose proof (frac_le (i + 1) (qa q) (qk q) Hk). assert (INR (i + 1) / INR (qk q) <= INR (qa q) / INR (qk q)) by (apply H; lia). lra. }
    rewrite A. reflexivity.
Qed.

Lemma select_parts {A} (P : A -> bool) (h : list A -> list A) a b : forall parts off,
  (forall i p, nth_error parts i = Some p -> filter P p = if (a <=? off + i)%nat && (off + i <? b)%nat then h p else []) ->
  filter P (concat parts) = concat (map h (firstn (b - Nat.max off a) (skipn (a - off) parts))).
Proof.
  induction parts as [|p parts IH]; intros off H; [rewrite skipn_nil, firstn_nil; reflexivity|].
  cbn [concat]. rewrite filter_app. rewrite (H 0%nat p eq_refl). rewrite Nat.add_0_r. rewrite (IH (S off)) by (intros i q E; replace (S off + i)%nat with (off + S i)%nat by lia; apply H; exact E).
  destruct (Nat.leb_spec a off) as [Ha|Ha]; cbn [andb].
  - replace (a - off)%nat with 0%nat by lia. replace (a - S off)%nat with 0%nat by lia. rewrite !skipn_O. replace (Nat.max off a) with off by lia. replace (Nat.max (S off) a) with (S off) by lia.
    destruct (Nat.ltb_spec off b) as [Hb|Hb].
    + replace (b - off)%nat with (S (b - S off)) by lia. reflexivity.
    + replace (b - off)%nat with 0%nat by lia. replace (b - S off)%nat with 0%nat by lia. reflexivity.
  - replace (a - off)%nat with (S (a - S off)) by lia. rewrite skipn_cons. replace (Nat.max (S off) a) with (Nat.max off a) by lia. reflexivity.
Qed.
Lemma filter_perm {A} (P : A -> bool) l l' : Permutation l l' -> Permutation (filter P l) (filter P l').
Proof.
  induction 1; cbn; auto; [destruct (P x); auto|destruct (P x), (P y); auto; constructor|eapply Permutation_trans; eassumption].
Qed.
Lemma nth_error_firstn {A} (l : list A) : forall n i x, nth_error (firstn n l) i = Some x -> (i < n)%nat /\ nth_error l i = Some x.
Proof. induction l as [|y l IH]; intros [|n] [|i] x H; try discriminate H; cbn in *; [split; [lia|exact H]|]. destruct (IH _ _ _ H). split; [lia|assumption]. Qed.
Lemma nth_error_skipn' {A} (l : list A) n i : nth_error (skipn n l) i = nth_error l (n + i).
Proof. revert l. induction n as [|n IH]; intro l; [reflexivity|]. destruct l as [|y l]; [destruct i; reflexivity|]. apply IH. Qed.

Lemma parts_kept q Q rows parts : qok q -> length parts = qk q -> Permutation rows (concat parts) ->
  (forall i p, nth_error parts i = Some p -> Forall (in_cell_of (qj q) (qk q) i) p) ->
  exists sub, length sub = (qb q - qa q)%nat /\ (forall i p, nth_error sub i = Some p -> nth_error parts (qa q + i) = Some p) /\
    Permutation (filter (keep (q :: Q)) rows) (concat (map (filter (keep Q)) sub)).
Proof.
  intros Hok Lp Pp Hc. exists (firstn (qb q - qa q) (skipn (qa q) parts)). split; [|split].
  - rewrite firstn_length, skipn_length. unfold qok in Hok. lia.
  - intros i p H. apply nth_error_firstn in H as [_ H]. rewrite nth_error_skipn' in H. exact H.
  - rewrite (filter_perm _ _ _ Pp). rewrite (select_parts (keep (q :: Q)) (filter (keep Q)) (qa q) (qb q) parts 0).
    + rewrite Nat.sub_0_r, Nat.max_0_l. apply Permutation_refl.
    + intros i p Hi. cbn [Nat.add]. specialize (Hc i p Hi). clear Hi. induction Hc as [|row p Hr Hp IH].
      * destruct ((qa q <=? i)%nat && (i <? qb q)%nat); reflexivity.
      * cbn [filter]. rewrite IH. unfold keep at 1. cbn [forallb]. rewrite (keep1_cell q i row Hok Hr). fold (keep Q row). destruct ((qa q <=? i)%nat && (i <? qb q)%nat); cbn [andb]; reflexivity.
Qed.

Lemma concat_length_scaled {A} (l : list (list A)) K M : (forall e, In e l -> (length e * K = M)%nat) -> (length (concat l) * K = length l * M)%nat.
Proof. induction l as [|e l IH]; intro H; [reflexivity|]. cbn [concat length]. rewrite app_length, Nat.mul_add_distr_r, IH by (intros; apply H; right; assumption). rewrite (H e (or_introl eq_refl)). lia. Qed.
Definition cells (Q : list range) : nat := fold_right Nat.mul 1%nat (map qk Q).
Definition kept (Q : list range) : nat := fold_right Nat.mul 1%nat (map (fun q => (qb q - qa q)%nat) Q).

Lemma count_kept : forall Q rows, Forall qok Q -> spread_cells (map qJk Q) rows -> (length (filter (keep Q) rows) * cells Q = length rows * kept Q)%nat.
Proof.
  induction Q as [|q Q IH]; intros rows F H.
  - cbn. replace (filter (keep []) rows) with rows; [lia|]. induction rows as [|r rows IHr]; [reflexivity|]. cbn. f_equal. destruct rows; [reflexivity|]. apply IHr. discriminate.
  - inversion F as [|? ? Hq F']; subst. cbn [map qJk spread_cells] in H. destruct H as (parts & n & Hk & Hn & Lp & Pp & Hparts).
    destruct (parts_kept q Q rows parts Hq Lp Pp) as (sub & Ls & Hsub & Ps); [intros i p Hi; apply (Hparts i p Hi)|].
    rewrite (Permutation_length Ps). cbn [cells map fold_right kept]. fold (cells Q). fold (kept Q).
    assert (E : (length (concat (map (filter (keep Q)) sub)) * cells Q = length (map (filter (keep Q)) sub) * (n * kept Q))%nat).
    { apply concat_length_scaled. intros e He. apply in_map_iff in He as (p & <- & Hp). apply In_nth_error in Hp as (i & Hi). apply Hsub in Hi. destruct (Hparts _ _ Hi) as (Hl & Hs & _). rewrite (IH p F' Hs), Hl. reflexivity. }
    rewrite map_length, Ls in E.
    assert (Er : (length rows = qk q * n)%nat).
    { rewrite (Permutation_length Pp). pose proof (concat_length_scaled parts 1 n) as C. rewrite Nat.mul_1_r, Lp in C. apply C. intros e He. apply In_nth_error in He as (i & Hi). rewrite Nat.mul_1_r. apply (Hparts i e Hi). }
    rewrite Er. nia.
Qed.

(** ** the kept rows are spread evenly over the box *)
Definition imap (h : nat -> R -> R) (row : list R) : list R := map (fun jx => h (fst jx) (snd jx)) (combine (seq 0 (length row)) row).
Lemma imap_nth h row j : nth_error (imap h row) j = option_map (h j) (nth_error row j).
Proof.
  unfold imap. rewrite nth_error_map. assert (E : forall (l : list R) off i, nth_error (combine (seq off (length l)) l) i = option_map (fun x => ((off + i)%nat, x)) (nth_error l i)).
  { clear. induction l as [|x l IH]; intros off [|i]; cbn; auto; [rewrite Nat.add_0_r; reflexivity|]. rewrite IH. destruct (nth_error l i); cbn; [f_equal; f_equal; lia|reflexivity]. }
  rewrite E. destruct (nth_error row j); reflexivity.
Qed.
Lemma imap_length h row : length (imap h row) = length row.
Proof. unfold imap. rewrite map_length, combine_length, seq_length. lia. Qed.
Lemma list_ext {A} (l l' : list A) : (forall j, nth_error l j = nth_error l' j) -> l = l'.
Proof.
  revert l'. induction l as [|x l IH]; intros [|y l'] H; auto; try (specialize (H 0%nat); discriminate H).
  pose proof (H 0%nat) as E. cbn in E. injection E as ->. f_equal. apply IH. intro j. apply (H (S j)).
Qed.
Lemma imap_set h j t row : imap h (set_nth j t row) = set_nth j (h j t) (imap h row).
Proof.
  apply list_ext. intro i. rewrite imap_nth. destruct (Nat.eq_dec j i) as [->|Hji].
  - destruct (Nat.lt_ge_cases i (length row)) as [Hl|Hl].
    + rewrite !nth_error_set_nth_eq by (rewrite ?imap_length; exact Hl). reflexivity.
    + rewrite !(proj2 (nth_error_None _ _)) by (rewrite set_nth_length, ?imap_length; exact Hl). reflexivity.
  - rewrite !nth_error_set_nth_neq by exact Hji. rewrite imap_nth. reflexivity.
Qed.

Section Rescale.
Variables (lo up : nat -> R) (J : list nat).
(** from the unit cube to the box and back, in the coordinates [J] *)
Definition into (j : nat) (x : R) : R := if in_dec Nat.eq_dec j J then x * (up j - lo j) + lo j else x.
Definition outof (j : nat) (x : R) : R := if in_dec Nat.eq_dec j J then (x - lo j) / (up j - lo j) else x.
Lemma into_outof row : (forall j, In j J -> lo j < up j) -> imap into (imap outof row) = row.
Proof.
  intro H. apply list_ext. intro j. rewrite !imap_nth. destruct (nth_error row j) as [x|]; [|reflexivity]. cbn [option_map]. f_equal. unfold into, outof.
  destruct (in_dec Nat.eq_dec j J) as [Hj|]; [|reflexivity]. specialize (H j Hj). field. lra.
Qed.

Lemma kept_spread : forall Q rows, incl (map qj Q) J -> Forall qok Q -> (forall q, In q Q -> (qa q < qb q)%nat /\ lo (qj q) = INR (qa q) / INR (qk q) /\ up (qj q) = INR (qb q) / INR (qk q)) ->
  spread_cells (map qJk Q) rows -> spread (map (fun q => (qj q, (qb q - qa q)%nat)) Q) (map (imap outof) (filter (keep Q) rows)).
Proof.
  induction Q as [|q Q IH]; intros rows I F HQ H.
  - cbn in *. replace (filter (keep []) rows) with rows; [destruct rows; [congruence|discriminate]|]. clear. induction rows as [|r rows IHr]; [reflexivity|]. cbn. f_equal. exact IHr.
  - inversion F as [|? ? Hq F']; subst. pose proof H as Hall. cbn [map qJk spread_cells] in H. destruct H as (parts & n & Hk & Hn & Lp & Pp & Hparts).
    destruct (HQ q (or_introl eq_refl)) as (Hab & Elo & Eup).
    destruct (parts_kept q Q rows parts Hq Lp Pp) as (sub & Ls & Hsub & Ps); [intros i p Hi; apply (Hparts i p Hi)|].
    assert (HK : (0 < cells Q)%nat).
    { clear -F'. unfold cells. induction F' as [|q Q Hq _ IH]; cbn; [lia|]. unfold qok in Hq. nia. }
    assert (HKept : (0 < kept Q)%nat).
    { clear -HQ. unfold kept. induction Q as [|q' Q IH]; cbn; [lia|]. assert (0 < kept Q)%nat. { apply IH. intros q'' [->|Hin]; apply HQ; [left; reflexivity|right; right; exact Hin]. } destruct (HQ q' (or_intror (or_introl eq_refl))) as [? _]. unfold kept in H. nia. }
    assert (Hlen : forall p, In p sub -> (length (filter (keep Q) p) * cells Q = n * kept Q)%nat).
    { intros p Hp. apply In_nth_error in Hp as (i & Hi). apply Hsub in Hi. destruct (Hparts _ _ Hi) as (Hl & Hs & _). rewrite (count_kept Q p F' Hs), Hl. reflexivity. }
    cbn [map spread]. exists (map (map (imap outof)) (map (filter (keep Q)) sub)).
    destruct sub as [|p0 sub0] eqn:Esub; [cbn in Ls; lia|]. rewrite <- Esub in *. exists (length (filter (keep Q) p0)).
    assert (H0 : In p0 sub) by (rewrite Esub; left; reflexivity).
    refine (conj _ (conj _ (conj _ (conj _ _)))).
    + lia.
    + pose proof (Hlen p0 H0). nia.
    + rewrite !map_length. exact Ls.
    + rewrite <- concat_map. apply Permutation_map. exact Ps.
    + intros i p Hi. rewrite map_map, nth_error_map in Hi. destruct (nth_error sub i) as [p1|] eqn:E1; [|discriminate]. injection Hi as <-.
      pose proof (nth_error_In _ _ E1) as In1. apply Hsub in E1. destruct (Hparts _ _ E1) as (_ & Hs & Hc).
      refine (conj _ (conj _ _)).
      * rewrite map_length. pose proof (Hlen p0 H0). pose proof (Hlen p1 In1). nia.
      * apply IH; [intros x Hx; apply I; right; exact Hx|exact F'|intros q' Hq'; apply HQ; right; exact Hq'|exact Hs].
      * apply Forall_map. apply Forall_forall. intros row Hrow. apply filter_In in Hrow as [Hrow _]. rewrite Forall_forall in Hc. destruct (Hc row Hrow) as (x & Ex & X0 & Hlo & Hup).
        exists ((x - lo (qj q)) / (up (qj q) - lo (qj q))). split.
        { rewrite imap_nth, Ex. cbn [option_map]. f_equal. unfold outof. destruct (in_dec Nat.eq_dec (qj q) J) as [|Nj]; [reflexivity|]. exfalso. apply Nj. apply I. left. reflexivity. }
        rewrite Elo, Eup. assert (Pk : 0 < INR (qk q)) by (apply lt_0_INR; exact Hk). assert (Pw : 0 < INR (qb q - qa q)) by (apply lt_0_INR; lia).
        rewrite minus_INR in * by lia. set (k := INR (qk q)) in *. set (w := INR (qb q) - INR (qa q)) in *.
        replace ((x - INR (qa q) / k) / (INR (qb q) / k - INR (qa q) / k)) with ((x * k - INR (qa q)) / w) by (unfold w; field; unfold w in Pw; split; lra).
        rewrite plus_INR in *. change (INR 1) with 1 in *. rewrite plus_INR in Hup.
        assert (L1 : INR i <= x * k - INR (qa q)).
        { destruct Hlo as [Z|Hlo].
          - assert (qa q = 0 /\ i = 0)%nat as [-> ->] by lia. cbn. rewrite Rminus_0_r. apply Rmult_le_pos; lra.
          - apply (Rmult_lt_compat_r k) in Hlo; [|exact Pk]. unfold Rdiv in Hlo. rewrite Rmult_assoc, Rinv_l, Rmult_1_r in Hlo by lra. lra. }
        assert (L2 : x * k - INR (qa q) <= INR i + 1).
        { apply (Rmult_le_compat_r k) in Hup; [|lra]. unfold Rdiv in Hup. rewrite Rmult_assoc, Rinv_l, Rmult_1_r in Hup by lra. lra. }
        split; apply Rmult_le_compat_r; try (left; apply Rinv_0_lt_compat; exact Pw); assumption.
Qed.

(** ** averages over the box are averages over the cube *)
Lemma box_average_other F : forall J' row row', length row = length row' -> (forall j, ~ In j J' -> nth_error row j = nth_error row' j) -> box_average lo up J' F row = box_average lo up J' F row'.
Proof.
  induction J' as [|j J' IH]; intros row row' Hl H; cbn [box_average].
  - f_equal. apply list_ext. intro j. apply H. intros [].
  - apply (f_equal (fun z : R => z / (up j - lo j))). apply (RInt_ext (V := R_CompleteNormedModule)). intros t _. apply IH; [rewrite !set_nth_length; exact Hl|].
    intros i Hi. destruct (Nat.eq_dec j i) as [->|Hji].
    + destruct (Nat.lt_ge_cases i (length row)) as [Hlt|Hge].
      * rewrite !nth_error_set_nth_eq by (rewrite <- ?Hl; exact Hlt). reflexivity.
      * rewrite !(proj2 (nth_error_None _ _)) by (rewrite set_nth_length, <- ?Hl; exact Hge). reflexivity.
    + rewrite !nth_error_set_nth_neq by exact Hji. apply H. intros [E|Hin]; [exact (Hji E)|exact (Hi Hin)].
Qed.
Lemma into_cube row : (forall j, In j J -> 0 <= lo j <= up j /\ up j <= 1) -> in_cube row -> in_cube (imap into row).
Proof.
  intros H Hc. apply Forall_forall. intros x Hx. apply In_nth_error in Hx as (j & Hj). rewrite imap_nth in Hj. destruct (nth_error row j) as [y|] eqn:E; [|discriminate]. cbn in Hj. injection Hj as <-.
  unfold in_cube in Hc. rewrite Forall_forall in Hc. specialize (Hc y (nth_error_In _ _ E)). unfold into. destruct (in_dec Nat.eq_dec j J) as [Hj|]; [|exact Hc]. specialize (H j Hj). nra.
Qed.
Lemma into_lip d F L j : (forall j, In j J -> 0 <= lo j <= up j /\ up j <= 1) -> In j J -> lipschitz_in d j L F -> lipschitz_in d j (L * (up j - lo j)) (fun row => F (imap into row)).
Proof.
  intros H Hj HL row t t' Hl Hc Ht Ht'. rewrite !imap_set. destruct (H j Hj) as [Hlo Hup].
  assert (B : forall u, 0 <= u <= 1 -> 0 <= into j u <= 1) by (intros u Hu; unfold into; destruct (in_dec Nat.eq_dec j J); nra).
  eapply Rle_trans; [apply HL; [rewrite imap_length; exact Hl|apply into_cube; assumption|apply B; exact Ht|apply B; exact Ht']|].
  unfold into. destruct (in_dec Nat.eq_dec j J) as [_|Nj]; [|contradiction].
  replace (t * (up j - lo j) + lo j - (t' * (up j - lo j) + lo j)) with ((up j - lo j) * (t - t')) by ring. rewrite Rabs_mult, (Rabs_pos_eq (up j - lo j)) by lra. rewrite Rmult_assoc. apply Rle_refl.
Qed.
Lemma cube_is_box d F (L : nat -> R) : (forall j, In j J -> 0 <= lo j < up j /\ up j <= 1) -> (forall j, In j J -> lipschitz_in d j (L j) F) ->
  forall J' row, incl J' J -> NoDup J' -> length row = d -> in_cube row -> cube_average J' (fun r => F (imap into r)) row = box_average lo up J' F (imap into row).
Proof.
  intros HB HL. induction J' as [|j J' IH]; intros row I ND Hl Hc; cbn [cube_average box_average]; [reflexivity|].
  assert (Hj : In j J) by (apply I; left; reflexivity). destruct (HB j Hj) as [Hlo Hup].
  assert (HB' : forall j, In j J -> 0 <= lo j <= up j /\ up j <= 1) by (intros i Hi; destruct (HB i Hi); lra).
  set (h := fun t => cube_average J' (fun r => F (imap into r)) (set_nth j t row)).
  set (f := fun u => box_average lo up J' F (set_nth j u (imap into row))).
  assert (Hint : ex_RInt h 0 1).
  { apply (average_integrable d _ (fun i => L i * (up i - lo i))); auto; try lra. intros i Hi. apply into_lip; auto. }
  assert (E : forall t, 0 <= t <= 1 -> h t = f ((up j - lo j) * t + lo j)).
  { intros t Ht. unfold h, f. inversion ND; subst. rewrite IH; [|intros x Hx; apply I; right; exact Hx|assumption|rewrite set_nth_length; reflexivity|apply in_cube_set; assumption].
    rewrite imap_set. apply (f_equal (fun u => box_average lo up J' F (set_nth j u (imap into row)))). unfold into. destruct (in_dec Nat.eq_dec j J); [ring|contradiction]. }
  assert (Hf : is_RInt f (lo j) (up j) ((up j - lo j) * RInt h 0 1)).
  { assert (I1 : is_RInt h (/ (up j - lo j) * lo j + - lo j / (up j - lo j)) (/ (up j - lo j) * up j + - lo j / (up j - lo j)) (RInt h 0 1)).
    { replace (/ (up j - lo j) * lo j + - lo j / (up j - lo j)) with 0 by (field; lra). replace (/ (up j - lo j) * up j + - lo j / (up j - lo j)) with 1 by (field; lra). apply (RInt_correct (V := R_CompleteNormedModule)). exact Hint. }
    apply (is_RInt_comp_lin (V := R_NormedModule)) in I1. apply (is_RInt_scal (V := R_NormedModule) _ _ _ (up j - lo j)) in I1.
    refine (is_RInt_ext (V := R_NormedModule) _ _ _ _ _ _ I1). intros u Hu. rewrite Rmin_left, Rmax_right in Hu by lra. unfold scal; cbn. unfold mult; cbn.
    assert (Q : h (/ (up j - lo j) * u + - lo j / (up j - lo j)) = f u).
    { rewrite E.
      - apply (f_equal f). field. lra.
      - replace (/ (up j - lo j) * u + - lo j / (up j - lo j)) with ((u - lo j) / (up j - lo j)) by (field; lra). split.
        + apply Rmult_le_pos; [lra|]. left. apply Rinv_0_lt_compat. lra.
        + apply (Rmult_le_reg_r (up j - lo j)); [lra|]. unfold Rdiv. rewrite Rmult_assoc, Rinv_l by lra. lra. }
    rewrite Q. change ((up j - lo j) * (/ (up j - lo j) * f u) = f u :> R). rewrite <- Rmult_assoc, Rinv_r by lra. apply Rmult_1_l. }
  pose proof (is_RInt_unique (V := R_CompleteNormedModule) _ _ _ _ Hf) as U. change (RInt h 0 1 = RInt f (lo j) (up j) / (up j - lo j)).
  assert (U' : RInt f (lo j) (up j) = (up j - lo j) * RInt h 0 1) by exact U. rewrite U'. generalize (RInt h 0 1). intro z. change (z = (up j - lo j) * z / (up j - lo j) :> R). unfold Rdiv. rewrite Rmult_comm, <- Rmult_assoc, Rinv_l by lra. symmetry. apply Rmult_1_l.
Qed.
End Rescale.

(** ** means over the kept rows *)
Theorem kept_mean d F (L : nat -> R) lo up Q rows base :
  NoDup (map qj Q) -> Forall qok Q -> (forall q, In q Q -> (qa q < qb q)%nat /\ lo (qj q) = INR (qa q) / INR (qk q) /\ up (qj q) = INR (qb q) / INR (qk q)) ->
  (forall q, In q Q -> (qj q < d)%nat /\ lipschitz_in d (qj q) (L (qj q)) F) -> spread_cells (map qJk Q) rows ->
  length base = d -> in_cube base ->
  Forall (fun row => length row = d /\ in_cube row /\ forall j, ~ In j (map qj Q) -> nth_error row j = nth_error base j) rows ->
  Rabs (Rmean (map F (filter (keep Q) rows)) - box_average lo up (map qj Q) F base) <= spread_error L (map qJk Q).
Proof.
  intros ND F1 HQ HL HS Hb Hbc HR. set (J := map qj Q) in *.
  assert (HB : forall j, In j J -> 0 <= lo j < up j /\ up j <= 1).
  { intros j Hj. apply in_map_iff in Hj as (q & <- & Hq). destruct (HQ q Hq) as (Hab & -> & ->). rewrite Forall_forall in F1. specialize (F1 q Hq). unfold qok in F1.
    assert (Pk : 0 < INR (qk q)) by (apply lt_0_INR; lia). split; [split|].
    - apply Rmult_le_pos; [apply pos_INR|left; apply Rinv_0_lt_compat; exact Pk].
    - apply Rmult_lt_compat_r; [apply Rinv_0_lt_compat; exact Pk|apply lt_INR; exact Hab].
    - replace 1 with (INR (qk q) / INR (qk q)) by (field; lra). apply frac_le; lia. }
  assert (HB1 : forall j, In j J -> lo j < up j) by (intros j Hj; apply HB; exact Hj).
  assert (HB' : forall j, In j J -> 0 <= lo j <= up j /\ up j <= 1) by (intros i Hi; destruct (HB i Hi); lra).
  assert (HLJ : forall j, In j J -> lipschitz_in d j (L j) F) by (intros j Hj; apply in_map_iff in Hj as (q & <- & Hq); apply HL; exact Hq).
  set (zero := imap (fun j x => if in_dec Nat.eq_dec j J then 0 else x)).
  assert (Zl : length (zero base) = d) by (unfold zero; rewrite imap_length; exact Hb).
  assert (Zc : in_cube (zero base)).
  { apply Forall_forall. intros x Hx. apply In_nth_error in Hx as (j & Hj). unfold zero in Hj. rewrite imap_nth in Hj. destruct (nth_error base j) as [y|] eqn:E; [|discriminate]. cbn in Hj. injection Hj as <-.
    unfold in_cube in Hbc. rewrite Forall_forall in Hbc. specialize (Hbc y (nth_error_In _ _ E)). destruct (in_dec Nat.eq_dec j J); lra. }
  assert (E1 : box_average lo up J F base = cube_average J (fun r => F (imap (into lo up J) r)) (zero base)).
  { rewrite (cube_is_box lo up J d F L HB HLJ J (zero base) (fun x H => H) ND Zl Zc). apply box_average_other; [rewrite imap_length; congruence|]. intros j Hj. rewrite imap_nth. unfold zero. rewrite imap_nth.
    destruct (nth_error base j); [|reflexivity]. cbn. unfold into. destruct (in_dec Nat.eq_dec j J); [contradiction|reflexivity]. }
  assert (E2 : map F (filter (keep Q) rows) = map (fun r => F (imap (into lo up J) r)) (map (imap (outof lo up J)) (filter (keep Q) rows))).
  { rewrite map_map. apply map_ext. intro row. rewrite into_outof by exact HB1. reflexivity. }
  assert (E3 : spread_error L (map qJk Q) = spread_error (fun j => L j * (up j - lo j)) (map (fun q => (qj q, (qb q - qa q)%nat)) Q)).
  { unfold spread_error. rewrite !map_map. apply f_equal. apply map_ext_in. intros q Hq. cbn [fst snd qJk]. destruct (HQ q Hq) as (Hab & -> & ->). rewrite Forall_forall in F1. specialize (F1 q Hq). unfold qok in F1.
    rewrite minus_INR by lia. assert (D : INR (qb q) - INR (qa q) <> 0) by (assert (INR (qa q) < INR (qb q)) by (apply lt_INR; lia); lra). assert (K : INR (qk q) <> 0) by (apply not_0_INR; lia). field. auto. }
  assert (EJ : map fst (map (fun q => (qj q, (qb q - qa q)%nat)) Q) = J) by (rewrite map_map; reflexivity).
  rewrite E1, E2, E3. pose proof (spread_mean d (fun r => F (imap (into lo up J) r)) (fun j => L j * (up j - lo j)) (map (fun q => (qj q, (qb q - qa q)%nat)) Q) (map (imap (outof lo up J)) (filter (keep Q) rows)) (zero base)) as SM.
  rewrite EJ in SM. apply SM; clear SM.
  - exact ND.
  - intros j k Hin. apply in_map_iff in Hin as (q & Eq & Hq). injection Eq as <- <-. split; [apply HL; exact Hq|]. apply into_lip; auto; [apply in_map; exact Hq|]. apply HL. exact Hq.
  - apply kept_spread; auto. intros x Hx; exact Hx.
  - exact Zl.
  - exact Zc.
  - apply Forall_map. apply Forall_forall. intros row Hrow. apply filter_In in Hrow as [Hrow Hk]. rewrite Forall_forall in HR. destruct (HR row Hrow) as (Hl & Hc & Ho). rewrite imap_length. split; [exact Hl|]. split.
    + apply Forall_forall. intros x Hx. apply In_nth_error in Hx as (j & Hj). rewrite imap_nth in Hj. destruct (nth_error row j) as [y|] eqn:E; [|discriminate]. cbn in Hj. injection Hj as <-.
      unfold in_cube in Hc. rewrite Forall_forall in Hc. specialize (Hc y (nth_error_In _ _ E)). unfold outof. destruct (in_dec Nat.eq_dec j J) as [Hj|]; [|exact Hc].
      pose proof (HB j Hj) as [Hlo Hup]. unfold J in Hj. apply in_map_iff in Hj as (q & Eq & Hq). unfold keep in Hk. rewrite forallb_forall in Hk. specialize (Hk q Hq). unfold keep1 in Hk. rewrite Eq, E in Hk.
      destruct (HQ q Hq) as (Hab & El & Eu). rewrite Eq in El, Eu. rewrite <- El, <- Eu in Hk. apply andb_true_iff in Hk as [K1 K2].
      assert (Y2 : y <= up j) by (destruct (Rleb_spec y (up j)); [assumption|discriminate]).
      assert (Y1 : lo j <= y).
      { apply orb_true_iff in K1 as [K1|K1]; [apply Nat.eqb_eq in K1; rewrite El, K1; cbn; unfold Rdiv; rewrite Rmult_0_l; lra|]. destruct (Rltb_spec (lo j) y); [lra|discriminate]. }
      split; [apply Rmult_le_pos; [lra|left; apply Rinv_0_lt_compat; lra]|]. apply (Rmult_le_reg_r (up j - lo j)); [lra|]. unfold Rdiv. rewrite Rmult_assoc, Rinv_l by lra. lra.
    + intros j Hj. rewrite imap_nth. unfold zero. rewrite imap_nth, <- (Ho j Hj). destruct (nth_error row j); [|reflexivity]. cbn. unfold outof. destruct (in_dec Nat.eq_dec j J); [contradiction|reflexivity].
Qed.
