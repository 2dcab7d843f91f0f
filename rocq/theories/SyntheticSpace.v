(** SyntheticSpace.v - config_space_nd (C53). *)
From Coq Require Import DecimalNat DecimalString DecimalFacts.
From Verif Require Import Base Num ConfigSpaceModel UtilsModel SyntheticModel SyntheticSpec.

(** ** decimal names are distinct *)
Lemma dec_inj i j : dec i = dec j -> i = j.
Proof.
  unfold dec. intro H. assert (U : Nat.to_uint i = Nat.to_uint j).
  { pose proof (NilEmpty.usu (Nat.to_uint i)) as A. pose proof (NilEmpty.usu (Nat.to_uint j)) as B. rewrite H in A. congruence. }
  rewrite <- (Unsigned.of_to i), <- (Unsigned.of_to j), U. reflexivity.
Qed.
Lemma append_inj p s t : String.append p s = String.append p t -> s = t.
Proof. induction p as [|c p IH]; cbn; intro H; [exact H|]. injection H as H. apply IH. exact H. Qed.

Section Space.
Context {N : Num}.
Definition nd_name (prefix : string) (i : nat) : string := String.append prefix (dec (i + 1)).
Lemma nd_name_inj p i j : nd_name p i = nd_name p j -> i = j.
Proof. unfold nd_name. intro H. apply append_inj, dec_inj in H. lia. Qed.

Definition entry_ok (lo up : N) (lg : bool) : bool := neqb lo up || (nlt lo up && (negb lg || nlt n0 lo)).
Definition entry_kind (lo up : N) (lg : bool) : hpkind N := if neqb lo up then KConst (VNum lo) else KFloat lo up lg.
Lemma nd_hp_eq name lo up lg : nd_hp name lo up lg = if entry_ok lo up lg then Ok (mkhp name (entry_kind lo up lg)) else Err ValueError.
Proof.
  unfold nd_hp, entry_ok, entry_kind, float_hp_new. destruct (neqb lo up); [reflexivity|]. cbn [orb]. destruct (nlt lo up); cbn [negb andb]; [|reflexivity].
  destruct lg; cbn [negb orb andb]; [|reflexivity]. destruct (nlt n0 lo); reflexivity.
Qed.

(** the triples of zip *)
Fixpoint zip3 (lo up : list N) (lg : list bool) : list (N * N * bool) :=
  match lo, up, lg with l :: lo', u :: up', b :: lg' => (l, u, b) :: zip3 lo' up' lg' | _, _, _ => [] end.
Definition triple_ok (t : N * N * bool) : bool := entry_ok (fst (fst t)) (snd (fst t)) (snd t).
Definition triple_hp (prefix : string) (i : nat) (t : N * N * bool) : hp N := mkhp (nd_name prefix i) (entry_kind (fst (fst t)) (snd (fst t)) (snd t)).
Fixpoint nd_hps (prefix : string) (i : nat) (l : list (N * N * bool)) : cspace N :=
  match l with [] => [] | t :: l' => triple_hp prefix i t :: nd_hps prefix (S i) l' end.

Lemma zip3_length lo up lg : length (zip3 lo up lg) = Nat.min (length lo) (Nat.min (length up) (length lg)).
Proof. revert up lg. induction lo as [|l lo IH]; intros [|u up] [|b lg]; cbn [zip3 length]; try reflexivity; try lia. rewrite IH. lia. Qed.

Lemma nd_loop_eq prefix : forall lo up lg i cs,
  (forall h, In h cs -> exists j, j < i /\ hp_name h = nd_name prefix j) ->
  nd_loop prefix i lo up lg cs = if forallb triple_ok (zip3 lo up lg) then Ok (cs ++ nd_hps prefix i (zip3 lo up lg)) else Err ValueError.
Proof.
  induction lo as [|l lo IH]; intros up lg i cs H; [cbn; rewrite app_nil_r; reflexivity|].
  destruct up as [|u up]; [cbn; rewrite app_nil_r; reflexivity|]. destruct lg as [|b lg]; [cbn; rewrite app_nil_r; reflexivity|].
  cbn [nd_loop zip3 forallb nd_hps]. rewrite nd_hp_eq. change (triple_ok (l, u, b)) with (entry_ok l u b). destruct (entry_ok l u b); cbn [bind andb]; [|reflexivity].
  unfold add_hp. cbn [hp_name].
  assert (E : existsb (fun g => String.eqb (hp_name g) (String.append prefix (dec (i + 1)))) cs = false).
  { apply not_true_iff_false. intro X. apply existsb_exists in X as (g & Hg & E). apply String.eqb_eq in E. destruct (H g Hg) as (j & Hj & En). rewrite En in E. apply nd_name_inj in E. lia. }
  rewrite E. cbn [bind]. rewrite IH.
  - destruct (forallb triple_ok (zip3 lo up lg)); [|reflexivity]. rewrite <- app_assoc. reflexivity.
  - intros h Hh. apply in_app_or in Hh as [Hh|[<-|[]]]; [destruct (H h Hh) as (j & Hj & En); exists j; split; [lia|exact En]|exists i; split; [lia|reflexivity]].
Qed.
Lemma config_space_nd_eq d lo up lg prefix : config_space_nd d lo up lg prefix =
  let z := zip3 (expand d lo) (expand d up) (expand d lg) in
  if forallb triple_ok z then Ok (nd_hps prefix 0 z) else Err ValueError.
Proof. unfold config_space_nd. rewrite nd_loop_eq by (intros h []). reflexivity. Qed.

Lemma nd_hps_length p l : forall i, length (nd_hps p i l) = length l.
Proof. induction l; intro i; cbn; auto. Qed.
Lemma nd_hps_names p l : forall i h, In h (nd_hps p i l) -> exists j, i <= j < i + length l /\ hp_name h = nd_name p j.
Proof.
  induction l as [|t l IH]; intros i h H; [destruct H|]. cbn [nd_hps] in H. destruct H as [<-|H]; [exists i; cbn; split; [lia|reflexivity]|].
  destruct (IH _ _ H) as (j & Hj & E). exists j. cbn [length]. split; [lia|exact E].
Qed.
Lemma nd_hps_nodup p l : forall i, NoDup (map hp_name (nd_hps p i l)).
Proof.
  induction l as [|t l IH]; intro i; cbn [nd_hps map]; constructor; [|apply IH]. intro H. apply in_map_iff in H as (h & E & Hh). apply nd_hps_names in Hh as (j & Hj & En). rewrite En in E. cbn in E. apply nd_name_inj in E. lia.
Qed.
Lemma nd_hps_get p l : forall i k t, nth_error l k = Some t -> cs_get (nd_hps p i l) (nd_name p (i + k)) = Ok (triple_hp p (i + k) t).
Proof.
  induction l as [|t l IH]; intros i k u H; [destruct k; discriminate|]. cbn [nd_hps cs_get]. destruct k as [|k].
  - injection H as ->. rewrite Nat.add_0_r. cbn [hp_name triple_hp]. rewrite String.eqb_refl. reflexivity.
  - cbn [triple_hp hp_name]. destruct (String.eqb_spec (nd_name p i) (nd_name p (i + S k))) as [E|_]; [apply nd_name_inj in E; lia|].
    replace (i + S k) with (S i + k) by lia. apply IH. exact H.
Qed.
Lemma zip3_nth : forall lo up lg k l u b, nth_error lo k = Some l -> nth_error up k = Some u -> nth_error lg k = Some b -> nth_error (zip3 lo up lg) k = Some (l, u, b).
Proof.
  induction lo as [|x lo IH]; intros [|y up] [|z lg] [|k] l u b; cbn; intros A B C; try discriminate; [congruence|]. apply IH; assumption.
Qed.
Lemma zip3_nth_inv : forall lo up lg k t, nth_error (zip3 lo up lg) k = Some t -> nth_error lo k = Some (fst (fst t)) /\ nth_error up k = Some (snd (fst t)) /\ nth_error lg k = Some (snd t).
Proof.
  induction lo as [|x lo IH]; intros [|y up] [|z lg] [|k] t; cbn; intro A; try discriminate; [injection A as <-; auto|]. apply IH; assumption.
Qed.

(** ** statements *)
Lemma param_at_expand {A} d (p : param A) k : param_at d p k = nth_error (expand d p) k.
Proof.
  destruct p as [a|l]; [|reflexivity]. cbn [param_at expand]. destruct (Nat.ltb_spec k (Z.to_nat d)).
  - symmetry. revert k H. induction (Z.to_nat d) as [|m IH]; intros k H; [lia|]. destruct k; cbn; [reflexivity|]. apply IH. lia.
  - symmetry. apply nth_error_None. rewrite repeat_length. lia.
Qed.
Lemma param_len_expand {A} d (p : param A) : param_len d p = length (expand d p).
Proof. destruct p; cbn; [rewrite repeat_length|]; reflexivity. Qed.

Theorem nd_space d (lo up : param N) (lg : param bool) prefix cs : config_space_nd d lo up lg prefix = Ok cs ->
  length cs = Nat.min (param_len d lo) (Nat.min (param_len d up) (param_len d lg)) /\ NoDup (map hp_name cs) /\
  forall k l u b, param_at d lo k = Some l -> param_at d up k = Some u -> param_at d lg k = Some b ->
    cs_get cs (String.append prefix (dec (k + 1))) =
      Ok (mkhp (String.append prefix (dec (k + 1))) (if neqb l u then KConst (VNum l) else KFloat l u b)).
Proof.
  rewrite config_space_nd_eq. cbv zeta. destruct (forallb triple_ok _); intro E; [|discriminate]. injection E as <-. refine (conj _ (conj (nd_hps_nodup _ _ _) _)).
  - rewrite nd_hps_length, zip3_length, !param_len_expand. reflexivity.
  - intros k l u b A B C. rewrite param_at_expand in A; rewrite param_at_expand in B; rewrite param_at_expand in C. pose proof (nd_hps_get prefix _ 0 k _ (zip3_nth _ _ _ _ _ _ _ A B C)) as G. exact G.
Qed.
(** when it succeeds, and its error *)
Theorem nd_space_total d (lo up : param N) (lg : param bool) prefix :
  ((exists cs, config_space_nd d lo up lg prefix = Ok cs) <->
   forall k l u b, param_at d lo k = Some l -> param_at d up k = Some u -> param_at d lg k = Some b ->
     neqb l u = true \/ (nlt l u = true /\ (b = true -> nlt n0 l = true))) /\
  (forall e, config_space_nd d lo up lg prefix = Err e -> e = ValueError).
Proof.
  rewrite config_space_nd_eq. cbv zeta. split.
  - split.
    + intros (cs & E) k l u b A B C. rewrite param_at_expand in A; rewrite param_at_expand in B; rewrite param_at_expand in C. destruct (forallb triple_ok _) eqn:F; [|discriminate].
      rewrite forallb_forall in F. specialize (F _ (nth_error_In _ _ (zip3_nth _ _ _ _ _ _ _ A B C))). unfold triple_ok, entry_ok in F. cbn in F.
      apply orb_prop in F as [F|F]; [left; exact F|right]. apply andb_prop in F as [F1 F2]. split; [exact F1|]. intros ->. exact F2.
    + intro H. assert (F : forallb triple_ok (zip3 (expand d lo) (expand d up) (expand d lg)) = true).
      { apply forallb_forall. intros t Ht. apply In_nth_error in Ht as (k & Hk). apply zip3_nth_inv in Hk as (A & B & C). rewrite <- param_at_expand in A; rewrite <- param_at_expand in B; rewrite <- param_at_expand in C. specialize (H _ _ _ _ A B C).
        unfold triple_ok, entry_ok. destruct H as [H|[H1 H2]]; [rewrite H; reflexivity|]. rewrite H1. cbn [andb]. destruct (snd t); [rewrite H2 by reflexivity|]; apply orb_true_r. }
      rewrite F. eexists. reflexivity.
  - intros e E. destruct (forallb triple_ok _); [discriminate|]. congruence.
Qed.
(** scalar bounds *)
Theorem nd_scalar d (l u : N) b prefix : (neqb l u = true \/ (nlt l u = true /\ (b = true -> nlt n0 l = true))) ->
  exists cs, config_space_nd d (PScalar l) (PScalar u) (PScalar b) prefix = Ok cs /\ length cs = Z.to_nat d /\ NoDup (map hp_name cs) /\
    forall i, i < Z.to_nat d -> cs_get cs (String.append prefix (dec (i + 1))) =
      Ok (mkhp (String.append prefix (dec (i + 1))) (if neqb l u then KConst (VNum l) else KFloat l u b)).
Proof.
  intro H. destruct (proj2 (proj1 (nd_space_total d (PScalar l) (PScalar u) (PScalar b) prefix))) as (cs & E).
  - intros k l' u' b'. cbn [param_at]. destruct (k <? Z.to_nat d); [|discriminate]. intros A B C. injection A as <-. injection B as <-. injection C as <-. exact H.
  - exists cs. destruct (nd_space _ _ _ _ _ _ E) as (L & ND & G). cbn [param_len] in L. refine (conj E (conj _ (conj ND _))); [lia|].
    intros i Hi. apply G; cbn [param_at]; rewrite (proj2 (Nat.ltb_lt _ _) Hi); reflexivity.
Qed.
(** iterables: [dimensions] is ignored *)
Theorem nd_iterables d d' (lo up : list N) lg prefix : config_space_nd d (PIter lo) (PIter up) (PIter lg) prefix = config_space_nd d' (PIter lo) (PIter up) (PIter lg) prefix.
Proof. reflexivity. Qed.
(** the class method *)
Theorem nd_for_n (dlo dup : N) (log : bool) d lower upper :
  (forall l, lower = Some (PScalar l) \/ (lower = None /\ l = dlo) -> forall u, upper = Some (PScalar u) \/ (upper = None /\ u = dup) ->
     nlt l u = true -> neqb l u = false -> (log = true -> nlt n0 l = true) ->
     exists cs, for_n_dimensions dlo dup log d lower upper = Ok cs /\ length cs = Z.to_nat d /\
       forall i, i < Z.to_nat d -> cs_get cs (String.append "x" (dec (i + 1))) = Ok (mkhp (String.append "x" (dec (i + 1))) (KFloat l u log))).
Proof.
  intros l Hl u Hu H1 H2 H3. destruct (nd_scalar d l u log "x" (or_intror (conj H1 H3))) as (cs & E & L & _ & G). rewrite H2 in G.
  exists cs. refine (conj _ (conj L G)). unfold for_n_dimensions. destruct Hl as [->|[-> ->]]; destruct Hu as [->|[-> ->]]; exact E.
Qed.
End Space.
