(** ListLemmas.v - generic facts about lists and the result monad. *)
From Verif Require Import Base.
From Coq Require Import Sorted.

Lemma bind_ok {A B} (m : res A) (k : A -> res B) b :
  bind m k = Ok b <-> exists a, m = Ok a /\ k a = Ok b.
Proof.
  destruct m as [a|e]; cbn; split; intro H.
  - eauto.
  - destruct H as (a' & E & H). inversion E; subst. exact H.
  - discriminate.
  - destruct H as (a' & E & _). discriminate.
Qed.

Lemma bind_err {A B} (m : res A) (k : A -> res B) e :
  bind m k = Err e <-> m = Err e \/ exists a, m = Ok a /\ k a = Err e.
Proof.
  destruct m as [a|e']; cbn; split; intro H.
  - right. eauto.
  - destruct H as [H|(a' & E & H)]; [discriminate|]. inversion E; subst. exact H.
  - left. congruence.
  - destruct H as [H|(a' & E & _)]; [congruence|discriminate].
Qed.

Lemma Forall2_length {A B} (R : A -> B -> Prop) l r : Forall2 R l r -> length l = length r.
Proof. induction 1; cbn; congruence. Qed.

Ltac inv_bind H :=
  apply bind_ok in H; let x := fresh "x" in let E := fresh "E" in destruct H as (x & E & H).

Lemma guard_ok b e u : guard b e = Ok u <-> b = true.
Proof. destruct b, u; cbn; split; congruence. Qed.

Lemma mapM_ok {A B} (f : A -> res B) l r :
  mapM f l = Ok r <-> Forall2 (fun a b => f a = Ok b) l r.
Proof.
  revert r; induction l as [|a l IH]; intros r; cbn.
  - split; intro H.
    + inversion H. constructor.
    + inversion H. reflexivity.
  - rewrite bind_ok. split.
    + intros (b & E & H). apply bind_ok in H. destruct H as (bs & E' & H). inversion H; subst.
      constructor; [exact E|]. apply IH; exact E'.
    + intro H. inversion H; subst. exists y. split; [assumption|].
      apply bind_ok. exists l'. split; [apply IH; assumption|reflexivity].
Qed.

Lemma mapM_total {A B} (f : A -> res B) (g : A -> B) l :
  (forall a, In a l -> f a = Ok (g a)) -> mapM f l = Ok (map g l).
Proof.
  intro H. apply mapM_ok. induction l as [|a l IH]; cbn; constructor.
  - apply H; left; reflexivity.
  - apply IH. intros; apply H; right; assumption.
Qed.

Lemma mapM_length {A B} (f : A -> res B) l r : mapM f l = Ok r -> length r = length l.
Proof. intro H. apply mapM_ok in H. symmetry. eapply Forall2_length; eassumption. Qed.

Lemma mapM_nth {A B} (f : A -> res B) l r i a :
  mapM f l = Ok r -> nth_error l i = Some a -> exists b, nth_error r i = Some b /\ f a = Ok b.
Proof.
  intro H. apply mapM_ok in H. revert i; induction H as [|x y l r E H IH]; intros [|i] Hi; cbn in *; try discriminate.
  - inversion Hi; subst. eauto.
  - apply IH; exact Hi.
Qed.

Lemma mapM_in {A B} (f : A -> res B) l r b :
  mapM f l = Ok r -> In b r -> exists a, In a l /\ f a = Ok b.
Proof.
  intro H. apply mapM_ok in H. induction H as [|x y l r E H IH]; cbn; intros Hb; [contradiction|].
  destruct Hb as [->|Hb]; [eauto|]. destruct (IH Hb) as (a & Ha & Hf). eauto.
Qed.

Lemma mapM_app {A B} (f : A -> res B) l1 l2 :
  mapM f (l1 ++ l2) = (a <- mapM f l1 ;; b <- mapM f l2 ;; Ok (a ++ b)).
Proof.
  induction l1 as [|x l1 IH]; cbn.
  - destruct (mapM f l2); reflexivity.
  - destruct (f x); cbn; [|reflexivity]. rewrite IH.
    destruct (mapM f l1); cbn; [|reflexivity]. destruct (mapM f l2); reflexivity.
Qed.

Lemma foldM_app {A S} (f : S -> A -> res S) l1 l2 s :
  foldM f (l1 ++ l2) s = (s' <- foldM f l1 s ;; foldM f l2 s').
Proof.
  revert s; induction l1 as [|x l1 IH]; intro s; cbn; [reflexivity|].
  destruct (f s x); cbn; [apply IH|reflexivity].
Qed.

Lemma foldM_inv {A S} (P : S -> Prop) (f : S -> A -> res S) l s s' :
  (forall s a s', In a l -> P s -> f s a = Ok s' -> P s') -> P s -> foldM f l s = Ok s' -> P s'.
Proof.
  revert s; induction l as [|x l IH]; intros s Hf Hs H; cbn in H.
  - inversion H; subst; exact Hs.
  - inv_bind H. eapply IH; [|eapply Hf; [left; reflexivity|exact Hs|exact E]|exact H].
    intros; eapply Hf; [right; eassumption|eassumption|eassumption].
Qed.

Lemma py_nth_ok {A} (l : list A) i x : py_nth l i = Ok x <-> nth_error l i = Some x.
Proof. unfold py_nth. destruct (nth_error l i); split; congruence. Qed.

(** ** masks *)
Lemma mask_select_filter {A} (f : A -> bool) l : mask_select (map f l) l = filter f l.
Proof. induction l as [|a l IH]; cbn; [reflexivity|]. destruct (f a); rewrite IH; reflexivity. Qed.

Lemma mask_select_length {A B} (m : list bool) (l : list A) (l' : list B) :
  length l = length l' -> length (mask_select m l) = length (mask_select m l').
Proof.
  revert l l'; induction m as [|b m IH]; intros [|a l] [|a' l'] H; cbn in *; try lia; try reflexivity.
  destruct b; cbn; rewrite (IH l l'); lia.
Qed.

Lemma mask_select_in {A} (m : list bool) (l : list A) a : In a (mask_select m l) -> In a l.
Proof.
  revert l; induction m as [|b m IH]; intros [|x l]; cbn; try contradiction.
  destruct b; cbn; intros H; [destruct H as [->|H]|]; auto.
Qed.

Lemma mask_select_map {A B} (g : A -> B) m l : mask_select m (map g l) = map g (mask_select m l).
Proof.
  revert l; induction m as [|b m IH]; intros [|x l]; cbn; try reflexivity.
  destruct b; cbn; rewrite IH; reflexivity.
Qed.

Lemma mask_select_combine {A B} m (l : list A) (l' : list B) :
  mask_select m (combine l l') = combine (mask_select m l) (mask_select m l').
Proof.
  revert l l'; induction m as [|b m IH]; intros [|a l] [|a' l']; cbn; try reflexivity.
  - destruct b; [reflexivity|]. destruct (mask_select m l); reflexivity.
  - destruct b; cbn; rewrite IH; reflexivity.
Qed.

Lemma mask_select_nth {A} (m : list bool) (l : list A) d (is := filter (fun i => nth i m false) (seq 0 (length m))) :
  length m = length l ->
  mask_select m l = map (fun i => nth i l d) is.
Proof.
  subst is. revert l; induction m as [|b m IH]; intros [|a l] H; cbn in *; try lia; [reflexivity|].
  rewrite <- seq_shift.
  assert (E : filter (fun i => nth i (b :: m) false) (map S (seq 0 (length m)))
              = map S (filter (fun i => nth i m false) (seq 0 (length m)))).
  { clear. induction (seq 0 (length m)) as [|x s IH]; cbn; [reflexivity|].
    destruct (nth x m false); cbn; rewrite <- IH; reflexivity. }
  cbn in E. destruct b; cbn; rewrite E, map_map; cbn; rewrite (IH l) by lia; reflexivity.
Qed.

(** ** set_nth *)
Lemma set_nth_length {A} i (x : A) l : length (set_nth i x l) = length l.
Proof. revert i; induction l as [|a l IH]; intros [|i]; cbn; auto. Qed.
Lemma nth_error_set_nth_eq {A} i (x : A) l : i < length l -> nth_error (set_nth i x l) i = Some x.
Proof. revert i; induction l as [|a l IH]; intros [|i] H; cbn in *; try lia; auto. apply IH; lia. Qed.
Lemma nth_error_set_nth_neq {A} i j (x : A) l : i <> j -> nth_error (set_nth i x l) j = nth_error l j.
Proof. revert i j; induction l as [|a l IH]; intros [|i] [|j] H; cbn; auto; congruence. Qed.
Lemma nth_set_nth_eq {A} i (x d : A) l : i < length l -> nth i (set_nth i x l) d = x.
Proof. revert i; induction l as [|a l IH]; intros [|i] H; cbn in *; try lia; auto. apply IH; lia. Qed.
Lemma nth_set_nth_neq {A} i j (x d : A) l : i <> j -> nth j (set_nth i x l) d = nth j l d.
Proof. revert i j; induction l as [|a l IH]; intros [|i] [|j] H; cbn; auto; congruence. Qed.

(** ** nth / seq *)
Lemma map_nth_seq {A} (l : list A) d n : length l = n -> map (fun i => nth i l d) (seq 0 n) = l.
Proof.
  revert n; induction l as [|a l IH]; intros n H; subst n; cbn; [reflexivity|].
  rewrite <- seq_shift, map_map, (IH (length l)); reflexivity.
Qed.

Lemma map_seq_nth {A B} (f : A -> B) (l : list A) d n :
  length l = n -> map (fun i => f (nth i l d)) (seq 0 n) = map f l.
Proof. intro H. rewrite <- (map_map (fun i => nth i l d) f), map_nth_seq by exact H. reflexivity. Qed.

Lemma nth_map_seq {A} (f : nat -> A) n i d : i < n -> nth i (map f (seq 0 n)) d = f i.
Proof.
  intro H. rewrite nth_indep with (d' := f 0) by (rewrite map_length, seq_length; exact H).
  rewrite map_nth, seq_nth by exact H. reflexivity.
Qed.

Lemma nth_error_map_seq {A} (f : nat -> A) n i : i < n -> nth_error (map f (seq 0 n)) i = Some (f i).
Proof.
  intro H. rewrite nth_error_map. rewrite (nth_error_nth' _ 0) by (rewrite seq_length; exact H).
  rewrite seq_nth by exact H. reflexivity.
Qed.

Lemma nth_error_Some_lt {A} (l : list A) i x : nth_error l i = Some x -> i < length l.
Proof. intro H. apply nth_error_Some. congruence. Qed.

Lemma nth_error_nth_some {A} (l : list A) i x d : nth_error l i = Some x -> nth i l d = x.
Proof. apply nth_error_nth. Qed.

Lemma list_eq_nth_error {A} (l l' : list A) : (forall i, nth_error l i = nth_error l' i) -> l = l'.
Proof.
  revert l'; induction l as [|a l IH]; intros [|a' l'] H; auto.
  - specialize (H 0); discriminate.
  - specialize (H 0); discriminate.
  - f_equal; [specialize (H 0); cbn in H; congruence|]. apply IH. intro i. exact (H (S i)).
Qed.

Lemma list_eq_nth {A} (l l' : list A) d :
  length l = length l' -> (forall i, i < length l -> nth i l d = nth i l' d) -> l = l'.
Proof. intros; eapply nth_ext; eauto. Qed.

Lemma combine_map_r {A B C} (f : B -> C) (l : list A) l' :
  combine l (map f l') = map (fun p => (fst p, f (snd p))) (combine l l').
Proof. revert l'; induction l as [|a l IH]; intros [|b l']; cbn; auto. rewrite IH; reflexivity. Qed.
Lemma combine_map_l {A B C} (f : A -> C) (l : list A) (l' : list B) :
  combine (map f l) l' = map (fun p => (f (fst p), snd p)) (combine l l').
Proof. revert l'; induction l as [|a l IH]; intros [|b l']; cbn; auto. rewrite IH; reflexivity. Qed.

Lemma combine_const {A B} (a : A) (f : nat -> A) (l : list B) s :
  (forall i, f i = a) -> combine (map f (seq s (length l))) l = map (fun b => (a, b)) l.
Proof. intro H. revert s; induction l as [|b l IH]; intro s; cbn; [reflexivity|]. rewrite H, IH; reflexivity. Qed.

Lemma flat_map_length_const {A B} (f : A -> list B) c l :
  (forall a, In a l -> length (f a) = c) -> length (flat_map f l) = length l * c.
Proof.
  induction l as [|a l IH]; cbn; intro H; [reflexivity|].
  rewrite app_length, IH, H by auto. reflexivity.
Qed.

Lemma concat_length_const {A} (ls : list (list A)) c :
  Forall (fun l => length l = c) ls -> length (concat ls) = length ls * c.
Proof. induction 1 as [|l ls H _ IH]; cbn; [reflexivity|]. rewrite app_length, IH, H; reflexivity. Qed.

Lemma nth_concat_rect {A} (ls : list (list A)) c d i j :
  Forall (fun l => length l = c) ls -> j < c ->
  nth (i * c + j) (concat ls) d = nth j (nth i ls []) d.
Proof.
  intro H. revert i; induction H as [|l ls Hl _ IH]; intros i Hj; cbn.
  - transitivity d; [destruct (i * c + j); reflexivity | destruct i, j; reflexivity].
  - destruct i as [|i]; cbn.
    + rewrite app_nth1 by lia. reflexivity.
    + rewrite app_nth2 by lia. rewrite Hl. replace (c + i * c + j - c) with (i * c + j) by lia.
      apply IH; exact Hj.
Qed.

Lemma filter_all {A} (f : A -> bool) l : (forall a, In a l -> f a = true) -> filter f l = l.
Proof. induction l as [|a l IH]; cbn; intro H; [reflexivity|]. rewrite H, IH by auto. reflexivity. Qed.

Lemma filter_filter {A} (f g : A -> bool) l :
  filter f (filter g l) = filter (fun x => g x && f x) l.
Proof.
  induction l as [|a l IH]; cbn; [reflexivity|].
  destruct (g a); cbn; [destruct (f a)|]; rewrite IH; reflexivity.
Qed.

Lemma filter_ext_in' {A} (f g : A -> bool) l : (forall a, In a l -> f a = g a) -> filter f l = filter g l.
Proof. intro H. apply filter_ext_in. exact H. Qed.

Lemma filter_partition {A} (f : A -> bool) l : Permutation (filter f l ++ filter (fun x => negb (f x)) l) l.
Proof.
  induction l as [|a l IH]; cbn; [constructor|].
  destruct (f a); cbn.
  - constructor; exact IH.
  - rewrite <- Permutation_middle. constructor. exact IH.
Qed.

Lemma filter_length_le' {A} (f : A -> bool) l : length (filter f l) <= length l.
Proof. induction l as [|a l IH]; cbn; [lia|]. destruct (f a); cbn; lia. Qed.

Lemma StronglySorted_filter {A} (R : A -> A -> Prop) (f : A -> bool) l :
  StronglySorted R l -> StronglySorted R (filter f l).
Proof.
  induction 1 as [|a l H IH Ha]; cbn; [constructor|].
  destruct (f a); [|exact IH]. constructor; [exact IH|].
  rewrite Forall_forall in *. intros x Hx. apply filter_In in Hx. apply Ha. apply Hx.
Qed.
Lemma StronglySorted_seq s n : StronglySorted lt (seq s n).
Proof.
  revert s; induction n as [|n IH]; intro s; cbn; constructor; [apply IH|].
  apply Forall_forall. intros x Hx. apply in_seq in Hx. lia.
Qed.

Lemma Forall2_app' {A B} (R : A -> B -> Prop) l1 l2 r1 r2 :
  Forall2 R l1 r1 -> Forall2 R l2 r2 -> Forall2 R (l1 ++ l2) (r1 ++ r2).
Proof. apply Forall2_app. Qed.

Lemma Forall2_impl' {A B} (R R' : A -> B -> Prop) l r :
  (forall a b, R a b -> R' a b) -> Forall2 R l r -> Forall2 R' l r.
Proof. intros H F; induction F; constructor; auto. Qed.

Lemma Forall2_in_l {A B} (R : A -> B -> Prop) l r a :
  Forall2 R l r -> In a l -> exists b, In b r /\ R a b.
Proof.
  induction 1 as [|x y l r E H IH]; cbn; [contradiction|].
  intros [->|Ha]; [eauto|]. destruct (IH Ha) as (b & Hb & Hr). eauto.
Qed.
Lemma Forall2_in_r {A B} (R : A -> B -> Prop) l r b :
  Forall2 R l r -> In b r -> exists a, In a l /\ R a b.
Proof.
  induction 1 as [|x y l r E H IH]; cbn; [contradiction|].
  intros [->|Hb]; [eauto|]. destruct (IH Hb) as (a & Ha & Hr). eauto.
Qed.

Lemma Forall2_map_l {A B C} (R : A -> C -> Prop) (f : B -> A) l r :
  Forall2 R (map f l) r <-> Forall2 (fun b c => R (f b) c) l r.
Proof.
  revert r; induction l as [|b l IH]; intro r; cbn; split; intro H; inversion H; subst; constructor; auto; apply IH; auto.
Qed.

Lemma in_combine_nth {A B} (l : list A) (l' : list B) a b :
  In (a, b) (combine l l') -> exists i, nth_error l i = Some a /\ nth_error l' i = Some b.
Proof.
  revert l'; induction l as [|x l IH]; intros [|y l'] H; cbn in H; try contradiction.
  destruct H as [H|H].
  - inversion H; subst. exists 0; auto.
  - destruct (IH _ H) as (i & Hi). exists (S i). exact Hi.
Qed.
