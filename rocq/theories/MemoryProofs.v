(** MemoryProofs.v - which arrays an ICE object shares (C94). *)
From Coq Require Import QArith.
From Verif Require Import Base Num NumLaws NumpyModel ConfigSpaceModel UtilsModel IceModel MemoryModel ArraysSpec ListLemmas IceProofs IceProofs2.
Local Open Scope nat_scope.
Local Open Scope list_scope.

Section P.
Context {N : Num}.

(** ** views *)
Lemma rows_concat (n m : nat) (y : list (list N)) : shaped2 n m y -> rows_view n m (concat y) = y.
Proof. intros [L F]. unfold rows_view. rewrite (reshape2_concat n0 y n m L F). reflexivity. Qed.

Lemma view_buffer (n f g : nat) (x : list (list (list N))) : shaped3 n g f x -> x_view n f g (x_buffer f x) = x.
Proof.
  intros (L & F & FF). unfold x_view, x_buffer.
  set (t := map (fun m => map (fun j => column n0 j m) (seq 0 f)) x).
  assert (F1 : Forall (fun l => length l = f) t) by (apply Forall_map, Forall_forall; intros; rewrite map_length, seq_length; reflexivity).
  assert (F2 : Forall (fun l => length l = g) (concat t)).
  { apply Forall_concat. apply Forall_map. eapply Forall_impl; [|exact F]. intros m Hm. apply Forall_map, Forall_forall. intros j _.
    unfold column. rewrite map_length. exact Hm. }
  unfold reshape3. rewrite (concat_length_const _ g F2), (concat_length_const _ f F1). unfold t at 1 2. rewrite map_length, L, Nat.eqb_refl.
  unfold transpose021. rewrite map_map. apply list_eq_nth with (d := []).
  - rewrite map_length, seq_length. symmetry. exact L.
  - rewrite map_length, seq_length. intros i Hi. rewrite nth_map_seq by exact Hi.
    assert (Lm : length (nth i x []) = g) by (apply (proj1 (Forall_forall _ _) F), nth_In; lia).
    assert (Fm : Forall (fun r => length r = f) (nth i x [])) by (apply (proj1 (Forall_forall _ _) FF), nth_In; lia).
    rewrite <- (map_nth_seq (nth i x []) [] g Lm) at 1. apply map_ext_in. intros k Hk. apply in_seq in Hk.
    assert (Lr : length (nth k (nth i x []) []) = f) by (apply (proj1 (Forall_forall _ _) Fm), nth_In; lia).
    rewrite <- (map_nth_seq (nth k (nth i x []) []) n0 f Lr). apply map_ext_in. intros j Hj. apply in_seq in Hj.
    rewrite nth_map_seq by lia. rewrite nth_map_seq by lia. rewrite (nth_concat_rect _ g) by (auto; lia). rewrite (nth_concat_rect _ f) by (auto; lia).
    unfold t. rewrite (nth_indep _ [] (map (fun j => column n0 j []) (seq 0 f))) by (rewrite map_length; lia).
    rewrite (map_nth (fun m => map (fun j => column n0 j m) (seq 0 f))). rewrite nth_map_seq by lia.
    unfold column. rewrite (nth_indep _ n0 (nth j [] n0)) by (rewrite map_length; lia). apply (map_nth (fun r => nth j r n0)).
Qed.

Lemma keeps_refl (h : heap N) : keeps h h.
Proof. split; auto. Qed.
Lemma keeps_trans (h1 h2 h3 : heap N) : keeps h1 h2 -> keeps h2 h3 -> keeps h1 h3.
Proof. intros [L1 K1] [L2 K2]. split; [lia|]. intros adr H. rewrite K2 by lia. auto. Qed.
Lemma keeps_app (h new : heap N) : keeps h (h ++ new).
Proof. split; [rewrite app_length; lia|]. intros adr H. unfold buf. apply app_nth1. exact H. Qed.
Lemma keeps_set (h0 h : heap N) adr b : keeps h0 h -> length h0 <= adr -> keeps h0 (set_nth adr b h).
Proof. intros [L K] H. split; [rewrite set_nth_length; exact L|]. intros c Hc. unfold buf. rewrite nth_set_nth_neq by lia. apply K, Hc. Qed.
Lemma buf_app_at (h : heap N) b : buf (h ++ [b]) (length h) = b.
Proof. unfold buf. rewrite app_nth2, Nat.sub_diag by lia. reflexivity. Qed.
Lemma buf_set_eq (h : heap N) adr b : adr < length h -> buf (set_nth adr b h) adr = b.
Proof. apply nth_set_nth_eq. Qed.
Lemma buf_set_neq (h : heap N) adr c b : adr <> c -> buf (set_nth adr b h) c = buf h c.
Proof. apply nth_set_nth_neq. Qed.

(** ** memory holds the values *)
Definition holds2 (h : heap N) (c : option nat) (y : option (list (list N))) (n g smp : nat) : Prop :=
  match c, y with
  | None, None => True
  | Some adr, Some y => adr < length h /\ adr <> smp /\ buf h adr = concat y /\ shaped2 n g y
  | _, _ => False
  end.
Definition holds3 (h : heap N) (c : option nat) (x : option (list (list (list N)))) (n g f smp : nat) : Prop :=
  match c, x with
  | None, None => True
  | Some adr, Some x => adr < length h /\ adr <> smp /\ buf h adr = x_buffer f x /\ shaped3 n g f x
  | _, _ => False
  end.
Definition apart (c d : option nat) : Prop := match c, d with Some p, Some q => p <> q | _, _ => True end.
Definition mrel (h : heap N) (o : mice N) (q : ice N) : Prop :=
  let n := m_n o in let f := length (m_cs o) in let g := m_gpa o ^ length (m_sel o) in let a := ic_alg q in
  (a_cs a = m_cs o /\ a_sel a = m_sel o /\ a_gpa a = m_gpa o) /\
  (shaped2 n f (a_samples a) /\ m_samples o < length h /\ buf h (m_samples o) = concat (a_samples a)) /\
  ic_centered q = m_centered o /\ fresh (m_predict o) (ic_predict q) /\
  holds3 h (m_x o) (ic_x q) n g f (m_samples o) /\ holds2 h (m_y o) (ic_y q) n g (m_samples o) /\ holds2 h (m_v o) (ic_v q) n g (m_samples o) /\
  apart (m_x o) (m_y o) /\ apart (m_x o) (m_v o) /\ apart (m_y o) (m_v o).

Lemma mrel_alg h o q : mrel h o q -> alg_at h o = ic_alg q /\ m_n o = num_samples (ic_alg q) /\ length (m_cs o) = num_features (ic_alg q) /\
  m_gpa o ^ length (m_sel o) = num_grid_points (ic_alg q) /\ rect (num_features (ic_alg q)) (a_samples (ic_alg q)).
Proof.
  intros ((E1 & E2 & E3) & (S1 & S2 & S3) & _). unfold alg_at. rewrite S3, (rows_concat _ _ _ S1).
  unfold num_samples, num_features, num_grid_points, n_selected. destruct S1 as [L F].
  rewrite E1, E2, E3. destruct (ic_alg q). cbn in *. subst. auto.
Qed.

Lemma holds2_keeps (h h' : heap N) c y n g s : keeps h h' -> holds2 h c y n g s -> holds2 h' c y n g s.
Proof. intros [L K]. destruct c, y; cbn; auto. intros (H1 & H2 & H3 & H4). rewrite K by exact H1. repeat split; auto; try lia; apply H4. Qed.
Lemma holds3_keeps (h h' : heap N) c x n g f s : keeps h h' -> holds3 h c x n g f s -> holds3 h' c x n g f s.
Proof. intros [L K]. destruct c, x; cbn; auto. intros (H1 & H2 & H3 & H4). rewrite K by exact H1. repeat split; auto; try lia; apply H4. Qed.

Lemma mrel_keeps (h h' : heap N) o q : keeps h h' -> mrel h o q -> mrel h' o q.
Proof.
  intros K (E & (S1 & S2 & S3) & C & F & H1 & H2 & H3 & A). pose proof K as [L B].
  refine (conj E (conj (conj S1 (conj _ _)) (conj C (conj F (conj _ (conj _ (conj _ A))))))).
  - lia.
  - rewrite B by exact S2. exact S3.
  - eapply holds3_keeps; eauto.
  - eapply holds2_keeps; eauto.
  - eapply holds2_keeps; eauto.
Qed.

Lemma ice_x_shaped (a : algorithm N) x : rect (num_features a) (a_samples a) -> ice_x a = Ok x ->
  shaped3 (num_samples a) (num_grid_points a) (num_features a) x.
Proof.
  intros RC H. apply (ice_x_closed a _ RC) in H. destruct H as (idx & grid & _ & Hg & ->).
  destruct (mesh_points_length _ _ _ Hg) as [Lg _]. rewrite linspace_length in Lg. split; [rewrite map_length; reflexivity|].
  split.
  - apply Forall_map, Forall_forall. intros r _. rewrite map_length. exact Lg.
  - apply Forall_map. eapply Forall_impl; [|exact RC]. intros r Hr. apply Forall_map, Forall_forall. intros gp _. rewrite assign_row_length. exact Hr.
Qed.

Lemma calculate_sim h o q : mrel h o q ->
  exists h', keeps h h' /\
  match ice_run q with
  | Ok q' => exists o', m_calculate h o = (h', o', Ok tt) /\ mrel h' o' q' /\
               (m_cs o' = m_cs o /\ m_sel o' = m_sel o /\ m_gpa o' = m_gpa o /\ m_n o' = m_n o /\ m_samples o' = m_samples o) /\
               (forall adr, m_x o' = Some adr \/ m_y o' = Some adr \/ m_v o' = Some adr -> length h <= adr)
  | Err e => m_calculate h o = (h', o, Err e) /\ mrel h' o q
  end.
Proof.
  intro H. destruct (mrel_alg h o q H) as (EA & En & Ef & Eg & RC). pose proof H as (E & (S1 & S2 & S3) & C & F & _).
  unfold ice_run, ice_calculate, m_calculate. rewrite EA, <- C. rewrite En, Ef.
  destruct (ice_x (ic_alg q)) as [x|e] eqn:Ex; [|exists h; cbn [bind]; refine (conj (keeps_refl h) (conj eq_refl H))]. cbn [bind].
  pose proof (ice_x_shaped _ _ RC Ex) as SH. set (n := num_samples (ic_alg q)) in *. set (f := num_features (ic_alg q)) in *. set (g := num_grid_points (ic_alg q)) in *.
  set (h1 := h ++ [x_buffer f x]). set (h2 := if shares n f g then h1 else h1 ++ [concat (concat x)]).
  set (arg := mkarg (if shares n f g then length h else S (length h)) (shares n f g) n f g).
  assert (L1 : length h1 = S (length h)) by (unfold h1; rewrite app_length; cbn; lia).
  assert (K12 : keeps h1 h2) by (unfold h2; destruct (shares n f g); [apply keeps_refl|apply keeps_app]).
  assert (K1 : keeps h h1) by apply keeps_app.
  assert (AR : arg_rows h2 arg = concat x).
  { unfold arg_rows, arg, h2. cbn [g_view g_n g_f g_g g_adr]. destruct (shares n f g).
    - unfold h1. rewrite buf_app_at, (view_buffer n f g x SH). reflexivity.
    - rewrite <- L1, buf_app_at. apply rows_concat. destruct SH as (X1 & X2 & X3). split.
      + rewrite (concat_length_const _ _ X2), X1. reflexivity.
      + apply Forall_concat. exact X3. }
  destruct (F h2 arg) as [K23 V]. rewrite AR in V. destruct (m_predict o h2 arg) as [h3 r]. cbn [fst snd] in *.
  assert (K13 : keeps h1 h3) by exact (keeps_trans _ _ _ K12 K23). assert (K03 : keeps h h3) by exact (keeps_trans _ _ _ K1 K13).
  destruct (ic_predict q (concat x)) as [[m s]|e]; [destruct r as [[ma sa]|e]; [|contradiction]|destruct r as [[ma sa]|e']; [contradiction|]].
  2:{ subst e'. exists h3. cbn [bind]. refine (conj K03 (conj eq_refl _)). exact (mrel_keeps _ _ _ _ ltac:(eassumption) H). }
  destruct V as ([V1 V2] & [V3 V4] & V5 & V6). cbn [bind fst snd]. rewrite V5, V6.
  destruct (reshape2 n0 m n g) as [y|e] eqn:Ey; [|exists h3; cbn [bind]; refine (conj K03 (conj eq_refl _)); exact (mrel_keeps _ _ _ _ ltac:(eassumption) H)]. cbn [bind].
  destruct (reshape2 n0 s n g) as [sd|e] eqn:Es; [|exists h3; cbn [bind]; refine (conj K03 (conj eq_refl _)); exact (mrel_keeps _ _ _ _ ltac:(eassumption) H)]. cbn [bind].
  destruct (reshape2_ok _ _ _ _ _ Ey) as (_ & Ly & Fy & _ & Cy). destruct (reshape2_ok _ _ _ _ _ Es) as (_ & Ls & Fs & _ & Cs).
  set (h4 := h3 ++ [map (fun s => nmul s s) s]). assert (K34 : keeps h3 h4) by apply keeps_app. assert (K04 : keeps h h4) by exact (keeps_trans _ _ _ K03 K34).
  destruct (if ic_centered q then center_rows g y else Ok y) as [y'|e] eqn:Ec; [|exists h4; cbn [bind]; refine (conj K04 (conj eq_refl _)); exact (mrel_keeps _ _ _ _ ltac:(eassumption) H)]. cbn [bind].
  assert (SY : shaped2 n g y').
  { destruct (ic_centered q).
    - apply (center_rows_closed _ _ _ Fy) in Ec. destruct Ec as [_ ->]. split; [rewrite map_length; exact Ly|].
      apply Forall_map. eapply Forall_impl; [|exact Fy]. intros v Hv. rewrite map_length. exact Hv.
    - injection Ec as <-. split; assumption. }
  rewrite (proj1 SY), map_length, Ls, Nat.eqb_refl. cbn [andb guard bind].
  set (h5 := if ic_centered q then set_nth ma (concat y') h4 else h4).
  pose proof (proj1 K12) as L12. pose proof (proj1 K23) as L23.
  assert (L4 : length h4 = S (length h3)) by (unfold h4; rewrite app_length; cbn; lia).
  assert (L5 : length h5 = length h4) by (unfold h5; destruct (ic_centered q); [apply set_nth_length|reflexivity]).
  assert (K15 : keeps h1 h5).
  { unfold h5. destruct (ic_centered q); [apply keeps_set; [exact (keeps_trans _ _ _ K13 K34)|lia]|exact (keeps_trans _ _ _ K13 K34)]. }
  assert (K05 : keeps h h5) by exact (keeps_trans _ _ _ K1 K15).
  exists h5. split; [exact K05|]. eexists. split; [reflexivity|]. split; [|split; [cbn; auto|cbn]].
  2:{ intros adr [Z|[Z|Z]]; injection Z as <-; lia. }
  destruct (mrel_keeps _ _ _ _ K05 H) as (E' & (S1' & S2' & S3') & _).
  unfold mrel. cbn [m_cs m_sel m_gpa m_n m_samples m_centered m_predict m_x m_y m_v ic_alg ic_centered ic_predict ic_x ic_y ic_v i_x i_y i_v].
  rewrite En in S1'. fold n in S1'. refine (conj E (conj (conj S1' (conj S2' S3')) (conj eq_refl (conj F (conj _ (conj _ (conj _ _))))))).
  - cbn. rewrite Ef, Eg. fold n f g. refine (conj _ (conj _ (conj _ SH))); [lia|lia|].
    rewrite (proj2 K15) by lia. unfold h1. apply buf_app_at.
  - cbn. rewrite Eg. fold n g. refine (conj _ (conj _ (conj _ SY))); [lia|lia|].
    unfold h5. destruct (ic_centered q); [apply buf_set_eq; lia|]. injection Ec as <-. rewrite (proj2 K34) by lia. congruence.
  - cbn. rewrite Eg. fold n g. refine (conj _ (conj _ (conj _ (conj _ _)))); [lia|lia| | |].
    + transitivity (buf h4 (length h3)); [unfold h5; destruct (ic_centered q); [apply buf_set_neq; lia|reflexivity]|].
      unfold h4. rewrite buf_app_at, <- Cs. apply concat_map.
    + rewrite map_length. exact Ls.
    + apply Forall_map. eapply Forall_impl; [|exact Fs]. intros v Hv. rewrite map_length. exact Hv.
  - cbn. repeat split; lia.
Qed.

Definition same_object (o o' : mice N) : Prop :=
  m_cs o' = m_cs o /\ m_sel o' = m_sel o /\ m_gpa o' = m_gpa o /\ m_n o' = m_n o /\ m_samples o' = m_samples o.

Lemma read_sim {A} (mf : mice N -> option nat) (qf : ice N -> option A) (is : mice N -> list N -> A -> Prop) h o q :
  mrel h o q ->
  (forall h o q, mrel h o q -> match mf o, qf q with None, None => True | Some adr, Some v => adr < length h /\ is o (buf h adr) v | _, _ => False end) ->
  exists h' o', keeps h h' /\ mrel h' o' (fst (read_field qf q)) /\ same_object o o' /\
  (forall adr, m_x o' = Some adr \/ m_y o' = Some adr \/ m_v o' = Some adr -> (m_x o = Some adr \/ m_y o = Some adr \/ m_v o = Some adr) \/ length h <= adr) /\
  match snd (read_field qf q) with
  | Ok v => exists adr, m_read mf h o = (h', o', Ok adr) /\ mf o' = Some adr /\ qf (fst (read_field qf q)) = Some v /\ is o' (buf h' adr) v
  | Err e => m_read mf h o = (h', o', Err e)
  end.
Proof.
  intros H I. pose proof (I h o q H) as I0. unfold m_read, read_field. destruct (mf o) as [adr|] eqn:Em; destruct (qf q) as [v|] eqn:Eq; try contradiction.
  - exists h, o. cbn [fst snd]. refine (conj (keeps_refl h) (conj H (conj _ (conj _ _)))); [repeat split|auto|]. exists adr. rewrite Eq. destruct I0. auto.
  - destruct (calculate_sim h o q H) as (h' & K & Z). destruct (ice_run q) as [q'|e].
    + destruct Z as (o' & Ec & R & SO & AD). rewrite Ec. exists h', o'. pose proof (I h' o' q' R) as I1. cbn [fst snd].
      refine (conj K (conj R (conj SO (conj _ _)))); [intros; right; auto|].
      destruct (mf o') as [adr|]; destruct (qf q') as [v|] eqn:Eq'; try contradiction; [exists adr; destruct I1; auto|].
      auto.
    + destruct Z as (Ec & R). rewrite Ec. exists h', o. cbn [fst snd]. repeat split; auto; apply R || apply K.
Qed.

Definition cached (o : mice N) (adr : nat) : Prop := m_x o = Some adr \/ m_y o = Some adr \/ m_v o = Some adr.
(** nothing changes but the samples, the cached arrays and what is added *)
Definition preserves (h : heap N) (o : mice N) (h' : heap N) (o' : mice N) : Prop :=
  length h <= length h' /\
  forall adr, adr < length h -> ~ cached o adr -> (adr <> m_samples o -> buf h' adr = buf h adr) /\ ~ cached o' adr.

Lemma mrel_cached h o q adr : mrel h o q -> cached o adr -> adr < length h /\ adr <> m_samples o.
Proof.
  intros (_ & _ & _ & _ & H1 & H2 & H3 & _) [E|[E|E]]; rewrite E in *; cbn in *.
  - destruct (ic_x q); [|contradiction]. tauto.
  - destruct (ic_y q); [|contradiction]. tauto.
  - destruct (ic_v q); [|contradiction]. tauto.
Qed.

Lemma holds2_set (h : heap N) c y n g s adr b : apart c (Some adr) -> holds2 h c y n g s -> holds2 (set_nth adr b h) c y n g s.
Proof.
  destruct c as [d|], y; cbn; auto. intros D (H1 & H2 & H3 & H4). rewrite set_nth_length, buf_set_neq by auto. auto.
Qed.
Lemma holds3_set (h : heap N) c x n g f s adr b : apart c (Some adr) -> holds3 h c x n g f s -> holds3 (set_nth adr b h) c x n g f s.
Proof.
  destruct c as [d|], x; cbn; auto. intros D (H1 & H2 & H3 & H4). rewrite set_nth_length, buf_set_neq by auto. auto.
Qed.
Lemma apart_sym c d : apart c d -> apart d c.
Proof. destruct c, d; cbn; auto. Qed.

Lemma write_x h o q adr x : mrel h o q -> m_x o = Some adr -> shaped3 (m_n o) (m_gpa o ^ length (m_sel o)) (length (m_cs o)) x ->
  mrel (set_nth adr (x_buffer (length (m_cs o)) x) h) o (mkiceobj (ic_alg q) (ic_centered q) (ic_predict q) (Some x) (ic_y q) (ic_v q)).
Proof.
  intros H E SH. pose proof (mrel_cached h o q adr H (or_introl E)) as [Ha Hs]. destruct H as (A & (S1 & S2 & S3) & C & F & H1 & H2 & H3 & P1 & P2 & P3).
  unfold mrel. cbn [ic_alg ic_centered ic_predict ic_x ic_y ic_v]. rewrite set_nth_length, (buf_set_neq h adr (m_samples o)) by exact Hs.
  rewrite E in *. refine (conj A (conj (conj S1 (conj S2 S3)) (conj C (conj F (conj _ (conj _ (conj _ (conj P1 (conj P2 P3))))))))).
  - cbn. rewrite set_nth_length, buf_set_eq by exact Ha. auto.
  - apply holds2_set; [apply apart_sym, P1|exact H2].
  - apply holds2_set; [apply apart_sym, P2|exact H3].
Qed.
Lemma write_y h o q adr y : mrel h o q -> m_y o = Some adr -> shaped2 (m_n o) (m_gpa o ^ length (m_sel o)) y ->
  mrel (set_nth adr (concat y) h) o (mkiceobj (ic_alg q) (ic_centered q) (ic_predict q) (ic_x q) (Some y) (ic_v q)).
Proof.
  intros H E SH. pose proof (mrel_cached h o q adr H (or_intror (or_introl E))) as [Ha Hs]. destruct H as (A & (S1 & S2 & S3) & C & F & H1 & H2 & H3 & P1 & P2 & P3).
  unfold mrel. cbn [ic_alg ic_centered ic_predict ic_x ic_y ic_v]. rewrite set_nth_length, (buf_set_neq h adr (m_samples o)) by exact Hs.
  rewrite E in *. refine (conj A (conj (conj S1 (conj S2 S3)) (conj C (conj F (conj _ (conj _ (conj _ (conj P1 (conj P2 P3))))))))).
  - apply holds3_set; [exact P1|exact H1].
  - cbn. rewrite set_nth_length, buf_set_eq by exact Ha. auto.
  - apply holds2_set; [apply apart_sym, P3|exact H3].
Qed.
Lemma write_v h o q adr v : mrel h o q -> m_v o = Some adr -> shaped2 (m_n o) (m_gpa o ^ length (m_sel o)) v ->
  mrel (set_nth adr (concat v) h) o (mkiceobj (ic_alg q) (ic_centered q) (ic_predict q) (ic_x q) (ic_y q) (Some v)).
Proof.
  intros H E SH. pose proof (mrel_cached h o q adr H (or_intror (or_intror E))) as [Ha Hs]. destruct H as (A & (S1 & S2 & S3) & C & F & H1 & H2 & H3 & P1 & P2 & P3).
  unfold mrel. cbn [ic_alg ic_centered ic_predict ic_x ic_y ic_v]. rewrite set_nth_length, (buf_set_neq h adr (m_samples o)) by exact Hs.
  rewrite E in *. refine (conj A (conj (conj S1 (conj S2 S3)) (conj C (conj F (conj _ (conj _ (conj _ (conj P1 (conj P2 P3))))))))).
  - apply holds3_set; [exact P2|exact H1].
  - apply holds2_set; [exact P3|exact H2].
  - cbn. rewrite set_nth_length, buf_set_eq by exact Ha. auto.
Qed.
Lemma apart_samples h o q : mrel h o q -> forall c, c = m_x o \/ c = m_y o \/ c = m_v o -> apart c (Some (m_samples o)).
Proof.
  intros H c Hc. destruct c as [adr|]; [|exact I]. cbn. apply (mrel_cached h o q adr H). unfold cached. intuition congruence.
Qed.
Lemma write_samples h o q s : mrel h o q -> shaped2 (m_n o) (length (m_cs o)) s ->
  mrel (set_nth (m_samples o) (concat s) h) o
    (mkiceobj (mkalg (a_cs (ic_alg q)) (a_sel (ic_alg q)) s (a_gpa (ic_alg q))) (ic_centered q) (ic_predict q) (ic_x q) (ic_y q) (ic_v q)).
Proof.
  intros H SH. pose proof (apart_samples h o q H) as AP. destruct H as (A & (S1 & S2 & S3) & C & F & H1 & H2 & H3 & P).
  unfold mrel. cbn [ic_alg ic_centered ic_predict ic_x ic_y ic_v a_cs a_sel a_gpa a_samples]. rewrite set_nth_length, buf_set_eq by exact S2.
  refine (conj A (conj (conj SH (conj S2 eq_refl)) (conj C (conj F (conj _ (conj _ (conj _ P))))))).
  - apply holds3_set; [apply AP; auto|exact H1].
  - apply holds2_set; [apply AP; auto|exact H2].
  - apply holds2_set; [apply AP; auto|exact H3].
Qed.


Lemma hit_x h o q : mrel h o q -> match m_x o, ic_x q with None, None => True
  | Some adr, Some v => adr < length h /\ x_view (m_n o) (length (m_cs o)) (m_gpa o ^ length (m_sel o)) (buf h adr) = v | _, _ => False end.
Proof.
  intros (_ & _ & _ & _ & H & _). destruct (m_x o), (ic_x q); cbn in H; auto. destruct H as (H1 & H2 & H3 & H4). split; [exact H1|].
  rewrite H3. apply view_buffer, H4.
Qed.
Lemma hit_y h o q : mrel h o q -> match m_y o, ic_y q with None, None => True
  | Some adr, Some v => adr < length h /\ rows_view (m_n o) (m_gpa o ^ length (m_sel o)) (buf h adr) = v | _, _ => False end.
Proof.
  intros (_ & _ & _ & _ & _ & H & _). destruct (m_y o), (ic_y q); cbn in H; auto. destruct H as (H1 & H2 & H3 & H4). split; [exact H1|].
  rewrite H3. apply rows_concat, H4.
Qed.
Lemma hit_v h o q : mrel h o q -> match m_v o, ic_v q with None, None => True
  | Some adr, Some v => adr < length h /\ rows_view (m_n o) (m_gpa o ^ length (m_sel o)) (buf h adr) = v | _, _ => False end.
Proof.
  intros (_ & _ & _ & _ & _ & _ & H & _). destruct (m_v o), (ic_v q); cbn in H; auto. destruct H as (H1 & H2 & H3 & H4). split; [exact H1|].
  rewrite H3. apply rows_concat, H4.
Qed.
Definition read_x_sim h o q H := read_sim m_x ic_x (fun o b v => x_view (m_n o) (length (m_cs o)) (m_gpa o ^ length (m_sel o)) b = v) h o q H hit_x.
Definition read_y_sim h o q H := read_sim m_y ic_y (fun o b v => rows_view (m_n o) (m_gpa o ^ length (m_sel o)) b = v) h o q H hit_y.
Definition read_v_sim h o q H := read_sim m_v ic_v (fun o b v => rows_view (m_n o) (m_gpa o ^ length (m_sel o)) b = v) h o q H hit_v.

(** what one operation on memory does: the same as on values; only cached arrays and the samples change *)
Definition steps_alike (h : heap N) (o : mice N) (q : ice N) (op : mop N) (pp : pop) (h' : heap N) (o' : mice N) : Prop :=
  m_step h o op = (h', o', snd (p_step q pp)) /\ mrel h' o' (fst (p_step q pp)) /\ same_object o o' /\ preserves h o h' o' /\
  (is_write_samples op = false -> buf h' (m_samples o) = buf h (m_samples o)).

Lemma preserves_read h o h' o' : keeps h h' -> (forall adr, cached o' adr -> cached o adr \/ length h <= adr) -> preserves h o h' o'.
Proof.
  intros [L K] A. split; [exact L|]. intros adr H1 H2. split; [intros _; apply K, H1|]. intro C. destruct (A adr C); [contradiction|lia].
Qed.
Lemma preserves_write h o h' o' adr b : preserves h o h' o' -> cached o' adr -> preserves h o (set_nth adr b h') o'.
Proof.
  intros [L K] C. split; [rewrite set_nth_length; exact L|]. intros c H1 H2. destruct (K c H1 H2) as [K1 K2]. split; [|exact K2].
  intro H3. rewrite buf_set_neq; [apply K1, H3|]. intros ->. contradiction.
Qed.

Lemma step_sim h o q op pp : mrel h o q -> matches (m_n o) (length (m_cs o)) (m_gpa o ^ length (m_sel o)) op pp ->
  exists h' o', steps_alike h o q op pp h' o'.
Proof.
  intros H M. assert (Hs : m_samples o < length h) by apply H.
  destruct op; destruct pp as [[| | | | |]| | | |]; cbn in M; try contradiction; unfold steps_alike; cbn [m_step p_step ice_step is_write_samples].
  - destruct (read_x_sim h o q H) as (h' & o' & K & R & SO & AD & Z). unfold read_x. destruct (read_field ic_x q) as [q' r]. cbn [fst snd] in *.
    exists h', o'. refine (conj _ (conj R (conj SO (conj (preserves_read _ _ _ _ K AD) (fun _ => proj2 K _ Hs))))).
    pose proof SO as (O1 & O2 & O3 & O4 & O5). destruct r as [v|e]; [destruct Z as (adr & -> & _ & _ & Z); rewrite O1, O2, O3, O4 in Z; rewrite Z|rewrite Z]; reflexivity.
  - destruct (read_y_sim h o q H) as (h' & o' & K & R & SO & AD & Z). unfold read_y. destruct (read_field ic_y q) as [q' r]. cbn [fst snd] in *.
    exists h', o'. refine (conj _ (conj R (conj SO (conj (preserves_read _ _ _ _ K AD) (fun _ => proj2 K _ Hs))))).
    pose proof SO as (O1 & O2 & O3 & O4 & O5). destruct r as [v|e]; [destruct Z as (adr & -> & _ & _ & Z); rewrite O2, O3, O4 in Z; rewrite Z|rewrite Z]; reflexivity.
  - destruct (read_v_sim h o q H) as (h' & o' & K & R & SO & AD & Z). unfold read_v. destruct (read_field ic_v q) as [q' r]. cbn [fst snd] in *.
    exists h', o'. refine (conj _ (conj R (conj SO (conj (preserves_read _ _ _ _ K AD) (fun _ => proj2 K _ Hs))))).
    pose proof SO as (O1 & O2 & O3 & O4 & O5). destruct r as [v|e]; [destruct Z as (adr & -> & _ & _ & Z); rewrite O2, O3, O4 in Z; rewrite Z|rewrite Z]; reflexivity.
  - eexists _, _. split; [reflexivity|]. split; [|split; [|split; [|reflexivity]]].
    + destruct H as (A & S & C & F & _). refine (conj A (conj S (conj C (conj F _)))). cbn. auto 10.
    + repeat split.
    + split; [lia|]. intros adr Ha Hc. split; [reflexivity|]. unfold cached. cbn. intuition discriminate.
  - subst b0. eexists _, _. split; [reflexivity|]. split; [|split; [|split; [|reflexivity]]].
    + destruct H as (A & S & C & F & H). exact (conj A (conj S (conj eq_refl (conj F H)))).
    + repeat split.
    + split; [lia|]. intros adr Ha Hc. split; [reflexivity|]. exact Hc.
  - eexists _, _. split; [reflexivity|]. split; [|split; [|split; [|reflexivity]]].
    + destruct H as (A & S & C & F & H). exact (conj A (conj S (conj C (conj M H)))).
    + repeat split.
    + split; [lia|]. intros adr Ha Hc. split; [reflexivity|]. exact Hc.
  - destruct M as [<- M]. destruct (read_x_sim h o q H) as (h' & o' & K & R & SO & AD & Z). unfold read_x. destruct (read_field ic_x q) as [q' r]. cbn [fst snd] in *.
    pose proof SO as (O1 & O2 & O3 & O4 & O5). destruct r as [v|e].
    + destruct Z as (adr & -> & Ea & _ & _). exists (set_nth adr (x_buffer (length (m_cs o)) x) h'), o'.
      rewrite <- O1, <- O2, <- O3, <- O4 in M. assert (Cd : cached o' adr) by (left; exact Ea). destruct (mrel_cached h' o' q' adr R Cd) as [_ Ns].
      refine (conj eq_refl (conj _ (conj SO (conj (preserves_write _ _ _ _ _ _ (preserves_read _ _ _ _ K AD) Cd) _)))).
      * rewrite <- O1. apply write_x; assumption.
      * intros _. rewrite buf_set_neq by (rewrite <- O5; exact Ns). apply K, Hs.
    + exists h', o'. rewrite Z. exact (conj eq_refl (conj R (conj SO (conj (preserves_read _ _ _ _ K AD) (fun _ => proj2 K _ Hs))))).
  - destruct M as [<- M]. destruct (read_y_sim h o q H) as (h' & o' & K & R & SO & AD & Z). unfold read_y. destruct (read_field ic_y q) as [q' r]. cbn [fst snd] in *.
    pose proof SO as (O1 & O2 & O3 & O4 & O5). destruct r as [v|e].
    + destruct Z as (adr & -> & Ea & _ & _). exists (set_nth adr (concat y) h'), o'.
      rewrite <- O2, <- O3, <- O4 in M. assert (Cd : cached o' adr) by (right; left; exact Ea). destruct (mrel_cached h' o' q' adr R Cd) as [_ Ns].
      refine (conj eq_refl (conj _ (conj SO (conj (preserves_write _ _ _ _ _ _ (preserves_read _ _ _ _ K AD) Cd) _)))).
      * apply write_y; assumption.
      * intros _. rewrite buf_set_neq by (rewrite <- O5; exact Ns). apply K, Hs.
    + exists h', o'. rewrite Z. exact (conj eq_refl (conj R (conj SO (conj (preserves_read _ _ _ _ K AD) (fun _ => proj2 K _ Hs))))).
  - destruct M as [<- M]. destruct (read_v_sim h o q H) as (h' & o' & K & R & SO & AD & Z). unfold read_v. destruct (read_field ic_v q) as [q' r]. cbn [fst snd] in *.
    pose proof SO as (O1 & O2 & O3 & O4 & O5). destruct r as [w|e].
    + destruct Z as (adr & -> & Ea & _ & _). exists (set_nth adr (concat v) h'), o'.
      rewrite <- O2, <- O3, <- O4 in M. assert (Cd : cached o' adr) by (right; right; exact Ea). destruct (mrel_cached h' o' q' adr R Cd) as [_ Ns].
      refine (conj eq_refl (conj _ (conj SO (conj (preserves_write _ _ _ _ _ _ (preserves_read _ _ _ _ K AD) Cd) _)))).
      * apply write_v; assumption.
      * intros _. rewrite buf_set_neq by (rewrite <- O5; exact Ns). apply K, Hs.
    + exists h', o'. rewrite Z. exact (conj eq_refl (conj R (conj SO (conj (preserves_read _ _ _ _ K AD) (fun _ => proj2 K _ Hs))))).
  - destruct M as [<- M]. exists (set_nth (m_samples o) (concat s) h), o. refine (conj eq_refl (conj (write_samples h o q s H M) (conj _ (conj _ _)))).
    + repeat split.
    + split; [rewrite set_nth_length; lia|]. intros adr Ha Hc. split; [|exact Hc]. intro Hn. apply buf_set_neq. congruence.
    + discriminate.
Qed.

Lemma preserves_trans h o h1 o1 h2 o2 : m_samples o1 = m_samples o -> preserves h o h1 o1 -> preserves h1 o1 h2 o2 -> preserves h o h2 o2.
Proof.
  intros E [L1 K1] [L2 K2]. split; [lia|]. intros adr Ha Hc. destruct (K1 adr Ha Hc) as [A1 A2]. destruct (K2 adr ltac:(lia) A2) as [B1 B2].
  split; [|exact B2]. intro Hn. rewrite B1 by congruence. apply A1, Hn.
Qed.

Lemma run_sim ops : forall pops h o q, mrel h o q -> Forall2 (matches (m_n o) (length (m_cs o)) (m_gpa o ^ length (m_sel o))) ops pops ->
  exists h' o', m_run h o ops = (h', o', snd (p_run q pops)) /\ mrel h' o' (fst (p_run q pops)) /\ same_object o o' /\ preserves h o h' o' /\
  (forallb (fun op => negb (is_write_samples op)) ops = true -> buf h' (m_samples o) = buf h (m_samples o)).
Proof.
  induction ops as [|op t IH]; intros pops h o q H F; inversion F as [|? pp ? pt M F' E1 E2]; subst; cbn [m_run p_run forallb].
  - exists h, o. refine (conj eq_refl (conj H (conj _ (conj _ (fun _ => eq_refl))))); [repeat split|]. split; [lia|]. auto.
  - destruct (step_sim h o q op pp H M) as (h1 & o1 & S1 & R1 & SO1 & P1 & W1). rewrite S1. destruct (p_step q pp) as [q1 r]. cbn [fst snd] in *.
    pose proof SO1 as (O1 & O2 & O3 & O4 & O5). destruct (IH pt h1 o1 q1 R1) as (h2 & o2 & S2 & R2 & SO2 & P2 & W2).
    + rewrite O1, O2, O3, O4. exact F'.
    + rewrite S2. destruct (p_run q1 pt) as [q2 rs]. cbn [fst snd] in *. exists h2, o2.
      refine (conj eq_refl (conj R2 (conj _ (conj (preserves_trans _ _ _ _ _ _ O5 P1 P2) _)))).
      * destruct SO2 as (Z1 & Z2 & Z3 & Z4 & Z5). repeat split; congruence.
      * intro B. apply andb_true_iff in B. destruct B as [B1 B2]. rewrite <- O5, W2, O5 by exact B2. apply W1. destruct (is_write_samples op); [discriminate|reflexivity].
Qed.

Lemma new_related h (a : algorithm N) adr mp p : rect (num_features a) (a_samples a) -> adr < length h -> buf h adr = concat (a_samples a) -> fresh mp p ->
  mrel h (m_new a adr mp) (ice_new a p).
Proof.
  intros RC L B F. unfold mrel, m_new, ice_new. cbn. refine (conj (conj eq_refl (conj eq_refl eq_refl)) (conj (conj (conj eq_refl RC) (conj L B)) _)). auto 10.
Qed.

(** ** C94 *)
Lemma run_new (h : heap N) (a : algorithm N) adr mp p ops pops : set_up h a adr mp p -> Forall2 (fits a) ops pops ->
  exists h' o', m_run h (m_new a adr mp) ops = (h', o', snd (p_run (ice_new a p) pops)) /\ mrel h' o' (fst (p_run (ice_new a p) pops)) /\
  same_object (m_new a adr mp) o' /\ preserves h (m_new a adr mp) h' o' /\
  (forallb (fun op => negb (is_write_samples op)) ops = true -> buf h' adr = buf h adr).
Proof.
  intros (RC & L & B & F) M. exact (run_sim ops pops h (m_new a adr mp) (ice_new a p) (new_related h a adr mp p RC L B F) M).
Qed.

Theorem as_values (h : heap N) (a : algorithm N) adr mp p ops pops : set_up h a adr mp p -> Forall2 (fits a) ops pops ->
  snd (m_run h (m_new a adr mp) ops) = snd (p_run (ice_new a p) pops) /\
  (forall c, c < length h -> c <> adr -> buf (fst (fst (m_run h (m_new a adr mp) ops))) c = buf h c) /\
  (forallb (fun op => negb (is_write_samples op)) ops = true -> buf (fst (fst (m_run h (m_new a adr mp) ops))) adr = buf h adr).
Proof.
  intros S M. destruct (run_new h a adr mp p ops pops S M) as (h' & o' & E & _ & _ & [_ P] & W). rewrite E. cbn [fst snd].
  refine (conj eq_refl (conj _ W)). intros c Hc Hn. apply P; [exact Hc| |exact Hn]. unfold cached. cbn. intuition discriminate.
Qed.

Lemma run_app (ops1 : list (mop N)) : forall (ops2 : list (mop N)) (h : heap N) (o : mice N), m_run h o (ops1 ++ ops2) =
  let '(h1, o1, r1) := m_run h o ops1 in let '(h2, o2, r2) := m_run h1 o1 ops2 in (h2, o2, r1 ++ r2).
Proof.
  induction ops1 as [|op t IH]; intros ops2 h o; cbn.
  - destruct (m_run h o ops2) as [[h2 o2] r2]. reflexivity.
  - destruct (m_step h o op) as [[h1 o1] r]. rewrite IH. destruct (m_run h1 o1 t) as [[h2 o2] r2]. destruct (m_run h2 o2 ops2) as [[h3 o3] r3]. reflexivity.
Qed.

(** an array handed out before a reset keeps its contents whatever is done afterwards *)
Theorem handed_out (h : heap N) (a : algorithm N) adr mp p ops pops ops' pops' : set_up h a adr mp p -> Forall2 (fits a) ops pops -> Forall2 (fits a) ops' pops' ->
  let h1 := fst (fst (m_run h (m_new a adr mp) ops)) in
  let h2 := fst (fst (m_run h (m_new a adr mp) (ops ++ MReset :: ops'))) in
  forall c, c < length h1 -> c <> adr -> buf h2 c = buf h1 c.
Proof.
  intros S M M' h1 h2 c Hc Hn. unfold h2. rewrite run_app. destruct (run_new h a adr mp p ops pops S M) as (h' & o' & E & R & SO & _).
  unfold h1 in *. rewrite E in *. cbn [fst snd] in *. pose proof SO as (O1 & O2 & O3 & O4 & O5).
  destruct (run_sim (MReset :: ops') (PIceOp OReset :: pops') h' o' _ R) as (h3 & o3 & E3 & _).
  { constructor; [exact I|]. rewrite O1, O2, O3, O4. exact M'. }
  destruct (step_sim h' o' _ MReset (PIceOp OReset) R I) as (h4 & o4 & S4 & R4 & SO4 & _). cbn [m_step] in S4. injection S4 as <- <-.
  cbn [m_run m_step]. set (o5 := mkm _ _ _ _ _ _ _ _ _ _) in *.
  destruct (run_sim ops' pops' h' o5 _ R4) as (h6 & o6 & E6 & _ & _ & [_ P6] & _).
  { cbn. rewrite O1, O2, O3, O4. exact M'. }
  rewrite E6. cbn [fst snd]. destruct (P6 c Hc) as [Z _]; [unfold cached; cbn; intuition discriminate|]. apply Z. cbn. rewrite O5. exact Hn.
Qed.

(** ** curves *)
Definition together (o : mice N) : Prop :=
  (m_x o = None /\ m_y o = None /\ m_v o = None) \/ (m_x o <> None /\ m_y o <> None /\ m_v o <> None).
Lemma together_calculate h o : together o -> together (snd (fst (m_calculate h o))).
Proof.
  intro T. unfold m_calculate. destruct (ice_x (alg_at h o)); [|exact T]. destruct (m_predict o _ _) as [h3 [[ma sa]|e]]; [|exact T].
  destruct (reshape2 n0 (buf h3 ma) _ _); [|exact T]. destruct (reshape2 n0 (buf h3 sa) _ _); [|exact T].
  destruct (if m_centered o then _ else _); [|exact T]. right. cbn. repeat split; discriminate.
Qed.
Lemma together_read mf h o : together o -> together (snd (fst (m_read mf h o))).
Proof.
  intro T. unfold m_read. destruct (mf o); [exact T|]. pose proof (together_calculate h o T) as T'.
  destruct (m_calculate h o) as [[h1 o1] [u|e]]; exact T'.
Qed.
Lemma together_step h o op : together o -> together (snd (fst (m_step h o op))).
Proof.
  intro T. destruct op; cbn [m_step]; try exact T; try (left; cbn; auto; fail).
  - pose proof (together_read m_x h o T) as T'. destruct (m_read m_x h o) as [[h1 o1] [u|e]]; exact T'.
  - pose proof (together_read m_y h o T) as T'. destruct (m_read m_y h o) as [[h1 o1] [u|e]]; exact T'.
  - pose proof (together_read m_v h o T) as T'. destruct (m_read m_v h o) as [[h1 o1] [u|e]]; exact T'.
  - pose proof (together_read m_x h o T) as T'. destruct (m_read m_x h o) as [[h1 o1] [u|e]]; exact T'.
  - pose proof (together_read m_y h o T) as T'. destruct (m_read m_y h o) as [[h1 o1] [u|e]]; exact T'.
  - pose proof (together_read m_v h o T) as T'. destruct (m_read m_v h o) as [[h1 o1] [u|e]]; exact T'.
Qed.
Lemma together_run ops : forall h o, together o -> together (snd (fst (m_run h o ops))).
Proof.
  induction ops as [|op t IH]; intros h o T; cbn [m_run]; [exact T|]. pose proof (together_step h o op T) as T'.
  destruct (m_step h o op) as [[h1 o1] r]. cbn [fst snd] in T'. specialize (IH h1 o1 T'). destruct (m_run h1 o1 t) as [[h2 o2] rs]. exact IH.
Qed.

Lemma getitem_closed h o q i h2 o2 c : mrel h o q -> together o -> m_getitem h o i = (h2, o2, Ok c) ->
  mrel h2 o2 (fst (read_x q)) /\ same_object o o2 /\ i < m_n o /\
  exists y, m_y o2 = Some (c_y c) /\ ic_y (fst (read_x q)) = Some y /\ c_i c = i /\ c_n c = m_n o /\ c_g c = m_gpa o ^ length (m_sel o).
Proof.
  intros H T. unfold m_getitem. destruct (read_x_sim h o q H) as (h' & o' & K & R & SO & AD & Z). pose proof (together_read m_x h o T) as T'.
  unfold read_x. destruct (snd (read_field ic_x q)) as [v|e]; [destruct Z as (ax & Z & Ex & _)|rewrite Z; discriminate].
  rewrite Z in *. cbn [fst snd] in T'. destruct (Nat.ltb i (m_n o)) eqn:Li; [|discriminate]. cbn [negb].
  destruct T' as [[T1 _]|(_ & T2 & T3)]; [congruence|]. destruct (m_y o') as [ay|] eqn:Ey; [|contradiction]. destruct (m_v o') as [av|] eqn:Ev; [|contradiction].
  unfold m_read. rewrite Ey, Ev. intro V. injection V as <- <- <-. refine (conj R (conj SO (conj _ _))).
  - apply Nat.ltb_lt, Li.
  - pose proof (hit_y h' o' _ R) as HY. rewrite Ey in HY. destruct (ic_y (fst (read_field ic_x q))) as [y|]; [|contradiction]. exists y. auto.
Qed.

Lemma shaped_set n g (y : list (list N)) i row : shaped2 n g y -> length row = g -> shaped2 n g (set_nth i row y).
Proof.
  intros [L F] E. split; [rewrite set_nth_length; exact L|]. apply Forall_forall. intros r Hr. apply In_nth with (d := []) in Hr.
  destruct Hr as (k & Hk & <-). rewrite set_nth_length in Hk. destruct (Nat.eq_dec i k) as [<-|D].
  - rewrite nth_set_nth_eq by exact Hk. exact E.
  - rewrite nth_set_nth_neq by exact D. apply (proj1 (Forall_forall _ _) F), nth_In, Hk.
Qed.

(** a curve is a view of row [i]: writes through either are seen through the other *)
Theorem curve_is_view (h : heap N) (a : algorithm N) adr mp p ops pops i h1 o1 r h2 o2 c : set_up h a adr mp p -> Forall2 (fits a) ops pops ->
  m_run h (m_new a adr mp) ops = (h1, o1, r) -> m_getitem h1 o1 i = (h2, o2, Ok c) ->
  exists y, snd (m_step h2 o2 MReadY) = ROutY (Ok y) /\ i < length y /\ curve_y h2 c = nth i y [] /\
  (forall row, length row = num_grid_points a -> snd (m_step (curve_write_y h2 c row) o2 MReadY) = ROutY (Ok (set_nth i row y))) /\
  (forall y', shaped2 (num_samples a) (num_grid_points a) y' -> curve_y (fst (fst (m_step h2 o2 (MWriteY y')))) c = nth i y' []).
Proof.
  intros S M E1 E2. destruct (run_new h a adr mp p ops pops S M) as (h1' & o1' & E & R & SO & _). rewrite E1 in E. injection E as <- <- ->.
  assert (T : together o1).
  { pose proof (together_run ops h (m_new a adr mp)) as T. rewrite E1 in T. apply T. left. cbn. auto. }
  destruct (getitem_closed h1 o1 _ i h2 o2 c R T E2) as (R2 & SO2 & Li & y & Ey & Eq & C1 & C2 & C3).
  pose proof R2 as (_ & _ & _ & _ & _ & HY & _). rewrite Ey, Eq in HY. destruct HY as (H1 & H2 & H3 & H4).
  destruct SO as (O1 & O2 & O3 & O4 & O5). destruct SO2 as (Q1 & Q2 & Q3 & Q4 & Q5).
  assert (Hn : m_n o2 = num_samples a) by (rewrite Q4; exact O4).
  assert (Hg : m_gpa o2 ^ length (m_sel o2) = num_grid_points a) by (rewrite Q3, Q2, O3, O2; reflexivity).
  assert (Hn' : c_n c = num_samples a) by (rewrite C2; exact O4).
  assert (Hg' : c_g c = num_grid_points a) by (rewrite C3, O3, O2; reflexivity). rewrite Hn, Hg in H4.
  exists y. cbn [m_step]. unfold m_read. rewrite Ey, Hn, Hg. cbn [fst snd].
  refine (conj _ (conj _ (conj _ (conj _ _)))).
  - rewrite H3, rows_concat by exact H4. reflexivity.
  - rewrite (proj1 H4). rewrite O4 in Li. exact Li.
  - unfold curve_y. rewrite C1, Hn', Hg', H3, rows_concat by exact H4. reflexivity.
  - intros row Hr. unfold curve_write_y. rewrite C1, Hn', Hg', H3, rows_concat, buf_set_eq, rows_concat by (auto using shaped_set). reflexivity.
  - intros y' Hy. unfold curve_y. rewrite C1, Hn', Hg', buf_set_eq, rows_concat by auto. reflexivity.
Qed.

(** ** the samples *)
Definition safe_state (h : heap N) (o : mice N) (adr : nat) : Prop := m_samples o = adr /\ adr < length h /\ harmless adr (m_predict o) /\ ~ cached o adr.

Lemma safe_calculate h o adr h' o' r : safe_state h o adr -> m_calculate h o = (h', o', r) -> safe_state h' o' adr /\ buf h' adr = buf h adr.
Proof.
  intros (E & L & HM & NC). unfold m_calculate. destruct (ice_x (alg_at h o)) as [x|e]; [|intro V; injection V as <- <- <-; exact (conj (conj E (conj L (conj HM NC))) eq_refl)].
  set (f := length (m_cs o)). set (n := m_n o). set (g := num_grid_points (alg_at h o)). set (h1 := h ++ [x_buffer f x]).
  set (h2 := if shares n f g then h1 else h1 ++ [concat (concat x)]).
  set (arg := mkarg (if shares n f g then length h else S (length h)) (shares n f g) n f g).
  assert (K : keeps h h2).
  { unfold h2. destruct (shares n f g); [apply keeps_app|]. eapply keeps_trans; apply keeps_app. }
  assert (NA : g_adr arg <> adr) by (unfold arg; cbn [g_adr]; destruct (shares n f g); lia).
  destruct K as [KL KB]. destruct (HM h2 arg (Nat.lt_le_trans _ _ _ L KL) NA) as (L3 & B3 & M3). destruct (m_predict o h2 arg) as [h3 [[ma sa]|e]]; cbn [fst snd] in *.
  - assert (SS : safe_state h3 o adr /\ buf h3 adr = buf h adr).
    { split; [|rewrite B3; apply KB, L]. refine (conj E (conj _ (conj HM NC))). lia. }
    destruct (reshape2 n0 (buf h3 ma) n g) as [y|e1]; [|intro V; injection V as <- <- <-; exact SS].
    destruct (reshape2 n0 (buf h3 sa) n g) as [sd|e1]; [|intro V; injection V as <- <- <-; exact SS].
    set (h4 := h3 ++ [map (fun s => nmul s s) (buf h3 sa)]). destruct SS as [(_ & L3' & _) B].
    assert (B4 : buf h4 adr = buf h adr) by (unfold h4; rewrite (proj2 (keeps_app h3 _)); assumption).
    assert (L4 : adr < length h4) by (unfold h4; rewrite app_length; lia).
    specialize (M3 ma sa eq_refl).
    destruct (if m_centered o then center_rows g y else Ok y) as [y'|e1]; intro V; injection V as <- <- <-.
    + split.
      * refine (conj E (conj _ (conj HM _))).
        -- destruct (m_centered o); [rewrite set_nth_length|]; exact L4.
        -- unfold cached. cbn. intros [Z|[Z|Z]]; injection Z as Z; [lia|exact (M3 Z)|lia].
      * destruct (m_centered o); [rewrite buf_set_neq by exact M3|]; exact B4.
    + split; [exact (conj E (conj L4 (conj HM NC)))|exact B4].
  - intro V. injection V as <- <- <-. split; [|rewrite B3; apply KB, L]. refine (conj E (conj _ (conj HM NC))). lia.
Qed.
Lemma safe_read mf h o adr h' o' r : safe_state h o adr -> (forall o b, mf o = Some b -> cached o b) -> m_read mf h o = (h', o', r) ->
  safe_state h' o' adr /\ buf h' adr = buf h adr /\ forall b, r = Ok b -> b <> adr.
Proof.
  intros S MC. unfold m_read. destruct (mf o) as [b|] eqn:Em.
  - intro V. injection V as <- <- <-. refine (conj S (conj eq_refl _)). intros b' Z. injection Z as <-. destruct S as (_ & _ & _ & NC). intros ->. apply NC, MC, Em.
  - destruct (m_calculate h o) as [[h1 o1] [u|e]] eqn:Ec; destruct (safe_calculate h o adr _ _ _ S Ec) as [S1 B1]; intro V; injection V as <- <- <-.
    + refine (conj S1 (conj B1 _)). intros b Z. destruct (mf o1) as [b1|] eqn:Em1; [|discriminate]. injection Z as <-. destruct S1 as (_ & _ & _ & NC). intros ->. apply NC, MC, Em1.
    + refine (conj S1 (conj B1 _)). discriminate.
Qed.
Lemma safe_write h o adr b c : safe_state h o adr -> b <> adr -> safe_state (set_nth b c h) o adr /\ buf (set_nth b c h) adr = buf h adr.
Proof. intros (E & L & HM & NC) D. split; [refine (conj E (conj _ (conj HM NC))); rewrite set_nth_length; exact L|]. apply buf_set_neq, D. Qed.
Lemma safe_step h o adr op h' o' r : safe_state h o adr -> safe_op adr op -> m_step h o op = (h', o', r) -> safe_state h' o' adr /\ buf h' adr = buf h adr.
Proof.
  intros S SO. destruct op; cbn [m_step]; cbn in SO; try contradiction.
  - destruct (m_read m_x h o) as [[h1 o1] [b|e]] eqn:Er; destruct (safe_read m_x h o adr _ _ _ S ltac:(unfold cached; auto) Er) as (S1 & B1 & N1);
      intro V; injection V as <- <- <-; auto.
  - destruct (m_read m_y h o) as [[h1 o1] [b|e]] eqn:Er; destruct (safe_read m_y h o adr _ _ _ S ltac:(unfold cached; auto) Er) as (S1 & B1 & N1);
      intro V; injection V as <- <- <-; auto.
  - destruct (m_read m_v h o) as [[h1 o1] [b|e]] eqn:Er; destruct (safe_read m_v h o adr _ _ _ S ltac:(unfold cached; auto) Er) as (S1 & B1 & N1);
      intro V; injection V as <- <- <-; auto.
  - intro V. injection V as <- <- <-. destruct S as (E & L & HM & NC). split; [|reflexivity]. refine (conj E (conj L (conj HM _))). unfold cached. cbn. intuition discriminate.
  - intro V. injection V as <- <- <-. split; [exact S|reflexivity].
  - intro V. injection V as <- <- <-. destruct S as (E & L & HM & NC). split; [|reflexivity]. exact (conj E (conj L (conj SO NC))).
  - destruct (m_read m_x h o) as [[h1 o1] [b|e]] eqn:Er; destruct (safe_read m_x h o adr _ _ _ S ltac:(unfold cached; auto) Er) as (S1 & B1 & N1);
      intro V; injection V as <- <- <-; auto. rewrite <- B1. apply safe_write; auto.
  - destruct (m_read m_y h o) as [[h1 o1] [b|e]] eqn:Er; destruct (safe_read m_y h o adr _ _ _ S ltac:(unfold cached; auto) Er) as (S1 & B1 & N1);
      intro V; injection V as <- <- <-; auto. rewrite <- B1. apply safe_write; auto.
  - destruct (m_read m_v h o) as [[h1 o1] [b|e]] eqn:Er; destruct (safe_read m_v h o adr _ _ _ S ltac:(unfold cached; auto) Er) as (S1 & B1 & N1);
      intro V; injection V as <- <- <-; auto. rewrite <- B1. apply safe_write; auto.
Qed.
Lemma safe_run ops adr : forall h o, safe_state h o adr -> Forall (safe_op adr) ops -> buf (fst (fst (m_run h o ops))) adr = buf h adr.
Proof.
  induction ops as [|op t IH]; intros h o S F; cbn [m_run]; [reflexivity|]. apply Forall_cons_iff in F. destruct F as [F1 F2].
  destruct (m_step h o op) as [[h1 o1] r] eqn:Es. destruct (safe_step h o adr op _ _ _ S F1 Es) as [S1 B1]. specialize (IH h1 o1 S1 F2).
  destruct (m_run h1 o1 t) as [[h2 o2] rs]. cbn [fst snd] in *. congruence.
Qed.
Theorem samples_untouched (h : heap N) (a : algorithm N) adr mp ops : adr < length h -> harmless adr mp -> Forall (safe_op adr) ops ->
  buf (fst (fst (m_run h (m_new a adr mp) ops))) adr = buf h adr.
Proof.
  intros L HM F. apply safe_run; [|exact F]. refine (conj eq_refl (conj L (conj HM _))). unfold cached. cbn. intuition discriminate.
Qed.

(** ** the argument of predict *)
Theorem argument_is_copy (h : heap N) (a : algorithm N) adr mp x h' o' r : rect (num_features a) (a_samples a) -> adr < length h -> buf h adr = concat (a_samples a) -> scribbles mp ->
  2 <= num_samples a -> 2 <= num_features a -> 2 <= num_grid_points a -> ice_x a = Ok x ->
  m_step h (m_new a adr mp) MReadX = (h', o', ROutX (Ok r)) -> r = x.
Proof.
  intros RC L B SC Gn Gf Gg Ex. cbn [m_step]. unfold m_read. cbn [m_new m_x]. unfold m_calculate.
  assert (EA : alg_at h (m_new a adr mp) = a).
  { unfold alg_at. cbn. rewrite B, rows_concat by (split; [reflexivity|exact RC]). destruct a; reflexivity. }
  rewrite EA, Ex. cbn [m_new m_n m_cs m_centered m_predict m_samples m_sel m_gpa]. fold (num_samples a) (num_features a).
  assert (SH : shares (num_samples a) (num_features a) (num_grid_points a) = false).
  { unfold shares. rewrite !(proj2 (Nat.leb_gt _ _)) by lia. reflexivity. }
  rewrite SH. set (h1 := h ++ [x_buffer (num_features a) x]). set (h2 := h1 ++ [concat (concat x)]).
  assert (L1 : length h1 = S (length h)) by (unfold h1; rewrite app_length; cbn; lia).
  assert (L2 : length h2 = S (length h1)) by (unfold h2; rewrite app_length; cbn; lia).
  set (arg := mkarg (S (length h)) false (num_samples a) (num_features a) (num_grid_points a)).
  destruct (SC h2 arg) as (L3 & B3 & M3). destruct (mp h2 arg) as [h3 [[ma sa]|e]]; [|discriminate]. cbn [fst snd] in *. specialize (M3 ma sa eq_refl).
  destruct (reshape2 n0 (buf h3 ma) _ _) as [y|]; [|discriminate]. destruct (reshape2 n0 (buf h3 sa) _ _) as [sd|]; [|discriminate].
  cbn. intro V. injection V as _ _ <-. rewrite (proj2 (keeps_app h3 _)) by lia. rewrite B3 by (cbn; lia).
  unfold h2. rewrite (proj2 (keeps_app h1 _)) by lia. unfold h1. rewrite buf_app_at. apply view_buffer, ice_x_shaped; assumption.
Qed.

(** ** what the user sees *)
Theorem write_shows (h : heap N) (a : algorithm N) adr mp p d y : set_up h a adr mp p -> ice_calculate a false p = Ok d -> shaped2 (num_samples a) (num_grid_points a) y ->
  snd (m_run h (m_new a adr mp) [MWriteY y; MReadY; MReadX; MReset; MReadY]) =
  [RNone; ROutY (Ok y); ROutX (Ok (i_x d)); RNone; ROutY (Ok (i_y d))].
Proof.
  intros S E SY.
  assert (F : Forall2 (fits a) [MWriteY y; MReadY; MReadX; MReset; MReadY] [PSetY y; PIceOp OReadY; PIceOp OReadX; PIceOp OReset; PIceOp OReadY])
    by (repeat (constructor; [first [exact I|exact (conj eq_refl SY)]|]); constructor).
  rewrite (proj1 (as_values h a adr mp p _ _ S F)).
  cbn. unfold ice_run. cbn. rewrite E. cbn. rewrite E. reflexivity.
Qed.
Theorem samples_after_reset (h : heap N) (a : algorithm N) adr mp p d d' smp : set_up h a adr mp p -> ice_calculate a false p = Ok d -> shaped2 (num_samples a) (num_features a) smp ->
  ice_calculate (mkalg (a_cs a) (a_sel a) smp (a_gpa a)) false p = Ok d' ->
  snd (m_run h (m_new a adr mp) [MReadY; MWriteSamples smp; MReadY; MReadX; MReset; MReadY; MReadX]) =
  [ROutY (Ok (i_y d)); RNone; ROutY (Ok (i_y d)); ROutX (Ok (i_x d)); RNone; ROutY (Ok (i_y d')); ROutX (Ok (i_x d'))].
Proof.
  intros S E SY E'.
  assert (F : Forall2 (fits a) [MReadY; MWriteSamples smp; MReadY; MReadX; MReset; MReadY; MReadX]
    [PIceOp OReadY; PSetSamples smp; PIceOp OReadY; PIceOp OReadX; PIceOp OReset; PIceOp OReadY; PIceOp OReadX])
    by (repeat (constructor; [first [exact I|exact (conj eq_refl SY)]|]); constructor).
  rewrite (proj1 (as_values h a adr mp p _ _ S F)).
  cbn. unfold ice_run. cbn. rewrite E. cbn. rewrite E'. reflexivity.
Qed.

(** such surrogates exist *)
Definition fresh_of (p : predictor N) : mpredictor N := fun h x =>
  match p (arg_rows h x) with Ok (m, s) => (h ++ [m; s], Ok (length h, S (length h))) | Err e => (h, Err e) end.
Lemma fresh_of_fresh p : fresh (fresh_of p) p.
Proof.
  intros h x. unfold fresh_of. destruct (p (arg_rows h x)) as [[m s]|e]; cbn [fst snd].
  - split; [apply keeps_app|]. rewrite app_length. cbn [length]. split; [lia|]. split; [lia|]. unfold buf.
    split; rewrite app_nth2 by lia; [rewrite Nat.sub_diag; reflexivity|]. replace (S (length h) - length h) with 1 by lia. reflexivity.
  - split; [apply keeps_refl|reflexivity].
Qed.
Lemma fresh_of_harmless p adr : harmless adr (fresh_of p).
Proof.
  intros h x L _. unfold fresh_of. destruct (p (arg_rows h x)) as [[m s]|e]; cbn [fst snd].
  - split; [rewrite app_length; lia|]. split; [apply (keeps_app h), L|]. intros ma sa V. injection V as <- _. lia.
  - split; [lia|]. split; [reflexivity|discriminate].
Qed.
(** a surrogate that overwrites its argument with zeros and returns new arrays *)
Definition scribble_of (p : predictor N) : mpredictor N := fun h x =>
  match p (arg_rows h x) with
  | Ok (m, s) => (set_nth (g_adr x) (map (fun _ => n0) (buf h (g_adr x))) h ++ [m; s], Ok (length h, S (length h)))
  | Err e => (h, Err e) end.
Lemma scribble_of_scribbles p : scribbles (scribble_of p).
Proof.
  intros h x. unfold scribble_of. destruct (p (arg_rows h x)) as [[m s]|e]; cbn [fst snd].
  - rewrite app_length, set_nth_length. split; [lia|]. split.
    + intros c Hc Hn. rewrite (proj2 (keeps_app _ _)) by (rewrite set_nth_length; exact Hc). apply buf_set_neq. congruence.
    + intros ma sa V. injection V as <- _. lia.
  - split; [lia|]. split; [auto|discriminate].
Qed.
End P.

(** ** witnesses: two samples, two hyperparameters, two grid points *)
Definition u_cs : cspace QNum := [mkhp "a"%string (KFloat (0#1 : QNum) (1#1 : QNum) false); mkhp "c"%string (KFloat (0#1 : QNum) (1#1 : QNum) false)].
Definition u_alg (samples : list (list QNum)) : algorithm QNum := mkalg u_cs [mkhp "a"%string (KFloat (0#1 : QNum) (1#1 : QNum) false)] samples 2.
Definition u_two : list (list QNum) := [[1#4; 1#2]; [3#4; 1#4]]%Q.
Definition u_predict : predictor QNum := fun rows => Ok (map (fun r => Qred (nth 0 r (0#1) + nth 1 r (0#1))%Q) rows, map (fun r => nth 1 r (0#1)) rows).

(** a surrogate that always returns the two arrays at addresses 1 and 2, which it keeps *)
Definition u_stored : mpredictor QNum := fun h _ => (h, Ok (1, 2)).
Definition u_heap : heap QNum := [concat u_two; [3#1; 4#1; 5#1; 7#1]; [1#1; 1#1; 1#1; 1#1]]%Q.
Definition u_shared : res (ice_out QNum * ice_out QNum * list QNum) :=
  let '(h1, o1, r1) := m_step u_heap (m_new (u_alg u_two) 0 u_stored) MReadY in
  let '(h2, _, _) := m_run h1 (m_new (u_alg u_two) 0 u_stored) [MCenter true; MReadY] in
  let '(h3, _, r2) := m_step h2 o1 MReadY in Ok (r1, r2, buf h3 1).
Theorem shared_changes : u_shared =
  Ok (ROutY (N := QNum) (Ok [[3#1; 4#1]; [5#1; 7#1]]), ROutY (N := QNum) (Ok [[0#1; 1#1]; [0#1; 2#1]]), [0#1; 1#1; 0#1; 2#1])%Q.
Proof. vm_compute. reflexivity. Qed.

Theorem argument_two_samples : snd (m_step [concat u_two] (m_new (u_alg u_two) 0 (scribble_of u_predict)) MReadX) =
  ROutX (N := QNum) (Ok [[[0#1; 1#2]; [1#1; 1#2]]; [[0#1; 1#4]; [1#1; 1#4]]])%Q.
Proof. vm_compute. reflexivity. Qed.
Theorem argument_one_sample : ice_x (u_alg [[1#4; 1#2]]%Q) = Ok [[[0#1; 1#2]; [1#1; 1#2]]]%Q /\
  snd (m_step (N := QNum) [[1#4; 1#2]]%Q (m_new (u_alg [[1#4; 1#2]]%Q) 0 (scribble_of u_predict)) MReadX) = ROutX (N := QNum) (Ok [[[0#1; 0#1]; [0#1; 0#1]]])%Q.
Proof. split; vm_compute; reflexivity. Qed.
