(** IceProofs.v - lemmas about the ICE computation. *)
From Verif Require Import Base Num NumpyModel ConfigSpaceModel UtilsModel IceModel ListLemmas.

(** ** configuration space lookups *)
Section CsLemmas.
Context {N : Num}.

Lemma cs_idx_spec (cs : cspace N) name i :
  cs_idx cs name = Ok i ->
  exists h, nth_error cs i = Some h /\ hp_name h = name /\
            forall j h', j < i -> nth_error cs j = Some h' -> hp_name h' <> name.
Proof.
  revert i; induction cs as [|h t IH]; intros i H; cbn in H; [discriminate|].
  destruct (String.eqb_spec (hp_name h) name) as [E|E].
  - inversion H; subst. exists h. repeat split; auto. intros; lia.
  - inv_bind H. inversion H; subst. destruct (IH _ E0) as (h' & A & B & C).
    exists h'. repeat split; auto. intros [|j] h'' Hj Hn; cbn in Hn; [congruence|].
    eapply C; [|exact Hn]; lia.
Qed.

Lemma cs_get_spec (cs : cspace N) name h :
  cs_get cs name = Ok h -> In h cs /\ hp_name h = name.
Proof.
  induction cs as [|a t IH]; cbn; intro H; [discriminate|].
  destruct (String.eqb_spec (hp_name a) name) as [E|E].
  - inversion H; subst. auto.
  - destruct (IH H). auto.
Qed.

Lemma cs_get_idx (cs : cspace N) name h :
  cs_get cs name = Ok h <-> exists i, cs_idx cs name = Ok i /\ nth_error cs i = Some h.
Proof.
  induction cs as [|a t IH]; cbn.
  - split; [discriminate|]. intros (i & H & _). discriminate.
  - destruct (String.eqb_spec (hp_name a) name) as [E|E].
    + split.
      * intro H. inversion H; subst. exists 0; auto.
      * intros (i & H & Hn). inversion H; subst. cbn in Hn. congruence.
    + rewrite IH. split.
      * intros (i & -> & Hn). exists (S i); auto.
      * intros (i & H & Hn). inv_bind H. inversion H; subst. exists x; auto.
Qed.

Lemma cs_idx_in (cs : cspace N) h : In h cs -> exists i, cs_idx cs (hp_name h) = Ok i.
Proof.
  induction cs as [|a t IH]; cbn; [contradiction|]. intros H.
  destruct (String.eqb_spec (hp_name a) (hp_name h)); [eauto|].
  destruct H as [->|H]; [congruence|]. destruct (IH H) as (i & ->). cbn; eauto.
Qed.

Lemma cs_idx_nodup (cs : cspace N) i h :
  NoDup (map hp_name cs) -> nth_error cs i = Some h -> cs_idx cs (hp_name h) = Ok i.
Proof.
  revert i; induction cs as [|a t IH]; intros i ND H; [destruct i; discriminate|].
  inversion ND as [|? ? Hn ND']; subst. destruct i as [|i]; cbn in *.
  - inversion H; subst. rewrite String.eqb_refl. reflexivity.
  - destruct (String.eqb_spec (hp_name a) (hp_name h)) as [E|E].
    + exfalso. apply Hn. rewrite E. apply in_map. eapply nth_error_In; eassumption.
    + rewrite (IH _ ND' H). reflexivity.
Qed.

Lemma cs_get_nodup (cs : cspace N) h :
  NoDup (map hp_name cs) -> In h cs -> cs_get cs (hp_name h) = Ok h.
Proof.
  intros ND H. apply cs_get_idx. destruct (In_nth_error _ _ H) as (i & Hi).
  exists i; split; [apply cs_idx_nodup; assumption|assumption].
Qed.

Lemma cs_idx_lt (cs : cspace N) name i : cs_idx cs name = Ok i -> i < length cs.
Proof. intro H. apply cs_idx_spec in H. destruct H as (h & H & _). eapply nth_error_Some_lt; eassumption. Qed.

Lemma cs_idx_inj (cs : cspace N) a b i : cs_idx cs a = Ok i -> cs_idx cs b = Ok i -> a = b.
Proof.
  intros Ha Hb. apply cs_idx_spec in Ha, Hb.
  destruct Ha as (h & H & <- & _), Hb as (h' & H' & <- & _). congruence.
Qed.
End CsLemmas.

(** ** numpy layer *)
Section NumpyLemmas.
Context {N : Num}.

Lemma np_repeat_length {A} g (l : list A) : length (np_repeat g l) = length l * g.
Proof. apply flat_map_length_const. intros; apply repeat_length. Qed.

Lemma np_repeat_nth {A} g (l : list A) q k d :
  k < g -> q < length l -> nth (q * g + k) (np_repeat g l) d = nth q l d.
Proof.
  intro Hk. revert q; induction l as [|a l IH]; intros q Hq; cbn in *; [lia|].
  destruct q as [|q].
  - rewrite app_nth1 by (rewrite repeat_length; lia). cbn.
    clear -Hk. revert k Hk; induction g as [|g IH]; intros k Hk; [lia|].
    destruct k; cbn; [reflexivity|]. apply IH; lia.
  - rewrite app_nth2 by (rewrite repeat_length; lia). rewrite repeat_length.
    replace (S q * g + k - g) with (q * g + k) by (cbn; lia). apply IH; lia.
Qed.

Lemma assign_row_length {A} idx (vals row : list A) : length (assign_row idx vals row) = length row.
Proof.
  unfold assign_row. generalize (combine idx vals) as l. intro l. revert row.
  induction l as [|p l IH]; intro row; cbn; [reflexivity|]. rewrite IH, set_nth_length. reflexivity.
Qed.

Lemma assign_row_other {A} idx (vals row : list A) j d :
  ~ In j idx -> nth j (assign_row idx vals row) d = nth j row d.
Proof.
  unfold assign_row. revert vals row; induction idx as [|i idx IH]; intros vals row H; [reflexivity|].
  destruct vals as [|v vals]; cbn; [reflexivity|].
  rewrite IH by (intro; apply H; right; assumption).
  apply nth_set_nth_neq. intro; apply H; left; assumption.
Qed.

Lemma assign_row_at {A} idx (vals row : list A) j t d :
  length vals = length idx -> j < length row ->
  nth_error idx t = Some j -> (forall t', t < t' -> nth_error idx t' <> Some j) ->
  nth j (assign_row idx vals row) d = nth t vals d.
Proof.
  unfold assign_row. revert vals row t; induction idx as [|i idx IH]; intros vals row t HL Hj Ht Hl; [destruct t; discriminate|].
  destruct vals as [|v vals]; cbn in HL; [lia|]. cbn [combine fold_left fst snd].
  destruct t as [|t].
  - cbn in Ht. inversion Ht; subst. change (nth 0 (v :: vals) d) with v.
    rewrite <- (nth_set_nth_eq j v d row Hj) at 2.
    apply (assign_row_other idx vals). intro K. apply In_nth_error in K. destruct K as (t' & K).
    apply (Hl (S t')); [lia|exact K].
  - cbn in Ht. rewrite IH with (t := t); cbn; try reflexivity; try lia; try assumption.
    + rewrite set_nth_length. exact Hj.
    + intros t' Ht'. specialize (Hl (S t')). cbn in Hl. apply Hl. lia.
Qed.

Lemma linspace_length (a b : N) n : length (linspace a b n) = n.
Proof.
  destruct n as [|[|n]]; try reflexivity. cbn -[seq]. rewrite app_length, map_length, seq_length. cbn. lia.
Qed.

Lemma mesh_points_length (axis : list N) d g :
  mesh_points axis d = Ok g -> length g = length axis ^ d /\ Forall (fun r => length r = d) g.
Proof.
  destruct d as [|d]; cbn [mesh_points]; [discriminate|]. intro H. inversion H; subst. clear H. split.
  - rewrite map_length, seq_length. reflexivity.
  - apply Forall_forall. intros r Hr. apply in_map_iff in Hr. destruct Hr as (q & <- & _).
    cbn [length]. rewrite map_length, seq_length. reflexivity.
Qed.

Lemma reshape2_ok {A} (d : A) flat n m r :
  reshape2 d flat n m = Ok r ->
  length flat = n * m /\ length r = n /\ Forall (fun row => length row = m) r /\
  (forall i j, i < n -> j < m -> nth j (nth i r []) d = nth (i * m + j) flat d) /\ concat r = flat.
Proof.
  unfold reshape2. destruct (Nat.eqb_spec (length flat) (n * m)) as [E|E]; [|discriminate].
  intro H. inversion H; subst. clear H.
  assert (F : Forall (fun row => length row = m)
     (map (fun i => map (fun j => nth (i * m + j) flat d) (seq 0 m)) (seq 0 n))).
  { apply Forall_forall. intros r Hr. apply in_map_iff in Hr. destruct Hr as (q & <- & _).
    rewrite map_length, seq_length. reflexivity. }
  assert (P : forall i j, i < n -> j < m ->
     nth j (nth i (map (fun i => map (fun j => nth (i * m + j) flat d) (seq 0 m)) (seq 0 n)) []) d = nth (i * m + j) flat d).
  { intros i j Hi Hj. rewrite nth_map_seq by exact Hi. rewrite nth_map_seq by exact Hj. reflexivity. }
  repeat split; auto.
  - rewrite map_length, seq_length. reflexivity.
  - apply list_eq_nth with (d := d).
    + rewrite (concat_length_const _ m F), map_length, seq_length. lia.
    + intros q Hq. rewrite (concat_length_const _ m F), map_length, seq_length in Hq.
      assert (m <> 0) by (intro; subst; lia).
      rewrite (Nat.div_mod q m) by assumption. rewrite (Nat.mul_comm m).
      rewrite (nth_concat_rect _ m) by (auto; apply Nat.mod_upper_bound; assumption).
      apply P; [|apply Nat.mod_upper_bound; assumption].
      apply Nat.div_lt_upper_bound; [assumption|lia].
Qed.

Lemma reshape2_concat {A} (d : A) rows n m :
  length rows = n -> Forall (fun r => length r = m) rows -> reshape2 d (concat rows) n m = Ok rows.
Proof.
  intros Hn F. unfold reshape2. rewrite (concat_length_const _ m F), Hn, Nat.eqb_refl. f_equal.
  apply list_eq_nth with (d := []).
  - rewrite map_length, seq_length. symmetry; exact Hn.
  - rewrite map_length, seq_length. intros i Hi. rewrite nth_map_seq by exact Hi.
    rewrite <- (map_nth_seq (nth i rows []) d m).
    + apply map_ext_in. intros j Hj. apply in_seq in Hj. apply nth_concat_rect; [exact F|lia].
    + rewrite Forall_forall in F. apply F. apply nth_In. lia.
Qed.
End NumpyLemmas.

(** ** the x values in closed form *)
Section IceX.
Context {N : Num}.

Definition rect (nf : nat) (rows : list (list N)) : Prop := Forall (fun r => length r = nf) rows.

Lemma ice_x_closed (a : algorithm N) x :
  rect (num_features a) (a_samples a) ->
  ice_x a = Ok x <->
  exists idx grid, get_selected_idx (a_sel a) (a_cs a) = Ok idx /\ grid_points a = Ok grid /\
    x = map (fun row => map (fun g => assign_row idx g row) grid) (a_samples a).
Proof.
  intro R. unfold ice_x.
  assert (K : forall idx grid, get_selected_idx (a_sel a) (a_cs a) = Ok idx -> grid_points a = Ok grid ->
    (x3 <- reshape3 n0 (np_repeat (num_grid_points a) (concat (a_samples a)))
               (num_samples a) (num_features a) (num_grid_points a) ;;
     Ok (assign_cols (transpose021 n0 (num_features a) (num_grid_points a) x3) idx grid))
    = Ok (map (fun row => map (fun g => assign_row idx g row) grid) (a_samples a))).
  { intros idx grid Hidx Hg. unfold grid_points in Hg. apply mesh_points_length in Hg.
    destruct Hg as [Hgl _]. rewrite linspace_length in Hgl.
    change (a_gpa a ^ n_selected a) with (num_grid_points a) in Hgl.
    set (G := num_grid_points a) in *. set (f := num_features a) in *. set (n := num_samples a).
    set (S0 := a_samples a) in *.
    unfold reshape3. rewrite np_repeat_length, (concat_length_const _ f R).
    change (length S0) with n. rewrite Nat.eqb_refl. cbn [bind]. f_equal.
    unfold assign_cols, transpose021. rewrite !map_map.
    apply list_eq_nth with (d := []).
    - rewrite !map_length, seq_length. reflexivity.
    - rewrite map_length, seq_length. intros i Hi. rewrite nth_map_seq by exact Hi.
      rewrite (nth_indep (map _ S0) [] (map (fun g => assign_row idx g []) grid)) by (rewrite map_length; exact Hi).
      rewrite (map_nth (fun row => map (fun g => assign_row idx g row) grid)).
      assert (HR : length (nth i S0 []) = f).
      { unfold rect in R. rewrite Forall_forall in R. apply R. apply nth_In. exact Hi. }
      assert (E : map (fun k => map (fun j => nth k (nth j
           (map (fun j0 => map (fun k0 => nth ((i * f + j0) * G + k0) (np_repeat G (concat S0)) n0) (seq 0 G)) (seq 0 f)) []) n0)
           (seq 0 f)) (seq 0 G) = map (fun _ : nat => nth i S0 []) (seq 0 G)).
      { apply map_ext_in. intros k Hk. apply in_seq in Hk.
        rewrite <- (map_nth_seq (nth i S0 []) n0 f HR) at 1.
        apply map_ext_in. intros j Hj. apply in_seq in Hj.
        rewrite nth_map_seq by lia. rewrite nth_map_seq by lia.
        rewrite np_repeat_nth; [|lia|].
        - apply nth_concat_rect; [exact R|lia].
        - rewrite (concat_length_const _ f R). change (length S0) with n. nia. }
      rewrite E. rewrite <- Hgl.
      rewrite combine_const with (a := nth i S0 []) by reflexivity.
      rewrite map_map. reflexivity. }
  split.
  - intro H. inv_bind H. inv_bind H. exists x0, x1. repeat split; try assumption.
    rewrite (K _ _ E E0) in H. congruence.
  - intros (idx & grid & Hidx & Hg & ->). rewrite Hidx, Hg. cbn [bind]. apply K; assumption.
Qed.

(** the structure of a successful calculation *)
Lemma ice_calculate_ok (a : algorithm N) c p d :
  ice_calculate a c p = Ok d ->
  exists means stds, ice_x a = Ok (i_x d) /\ p (concat (i_x d)) = Ok (means, stds) /\
    exists y s, reshape2 n0 means (num_samples a) (num_grid_points a) = Ok y /\
    reshape2 n0 stds (num_samples a) (num_grid_points a) = Ok s /\
    i_v d = map (map (fun s => nmul s s)) s /\
    (if c then center_rows (num_grid_points a) y else Ok y) = Ok (i_y d).
Proof.
  unfold ice_calculate. intro H. inv_bind H. inv_bind H. inv_bind H. inv_bind H. inv_bind H. inv_bind H.
  inversion H; subst; cbn. destruct x0 as [means stds]; cbn in *. exists means, stds.
  repeat split; auto. exists x1, x2. repeat split; auto.
Qed.

Lemma center_rows_closed g (y y' : list (list N)) :
  Forall (fun r => length r = g) y ->
  center_rows g y = Ok y' <-> g <> 0 /\ y' = map (fun r => map (fun v => nsub v (nth 0 r n0)) r) y.
Proof.
  intro F. unfold center_rows. destruct (Nat.eqb_spec g 0) as [E|E].
  { split; [discriminate|]. intros [? _]; contradiction. }
  assert (RS : reshape2 n0 (np_repeat g (column n0 0 y)) (length y) g = Ok (map (fun r => repeat (nth 0 r n0) g) y)).
  { rewrite <- (reshape2_concat n0 (map (fun r => repeat (nth 0 r n0) g) y) (length y) g).
    - f_equal. unfold np_repeat, column. rewrite flat_map_concat_map, map_map. reflexivity.
    - apply map_length.
    - apply Forall_forall. intros r Hr. apply in_map_iff in Hr. destruct Hr as (q & <- & _). apply repeat_length. }
  rewrite RS. cbn [bind].
  assert (M : map (fun p => map (fun q => nsub (fst q) (snd q)) (combine (fst p) (snd p)))
      (combine y (map (fun r => repeat (nth 0 r n0) g) y)) = map (fun r => map (fun v => nsub v (nth 0 r n0)) r) y).
  { clear RS. rewrite combine_map_r, map_map. cbn [fst snd].
    induction F as [|r y Hr F IH]; cbn [combine map]; [reflexivity|]. f_equal; [|exact IH]. cbn [fst snd].
    subst g. generalize (nth 0 r n0) as v0. intro v0. clear. induction r as [|v r IH]; cbn; [reflexivity|]. rewrite IH. reflexivity. }
  rewrite M. split; intro H.
  - inversion H. auto.
  - destruct H as [_ ->]. reflexivity.
Qed.

Lemma ice_calculate_shapes (a : algorithm N) c p d :
  rect (num_features a) (a_samples a) ->
  ice_calculate a c p = Ok d ->
  let n := num_samples a in let G := num_grid_points a in
  length (i_x d) = n /\ length (i_y d) = n /\ length (i_v d) = n /\
  Forall (fun m => length m = G) (i_x d) /\ Forall (fun m => length m = G) (i_y d) /\
  Forall (fun m => length m = G) (i_v d) /\
  Forall (Forall (fun r => length r = num_features a)) (i_x d).
Proof.
  intros R H n G. apply ice_calculate_ok in H.
  destruct H as (means & stds & Hx & Hp & y & s & Hy & Hs & Hv & Hc).
  apply (ice_x_closed a _ R) in Hx. destruct Hx as (idx & grid & Hidx & Hg & Hx).
  unfold grid_points in Hg. apply mesh_points_length in Hg. destruct Hg as [Hgl _]. rewrite linspace_length in Hgl.
  apply reshape2_ok in Hy. destruct Hy as (_ & Hyl & Hyf & _).
  apply reshape2_ok in Hs. destruct Hs as (_ & Hsl & Hsf & _).
  assert (HY : length (i_y d) = n /\ Forall (fun m => length m = G) (i_y d)).
  { destruct c.
    - apply (center_rows_closed _ _ _ Hyf) in Hc. destruct Hc as [_ ->]. split; [rewrite map_length; exact Hyl|].
      apply Forall_forall. intros r Hr. apply in_map_iff in Hr. destruct Hr as (q & <- & Hq). rewrite map_length.
      rewrite Forall_forall in Hyf. apply Hyf; exact Hq.
    - inversion Hc; subst. split; assumption. }
  destruct HY as [HY1 HY2].
  repeat split; auto.
  - rewrite Hx, map_length. reflexivity.
  - rewrite Hv, map_length. exact Hsl.
  - rewrite Hx. apply Forall_forall. intros r Hr. apply in_map_iff in Hr. destruct Hr as (q & <- & Hq). rewrite map_length. exact Hgl.
  - rewrite Hv. apply Forall_forall. intros r Hr. apply in_map_iff in Hr. destruct Hr as (q & <- & Hq). rewrite map_length.
    rewrite Forall_forall in Hsf. apply Hsf; exact Hq.
  - rewrite Hx. apply Forall_forall. intros r Hr. apply in_map_iff in Hr. destruct Hr as (q & <- & Hq).
    apply Forall_forall. intros r Hr. apply in_map_iff in Hr. destruct Hr as (g & <- & _).
    rewrite assign_row_length. unfold rect in R. rewrite Forall_forall in R. apply R; exact Hq.
Qed.

End IceX.
