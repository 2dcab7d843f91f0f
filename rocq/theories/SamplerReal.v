(** SamplerReal.v - capacity of grid samplers (C43). *)
From Verif Require Import Base Num NumLaws NumpyModel ConfigSpaceModel SamplerModel SamplerSpec ListLemmas IceProofs UtilsProofs RealProofs IceReal SamplerProofs SamplerProofs2 SamplerProofs3 SamplerProofs4.
From Coq Require Import Permutation Reals Lra.
From Flocq Require Import Core BinarySingleNaN.
Local Open Scope nat_scope.
Local Open Scope list_scope.

(** ** == is symmetric *)
Lemma R_eq_symmetric : eq_symmetric (N:=RNum).
Proof. intros x y. cbn. unfold Reqb. destruct (Req_EM_T x y), (Req_EM_T y x); try reflexivity; congruence. Qed.
Lemma Q_eq_symmetric : eq_symmetric (N:=QNum).
Proof. intros x y. cbn. apply QArith_base.Qeq_bool_comm. Qed.
Lemma B64_eq_symmetric fe fl fr : eq_symmetric (N:=B64 fe fl fr).
Proof. intros x y. cbn. unfold Beqb, SpecFloat.SFeqb. change (SpecFloat.SFcompare (B2SF x) (B2SF y)) with (Bcompare x y). change (SpecFloat.SFcompare (B2SF y) (B2SF x)) with (Bcompare y x).
  rewrite (Bcompare_swap _ _ y x). destruct (Bcompare y x) as [[]|]; reflexivity. Qed.

Lemma NoDup_app_intro {A} (l m : list A) : NoDup l -> NoDup m -> (forall x, In x l -> In x m -> False) -> NoDup (l ++ m).
Proof.
  induction 1 as [|a l H ND IH]; intros Hm Hd; cbn; [exact Hm|]. constructor; [|apply IH; [exact Hm|intros x Hx; apply Hd; right; exact Hx]].
  intro Hin. apply in_app_or in Hin. destruct Hin as [Hin|Hin]; [exact (H Hin)|exact (Hd a (or_introl eq_refl) Hin)].
Qed.

Section P.
Context {N : Num}.
Implicit Types (s : sampler N).
Variable w : world N.

(** ** numbers of grid points *)
Lemma grid_product_length cs n : forall g axes, grid_product w cs n = Ok g -> axes_of w cs n = Ok axes ->
  length g = fold_right Nat.mul 1 (map (fun a => length (snd a)) axes).
Proof.
  unfold axes_of. induction cs as [|h cs IH]; intros g axes H A; cbn [grid_product mapM] in *; [inversion H; inversion A; reflexivity|].
  destruct (grid_axis w h n) as [vs|]; cbn [bind] in *; [|discriminate]. destruct (grid_product w cs n) as [rest|]; cbn [bind] in *; [|discriminate].
  destruct (mapM _ cs) as [axs|]; cbn [bind] in *; [|discriminate]. inversion H; subst. inversion A; subst. cbn [map fold_right snd]. rewrite <- (IH rest axs eq_refl eq_refl).
  clear. induction vs as [|v vs IH]; cbn; [reflexivity|]. rewrite app_length, map_length, IH. reflexivity.
Qed.

(** ** the loop runs through if the grid is large enough *)
Definition obj_or_ok s (r : res unit) : Prop := r = Ok tt \/ exists c e t, r = Err e /\ s_trace s = EObj c (Err e) :: t.
Lemma distinct_middle (l m : list (conf N)) c : distinct (l ++ c :: m) -> distinct ((l ++ [c]) ++ m) /\ Forall (fun d => conf_eqb c d = false) l.
Proof.
  intro H. split; [rewrite <- app_assoc; exact H|]. induction l as [|a l IH]; [constructor|]. cbn in H. destruct H as [H1 H2]. constructor; [|apply IH, H2].
  apply Forall_app in H1. destruct H1 as [_ H1]. exact (proj2 (Forall_inv H1)).
Qed.
Lemma existsb_all_false {A} (f : A -> bool) l : Forall (fun x => f x = false) l -> existsb f l = false.
Proof. induction 1; cbn; [reflexivity|]. rewrite H, IHForall. reflexivity. Qed.
Lemma grid_loop_enough fuel : forall e s g, s_grid s = Some g -> distinct (s_configs s ++ g) -> e <= slen s + length g -> length g < fuel ->
  match grid_loop w fuel e s with (s', r) => obj_or_ok s' r end.
Proof.
  induction fuel as [|fuel IH]; intros e s g Eg HD He Hf; [lia|]. cbn [grid_loop]. destruct (Nat.leb_spec e (slen s)); [left; reflexivity|].
  rewrite Eg. destruct g as [|c g]; [cbn in *; lia|]. apply distinct_middle in HD. destruct HD as [HD HF]. rewrite (existsb_all_false _ _ HF).
  unfold bindM, upd, call_obj. cbn [s_calls set_grid set_points set_calls s_configs s_ys log]. destruct (w_obj _ _ _) as [y|er].
  - apply (IH e _ g); [reflexivity|exact HD|unfold slen in *; cbn in *; rewrite app_length; cbn; lia|cbn in Hf; lia].
  - right. exists c, er. eexists. split; reflexivity.
Qed.
Lemma grid_loop_short fuel : forall e s g, (forall k c, is_ok (w_obj w k c) = true) -> s_grid s = Some g -> slen s + length g < e -> length g < fuel ->
  snd (grid_loop w fuel e s) = Err IndexError.
Proof.
  induction fuel as [|fuel IH]; intros e s g HO Eg He Hf; [lia|]. cbn [grid_loop]. destruct (Nat.leb_spec e (slen s)); [lia|].
  rewrite Eg. destruct g as [|c g]; [reflexivity|]. cbn in He, Hf. destruct (existsb _ _).
  - apply (IH e _ g HO); [reflexivity|unfold slen in *; cbn; lia|lia].
  - unfold bindM, upd, call_obj. cbn [s_calls set_grid set_points set_calls s_configs s_ys log]. specialize (HO (s_calls s) (c_vals c)) as HO1. destruct (w_obj _ _ _) as [y|er]; [|discriminate].
    apply (IH e _ g HO); [reflexivity|unfold slen in *; cbn; rewrite app_length; cbn; lia|lia].
Qed.
Lemma grid_first_eq n s g : s_kind s = KGrid -> s_configs s = [] -> s_grid s = None -> s_cs s <> [] -> length (s_cache s) < n -> grid_product w (s_cs s) (w_steps w n (length (s_cs s))) = Ok g ->
  exists s1, s_grid s1 = Some (shuffle w (s_rpos s) g) /\ s_configs s1 = [] /\ sample w n s = grid_loop w (S (length (shuffle w (s_rpos s) g))) n s1.
Proof.
  intros K Hc Hg Hcs HC E. assert (SL : slen s = 0) by (unfold slen; rewrite Hc; reflexivity).
  exists (set_grid (Some (shuffle w (s_rpos s) g)) (s_rpos s + length g) (set_cache [] s)). refine (conj eq_refl (conj Hc _)).
  unfold sample. rewrite K.
  assert (B : sample_base w n s = grid_loop w (S (length (shuffle w (s_rpos s) g))) n (set_grid (Some (shuffle w (s_rpos s) g)) (s_rpos s + length g) (set_cache [] s))).
  { unfold sample_base. rewrite K, SL. cbn [Nat.add]. rewrite (proj2 (Nat.ltb_lt _ _) HC). unfold bindM at 1.
    assert (R : replay n (set_cache [] s) = (set_cache [] s, Ok 0)) by (destruct n; reflexivity). rewrite R. rewrite (proj2 (Nat.ltb_lt 0 n)) by lia. cbn [sample_new]. rewrite Nat.sub_0_r.
    unfold grid_sample. cbn [s_grid set_cache]. rewrite Hg. unfold bindM at 1. unfold make_grid. cbn [s_cs set_cache].
    change (slen (set_cache [] s)) with (slen s). rewrite SL. cbn [Nat.add]. destruct (s_cs s) as [|h t] eqn:Ecs; [congruence|]. rewrite E. reflexivity. }
  unfold bindM at 1. rewrite B. destruct (grid_loop _ _ _ _) as [s2 [[]|e]]; reflexivity.
Qed.
Theorem grid_first_short n s g : (forall k c, is_ok (w_obj w k c) = true) -> s_kind s = KGrid -> s_configs s = [] -> s_grid s = None -> s_cs s <> [] -> length (s_cache s) < n ->
  grid_product w (s_cs s) (w_steps w n (length (s_cs s))) = Ok g -> length g < n -> snd (sample w n s) = Err IndexError.
Proof.
  intros HO K Hc Hg Hcs HC E Hl. destruct (grid_first_eq n s g K Hc Hg Hcs HC E) as (s1 & A1 & A2 & ->).
  apply (grid_loop_short _ _ _ (shuffle w (s_rpos s) g) HO A1); [|lia]. rewrite <- (Permutation_length (shuffle_perm w (s_rpos s) g)). unfold slen. rewrite A2. exact Hl.
Qed.
End P.

(** ** real axes *)
Lemma cval_eqb_R (a b : cval RNum) : cval_eqb a b = true -> a = b.
Proof.
  destruct a, b; cbn; try discriminate; intro H; f_equal.
  - unfold Reqb in H. destruct (Req_EM_T x x0); [assumption|discriminate].
  - apply String.eqb_eq. exact H.
Qed.
Lemma conf_eqb_R (a b : conf RNum) : conf_eqb a b = true -> c_vals a = c_vals b.
Proof.
  unfold conf_eqb. generalize (c_vals a) (c_vals b). induction c as [|[n v] x IH]; intros [|[m u] y] H; cbn in H; try discriminate; [reflexivity|].
  apply andb_true_iff in H. destruct H as [H H2]. apply andb_true_iff in H. destruct H as [H1 H3]. apply String.eqb_eq in H1. apply cval_eqb_R in H3. subst. f_equal. apply IH, H2.
Qed.
Lemma distinct_R (l : list (conf RNum)) : NoDup (map c_vals l) -> distinct l.
Proof.
  induction l as [|a l IH]; cbn; [auto|]. intro H. inversion H; subst. split; [|apply IH; assumption]. apply Forall_forall. intros d Hd.
  assert (NE : c_vals d <> c_vals a) by (intro Hx; apply H2; rewrite <- Hx; apply in_map, Hd).
  split; apply not_true_iff_false; intro Hx; apply conf_eqb_R in Hx; congruence.
Qed.

Section R.
Variable w : world RNum.
Local Open Scope R_scope.
Lemma evenly_range lo up l n x : evenly lo up l n -> lo <= up -> In x l -> lo <= x <= up.
Proof.
  intros [E1 E2] H Hx. apply In_nth_error in Hx. destruct Hx as (i & Hi). assert (Hl : (i < n)%nat) by (rewrite <- E1; apply nth_error_Some; congruence).
  rewrite E2 in Hi by exact Hl. inversion Hi; subst x. destruct (Nat.eqb_spec n 1) as [|Hn]; [lra|].
  assert (Hp : 0 < INR (n - 1)) by (apply lt_0_INR; lia). assert (Hi2 : INR i <= INR (n - 1)) by (apply le_INR; lia). pose proof (pos_INR i).
  assert (K : 0 <= INR i * ((up - lo) / INR (n - 1))) by (apply Rmult_le_pos; [lra|]; apply Rmult_le_pos; [lra|]; left; apply Rinv_0_lt_compat; lra).
  assert (K2 : INR i * ((up - lo) / INR (n - 1)) <= up - lo).
  { replace (up - lo) with (INR (n - 1) * ((up - lo) / INR (n - 1))) at 2 by (field; lra). apply Rmult_le_compat_r; [|lra]. apply Rmult_le_pos; [lra|]; left; apply Rinv_0_lt_compat; lra. }
  lra.
Qed.
Lemma clip_ends_id (lo up : R) (l : list R) : (forall x, In x l -> lo <= x <= up) -> clip_ends (N:=RNum) lo up l = l.
Proof.
  destruct l as [|x t]; [reflexivity|]. intro H. unfold clip_ends. cbv zeta. change (@nlt RNum) with Rltb. change (carrier RNum) with R in *. assert (C1 : forall y, In y (x :: t) -> Rltb y lo = false /\ Rltb up y = false).
  { intros y Hy. specialize (H y Hy). split; [destruct (Rltb_spec y lo)|destruct (Rltb_spec up y)]; try reflexivity; lra. }
  rewrite (proj1 (C1 x (or_introl eq_refl))). destruct (rev t) as [|z m] eqn:Er.
  - assert (t = []) as -> by (rewrite <- (rev_involutive t), Er; reflexivity). rewrite (proj2 (C1 x (or_introl eq_refl))). reflexivity.
  - assert (Et : t = rev m ++ [z]) by (rewrite <- (rev_involutive t), Er; reflexivity). rewrite (proj2 (C1 z ltac:(right; rewrite Et; apply in_or_app; right; left; reflexivity))). rewrite Et. reflexivity.
Qed.
Definition float_hp (h : hp RNum) : Prop := exists lo up lg, hp_kind h = KFloat lo up lg /\ lo < up /\ (lg = true -> 0 < lo).
Lemma float_axis h n : float_hp h -> exists vs, grid_axis w h n = Ok vs /\ length vs = n /\ NoDup vs.
Proof.
  intros (lo & up & lg & E & Hlt & Hlg). unfold grid_axis. rewrite E. eexists. split; [reflexivity|].
  assert (VN : forall l : list R, NoDup l -> NoDup (map (@VNum RNum) l)).
  { intros l Hl. apply FinFun.Injective_map_NoDup; [|exact Hl]. intros x y Hxy. inversion Hxy; reflexivity. }
  destruct lg.
  - specialize (Hlg eq_refl). pose proof (linspace_R (ln lo) (ln up) n) as EV. assert (Hln : ln lo < ln up) by (apply ln_increasing; lra).
    rewrite clip_ends_id.
    + rewrite !map_length. split; [apply EV|]. apply VN. apply FinFun.Injective_map_NoDup; [|exact (evenly_NoDup _ _ _ _ EV Hln)]. intros x y Hxy. apply exp_inv. exact Hxy.
    + intros x Hx. apply in_map_iff in Hx. destruct Hx as (t & <- & Ht). pose proof (evenly_range _ _ _ _ _ EV (Rlt_le _ _ Hln) Ht) as [B1 B2].
      cbn. split; [rewrite <- (exp_ln lo) by lra|rewrite <- (exp_ln up) by lra]; (destruct (Rle_lt_or_eq_dec _ _ B1), (Rle_lt_or_eq_dec _ _ B2)); try (left; apply exp_increasing; assumption); try (right; congruence).
  - pose proof (linspace_R lo up n) as EV. rewrite clip_ends_id.
    + rewrite map_length. split; [apply EV|]. apply VN. exact (evenly_NoDup _ _ _ _ EV Hlt).
    + intros x Hx. apply (evenly_range _ _ _ _ _ EV); [lra|exact Hx].
Qed.
Lemma float_grid cs n : Forall float_hp cs -> exists g, grid_product w cs n = Ok g /\ length g = (n ^ length cs)%nat /\ NoDup (map c_vals g).
Proof.
  induction 1 as [|h cs Hh F IH]; cbn [grid_product].
  - eexists. split; [reflexivity|]. split; [reflexivity|]. repeat constructor. intros [].
  - destruct (float_axis h n Hh) as (vs & -> & L & ND). destruct IH as (g & -> & LG & NG). cbn [bind]. eexists. split; [reflexivity|]. split.
    + cbn [length Nat.pow]. rewrite <- LG, <- L. clear. induction vs as [|v vs IH]; cbn [flat_map length Nat.mul]; [reflexivity|]. rewrite app_length, map_length, IH. reflexivity.
    + clear -ND NG. induction ND as [|v vs Hv ND IH]; cbn [flat_map map]; [constructor|]. rewrite map_app, map_map. cbn [c_vals]. apply NoDup_app_intro.
      * apply FinFun.Injective_map_NoDup with (f := fun vals => (hp_name h, v) :: vals) in NG; [rewrite map_map in NG; exact NG|]. intros x y Hxy. inversion Hxy; reflexivity.
      * exact IH.
      * intros x Hx Hy. apply in_map_iff in Hx. destruct Hx as (c & <- & Hc). apply in_map_iff in Hy. destruct Hy as (c' & Ec' & Hc'). apply in_flat_map in Hc'. destruct Hc' as (v' & Hv' & Hc').
        apply in_map_iff in Hc'. destruct Hc' as (c2 & <- & _). cbn in Ec'. inversion Ec'; subst. exact (Hv Hv').
Qed.
(** C43: the first call *)
Theorem grid_first_call n (s s' : sampler RNum) r : s_kind s = KGrid -> s_configs s = [] -> s_grid s = None -> s_cs s <> [] -> Forall float_hp (s_cs s) ->
  (n <= w_steps w n (length (s_cs s)) ^ length (s_cs s))%nat -> (length (s_cache s) < n)%nat -> sample w n s = (s', r) -> obj_or_ok s' r.
Proof.
  intros K Hc Hg Hcs HF Hn HC E. destruct (float_grid (s_cs s) (w_steps w n (length (s_cs s))) HF) as (g & EG & LG & NG).
  destruct (grid_first_eq w n s g K Hc Hg Hcs HC EG) as (s1 & A1 & A2 & EQ). rewrite EQ in E.
  pose proof (grid_loop_enough w (S (length (shuffle w (s_rpos s) g))) n s1 (shuffle w (s_rpos s) g) A1) as T. rewrite E in T. apply T.
  - rewrite A2. cbn. apply distinct_R. eapply Permutation_NoDup; [apply Permutation_map, shuffle_perm|exact NG].
  - rewrite <- (Permutation_length (shuffle_perm w (s_rpos s) g)), LG. unfold slen. rewrite A2. exact Hn.
  - lia.
Qed.
End R.

(** the number of grid points per axis in exact arithmetic is large enough *)
Lemma exact_steps n d k : (1 <= n)%nat -> (1 <= d)%nat -> Z.of_nat k = Flocq.Core.Raux.Zceil (Rpower (INR n) (/ INR d)) -> (n <= k ^ d)%nat.
Proof.
  intros Hn Hd E. apply INR_le. rewrite pow_INR. assert (0 < INR n)%R by (apply lt_0_INR; lia). assert (0 < INR d)%R by (apply lt_0_INR; lia).
  pose proof (Flocq.Core.Raux.Zceil_ub (Rpower (INR n) (/ INR d))) as U. rewrite <- E, <- INR_IZR_INZ in U.
  assert (P : (0 < Rpower (INR n) (/ INR d))%R) by (unfold Rpower; apply exp_pos).
  replace (INR n) with (Rpower (INR n) (/ INR d) ^ d)%R.
  - apply pow_incr. lra.
  - rewrite <- Rpower_pow, Rpower_mult, Rinv_l, Rpower_1; auto; lra.
Qed.
