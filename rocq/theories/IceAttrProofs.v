(** IceAttrProofs.v - assigning attributes of an ICE object and resetting it (C93). *)
From Coq Require Import QArith.
From Verif Require Import Base Num NumLaws NumpyModel ConfigSpaceModel UtilsModel IceModel IceAttrModel ArraysSpec ListLemmas IceProofs IceProofs2.
Local Open Scope nat_scope.
Local Open Scope list_scope.

Section P.
Context {N : Num}.

(** ** the object of IceModel.v behind an object whose attributes agree *)
Definition rel (a : algorithm N) (o : xice N) (q : ice N) : Prop :=
  x_cs o = a_cs a /\ x_sel o = a_sel a /\ x_samples o = a_samples a /\ x_nsamples o = num_samples a /\
  x_ngrid o = num_grid_points a /\ ic_alg q = a /\ ic_centered q = x_centered o /\ ic_predict q = x_predict o /\
  ic_x q = x_x o /\ ic_y q = x_y o /\ ic_v q = x_v o /\
  match x_grid o with None => x_gpa o = a_gpa a | Some g => fst g = n_selected a /\ grid_points a = Ok (snd g) end.

Lemma rel_new (a : algorithm N) p : rel a (x_new a p) (ice_new a p).
Proof. repeat split. Qed.

Lemma grid_length (a : algorithm N) rows : grid_points a = Ok rows -> length rows = num_grid_points a.
Proof. intro H. destruct (mesh_points_length _ _ _ H) as [L _]. rewrite linspace_length in L. exact L. Qed.

Lemma broadcast_same (a : algorithm N) idx rows : get_selected_idx (a_sel a) (a_cs a) = Ok idx -> grid_points a = Ok rows ->
  broadcast (num_grid_points a) (length idx) (n_selected a, rows) = Ok rows.
Proof.
  intros Hi Hg. unfold broadcast. cbn [fst snd]. rewrite (grid_length a rows Hg), Nat.eqb_refl. cbn [bind].
  rewrite (proj1 (selected_idx_nth _ _ _ Hi)). unfold n_selected. rewrite Nat.eqb_refl. reflexivity.
Qed.

Lemma grid_step (a : algorithm N) o q : rel a o q ->
  match grid_points a with
  | Ok rows => exists o', x_grid_points o = (o', Ok (n_selected a, rows)) /\ rel a o' q /\ x_grid o' <> None
  | Err e => x_grid_points o = (o, Err e) /\ x_grid o = None
  end.
Proof.
  intros H. pose proof H as (H1 & H2 & H3 & H4 & H5 & H6 & H7 & H8 & H9 & H10 & H11 & H12). unfold x_grid_points.
  destruct (x_grid o) as [[d rows]|] eqn:E.
  - destruct H12 as [Ed Eg]. cbn in Ed, Eg. rewrite Eg. subst d. exists o. split; [reflexivity|split; [exact H|congruence]].
  - rewrite H2, H12. change (mesh_points (linspace n0 n1 (a_gpa a)) (length (a_sel a))) with (grid_points a).
    destruct (grid_points a) as [rows|e] eqn:Eg; [|auto]. eexists. split; [reflexivity|]. split; [|discriminate].
    unfold rel. cbn. repeat split; auto.
Qed.

Lemma compute_same (a : algorithm N) o q idx rows : rel a o q -> get_selected_idx (a_sel a) (a_cs a) = Ok idx -> grid_points a = Ok rows ->
  x_compute o idx (n_selected a, rows) = ice_calculate (ic_alg q) (ic_centered q) (ic_predict q).
Proof.
  intros (H1 & H2 & H3 & H4 & H5 & H6 & H7 & H8 & _) Hi Hg. unfold x_compute, ice_calculate, ice_x.
  rewrite H1, H3, H4, H5, H6, H7, H8, Hi, Hg. cbn [bind]. change (length (a_cs a)) with (num_features a).
  destruct (reshape3 _ _ _ _ _) as [x3|e]; [|reflexivity]. cbn [bind]. rewrite (broadcast_same a idx rows Hi Hg). reflexivity.
Qed.

Lemma calculate_step (a : algorithm N) o q : rel a o q ->
  exists o', rel a o' (match ice_run q with Ok q' => q' | Err _ => q end) /\
    x_calculate o = (o', match ice_run q with Ok _ => Ok tt | Err e => Err e end) /\
    (x_grid o <> None -> x_grid o' <> None) /\
    (sel_known (a_cs a) (a_sel a) -> a_sel a <> [] -> x_grid o' <> None).
Proof.
  intro H. pose proof H as (H1 & H2 & H3 & H4 & H5 & H6 & H7 & H8 & H9 & H10 & H11 & H12). unfold x_calculate. rewrite H1, H2.
  unfold ice_run. destruct (get_selected_idx (a_sel a) (a_cs a)) as [idx|e] eqn:Hi.
  2:{ exists o. unfold ice_calculate, ice_x. rewrite H6, Hi. cbn [bind]. refine (conj H (conj eq_refl (conj (fun z => z) _))).
      intros SK _. destruct (selected_idx_total _ _ SK) as (? & E). congruence. }
  pose proof (grid_step a o q H) as G. destruct (grid_points a) as [rows|e] eqn:Eg.
  - destruct G as (o' & -> & R & NG). rewrite (compute_same a o' q idx rows R Hi Eg).
    destruct (ice_calculate (ic_alg q) (ic_centered q) (ic_predict q)) as [d|e]; cbn [bind].
    + eexists. split; [|split; [reflexivity|split; intros; exact NG]].
      destruct R as (R1 & R2 & R3 & R4 & R5 & R6 & R7 & R8 & R9 & R10 & R11 & R12).
      unfold rel. cbn. repeat split; auto.
    + exists o'. refine (conj R (conj eq_refl (conj _ _))); intros; exact NG.
  - destruct G as [-> Gn]. exists o. unfold ice_calculate, ice_x. rewrite H6, Hi, Eg. cbn [bind].
    refine (conj H (conj eq_refl (conj (fun z => z) _))). intros _ NE. exfalso.
    unfold grid_points, mesh_points, n_selected in Eg. destruct (a_sel a); [contradiction|discriminate].
Qed.

Lemma read_step {A} (f : xice N -> option A) (f' : ice N -> option A) (a : algorithm N) o q :
  (forall o q, rel a o q -> f' q = f o) -> rel a o q ->
  exists o', rel a o' (fst (read_field f' q)) /\ x_read f o = (o', snd (read_field f' q)) /\ (x_grid o <> None -> x_grid o' <> None) /\
    (f o = None -> sel_known (a_cs a) (a_sel a) -> a_sel a <> [] -> x_grid o' <> None).
Proof.
  intros F H. unfold x_read, read_field. rewrite (F o q H). destruct (f o) as [v|].
  - exists o. refine (conj H (conj eq_refl (conj (fun z => z) _))). discriminate.
  - destruct (calculate_step a o q H) as (o' & R & E & G1 & G2). rewrite E. destruct (ice_run q) as [q'|e].
    + exists o'. refine (conj R (conj _ (conj G1 (fun _ => G2)))). cbn [fst snd]. rewrite (F o' q' R). reflexivity.
    + exists o'. auto.
Qed.

(** caches are filled only together with the grid *)

Lemma plain_step (a : algorithm N) o q op : rel a o q -> plain op = true ->
  exists o' q', rel a o' q' /\ fst (x_step o op) = o' /\ (x_grid o <> None -> x_grid o' <> None) /\
  match op with
  | XIce i => q' = fst (ice_step q i) /\ snd (x_step o op) = YIce (snd (ice_step q i))
  | _ => q' = q /\ snd (x_step o op) = YGrid (grid_points a)
  end.
Proof.
  intros H P. destruct op as [i| | | | |]; try discriminate.
  - pose proof H as (H1 & H2 & H3 & H4 & H5 & H6 & H7 & H8 & H9 & H10 & H11 & H12).
    destruct i as [| | | |b|p]; cbn [x_step ice_step].
    + destruct (read_step x_x ic_x a o q) as (o' & R & E & G & _); [intros o1 q1 Z; apply Z|exact H|]. unfold read_x. rewrite E.
      destruct (read_field ic_x q) as [q' r]. exists o', q'. cbn in *. auto.
    + destruct (read_step x_y ic_y a o q) as (o' & R & E & G & _); [intros o1 q1 Z; apply Z|exact H|]. unfold read_y. rewrite E.
      destruct (read_field ic_y q) as [q' r]. exists o', q'. cbn in *. auto.
    + destruct (read_step x_v ic_v a o q) as (o' & R & E & G & _); [intros o1 q1 Z; apply Z|exact H|]. unfold read_v. rewrite E.
      destruct (read_field ic_v q) as [q' r]. exists o', q'. cbn in *. auto.
    + do 2 eexists. split; [|split; [reflexivity|split; [|split; reflexivity]]]; [unfold rel; cbn; repeat split; auto|auto].
    + do 2 eexists. split; [|split; [reflexivity|split; [|split; reflexivity]]]; [unfold rel; cbn; repeat split; auto|auto].
    + do 2 eexists. split; [|split; [reflexivity|split; [|split; reflexivity]]]; [unfold rel; cbn; repeat split; auto|auto].
  - pose proof (grid_step a o q H) as G. cbn [x_step]. destruct (grid_points a) as [rows|e].
    + destruct G as (o' & -> & R & NG). exists o', q. cbn. repeat split; auto; apply R.
    + destruct G as [-> _]. exists o, q. cbn. auto.
Qed.

Lemma x_run_app (o : xice N) l1 l2 : x_run o (l1 ++ l2) =
  let (o1, r1) := x_run o l1 in let (o2, r2) := x_run o1 l2 in (o2, r1 ++ r2).
Proof.
  revert o. induction l1 as [|op l1 IH]; intro o; cbn [app x_run].
  - destruct (x_run o l2). reflexivity.
  - destruct (x_step o op) as [o1 r]. rewrite IH. destruct (x_run o1 l1) as [o2 r1]. destruct (x_run o2 l2). reflexivity.
Qed.

Lemma plain_run (a : algorithm N) ops : forall o q, rel a o q -> forallb plain ops = true ->
  rel a (fst (x_run o ops)) (fst (ice_run_ops q (ice_part ops))) /\
  ice_shown (snd (x_run o ops)) = snd (ice_run_ops q (ice_part ops)) /\
  Forall (eq (grid_points a)) (grids (snd (x_run o ops))) /\
  (x_grid o <> None -> x_grid (fst (x_run o ops)) <> None).
Proof.
  induction ops as [|op ops IH]; intros o q H P.
  - cbn. repeat split; auto; apply H.
  - cbn [forallb] in P. apply andb_prop in P. destruct P as [P1 P2].
    destruct (plain_step a o q op H P1) as (o' & q' & R & E & G & K). cbn [x_run]. destruct (x_step o op) as [o1 r] eqn:Es. cbn [fst snd] in *. subst o1.
    destruct (IH o' q' R P2) as (I1 & I2 & I3 & I4). destruct (x_run o' ops) as [o2 rs] eqn:Er. cbn [fst snd] in *.
    destruct op as [i| | | | |]; try discriminate.
    + destruct K as [-> ->]. cbn [ice_part flat_map app]. fold (ice_part ops). cbn [ice_run_ops].
      destruct (ice_step q i) as [q1 r1] eqn:Ei. cbn [fst snd] in *. destruct (ice_run_ops q1 (ice_part ops)) as [q2 rs2] eqn:Eo. cbn [fst snd] in *.
      refine (conj I1 (conj _ (conj I3 _))); [|auto]. cbn [ice_shown flat_map app]. fold (ice_shown rs). f_equal. exact I2.
    + destruct K as [-> ->]. cbn [ice_part flat_map app]. fold (ice_part ops). refine (conj I1 (conj _ (conj _ _))); auto.
      cbn [grids flat_map app]. fold (grids rs). constructor; auto.
Qed.

(** (1) without assignments the object is the one of IceModel.v *)
Theorem no_assignments (a : algorithm N) p ops : forallb plain ops = true ->
  ice_shown (snd (x_run (x_new a p) ops)) = snd (ice_run_ops (ice_new a p) (ice_part ops)) /\
  Forall (eq (grid_points a)) (grids (snd (x_run (x_new a p) ops))).
Proof. intro P. destruct (plain_run a ops _ _ (rel_new a p) P) as (_ & H1 & H2 & _). auto. Qed.

Lemma rel_fields (a : algorithm N) o q : rel a o q -> x_centered o = ic_centered q /\ x_predict o = ic_predict q.
Proof. intros (_ & _ & _ & _ & _ & _ & H & H' & _). auto. Qed.

Lemma state_after (a : algorithm N) p before : forallb plain before = true ->
  let q := fst (ice_run_ops (ice_new a p) (ice_part before)) in
  rel a (fst (x_run (x_new a p) before)) q.
Proof. intros P q. exact (proj1 (plain_run a before _ _ (rel_new a p) P)). Qed.

(** (2) new samples, their number and a reset: a new object *)
Theorem new_samples (a : algorithm N) p before s later : forallb plain before = true -> forallb plain later = true ->
  let o := fst (x_run (x_new a p) before) in
  let fresh := mkiceobj (with_samples a s) (x_centered o) (x_predict o) None None None in
  ice_shown (snd (x_run (fst (x_run o [XSamples s; XNumSamples (length s); XIce OReset])) later)) = snd (ice_run_ops fresh (ice_part later)) /\
  (length s = num_samples a ->
   ice_shown (snd (x_run (fst (x_run o [XSamples s; XIce OReset])) later)) = snd (ice_run_ops fresh (ice_part later))).
Proof.
  intros P1 P2 o fresh. pose proof (state_after a p before P1) as H. cbv zeta in H. fold o in H.
  destruct H as (H1 & H2 & H3 & H4 & H5 & H6 & H7 & H8 & H9 & H10 & H11 & H12).
  assert (G : forall n, n = length s -> rel (with_samples a s) (with_caches (mkx (x_cs o) (x_sel o) s n (x_gpa o) (x_ngrid o) (x_centered o) (x_predict o)
           (x_grid o) (x_x o) (x_y o) (x_v o)) None None None) fresh).
  { intros n ->. unfold rel. cbn. repeat split; auto. }
  split.
  - apply (plain_run (with_samples a s)); [|exact P2]. cbn. apply (G _ eq_refl).
  - intro L. apply (plain_run (with_samples a s)); [|exact P2]. cbn. apply G. rewrite H4, L. reflexivity.
Qed.

(** ** objects on which every calculation fails *)
Definition broken (P : xice N -> Prop) (e : err) : Prop :=
  (forall o, P o -> x_x o = None /\ x_y o = None /\ x_v o = None) /\
  (forall o, P o -> exists o', x_calculate o = (o', Err e) /\ P o') /\
  (forall o, P o -> P (fst (x_grid_points o))) /\
  (forall o, P o -> P (with_caches o None None None)) /\
  (forall o b p, P o -> P (mkx (x_cs o) (x_sel o) (x_samples o) (x_nsamples o) (x_gpa o) (x_ngrid o) b p (x_grid o) (x_x o) (x_y o) (x_v o))).

Lemma broken_run (P : xice N -> Prop) e : broken P e -> forall ops o, P o -> forallb plain ops = true ->
  Forall (raises e) (ice_shown (snd (x_run o ops))).
Proof.
  intros (B1 & B2 & B3 & B4 & B5). induction ops as [|op ops IH]; intros o H Hp; [constructor|].
  cbn [forallb] in Hp. apply andb_prop in Hp. destruct Hp as [P1 P2].
  assert (K : P (fst (x_step o op)) /\ match snd (x_step o op) with YIce r => raises e r | _ => True end).
  { destruct (B1 o H) as (E1 & E2 & E3). destruct (B2 o H) as (o' & Ec & H').
    destruct op as [i| | | | |]; try discriminate; [destruct i as [| | | |b|p]|]; cbn [x_step].
    - unfold x_read. rewrite E1, Ec. cbn. auto.
    - unfold x_read. rewrite E2, Ec. cbn. auto.
    - unfold x_read. rewrite E3, Ec. cbn. auto.
    - cbn. auto.
    - cbn. auto.
    - cbn. auto.
    - pose proof (B3 o H) as Z. destruct (x_grid_points o). cbn in *. auto. }
  cbn [x_run]. destruct (x_step o op) as [o1 r]. cbn [fst snd] in K. destruct K as [K1 K2].
  specialize (IH o1 K1 P2). destruct (x_run o1 ops) as [o2 rs]. cbn [snd]. cbn [ice_shown flat_map]. fold (ice_shown rs).
  destruct r; cbn [app]; auto.
Qed.

(** (3) samples of another number alone: every later read raises ValueError *)
Theorem other_number (a : algorithm N) p before s later : forallb plain before = true -> forallb plain later = true ->
  sel_known (a_cs a) (a_sel a) -> a_sel a <> [] -> 1 <= a_gpa a -> rect (num_features a) s -> length s <> num_samples a ->
  Forall (raises ValueError)
    (ice_shown (snd (x_run (fst (x_run (fst (x_run (x_new a p) before)) [XSamples s; XIce OReset])) later))).
Proof.
  intros P1 P2 SK NE G1 RS L. set (o := fst (x_run (x_new a p) before)).
  pose proof (state_after a p before P1) as H. cbv zeta in H. fold o in H.
  destruct H as (H1 & H2 & H3 & H4 & H5 & H6 & H7 & H8 & H9 & H10 & H11 & H12).
  destruct (selected_idx_total _ _ SK) as (idx & Hi).
  assert (exists rows, grid_points a = Ok rows) as (rows & Hg).
  { unfold grid_points, mesh_points, n_selected. destruct (a_sel a); [contradiction|]. cbn. eauto. }
  assert (F0 : 0 < num_features a).
  { unfold num_features. destruct (a_sel a) as [|h t]; [contradiction|]. inversion SK; subst. destruct (a_cs a); [contradiction|cbn; lia]. }
  assert (GP : 0 < num_grid_points a).
  { unfold num_grid_points. apply Nat.neq_0_lt_0. intro E0. apply Nat.pow_eq_0_iff in E0. lia. }
  set (P := fun o : xice N => x_cs o = a_cs a /\ x_sel o = a_sel a /\ x_samples o = s /\ x_nsamples o = num_samples a /\ x_ngrid o = num_grid_points a /\
     (x_x o = None /\ x_y o = None /\ x_v o = None) /\ match x_grid o with None => x_gpa o = a_gpa a | Some g => True end).
  assert (PG : forall o, P o -> P (fst (x_grid_points o)) /\ exists g, snd (x_grid_points o) = Ok g).
  { intros w (W1 & W2 & W3 & W4 & W5 & W6 & W7). unfold x_grid_points. destruct (x_grid w) as [g|] eqn:Eg.
    - cbn [fst snd]. split; [|eauto]. unfold P. rewrite Eg. repeat split; auto; apply W6.
    - rewrite W2, W7. change (mesh_points (linspace n0 n1 (a_gpa a)) (length (a_sel a))) with (grid_points a). rewrite Hg. cbn [fst snd].
      split; [|eauto]. unfold P. cbn. repeat split; auto; apply W6. }
  apply (broken_run P ValueError); [|unfold P; cbn; repeat split; auto; destruct (x_grid o); auto|exact P2].
  split; [intros w (_ & _ & _ & _ & _ & W & _); exact W|]. split; [|split; [intros w W; apply PG, W|split]].
  - intros w W. pose proof (PG w W) as [W' (g & Hg')]. unfold x_calculate.
    pose proof W as (W1 & W2 & _). rewrite W1, W2, Hi. destruct (x_grid_points w) as [w1 r]. cbn [fst snd] in *. subst r.
    exists w1. split; [|exact W']. destruct W' as (V1 & V2 & V3 & V4 & V5 & _). unfold x_compute, reshape3.
    rewrite np_repeat_length, V1, V3, V4, V5, (concat_length_const _ _ RS). change (length (a_cs a)) with (num_features a).
    destruct (Nat.eqb_spec (length s * num_features a * num_grid_points a) (num_samples a * num_features a * num_grid_points a)) as [E|E]; [|reflexivity].
    exfalso. apply L. apply Nat.mul_cancel_r in E; [|lia]. apply Nat.mul_cancel_r in E; [exact E|lia].
  - intros w (W1 & W2 & W3 & W4 & W5 & W6 & W7). unfold P. cbn. repeat split; auto.
  - intros w b q (W1 & W2 & W3 & W4 & W5 & W6 & W7). unfold P. cbn. repeat split; auto; apply W6.
Qed.

(** ** (4) another grid resolution *)
Definition grid_with_caches (o : xice N) : Prop := x_x o <> None \/ x_y o <> None \/ x_v o <> None -> x_grid o <> None.

Lemma x_grid_fixed (o : xice N) : x_grid o <> None -> x_grid (fst (x_grid_points o)) = x_grid o /\ fst (x_grid_points o) = o.
Proof. unfold x_grid_points. destruct (x_grid o) eqn:E; [cbn; auto|congruence]. Qed.

Lemma gwc_step (o : xice N) op : plain op = true -> grid_with_caches o ->
  grid_with_caches (fst (x_step o op)) /\ (x_grid o <> None -> x_grid (fst (x_step o op)) <> None).
Proof.
  intros P H.
  assert (G : forall w : xice N, x_grid w <> None -> x_grid (fst (x_grid_points w)) <> None).
  { intros w Hw. rewrite (proj1 (x_grid_fixed w Hw)). exact Hw. }
  assert (C : forall (w : xice N) r, x_calculate w = r -> grid_with_caches w -> grid_with_caches (fst r) /\ (x_grid w <> None -> x_grid (fst r) <> None)).
  { intros w r <- Hw. unfold x_calculate. destruct (get_selected_idx _ _) as [idx|e]; [|cbn; auto].
    unfold x_grid_points. destruct (x_grid w) as [g|] eqn:Eg.
    - destruct (x_compute w idx g) as [d|e]; cbn; unfold grid_with_caches; cbn; rewrite Eg; split; auto; discriminate.
    - destruct (mesh_points _ _) as [rows|e]; [|cbn; auto].
      destruct (x_compute _ idx _) as [d|e]; cbn; unfold grid_with_caches; cbn; split; intros; try discriminate. }
  assert (R : forall {A} (f : xice N -> option A), (grid_with_caches (fst (x_read f o)) /\ (x_grid o <> None -> x_grid (fst (x_read f o)) <> None))).
  { intros A f. unfold x_read. destruct (f o); [cbn; auto|]. pose proof (C o _ eq_refl H) as Z. destruct (x_calculate o) as [w r]. cbn in *. exact Z. }
  destruct op as [i| | | | |]; try discriminate; [destruct i as [| | | |b|p]|]; cbn [x_step].
  - pose proof (R _ x_x) as Z. destruct (x_read x_x o). exact Z.
  - pose proof (R _ x_y) as Z. destruct (x_read x_y o). exact Z.
  - pose proof (R _ x_v) as Z. destruct (x_read x_v o). exact Z.
  - cbn. split; [intros [Z|[Z|Z]]; cbn in Z; congruence|auto].
  - cbn. auto.
  - cbn. auto.
  - unfold x_grid_points. destruct (x_grid o) as [g|] eqn:Eg; [cbn; rewrite Eg; auto|].
    destruct (mesh_points _ _); cbn; [split; [intros _; cbn|]; discriminate|]. rewrite Eg. auto.
Qed.

Lemma looked (a : algorithm N) ops : sel_known (a_cs a) (a_sel a) -> a_sel a <> [] ->
  forall o q, rel a o q -> grid_with_caches o -> forallb plain ops = true -> x_grid o <> None \/ existsb looks ops = true ->
  x_grid (fst (x_run o ops)) <> None.
Proof.
  intros SK NE. assert (exists rows, grid_points a = Ok rows) as (rows & Hg).
  { unfold grid_points, mesh_points, n_selected. destruct (a_sel a); [contradiction|]. cbn. eauto. }
  induction ops as [|op ops IH]; intros o q H C P L.
  - cbn in *. destruct L as [L|L]; [exact L|discriminate].
  - cbn [forallb existsb] in P, L. apply andb_prop in P. destruct P as [P1 P2].
    destruct (gwc_step o op P1 C) as [C' M]. destruct (plain_step a o q op H P1) as (o' & q' & R & E & _).
    cbn [x_run]. pose proof (f_equal fst (eq_refl (x_step o op))) as _.
    assert (K : x_grid (fst (x_step o op)) <> None \/ existsb looks ops = true).
    { destruct L as [L|L]; [left; auto|]. apply orb_prop in L. destruct L as [L|L]; [left|auto].
      destruct op as [i| | | | |]; try discriminate.
      - destruct i; try discriminate; cbn [x_step].
        + destruct (read_step x_x ic_x a o q) as (o2 & _ & E2 & G2 & G3); [intros ? ? Z; apply Z|exact H|]. rewrite E2. cbn [fst].
          destruct (x_x o) eqn:Ex; [apply G2, C; left; congruence|apply G3; auto].
        + destruct (read_step x_y ic_y a o q) as (o2 & _ & E2 & G2 & G3); [intros ? ? Z; apply Z|exact H|]. rewrite E2. cbn [fst].
          destruct (x_y o) eqn:Ex; [apply G2, C; right; left; congruence|apply G3; auto].
        + destruct (read_step x_v ic_v a o q) as (o2 & _ & E2 & G2 & G3); [intros ? ? Z; apply Z|exact H|]. rewrite E2. cbn [fst].
          destruct (x_v o) eqn:Ex; [apply G2, C; right; right; congruence|apply G3; auto].
      - cbn [x_step]. pose proof (grid_step a o q H) as Z. rewrite Hg in Z. destruct Z as (o2 & -> & _ & Z). exact Z. }
    destruct (x_step o op) as [o1 r]. cbn [fst] in *. subst o1. specialize (IH o' q' R C' P2 K). destruct (x_run o' ops). exact IH.
Qed.

(** once the grid has been made, num_grid_points_per_axis has no effect any more *)
Theorem resolution_ignored (a : algorithm N) p before n later : forallb plain before = true -> forallb plain later = true ->
  sel_known (a_cs a) (a_sel a) -> a_sel a <> [] -> existsb looks before = true ->
  let o := fst (x_run (x_new a p) before) in
  snd (x_run (fst (x_step o (XGpa n))) later) = snd (x_run o later).
Proof.
  intros P1 P2 SK NE L o. pose proof (state_after a p before P1) as H. cbv zeta in H. fold o in H.
  assert (G : x_grid o <> None).
  { apply (looked a before SK NE _ _ (rel_new a p)); auto. intros [Z|[Z|Z]]; cbn in Z; congruence. }
  assert (S0 : forall (ops : list (xop N)) (w : xice N), x_grid w <> None -> forallb plain ops = true ->
    snd (x_run (fst (x_step w (XGpa n))) ops) = snd (x_run w ops)).
  { clear - N. induction ops as [|op ops IH]; intros w Hw Hp; [reflexivity|]. cbn [forallb] in Hp. apply andb_prop in Hp. destruct Hp as [Q1 Q2].
    assert (K : fst (x_step (fst (x_step w (XGpa n))) op) = fst (x_step (fst (x_step w op)) (XGpa n)) /\
                snd (x_step (fst (x_step w (XGpa n))) op) = snd (x_step w op) /\ x_grid (fst (x_step w op)) <> None).
    { destruct w as [c sl sm ns gp ng ce pr gr xx yy vv]. cbn in Hw. destruct gr as [g|]; [|congruence].
      assert (C : forall A (f : xice N -> option A),
        (forall gp', f (mkx c sl sm ns gp' ng ce pr (Some g) xx yy vv) = f (mkx c sl sm ns gp ng ce pr (Some g) xx yy vv)) ->
        (forall gp' d1 d2 d3, f (mkx c sl sm ns gp' ng ce pr (Some g) d1 d2 d3) = f (mkx c sl sm ns gp ng ce pr (Some g) d1 d2 d3)) ->
        exists o1 r, x_read f (mkx c sl sm ns gp ng ce pr (Some g) xx yy vv) = (o1, r) /\ x_grid o1 <> None /\
          x_read f (mkx c sl sm ns n ng ce pr (Some g) xx yy vv) = (fst (x_step o1 (XGpa n)), r)).
      { intros A f F1 F2. unfold x_read. rewrite (F1 n). destruct (f (mkx c sl sm ns gp ng ce pr (Some g) xx yy vv)).
        - do 2 eexists. split; [reflexivity|]. split; [discriminate|reflexivity].
        - unfold x_calculate, x_grid_points. cbn [x_sel x_cs x_grid]. destruct (get_selected_idx sl c) as [idx|e].
          + change (x_compute (mkx c sl sm ns n ng ce pr (Some g) xx yy vv) idx g) with (x_compute (mkx c sl sm ns gp ng ce pr (Some g) xx yy vv) idx g).
            destruct (x_compute (mkx c sl sm ns gp ng ce pr (Some g) xx yy vv) idx g) as [d|e].
            * do 2 eexists. split; [reflexivity|]. split; [discriminate|]. unfold with_caches. cbn. rewrite (F2 n). reflexivity.
            * do 2 eexists. split; [reflexivity|]. split; [discriminate|reflexivity].
          + do 2 eexists. split; [reflexivity|]. split; [discriminate|reflexivity]. }
      destruct op as [i| | | | |]; try discriminate; [destruct i as [| | | |b|q]|].
      - destruct (C _ x_x) as (o1 & r & E1 & E2 & E3); [reflexivity|reflexivity|]. cbn. cbn in E3. rewrite E1, E3. cbn. auto.
      - destruct (C _ x_y) as (o1 & r & E1 & E2 & E3); [reflexivity|reflexivity|]. cbn. cbn in E3. rewrite E1, E3. cbn. auto.
      - destruct (C _ x_v) as (o1 & r & E1 & E2 & E3); [reflexivity|reflexivity|]. cbn. cbn in E3. rewrite E1, E3. cbn. auto.
      - cbn. repeat split; discriminate.
      - cbn. repeat split; discriminate.
      - cbn. repeat split; discriminate.
      - cbn. repeat split; discriminate. }
    destruct K as (K1 & K2 & K3). cbn [x_run]. remember (fst (x_step w (XGpa n))) as w' eqn:Ew.
    destruct (x_step w' op) as [w1 r1]. destruct (x_step w op) as [w2 r2]. cbn [fst snd] in *. subst w1 r1.
    specialize (IH w2 K3 Q2). destruct (x_run (fst (x_step w2 (XGpa n))) ops). destruct (x_run w2 ops). cbn [snd] in *. f_equal. exact IH. }
  apply S0; assumption.
Qed.

(** before that, it breaks the object *)
Lemma not_looked (a : algorithm N) p before : forallb plain before = true -> existsb looks before = false ->
  let o := fst (x_run (x_new a p) before) in x_grid o = None /\ x_x o = None /\ x_y o = None /\ x_v o = None.
Proof.
  intros P L o.
  assert (S0 : forall (ops : list (xop N)) (w : xice N), forallb plain ops = true -> existsb looks ops = false ->
    x_grid w = None /\ x_x w = None /\ x_y w = None /\ x_v w = None -> let o := fst (x_run w ops) in x_grid o = None /\ x_x o = None /\ x_y o = None /\ x_v o = None).
  { induction ops as [|op ops IH]; intros w Q1 Q2 Hw; [exact Hw|]. cbn [forallb existsb] in Q1, Q2. apply andb_prop in Q1. destruct Q1 as [Q1 Q1'].
    apply orb_false_iff in Q2. destruct Q2 as [Q2 Q2']. cbn [x_run].
    assert (K : let o := fst (x_step w op) in x_grid o = None /\ x_x o = None /\ x_y o = None /\ x_v o = None).
    { destruct op as [i| | | | |]; try discriminate. destruct Hw as (W1 & W2 & W3 & W4). destruct i; try discriminate; cbn; auto. }
    destruct (x_step w op) as [w1 r]. cbn [fst] in K. specialize (IH w1 Q1' Q2' K). destruct (x_run w1 ops). exact IH. }
  apply S0; [exact P|exact L|]. cbn. auto.
Qed.

Theorem resolution_breaks (a : algorithm N) p before n later : forallb plain before = true -> forallb plain later = true ->
  sel_known (a_cs a) (a_sel a) -> a_sel a <> [] -> rect (num_features a) (a_samples a) -> existsb looks before = false ->
  n ^ n_selected a <> num_grid_points a -> n ^ n_selected a <> 1 ->
  Forall (raises ValueError) (ice_shown (snd (x_run (fst (x_step (fst (x_run (x_new a p) before)) (XGpa n))) later))).
Proof.
  intros P1 P2 SK NE RC L D1 D2. set (o := fst (x_run (x_new a p) before)).
  pose proof (state_after a p before P1) as H. cbv zeta in H. fold o in H.
  pose proof (not_looked a p before P1 L) as K. cbv zeta in K. fold o in K. destruct K as (K0 & K1 & K2 & K3).
  destruct H as (H1 & H2 & H3 & H4 & H5 & H6 & H7 & H8 & H9 & H10 & H11 & H12).
  destruct (selected_idx_total _ _ SK) as (idx & Hi).
  assert (exists rows, mesh_points (N:=N) (linspace n0 n1 n) (n_selected a) = Ok rows) as (rows & Hg).
  { unfold mesh_points, n_selected. destruct (a_sel a); [contradiction|]. cbn. eauto. }
  assert (LR : length rows = n ^ n_selected a).
  { destruct (mesh_points_length _ _ _ Hg) as [Z _]. rewrite linspace_length in Z. exact Z. }
  set (P := fun o : xice N => x_cs o = a_cs a /\ x_sel o = a_sel a /\ x_samples o = a_samples a /\ x_nsamples o = num_samples a /\ x_ngrid o = num_grid_points a /\
     (x_x o = None /\ x_y o = None /\ x_v o = None) /\ x_gpa o = n /\ match x_grid o with None => True | Some g => g = (n_selected a, rows) end).
  assert (PG : forall o, P o -> P (fst (x_grid_points o)) /\ snd (x_grid_points o) = Ok (n_selected a, rows)).
  { intros w (W1 & W2 & W3 & W4 & W5 & W6 & W7 & W8). unfold x_grid_points. destruct (x_grid w) as [g|] eqn:Eg.
    - cbn [fst snd]. subst g. split; [|reflexivity]. unfold P. rewrite Eg. repeat split; auto; apply W6.
    - rewrite W2, W7. change (length (a_sel a)) with (n_selected a). rewrite Hg. cbn [fst snd].
      split; [|reflexivity]. unfold P. cbn. repeat split; auto; apply W6. }
  apply (broken_run P ValueError); [|unfold P; cbn; rewrite K0; repeat split; auto|exact P2].
  split; [intros w (_ & _ & _ & _ & _ & W & _); exact W|]. split; [|split; [intros w W; apply PG, W|split]].
  - intros w W. pose proof (PG w W) as [W' Hg']. unfold x_calculate.
    pose proof W as (W1 & W2 & _). rewrite W1, W2, Hi. destruct (x_grid_points w) as [w1 r]. cbn [fst snd] in *. subst r.
    exists w1. split; [|exact W']. destruct W' as (V1 & V2 & V3 & V4 & V5 & _). unfold x_compute, reshape3.
    rewrite np_repeat_length, V1, V3, V4, V5, (concat_length_const _ _ RC). change (length (a_cs a)) with (num_features a).
    change (length (a_samples a)) with (num_samples a). rewrite Nat.eqb_refl. cbn [bind]. unfold broadcast. cbn [fst snd]. rewrite LR.
    destruct (Nat.eqb_spec (n ^ n_selected a) (num_grid_points a)) as [E|E]; [contradiction|].
    destruct rows as [|r1 [|r2 rows]]; [reflexivity|cbn in LR; congruence|reflexivity].
  - intros w (W1 & W2 & W3 & W4 & W5 & W6 & W7 & W8). unfold P. cbn. repeat split; auto.
  - intros w b q (W1 & W2 & W3 & W4 & W5 & W6 & W7 & W8). unfold P. cbn. repeat split; auto; apply W6.
Qed.

Lemma spread (f g : nat) (samples : list (list N)) x3 : rect f samples ->
  reshape3 n0 (np_repeat g (concat samples)) (length samples) f g = Ok x3 ->
  transpose021 n0 f g x3 = map (fun row => repeat row g) samples.
Proof.
  intros RC E. unfold reshape3 in E. rewrite np_repeat_length, (concat_length_const _ _ RC), Nat.eqb_refl in E. injection E as <-.
  unfold transpose021. rewrite map_map. apply list_eq_nth with (d := []).
  - rewrite !map_length, seq_length. reflexivity.
  - rewrite map_length, seq_length. intros i Hi. rewrite nth_map_seq by exact Hi.
    rewrite (nth_indep (map _ samples) [] (repeat [] g)) by (rewrite map_length; exact Hi).
    rewrite (map_nth (fun row => repeat row g)).
    assert (HR : length (nth i samples []) = f).
    { unfold rect in RC. rewrite Forall_forall in RC. apply RC. apply nth_In. exact Hi. }
    transitivity (map (fun _ : nat => nth i samples []) (seq 0 g)).
    + apply map_ext_in. intros k Hk. apply in_seq in Hk.
      rewrite <- (map_nth_seq (nth i samples []) n0 f HR) at 1.
      apply map_ext_in. intros j Hj. apply in_seq in Hj.
      rewrite nth_map_seq by lia. rewrite nth_map_seq by lia.
      rewrite np_repeat_nth; [|lia|].
      * apply nth_concat_rect; [exact RC|lia].
      * rewrite (concat_length_const _ _ RC). nia.
    + clear. generalize 0. induction g as [|g IH]; intro s; cbn; [reflexivity|]. f_equal. apply IH.
Qed.


(** resolution 1: a single grid point, silently used for all of them *)
Theorem resolution_one (a : algorithm N) p before x : forallb plain before = true -> existsb looks before = false ->
  NoDup (map hp_name (a_cs a)) -> rect (num_features a) (a_samples a) ->
  snd (x_step (fst (x_step (fst (x_run (x_new a p) before)) (XGpa 1))) (XIce OReadX)) = YIce (ROutX (Ok x)) ->
  forall i g row, nth_error (a_samples a) i = Some row -> g < num_grid_points a ->
    exists xrow, at3 x i g = Some xrow /\
      (forall j t, selected_at (a_cs a) (a_sel a) j t -> nth_error xrow j = Some n0) /\
      (forall j, not_selected (a_cs a) (a_sel a) j -> nth_error xrow j = nth_error row j).
Proof.
  intros P L ND RC H i g row Hr Hg. set (o := fst (x_run (x_new a p) before)) in *.
  pose proof (state_after a p before P) as Z. cbv zeta in Z. fold o in Z.
  pose proof (not_looked a p before P L) as K. cbv zeta in K. fold o in K. destruct K as (K0 & K1 & K2 & K3).
  destruct Z as (H1 & H2 & H3 & H4 & H5 & _).
  cbn [x_step fst] in H. unfold x_read in H. cbn [x_x] in H. rewrite K1 in H. unfold x_calculate in H. cbn [x_sel x_cs] in H.
  rewrite H1, H2 in H. destruct (get_selected_idx (a_sel a) (a_cs a)) as [idx|e] eqn:Hi; [|discriminate].
  unfold x_grid_points in H. cbn [x_grid x_gpa x_sel] in H. rewrite K0 in H. cbn [x_grid] in H.
  destruct (mesh_points (linspace n0 n1 1) (length (a_sel a))) as [rows|e] eqn:Eg; [|discriminate].
  match type of H with context [x_compute ?w ?i ?g] => destruct (x_compute w i g) as [d|e] eqn:Ec end; [|discriminate].
  cbn in H. injection H as <-. unfold x_compute in Ec. cbn [x_cs x_ngrid x_samples x_nsamples x_predict x_centered with_grid] in Ec.
  rewrite ?H1, ?H3, ?H4, ?H5 in Ec. inv_bind Ec. inv_bind Ec. inv_bind Ec. inv_bind Ec. inv_bind Ec. inv_bind Ec. inv_bind Ec. injection Ec as <-. cbn [i_x].
  change (length (a_cs a)) with (num_features a) in *. rewrite (spread _ _ _ _ RC E) in *. clear E.
  assert (Lidx : length idx = length (a_sel a)) by exact (proj1 (selected_idx_nth _ _ _ Hi)).
  assert (ER : rows = [repeat n0 (length (a_sel a))]).
  { unfold mesh_points in Eg. destruct (length (a_sel a)) as [|k] eqn:Ek; [discriminate|]. injection Eg as <-.
    assert (M : forall m s, map (fun _ : nat => n0 (N:=N)) (seq s m) = repeat n0 m).
    { clear. induction m as [|m IH]; intro s; cbn; [reflexivity|]. rewrite IH. reflexivity. }
    rewrite Nat.pow_1_l. cbn [Nat.add seq map repeat]. rewrite M. reflexivity. }
  assert (EB : x0 = repeat (repeat n0 (length (a_sel a))) (num_grid_points a)).
  { subst rows. unfold broadcast in E0. cbn [fst snd length] in E0. destruct (Nat.eqb_spec 1 (num_grid_points a)) as [Eq|Eq]; cbn [bind] in E0;
      rewrite Lidx, Nat.eqb_refl in E0; injection E0 as <-; [rewrite <- Eq|]; reflexivity. }
  subst x0. exists (assign_row idx (repeat n0 (length (a_sel a))) row).
  assert (Lrow : length row = num_features a) by (pose proof Hr as Hr'; apply nth_error_In in Hr'; exact (proj1 (Forall_forall _ _) RC row Hr')).
  split; [|split].
  - unfold at3, assign_cols. rewrite map_map, nth_error_map, Hr. cbn [option_map].
    clear - Hg. set (v := repeat n0 (length (a_sel a))). clearbody v. revert g Hg. induction (num_grid_points a) as [|G IH]; intros g Hg; [lia|].
    destruct g as [|g]; cbn; [reflexivity|]. apply IH. lia.
  - intros j t (h & hs & Hh & Hs & Hn & Hlast).
    destruct (selected_idx_nth _ _ _ Hi) as [Li Ni]. destruct (Ni t hs Hs) as (j' & Hj' & Hc).
    assert (j' = j) by (rewrite Hn in Hc; pose proof (cs_idx_nodup _ _ _ ND Hh); congruence). subst j'.
    assert (Hjl : j < length row) by (rewrite Lrow; exact (nth_error_Some_lt _ _ _ Hh)).
    assert (Htl : t < length (a_sel a)) by exact (nth_error_Some_lt _ _ _ Hs).
    rewrite (nth_error_nth' (assign_row idx _ row) n0) by (rewrite assign_row_length; exact Hjl). f_equal.
    rewrite (assign_row_at idx (repeat n0 (length (a_sel a))) row j t n0); auto; [|rewrite repeat_length; auto|].
    + apply nth_repeat.
    + intros t' Ht' Hnt'. assert (Hlt : t' < length (a_sel a)) by (rewrite <- Li; exact (nth_error_Some_lt _ _ _ Hnt')).
      destruct (nth_error (a_sel a) t') as [hs'|] eqn:Eq; [|apply nth_error_None in Eq; lia].
      destruct (Ni t' hs' Eq) as (j'' & Hj'' & Hc''). rewrite Hnt' in Hj''. inversion Hj''; subst j''.
      apply (Hlast t' hs' Ht' Eq). rewrite <- Hn. exact (cs_idx_inj _ _ _ _ Hc'' Hc).
  - intros j Hj. destruct (Nat.lt_ge_cases j (length row)) as [Hjl|Hjl].
    + rewrite (nth_error_nth' (assign_row idx _ row) n0) by (rewrite assign_row_length; exact Hjl).
      rewrite (nth_error_nth' row n0) by exact Hjl. f_equal. apply assign_row_other.
      intro Hin. destruct (in_idx _ _ _ _ Hi Hin) as (hs & h & Hs & Hh & Hn).
      apply (Hj h Hh). rewrite Hn. apply in_map, Hs.
    + rewrite (proj2 (nth_error_None row j) Hjl). apply nth_error_None. rewrite assign_row_length. exact Hjl.
Qed.

End P.
