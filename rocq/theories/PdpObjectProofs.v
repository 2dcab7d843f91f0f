(** PdpObjectProofs.v - what a PDP object returns while nobody centers its ICE object or refits its surrogate (C26). *)
From Coq Require Import Reals.
From Verif Require Import Base Num NumLaws NumpyModel ConfigSpaceModel UtilsModel IceModel ListLemmas IceProofs IceProofs2 RealSums IceReal.
Local Open Scope nat_scope.
Local Open Scope list_scope.

Section Obj.
Context {N : Num}.
(** operations that leave the flag and the surrogate of the ICE object alone: all reads, and reset *)
Definition only_looks (op : pdp_op N) : Prop :=
  match op with PIce (OCenter _) | PIce (ORefit _) => False | _ => True end.
Variables (a : algorithm N) (c : bool) (p : predictor N) (d : icedata N).
Hypothesis H : ice_calculate a c p = Ok d.
Definition holds {A} (o : option A) (x : A) : Prop := o = None \/ o = Some x.
Definition ice_inv (o : ice N) : Prop := ic_alg o = a /\ ic_centered o = c /\ ic_predict o = p /\ holds (ic_x o) (i_x d) /\ holds (ic_y o) (i_y d) /\ holds (ic_v o) (i_v d).
Definition pdp_inv (s : pdp N) : Prop := ice_inv (pd_ice s) /\ holds (pd_x s) (x_pdp a d) /\ holds (pd_y s) (y_pdp a d) /\ holds (pd_v s) (v_pdp a d).
Lemma read_inv {A} (f : ice N -> option A) x o : ice_inv o -> holds (f o) x ->
  f (mkiceobj a c p (Some (i_x d)) (Some (i_y d)) (Some (i_v d))) = Some x ->
  exists o', read_field f o = (o', Ok x) /\ ice_inv o'.
Proof.
  intros I Hf E. unfold read_field. destruct Hf as [Hf|Hf]; rewrite Hf.
  - pose proof I as (Ea & Ec & Ep & _). unfold ice_run. rewrite Ea, Ec, Ep, H. cbn [bind]. rewrite E. eexists. split; [reflexivity|].
    unfold ice_inv, holds. cbn. auto 10.
  - exists o. auto.
Qed.
Lemma pdp_step_inv s op : only_looks op -> pdp_inv s -> pdp_inv (fst (pdp_step s op)) /\
  match op with PX => snd (pdp_step s op) = POX (Ok (x_pdp a d)) | PY => snd (pdp_step s op) = POY (Ok (y_pdp a d)) | PV => snd (pdp_step s op) = POV (Ok (v_pdp a d)) | PIce _ => True end.
Proof.
  intros L (I & X & Y & V). pose proof I as (A & _ & _ & Cx & Cy & Cv).
  destruct (read_inv ic_x (i_x d) (pd_ice s) I Cx eq_refl) as (ox & Ex & Ix).
  destruct (read_inv ic_y (i_y d) (pd_ice s) I Cy eq_refl) as (oy & Ey & Iy).
  destruct (read_inv ic_v (i_v d) (pd_ice s) I Cv eq_refl) as (ov & Ev & Iv).
  unfold pdp_inv. destruct op as [[| | | |b|q]| | |]; cbn [pdp_step ice_step]; unfold read_x, read_y, read_v; try contradiction.
  - rewrite Ex. cbn. auto.
  - rewrite Ey. cbn. auto.
  - rewrite Ev. cbn. auto.
  - cbn. split; [|exact Logic.I]. split; [|auto]. destruct I as (I1 & I2 & I3 & _). unfold ice_inv, holds. cbn. auto 10.
  - destruct X as [X|X]; rewrite X.
    + rewrite Ex, A. cbn. unfold holds. auto 10.
    + cbn. unfold holds. auto 10.
  - destruct Y as [Y|Y]; rewrite Y.
    + rewrite Ey, A. cbn. unfold holds. auto 10.
    + cbn. unfold holds. auto 10.
  - destruct V as [V|V]; rewrite V.
    + rewrite Ev, A. cbn. unfold holds. auto 10.
    + cbn. unfold holds. auto 10.
Qed.
Lemma pdp_run_inv ops : Forall only_looks ops -> forall s, pdp_inv s -> pdp_inv (fst (pdp_run s ops)).
Proof.
  induction 1 as [|op ops L F IH]; intros s I; cbn; [exact I|]. destruct (pdp_step_inv s op L I) as [I' _].
  destruct (pdp_step s op) as [s1 r]. cbn in I'. specialize (IH s1 I'). destruct (pdp_run s1 ops) as [s2 rs]. exact IH.
Qed.
End Obj.

Lemma pdp_object_means (a : algorithm RNum) p d ops : NoDup (map hp_name (a_cs a)) -> rect (num_features a) (a_samples a) -> 0 < num_samples a ->
  ice_calculate a false p = Ok d -> Forall only_looks ops -> let s := fst (pdp_run (pdp_new a p) ops) in
  exists xs ys vs, snd (pdp_step s PX) = POX (Ok xs) /\ snd (pdp_step s PY) = POY (Ok ys) /\ snd (pdp_step s PV) = POV (Ok vs) /\
    forall g, g < num_grid_points a ->
      (exists m, nth_error ys g = Some m /\ mean_over (num_samples a) (fun i => at2 (i_y d) i g) m) /\
      (exists m, nth_error vs g = Some m /\ mean_over (num_samples a) (fun i => at2 (i_v d) i g) m) /\
      (exists row, nth_error xs g = Some row /\ forall j, j < num_features a -> exists m, nth_error row j = Some m /\ mean_over (num_samples a) (fun i => at3j (i_x d) i g j) m).
Proof.
  intros ND RC Hn H F s.
  assert (I : pdp_inv a false p d s).
  { unfold s. apply (pdp_run_inv a false p d H ops F). unfold pdp_inv, ice_inv, holds. cbn. auto 10. }
  exists (x_pdp a d), (y_pdp a d), (v_pdp a d).
  refine (conj (proj2 (pdp_step_inv a false p d H s PX Logic.I I)) (conj (proj2 (pdp_step_inv a false p d H s PY Logic.I I)) (conj (proj2 (pdp_step_inv a false p d H s PV Logic.I I)) _))).
  intros g Hg. destruct (pdp_is_mean a false p d ND RC Hn H g Hg) as (A & B & row & C & _ & D & _). refine (conj A (conj B _)). exists row. auto.
Qed.
