(** ConditionProofs.v - split conditions with any arguments (C82). *)
From Coq Require Import QArith Reals Lra.
From Flocq Require Import Core.Core IEEE754.BinarySingleNaN.
From Verif Require Import Base Num NumLaws NumpyModel ConfigSpaceModel UtilsModel PartitionModel ConditionModel ConditionSpec RealProofs Witness.
Local Open Scope list_scope.

Section Any.
Context {N : Num}.
Notation PF := (PFloat (N:=N)).

Lemma scale_total (cs : cspace N) h g : cs_get cs (hp_name h) = Ok g -> is_numerical g = true -> forall x, exists y, scale_float x cs h = Ok y.
Proof. intros E K x. unfold scale_float. rewrite E. unfold is_numerical, hp_log, hp_lower, hp_upper in *. cbn [bind]. destruct (hp_kind g); try discriminate; cbn [bind]; eauto. Qed.
Lemma scale_needs (cs : cspace N) h x y : scale_float x cs h = Ok y -> exists g, cs_get cs (hp_name h) = Ok g /\ is_numerical g = true.
Proof. unfold scale_float. destruct (cs_get cs (hp_name h)) as [g|] eqn:E; cbn [bind]; [|discriminate]. unfold is_numerical, hp_log. intro H. exists g. split; [reflexivity|]. destruct (hp_kind g); try discriminate; reflexivity. Qed.

(** which arguments the constructor accepts *)
Theorem split_new_ok (cs : cspace N) h value normalized le : (exists c, split_new cs h value normalized le = Ok c) <->
  (exists n, value = None /\ normalized = Some n /\ (is_float n = true -> le <> None)) \/
  (exists v x g, value = Some v /\ normalized = None /\ number v = Some x /\ cs_get cs (hp_name h) = Ok g /\ is_numerical g = true /\ le <> None).
Proof.
  unfold split_new. split.
  - intros (c & H). destruct value as [v|], normalized as [n|]; cbn [guard bind] in H; try discriminate.
    + right. destruct v as [x|z|s]; cbn [scale_any] in H.
      * destruct (scale_float x cs h) as [y|] eqn:E; cbn [bind is_float negb orb guard] in H; [|discriminate]. destruct (scale_needs cs h x y E) as (g & Eg & Kg). exists (PF x), x, g. destruct le; [|discriminate]. repeat split; try assumption. discriminate.
      * destruct (scale_float (nofZ z) cs h) as [y|] eqn:E; cbn [bind is_float negb orb guard] in H; [|discriminate]. destruct (scale_needs cs h _ y E) as (g & Eg & Kg). exists (PInt z), (nofZ z), g. destruct le; [|discriminate]. repeat split; try assumption. discriminate.
      * destruct (cs_get cs (hp_name h)) as [g|]; cbn [bind] in H; [|discriminate]. destruct (hp_log g); cbn [bind] in H; discriminate.
    + left. exists n. repeat split. intros F. rewrite F in H. destruct le; [discriminate|discriminate H].
  - intros [(n & -> & -> & F)|(v & x & g & -> & -> & V & Eg & Kg & F)]; cbn [guard bind].
    + destruct (is_float n); cbn [negb orb]; [|eexists; reflexivity]. destruct le as [b|]; [eexists; reflexivity|]. exfalso. apply F; reflexivity.
    + destruct le as [b|]; [|contradiction]. destruct (scale_total cs h g Eg Kg x) as (y & E). destruct v; try discriminate V; injection V as <-; cbn [scale_any]; rewrite E; eexists; reflexivity.
Qed.

(** what it raises otherwise *)
Theorem split_new_errors (cs : cspace N) h value normalized le e : split_new cs h value normalized le = Err e ->
  e = AssertionError \/ (exists v, value = Some v /\ normalized = None /\
    ((e = KeyError /\ cs_get cs (hp_name h) = Err KeyError) \/ (exists g, cs_get cs (hp_name h) = Ok g /\
      ((e = AttributeError /\ is_numerical g = false) \/ (e = TypeError /\ is_numerical g = true /\ number v = None))))).
Proof.
  assert (K : cs_get cs (hp_name h) = Err KeyError \/ exists g, cs_get cs (hp_name h) = Ok g).
  { induction cs as [|g cs IH]; cbn; [left; reflexivity|]. destruct (String.eqb _ _); [right; eauto|exact IH]. }
  assert (S : forall x e, scale_float x cs h = Err e -> (e = KeyError /\ cs_get cs (hp_name h) = Err KeyError) \/ (exists g, cs_get cs (hp_name h) = Ok g /\ e = AttributeError /\ is_numerical g = false)).
  { intros x f. unfold scale_float. destruct K as [K|(g & K)]; rewrite K; cbn [bind]; [intro E; injection E as <-; left; auto|]. unfold is_numerical, hp_log, hp_lower, hp_upper. intro E. right. exists g. split; [reflexivity|].
    destruct (hp_kind g); cbn [bind] in E; try discriminate; injection E as <-; auto. }
  unfold split_new. destruct value as [v|], normalized as [n|]; cbn [guard bind]; intro H; try (left; congruence).
  - destruct v as [x|z|s]; cbn [scale_any] in H.
    + destruct (scale_float x cs h) as [y|f] eqn:E; cbn [bind is_float negb orb] in H; [left; destruct le; [discriminate|injection H as <-; reflexivity]|]. injection H as <-. right. eexists. repeat split. destruct (S x f E) as [H|(g & H1 & H2 & H3)]; [left; exact H|right; exists g; auto].
    + destruct (scale_float (nofZ z) cs h) as [y|f] eqn:E; cbn [bind is_float negb orb] in H; [left; destruct le; [discriminate|injection H as <-; reflexivity]|]. injection H as <-. right. eexists. repeat split. destruct (S _ f E) as [H|(g & H1 & H2 & H3)]; [left; exact H|right; exists g; auto].
    + right. eexists. repeat split. destruct K as [K|(g & K)]; rewrite K in *; cbn [bind] in H; [injection H as <-; left; auto|]. right. exists g. split; [reflexivity|]. unfold is_numerical, hp_log in *. destruct (hp_kind g); cbn [bind] in H; injection H as <-; auto.
  - left. destruct (is_float n); cbn [negb orb] in H; [|discriminate]. destruct le; [discriminate|]. injection H as <-. reflexivity.
Qed.

(** the conditions of split_at_value *)
Theorem split_as_cond (cs : cspace N) h x b : exists c, split_new cs h None (Some (PFloat x)) (Some b) = Ok c /\
  forall cfg, split_satisfied cs c cfg = is_satisfied cs (mkcond h x b) cfg.
Proof.
  eexists. split; [reflexivity|]. intro cfg. unfold split_satisfied, split_value, is_satisfied, cond_value. cbn [sc_norm sc_hp sc_le c_val c_hp c_le].
  destruct (unscale_float x cs h) as [u|]; cbn [bind]; [|reflexivity]. destruct (config_get cfg (hp_name h)) as [[y|s]|]; try reflexivity; destruct b; reflexivity.
Qed.

(** strings and integers as normalized values: equality with the entry, whatever the flag; never an exception *)
Theorem split_choice (cs : cspace N) h n le : is_float n = false -> exists c, split_new cs h None (Some n) le = Ok c /\
  forall cfg, exists b, split_satisfied cs c cfg = Ok b /\
    (b = true <-> exists w, config_get cfg (hp_name h) = Some w /\ same_value n w).
Proof.
  intro F. exists (mksplit h n le). split; [unfold split_new; cbn [guard bind]; rewrite F; reflexivity|]. intro cfg. unfold split_satisfied, split_value. cbn [sc_norm sc_hp sc_le].
  destruct n as [x|z|s]; [discriminate| |]; cbn [bind py_equal same_value]; eexists; (split; [reflexivity|]).
  - destruct (config_get cfg (hp_name h)) as [[y|t]|]; split; try discriminate; try (intros (w & E & H); try discriminate E; injection E as <-; try contradiction; exact H). intro H. eexists. split; [reflexivity|exact H].
  - destruct (config_get cfg (hp_name h)) as [[y|t]|]; split; try discriminate; try (intros (w & E & H); try discriminate E; injection E as <-; try contradiction; apply String.eqb_eq; exact H). intro H. eexists. split; [reflexivity|apply String.eqb_eq; exact H].
Qed.

(** a float with a hyperparameter that has no range: the condition can be made and never be evaluated *)
Theorem split_float_choice (cs : cspace N) h g x b : cs_get cs (hp_name h) = Ok g -> is_numerical g = false ->
  exists c, split_new cs h None (Some (PFloat x)) (Some b) = Ok c /\ (forall cfg, split_satisfied cs c cfg = Err AttributeError) /\ split_value cs c = Err AttributeError.
Proof.
  intros E K. eexists. split; [reflexivity|]. assert (U : unscale_float x cs h = Err AttributeError).
  { unfold unscale_float. rewrite E. cbn [bind]. unfold is_numerical, hp_log in *. destruct (hp_kind g); try discriminate; reflexivity. }
  split; [intro cfg; unfold split_satisfied|]; unfold split_value; cbn [sc_norm sc_hp]; rewrite U; reflexivity.
Qed.

(** the two flags: exactly one of the two conditions holds *)
Theorem split_complementary (L : order_laws N) (cs : cspace N) h value normalized c1 c2 u cfg x :
  split_new cs h value normalized (Some true) = Ok c1 -> split_new cs h value normalized (Some false) = Ok c2 ->
  split_value cs c1 = Ok (PFloat u) -> ordinary u -> config_get cfg (hp_name h) = Some (VNum x) -> ordinary x ->
  exists b, split_satisfied cs c1 cfg = Ok b /\ split_satisfied cs c2 cfg = Ok (negb b).
Proof.
  intros E1 E2 V Hu G Hx.
  assert (S : exists n, c1 = mksplit h n (Some true) /\ c2 = mksplit h n (Some false)).
  { revert E1 E2. unfold split_new. destruct (guard (match value with None => _ | _ => _ end) _); [|discriminate]. cbn [bind]. destruct (guard _ _); [|discriminate]. cbn [bind].
    destruct (match normalized with Some n => _ | None => _ end) as [n|]; [|discriminate]. cbn [bind]. rewrite !Bool.orb_true_r. cbn [guard bind]. intros A B. injection A as <-. injection B as <-. exists n. auto. }
  destruct S as (n & -> & ->). unfold split_satisfied, split_value in *. cbn [sc_norm sc_hp sc_le] in *. rewrite G.
  destruct n as [y| |]; try discriminate. destruct (unscale_float y cs h) as [w|]; cbn [bind] in *; [|discriminate]. injection V as ->. exists (nle x u). split; [reflexivity|].
  rewrite (ol_le N L x u Hx Hu), Bool.negb_involutive. reflexivity.
Qed.
End Any.

(** ** reals *)
Section Reals.
Local Open Scope R_scope.
Lemma of_number (cs : cspace RNum) h (v : pyval RNum) (x : R) b y : number v = Some (x : RNum) -> scale_float (N:=RNum) x cs h = Ok y ->
  split_new cs h (Some v) None (Some b) = Ok (mksplit h (PFloat (N:=RNum) y) (Some b)).
Proof. intros V E. unfold split_new. cbn [guard bind]. assert (Q : scale_any v cs h = Ok y). { destruct v; try discriminate V; injection V as <-; exact E. } rewrite Q. reflexivity. Qed.

(** built from a value: the value is kept (moved to the nearer bound when it is outside of the range), and
    the condition compares with it *)
Theorem split_by_value (cs : cspace RNum) h g lo up lg (v : pyval RNum) (x : R) b show show_int :
  cs_get cs (hp_name h) = Ok g -> hp_is g lo up lg -> good_bounds lo up lg -> number v = Some (x : RNum) -> (lg = true -> 0 < x) ->
  exists c, split_new cs h (Some v) None (Some b) = Ok c /\
    let t := Rmin up (Rmax lo x) in
    split_value cs c = Ok (PFloat (N:=RNum) t) /\
    split_str show show_int cs c = Ok ("SplitCondition(" ++ hp_name h ++ (if b then " <= " else " > ") ++ show t ++ ")")%string /\
    forall cfg (z : R), config_get cfg (hp_name h) = Some (VNum (N:=RNum) z) ->
      exists s, split_satisfied cs c cfg = Ok s /\ (s = true <-> if b then z <= t else t < z).
Proof.
  intros Eg K B V P. destruct (scaling_roundtrip cs h g lo up lg Eg K B) as (sc & un & Es & Eu & _ & _ & _ & RT & _ & _ & _ & _ & U0 & U1 & S0 & S1).
  eexists. split; [apply (of_number cs h v x b (sc x) V); apply Es|]. intro t.
  assert (T : un (sc x) = t).
  { unfold t. destruct B as (B & _). destruct (Rle_lt_dec x lo) as [C|C].
    - rewrite (S0 x P C), (U0 0 ltac:(lra)), (Rmax_left lo x C), (Rmin_right up lo) by lra. reflexivity.
    - destruct (Rle_lt_dec up x) as [D|D]; [rewrite (S1 x D), (U1 1 ltac:(lra)), (Rmax_right lo x), (Rmin_left up x) by lra; reflexivity|]. rewrite RT by lra. rewrite (Rmax_right lo x), (Rmin_right up x) by lra. reflexivity. }
  assert (E : split_value cs (mksplit h (PFloat (N:=RNum) (sc x)) (Some b)) = Ok (PFloat (N:=RNum) t)).
  { unfold split_value. cbn [sc_norm sc_hp]. rewrite Eu. cbn [bind]. rewrite T. reflexivity. }
  split; [exact E|]. split; [unfold split_str; rewrite E; cbn [bind sc_le sc_hp show_value]; destruct b; reflexivity|].
  intros cfg z G. unfold split_satisfied. rewrite E. cbn [bind sc_le sc_hp]. rewrite G. eexists. split; [reflexivity|]. destruct b; cbn; [unfold Rleb; destruct (Rle_dec z t)|unfold Rltb; destruct (Rlt_dec t z)]; split; intro; try reflexivity; try discriminate; try assumption; contradiction.
Qed.
End Reals.

(** ** binary64: the value is not kept.  An integer hyperparameter from 0 to 49, the value 1, and a configuration
    with the value 1: the condition "<= 1" does not hold *)
Section Floats.
Variables fe fln fr : b64 -> b64.
Notation BN := (B64 fe fln fr).
Definition w_int : hp BN := mkhp "n"%string (KInt 0 49 false).
Definition w_one : config BN := [("n"%string, VNum (nofZ (n:=BN) 1))].
Theorem split_value_lost : exists c u, split_new [w_int] w_int (Some (PInt 1)) None (Some true) = Ok c /\
  split_value [w_int] c = Ok (PFloat u) /\ nlt u (nofZ (n:=BN) 1) = true /\
  config_get w_one (hp_name w_int) = Some (VNum (nofZ (n:=BN) 1)) /\ hp_kind w_int = KInt 0 49 false /\ split_satisfied [w_int] c w_one = Ok false.
Proof.
  assert (E : match split_new [w_int] w_int (Some (PInt 1)) None (Some true) with
              | Ok c => match split_value [w_int] c with Ok (PFloat u) => (nlt u (nofZ (n:=BN) 1), split_satisfied [w_int] c w_one) | _ => (false, Err KeyError) end
              | Err _ => (false, Err KeyError) end = (true, Ok false)) by (vm_compute; reflexivity).
  destruct (split_new [w_int] w_int (Some (PInt 1)) None (Some true)) as [c|]; [|discriminate]. destruct (split_value [w_int] c) as [[u| |]|] eqn:V; try discriminate. injection E as E1 E2. exists c, u. repeat split; assumption.
Qed.
End Floats.

(** assigning to less_equal *)
Theorem split_flag_cleared {N : Num} (cs : cspace N) (c : splitcond N) x cfg show show_int : sc_norm c = PFloat x ->
  split_satisfied cs (set_flag None c) cfg = split_satisfied cs (set_flag (Some false) c) cfg /\
  forall u, unscale_float x cs (sc_hp c) = Ok u ->
    split_str show show_int cs (set_flag None c) = Ok ("SplitCondition(" ++ show u ++ " in " ++ hp_name (sc_hp c) ++ ")")%string.
Proof.
  intro E. split.
  - unfold split_satisfied, split_value, set_flag. cbn. rewrite E. destruct (unscale_float x cs (sc_hp c)); reflexivity.
  - intros u Eu. unfold split_str, split_value, set_flag. cbn. rewrite E, Eu. reflexivity.
Qed.
Theorem split_flag_assigned {N : Num} (cs : cspace N) h value normalized le le' c :
  split_new cs h value normalized (Some le) = Ok c -> split_new cs h value normalized (Some le') = Ok (set_flag (Some le') c).
Proof.
  unfold split_new. intro E. destruct (guard _ AssertionError) as [u1|] in E |- *; cbn [bind] in *; [|discriminate].
  destruct (guard _ AssertionError) as [u2|] in E |- *; cbn [bind] in *; [|discriminate].
  match goal with |- bind ?m _ = _ => destruct m as [n|] end; cbn [bind] in *; [|discriminate].
  rewrite orb_true_r in *. cbn in *. injection E as <-. reflexivity.
Qed.
