(** SamplerMetaWitness.v - computed cases for C91. *)
From Coq Require Import QArith.
From Flocq Require Import Core.Core IEEE754.BinarySingleNaN.
From Verif Require Import Base Num NumLaws NumpyModel ConfigSpaceModel SamplerModel SamplerExamples SamplerMeta Witness.
Local Open Scope nat_scope.
Local Open Scope list_scope.

(** ** a search on one hyperparameter that looks at its data: halve after a success, go up otherwise *)
Definition h_next (_ : nat) (p : option (list (list QNum) * list (json QNum))) (eta : option QNum) : res (conf QNum) :=
  match p, eta with
  | Some (X, ys), Some best =>
      match last ys JNull with
      | JNum y => let x := hd n0 (last X []) in
                  Ok (sx_conf sx_cs [if neqb y best then nmul (n:=QNum) (1#2)%Q x else nmul (n:=QNum) (1#2)%Q (nadd (n:=QNum) x (1#1)%Q)])
      | _ => Err TypeError
      end
  | _, _ => Err ValueError
  end.
Definition h_obj (_ : nat) (c : config QNum) : res (json QNum) :=
  match c with (_, VNum x) :: _ => Ok (JNum (let d := nsub (n:=QNum) x (1#5)%Q in nmul d d)) | _ => Err KeyError end.
Definition h_world (obj : nat -> config QNum -> res (json QNum)) : world QNum :=
  mkworld obj (w_batch sx_bo_world) false (w_rand sx_bo_world) (w_steps sx_bo_world) (w_ints sx_bo_world) (fun _ _ _ => Ok tt) h_next
    (w_loads sx_bo_world) (w_dumps sx_bo_world) (w_md5 sx_bo_world).
Definition h_unit (y : QNum) : QNum := nadd (n:=QNum) (nmul (n:=QNum) (18#1)%Q y) (-5#1)%Q.
Definition h_neg (y : QNum) : QNum := nmul (n:=QNum) (-1#1)%Q y.
Definition h_run (f : QNum -> QNum) (mn : bool) : sampler QNum * list (res unit) :=
  let w := h_world (fun k c => rmap (jmap f) (h_obj k c)) in srun w [OSample 3; OSample 3] (sampler_new w (KBO 2) sx_cs mn "k" sx_fs).
Definition h_show (r : sampler QNum * list (res unit)) := (sx_points (fst r), map sx_ok (snd r)).
Lemma h_runs : h_show (h_run (fun y => y) true) = ([1#2; 1#3; 1#6; 1#12; 13#24; 37#48], [9#100; 4#225; 1#900; 49#3600; 1681#14400; 18769#57600], [true; true])%Q /\
  h_show (h_run h_unit true) = ([1#2; 1#3; 1#6; 1#12; 13#24; 37#48], [-169#50; -117#25; -249#50; -951#200; -2319#800; 2769#3200], [true; true])%Q /\
  h_show (h_run h_neg false) = ([1#2; 1#3; 1#6; 1#12; 13#24; 37#48], [-9#100; -4#225; -1#900; -49#3600; -1681#14400; -18769#57600], [true; true])%Q.
Proof. refine (conj _ (conj _ _)); vm_compute; reflexivity. Qed.
Lemma last_jmap (f : QNum -> QNum) ys : last (map (jmap f) ys) JNull = jmap f (last ys JNull).
Proof. induction ys as [|a [|b ys] IH]; [reflexivity|reflexivity|]. exact IH. Qed.
Lemma h_same (f : QNum -> QNum) : (forall x y, neqb (f x) (f y) = neqb x y) ->
  same_up_to f (h_world h_obj) (h_world (fun k c => rmap (jmap f) (h_obj k c))).
Proof.
  intro H. constructor; try reflexivity. intros k [[X ys]|] [best|]; try reflexivity.
  cbn [h_world w_acq fitted_map option_map fst snd h_next]. rewrite last_jmap. destruct (last ys JNull); try reflexivity. cbn [jmap]. rewrite H. reflexivity.
Qed.
Lemma h_unit_eq x y : neqb (h_unit x) (h_unit y) = neqb x y.
Proof.
  change (Qeq_bool (Qred (Qred ((18#1) * x) + (-5#1)))%Q (Qred (Qred ((18#1) * y) + (-5#1)))%Q = Qeq_bool x y). apply Bool.eq_iff_eq_true. rewrite !Qeq_bool_iff, !Qred_correct. split; intro H; [|rewrite H; reflexivity].
  apply Qplus_inj_r in H. apply -> Qmult_inj_l in H; [exact H|discriminate].
Qed.
Lemma h_unit_lt x y : nlt (h_unit x) (h_unit y) = nlt x y.
Proof.
  change (negb (Qle_bool (Qred (Qred ((18#1) * y) + (-5#1)))%Q (Qred (Qred ((18#1) * x) + (-5#1)))%Q) = negb (Qle_bool y x)). f_equal. apply Bool.eq_iff_eq_true. rewrite !Qle_bool_iff, !Qred_correct. split; intro H.
  - apply -> Qplus_le_l in H. apply -> Qmult_le_l in H; [exact H|reflexivity].
  - apply <- Qplus_le_l. apply <- Qmult_le_l; [exact H|reflexivity].
Qed.
Lemma h_neg_eq x y : neqb (h_neg x) (h_neg y) = neqb x y.
Proof.
  change (Qeq_bool (Qred ((-1#1) * x))%Q (Qred ((-1#1) * y))%Q = Qeq_bool x y). apply Bool.eq_iff_eq_true. rewrite !Qeq_bool_iff, !Qred_correct. split; intro H; [|rewrite H; reflexivity].
  apply -> Qmult_inj_l in H; [exact H|discriminate].
Qed.
Lemma h_neg_lt x y : nlt (h_neg x) (h_neg y) = nlt y x.
Proof.
  change (negb (Qle_bool (Qred ((-1#1) * y))%Q (Qred ((-1#1) * x))%Q) = negb (Qle_bool x y)). f_equal. apply Bool.eq_iff_eq_true. rewrite !Qle_bool_iff, !Qred_correct. 
  assert (E : forall z, ((-1#1) * z == - z)%Q) by (intro; ring). rewrite !E. split; intro H; [|apply Qopp_le_compat; exact H].
  apply Qopp_le_compat in H. rewrite !Qopp_involutive in H. exact H.
Qed.

(** ** binary64: a shift makes two values equal *)
Section W.
Variables fe fln fr : b64 -> b64.
Notation BN := (B64 fe fln fr).
Definition z_world (f : BN -> BN) : world BN :=
  mkworld (fun k _ => Ok (JNum (f (if Nat.eqb k 0 then n1 else n0)))) (fun _ _ i => mkconf [nofZ (Z.of_nat i)] []) false (fun _ => 0) (fun _ _ => 1) (fun _ _ _ _ => [])
    (fun _ _ _ => Ok tt) (fun _ _ _ => Err ValueError) (fun _ => Err ValueError) (fun _ => ""%string) (fun s => s).
Definition z_shift (y : BN) : BN := nadd y (nofZ (2 ^ 53)).
Definition z_run (f : BN -> BN) : sampler BN * list (res unit) := srun (z_world f) [OSample 2] (sampler_new (z_world f) KRandom [] true "k" (fun _ => None)).
Definition z_which (r : sampler BN * list (res unit)) : option bool :=
  match incumbent (fst r) with Ok (Some (c, _)) => Some (match c_vec c with x :: _ => neqb x n0 | [] => false end) | _ => None end.
Lemma z_same : same_up_to z_shift (z_world (fun y => y)) (z_world z_shift).
Proof. constructor; reflexivity. Qed.
Lemma z_differ : z_which (z_run (fun y => y)) = Some false /\ z_which (z_run z_shift) = Some true.
Proof. split; vm_compute; reflexivity. Qed.
End W.
