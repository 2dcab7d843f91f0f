(** SamplerExamples.v - concrete worlds and histories over the rationals. *)
From Verif Require Import Base Num NumLaws NumpyModel ConfigSpaceModel SamplerModel SamplerSpec SamplerProofs SamplerProofs2 SamplerProofs3 SamplerProofs4 SamplerReal.
From Coq Require Import QArith.
Local Open Scope nat_scope.
Local Open Scope list_scope.

Definition sx_cs : cspace QNum := [mkhp "x"%string (KFloat (0#1 : QNum)%Q (1#1 : QNum)%Q false)].
Definition sx_cs2 : cspace QNum := [mkhp "x"%string (KFloat (0#1 : QNum)%Q (1#1 : QNum)%Q false); mkhp "c"%string (KConst (VStr "a"%string))].
Definition sx_conf (cs : cspace QNum) (v : list QNum) : conf QNum := match conf_of_vector cs v with Ok c => c | Err _ => mkconf [] [] end.
(** stream: 1/2, 1/3, 1/4, ... *)
Definition sx_stream (i : nat) : conf QNum := sx_conf sx_cs [(1 # Pos.of_nat (i + 2))%Q].
(** objective: 4 x; call number [bad] raises *)
Definition sx_obj (bad : option nat) (k : nat) (c : config QNum) : res (json QNum) :=
  match bad with
  | Some b => if Nat.eqb b k then Err RuntimeError else match c with (_, VNum x) :: _ => Ok (JNum (nmul (n:=QNum) (4#1)%Q x)) | _ => Err TypeError end
  | None => match c with (_, VNum x) :: _ => Ok (JNum (nmul (n:=QNum) (4#1)%Q x)) | _ => Err TypeError end
  end.
Definition sx_steps (n d : nat) : nat := match find (fun m => n <=? m ^ d) (seq 1 n) with Some m => m | None => 1 end.
(** acquisition: the point 1/(17 + number of the step) *)
Definition sx_acq (k : nat) (_ : option (list (list QNum) * list (json QNum))) (_ : option QNum) : res (conf QNum) := Ok (sx_conf sx_cs [(1 # Pos.of_nat (17 + k))%Q]).
Definition sx_world (bad : option nat) (bare : bool) (rand : nat -> nat) (loads : string -> res (json QNum)) : world QNum :=
  mkworld (sx_obj bad) (fun d _ i => sx_stream (list_sum d + i)) bare rand sx_steps (fun _ _ _ _ => []) (fun _ _ _ => Ok tt) sx_acq loads (fun _ => "file"%string) (fun s => s).
Definition sx_noload (_ : string) : res (json QNum) := Err ValueError.
Definition sx_fs : files := fun _ => None.
(** the value of x, for printing *)
Definition sx_x (c : conf QNum) : Q := match c_vals c with (_, VNum x) :: _ => x | _ => (99#1)%Q end.
Definition sx_y (j : json QNum) : Q := match j with JNum x => x | _ => (99#1)%Q end.
Definition sx_points (s : sampler QNum) : list Q * list Q := (map sx_x (s_configs s), map sx_y (s_ys s)).
Definition sx_ok (r : res unit) : bool := is_ok r.

(** a random sampler whose third objective call raises, and a later call *)
Definition sx_random : sampler QNum := fst (srun (sx_world (Some 2) false (fun _ => 0) sx_noload) [OSample 2; OSample 2; OSample 2] (sampler_new (sx_world (Some 2) false (fun _ => 0) sx_noload) KRandom sx_cs true "k" sx_fs)).
Definition sx_bo_world := sx_world (Some 7) true (fun _ => 0) sx_noload.
Definition sx_bo : sampler QNum := fst (srun sx_bo_world [OSample 2; OSample 3; OSample 2; OSample 1] (sampler_new sx_bo_world (KBO 3) sx_cs true "k" sx_fs)).

(** grids *)
Definition sx_grid_world (bad : option nat) := sx_world bad false (fun _ => 0) sx_noload.
Definition sx_grid (bad : option nat) ops : sampler QNum * list (res unit) := srun (sx_grid_world bad) ops (sampler_new (sx_grid_world bad) KGrid sx_cs true "k" sx_fs).

(** a cache of ten points: written by one sampler, read by another one *)
Definition sx_first : sampler QNum := fst (srun (sx_world None false (fun _ => 0) sx_noload) [OSample 10] (sampler_new (sx_world None false (fun _ => 0) sx_noload) KRandom sx_cs true "k" sx_fs)).
Definition sx_loads (t : string) : res (json QNum) := if String.eqb t "file" then Ok (points_json sx_first) else Err ValueError.
Definition sx_cached : world QNum := sx_world None false (fun _ => 0) sx_loads.
(** a world where the objective always raises *)
Definition sx_broken : world QNum := mkworld (fun _ _ => Err RuntimeError) (fun d _ i => sx_stream (list_sum d + i)) false (fun _ => 0) sx_steps (fun _ _ _ _ => []) (fun _ _ _ => Err ValueError) sx_acq sx_loads (fun _ => "file"%string) (fun s => s).
Definition sx_reload (mn : bool) : sampler QNum := sampler_new sx_cached KRandom sx_cs mn "k" (sampler_del sx_cached sx_first sx_fs).
(** a file with a broken third entry *)
Definition sx_damaged (t : string) : res (json QNum) :=
  if String.eqb t "file" then Ok (JObj [("X"%string, JList [JList [JNum (1#2 : QNum)%Q]; JList [JNum (1#4 : QNum)%Q]; JStr "x"; JList [JNum (1#8 : QNum)%Q]]); ("y"%string, JList [JNum (1#1 : QNum)%Q; JNull; JNum (3#1 : QNum)%Q; JNum (4#1 : QNum)%Q])])
  else Err ValueError.
Lemma legal_list cs (l : list (conf QNum)) : map (fun c => conf_of_vector cs (c_vec c)) l = map Ok l -> Forall (legal cs) l.
Proof. induction l as [|c l IH]; intros H; constructor; injection H as H1 H2; [exact H1|exact (IH H2)]. Qed.
(** equalities decided by one conversion in the virtual machine *)
Ltac by_vm := lazymatch goal with |- ?a = ?b => exact (@eq_refl _ a <: a = b) end.

Lemma reaches {N : Num} (w : world N) fs k cs mn key ops : sreaches w fs (fst (srun w ops (sampler_new w k cs mn key fs))).
Proof. exact (ex_intro _ k (ex_intro _ cs (ex_intro _ mn (ex_intro _ key (ex_intro _ ops eq_refl))))). Qed.
Ltac by_reach := lazymatch goal with |- sreaches ?w ?fs ?s => unfold s; apply reaches end.
