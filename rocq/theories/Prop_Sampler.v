(** Prop_Sampler.v - properties of the samplers and of their cache (C33-C46, C63). *)
From Verif Require Import Base Num NumLaws NumpyModel ConfigSpaceModel SamplerModel SamplerSpec SamplerProofs SamplerProofs2 SamplerProofs3 SamplerProofs4 SamplerReal SamplerExamples.
From Coq Require Import QArith Reals Lra.
Local Open Scope nat_scope.
Local Open Scope list_scope.

(** ** C33 *)
Theorem C33_pairs : forall (N : Num) (w : world N) fs (s : sampler N), sreaches w fs s -> s_kind s <> KGrid ->
  length (s_ys s) = length (s_configs s) /\ Forall2 (came_from w fs s) (s_configs s) (s_ys s).
Proof. exact @points_paired. Qed.
Print Assumptions C33_pairs.

(** the third call of the objective raised; three further calls succeeded *)
Example C33_example : sreaches (sx_world (Some 2) false (fun _ => 0) sx_noload) sx_fs sx_random /\ s_kind sx_random <> KGrid /\
  sx_points sx_random = ([1#2; 1#3; 1#6; 1#7], [2#1; 4#3; 2#3; 4#7])%Q /\ s_calls sx_random = 5.
Proof. refine (conj _ (conj _ (conj _ _))); [by_reach|assert (E : s_kind sx_random = KRandom) by by_vm; rewrite E; discriminate|vm_compute; reflexivity|vm_compute; reflexivity]. Qed.

(** ** C34 *)
Theorem C34_pairs_without_failure : forall (N : Num) (w : world N) fs (s : sampler N), sreaches w fs s -> s_kind s = KGrid -> obj_failures (s_trace s) = 0 ->
  length (s_ys s) = length (s_configs s) /\ Forall2 (came_from w fs s) (s_configs s) (s_ys s).
Proof. exact @grid_paired. Qed.
Print Assumptions C34_pairs_without_failure.

Theorem C34_one_more_per_failure : forall (N : Num) (w : world N) fs k cs mn key ops (s : sampler N), k = KGrid -> Forall samples_only ops ->
  s = fst (srun w ops (sampler_new w k cs mn key fs)) -> length (s_configs s) = length (s_ys s) + obj_failures (s_trace s).
Proof. exact @grid_count. Qed.
Print Assumptions C34_one_more_per_failure.

Theorem C34_extra_configuration : forall (N : Num) (w : world N) n (s s' : sampler N) e, s_kind s = KGrid -> sample w n s = (s', Err e) ->
  (exists c t, s_trace s' = EObj c (Err e) :: t /\ exists l, s_configs s' = l ++ [c]) \/ obj_failures (s_trace s') = obj_failures (s_trace s).
Proof. exact @grid_failure. Qed.
Print Assumptions C34_extra_configuration.

(** sample(3) with the second objective call raising, then sample(2): the objective is 4 x, the
    values at positions 1 and 2 belong to the configurations at positions 2 and 3 *)
Theorem C34_wrong_values : exists (w : world QNum) ops (s : sampler QNum), s = fst (srun w ops (sampler_new w KGrid sx_cs true "k" sx_fs)) /\
  sx_points s = ([1#2; 1#1; 1#3; 2#3], [2#1; 4#3; 8#3])%Q /\
  (exists c y, nth_error (s_configs s) 1 = Some c /\ nth_error (s_ys s) 1 = Some y /\ forall k, w_obj w k (c_vals c) <> Ok y).
Proof.
  exists (sx_grid_world (Some 1)), [OSample 3; OSample 2]. eexists. split; [reflexivity|]. split; [vm_compute; reflexivity|].
  eexists (mkconf [(1#1)%Q : QNum] [("x"%string, VNum ((1#1)%Q : QNum))]), (JNum ((4#3)%Q : QNum)). refine (conj _ (conj _ _)); [vm_compute; reflexivity|vm_compute; reflexivity|].
  intros [|[|k]]; vm_compute; discriminate.
Qed.
Print Assumptions C34_wrong_values.

Example C34_example : (let s := fst (sx_grid None [OSample 3; OSample 2]) in
  sreaches (sx_grid_world None) sx_fs s /\ s_kind s = KGrid /\ obj_failures (s_trace s) = 0 /\ length (s_configs s) = 5) /\
  (let s := fst (sx_grid (Some 1) [OSample 3]) in obj_failures (s_trace s) = 1 /\ length (s_configs s) = 2).
Proof. split; [refine (conj _ _); [apply reaches|vm_compute; auto]|vm_compute; auto]. Qed.

(** ** C35 *)
Theorem C35_adds : forall (N : Num) (w : world N) n (s s' : sampler N), sample w n s = (s', Ok tt) -> adds n s s'.
Proof. exact @sample_adds. Qed.
Print Assumptions C35_adds.

(** random, grid, BO, and a call served by the cache *)
Example C35_example :
  map (fun p => match p with (s, r) => (length (s_configs s), is_ok r) end)
    [sample sx_cached 7 (sampler_new sx_cached KRandom sx_cs true "k" sx_fs); sample sx_cached 7 (sampler_new sx_cached KGrid sx_cs true "k" sx_fs);
     sample sx_bo_world 7 (sampler_new sx_bo_world (KBO 3) sx_cs true "k" sx_fs); sample sx_broken 7 (sx_reload true)] = [(7, true); (7, true); (7, true); (7, true)].
Proof. vm_compute. reflexivity. Qed.

(** ** C36 *)
Theorem C36_random_needs_list : forall (N : Num) (w : world N) n (s : sampler N), s_kind s = KRandom -> s_cache s = [] -> w_bare w = true -> n = 1 ->
  exists s', sample w n s = (s', Err KeyError) /\ s_configs s' = s_configs s /\ s_ys s' = s_ys s.
Proof. exact @random_single. Qed.
Print Assumptions C36_random_needs_list.

Theorem C36_random_with_list : forall (N : Num) (w : world N) (s : sampler N) y, s_kind s = KRandom -> s_cache s = [] -> w_bare w = false ->
  w_obj w (s_calls s) (c_vals (w_batch w (s_draws s) 1 0)) = Ok y ->
  exists s', sample w 1 s = (s', Ok tt) /\ s_configs s' = s_configs s ++ [w_batch w (s_draws s) 1 0] /\ s_ys s' = s_ys s ++ [y].
Proof. exact @random_single_list. Qed.
Print Assumptions C36_random_with_list.

Theorem C36_bo_needs_bare : forall (N : Num) (w : world N) n ip (s : sampler N), s_kind s = KBO ip -> s_cache s = [] -> w_bare w = false -> slen s < ip -> min ip n = 1 ->
  exists s', sample w n s = (s', Err TypeError) /\ s_configs s' = s_configs s /\ s_ys s' = s_ys s.
Proof. exact @bo_single. Qed.
Print Assumptions C36_bo_needs_bare.

(** with the bare contract the BO sampler draws a single point *)
Example C36_example : (let (s, r) := sample sx_bo_world 1 (sampler_new sx_bo_world (KBO 3) sx_cs true "k" sx_fs) in sx_points s = ([1#2], [2#1])%Q /\ is_ok r = true) /\
  is_ok (snd (sample sx_bo_world 1 (sampler_new sx_bo_world KRandom sx_cs true "k" sx_fs))) = false /\
  is_ok (snd (sample sx_cached 1 (sampler_new sx_cached (KBO 3) sx_cs true "k" sx_fs))) = false.
Proof. vm_compute. auto. Qed.

(** ** C37 *)
Theorem C37_best : forall (N : Num), order_laws N -> forall (s : sampler N) l, s_ys s = map JNum l -> length (s_configs s) = length (s_ys s) -> l <> [] -> Forall ordinary l ->
  exists i c v, incumbent s = Ok (Some (c, v)) /\ nth_error (s_configs s) i = Some c /\ best_at (s_min s) l i v.
Proof. exact (fun N L => @incumbent_best N L). Qed.
Print Assumptions C37_best.

Theorem C37_empty : forall (N : Num) (s : sampler N), s_ys s = [] -> incumbent s = Ok None.
Proof. exact @incumbent_empty. Qed.
Print Assumptions C37_empty.

(** a NaN is taken for the best value *)
Theorem C37_nan : forall (N : Num) better (l : list N), Exists (fun u => ~ ordinary u) l ->
  exists v, nth_error l (np_arg better l) = Some v /\ ~ ordinary v /\ forall j u, j < np_arg better l -> nth_error l j = Some u -> ordinary u.
Proof. exact @np_arg_nan. Qed.
Print Assumptions C37_nan.

Example C37_example : (exists l, s_ys sx_first = map JNum l /\ l <> []) /\
  match incumbent sx_first with Ok (Some (c, v)) => (sx_x c, v : Q) = (1#11, 4#11)%Q | _ => False end /\
  match incumbent (fst (sample sx_cached 10 (sx_reload false))) with Ok (Some (c, v)) => (sx_x c, v : Q) = (1#2, 2#1)%Q | _ => False end /\
  incumbent (sampler_new sx_cached KRandom sx_cs false "k" sx_fs) = Ok None.
Proof.
  refine (conj _ _); [|vm_compute; auto].
  exists (map sx_y (s_ys sx_first)). split; [vm_compute; reflexivity|vm_compute; discriminate].
Qed.

(** ** C38 *)
Theorem C38_replay : forall (N : Num) (w w' : world N) (s : sampler N) fs k mn m,
  json_ok w s -> (forall t, w_loads w' t = w_loads w t) -> s_cache s = [] -> s_configs s <> [] -> length (s_configs s) = length (s_ys s) ->
  Forall (legal (s_cs s)) (s_configs s) -> m <= length (s_configs s) ->
  let s2 := fst (sample w' m (sampler_new w' k (s_cs s) mn (s_hash s) (sampler_del w s fs))) in
  s_configs s2 = firstn m (s_configs s) /\ s_ys s2 = firstn m (s_ys s) /\ s_calls s2 = 0 /\ s_draws s2 = [] /\ s_acqs s2 = 0.
Proof. exact @replay_of_saved. Qed.
Print Assumptions C38_replay.

(** the configurations of a sampler are legal if those drawn, proposed and generated are *)
Theorem C38_legal : forall (N : Num) (w : world N) fs (s : sampler N), sreaches w fs s ->
  (forall d n i, legal (s_cs s) (w_batch w d n i)) -> (forall i f eta c, w_acq w i f eta = Ok c -> legal (s_cs s) c) ->
  (forall n g, grid_product w (s_cs s) n = Ok g -> Forall (legal (s_cs s)) g) -> Forall (legal (s_cs s)) (s_configs s).
Proof. exact @reachable_legal. Qed.
Print Assumptions C38_legal.

(** the reader's objective always raises *)
Example C38_example : json_ok sx_cached sx_first /\ s_cache sx_first = [] /\ length (s_configs sx_first) = 10 /\ length (s_ys sx_first) = 10 /\
  Forall (legal sx_cs) (s_configs sx_first) /\
  (let s2 := fst (sample sx_broken 3 (sampler_new sx_broken KRandom sx_cs true "k" (sampler_del sx_cached sx_first sx_fs))) in
   sx_points s2 = ([1#2; 1#3; 1#4], [2#1; 4#3; 1#1])%Q /\ s_calls s2 = 0).
Proof.
  refine (conj _ (conj _ (conj _ (conj _ (conj _ _))))).
  - unfold json_ok; by_vm.
  - by_vm.
  - vm_compute. reflexivity.
  - vm_compute. reflexivity.
  - apply legal_list. by_vm.
  - vm_compute. auto.
Qed.

(** ** C39 *)
Theorem C39_used_iff : forall (N : Num) (w : world N) K r n (s : sampler N), replayed K r s ->
  (2 * r + n <= length K -> replayed K (r + n) (fst (sample w n s)) /\ s_calls (fst (sample w n s)) = s_calls s) /\
  (length K < 2 * r + n -> s_cache (fst (sample w n s)) = []).
Proof. exact @cache_used_iff. Qed.
Print Assumptions C39_used_iff.

Theorem C39_histories : forall (N : Num) (w : world N) K ns r (s : sampler N), replayed K r s -> served (length K) r ns ->
  replayed K (r + list_sum ns) (fst (srun w (map OSample ns) s)) /\ s_calls (fst (srun w (map OSample ns) s)) = s_calls s.
Proof. exact @cache_history. Qed.
Print Assumptions C39_histories.

Theorem C39_file_shrinks : forall (N : Num) (w : world N) K r n (s s' : sampler N) fs, replayed K r s -> length K < 2 * r + n -> r + n < length K ->
  sample w n s = (s', Ok tt) -> 0 < r + n ->
  exists X, sampler_del w s' fs (s_hash s') = Some (w_dumps w (JObj [("X"%string, JList X); ("y"%string, JList (s_ys s'))])) /\
            length X = r + n /\ length (s_ys s') = r + n.
Proof. exact @cache_file_shrinks. Qed.
Print Assumptions C39_file_shrinks.

(** ten cached points; sample(4), sample(4): the second call drops six of them, eight are saved *)
Example C39_example : replayed (s_cache (sx_reload true)) 0 (sx_reload true) /\ length (s_cache (sx_reload true)) = 10 /\
  (let s1 := fst (sample sx_cached 4 (sx_reload true)) in let s2 := fst (sample sx_cached 4 s1) in
   (length (s_cache s1), s_calls s1, length (s_cache s2), s_calls s2, length (s_configs s2)) = (6, 0, 0, 4, 8)) /\
  (let s1 := fst (sample sx_cached 4 (sx_reload true)) in let s2 := fst (sample sx_cached 2 s1) in (length (s_cache s2), s_calls s2) = (4, 0)).
Proof. refine (conj _ _); [|vm_compute; auto]. refine (conj _ (conj _ (conj _ _))).
  - apply Nat.le_0_l.
  - by_vm.
  - by_vm.
  - unfold skipn. reflexivity.
Qed.

(** ** C40 *)
Theorem C40_longest_prefix : forall (N : Num) (w : world N) cs file,
  match file with
  | None => load_cache w cs file = []
  | Some text => match file_pairs w text with
                 | None => load_cache w cs file = []
                 | Some l => exists k, k <= length l /\
                     Forall2 (fun p q => conf_of_json cs (fst p) = Ok (fst q) /\ snd q = snd p) (firstn k l) (load_cache w cs file) /\
                     (forall p, nth_error l k = Some p -> ~ readable cs p)
                 end
  end.
Proof. exact @load_prefix. Qed.
Print Assumptions C40_longest_prefix.

(** the third of four entries is broken; an unreadable file *)
Example C40_example : map (fun p => sx_x (fst p)) (load_cache (sx_world None false (fun _ => 0) sx_damaged) sx_cs (Some "file"%string)) = [1#2; 1#4]%Q /\
  load_cache (sx_world None false (fun _ => 0) sx_damaged) sx_cs (Some "fil"%string) = [].
Proof. vm_compute. auto. Qed.

(** ** C41 *)
Theorem C41_direction_ignored : forall (N : Num) (w : world N) k cs mn mn' i fs ops (s : sampler N) m,
  s = fst (srun w ops (sampler_make w k cs mn i fs)) -> json_ok w s -> s_cache s = [] -> s_configs s <> [] -> length (s_configs s) = length (s_ys s) ->
  Forall (legal cs) (s_configs s) -> m <= length (s_configs s) ->
  let s2 := fst (sample w m (sampler_make w k cs mn' i (sampler_del w s fs))) in
  s_min s2 = mn' /\ s_hash s2 = s_hash s /\ s_configs s2 = firstn m (s_configs s) /\ s_ys s2 = firstn m (s_ys s) /\ s_calls s2 = 0.
Proof. exact @direction_ignored. Qed.
Print Assumptions C41_direction_ignored.

Theorem C41_key : forall (N : Num) (w : world N) k k' (i i' : ident),
  i_cls i = i_cls i' -> i_space i = i_space i' -> i_seed i = i_seed i' -> i_obj i = i_obj i' ->
  match k, k' with
  | KBO _, KBO _ => i_acq i = i_acq i' -> i_kwargs i = i_kwargs i' -> i_points i = i_points i' -> i_surrogate i = i_surrogate i' -> sampler_key w k i = sampler_key w k' i'
  | KBO _, _ | _, KBO _ => True
  | _, _ => sampler_key w k i = sampler_key w k' i'
  end.
Proof. exact @key_depends. Qed.
Print Assumptions C41_key.

(** each part counts: two samplers that differ in exactly one of them have different files, for a digest without collisions *)
Theorem C41_every_part : forall (N : Num) (w : world N) k (i i' : ident), (forall a b, w_md5 w a = w_md5 w b -> a = b) -> one_part_differs k i i' ->
  sampler_key w k i <> sampler_key w k i'.
Proof. exact @key_tells_part. Qed.
Print Assumptions C41_every_part.
Example C41_example_part : one_part_differs (KBO 3) (mkident "BO" "[x]" "0" "f" "EI" "{}" "3" "GP") (mkident "BO" "[x]" "0" "f" "EI" "{}" "3" "RF").
Proof. exists ["BO"; "[x]"; "0"; "EI"; "{}"; "3"]%string, "GP"%string, "RF"%string, ["f"%string]. split; [discriminate|split; reflexivity]. Qed.

(** the maximizing sampler replays the minimizing one's points *)
Example C41_example : (let s2 := fst (sample sx_broken 2 (sampler_new sx_broken KRandom sx_cs false "k" (sampler_del sx_cached sx_first sx_fs))) in
   sx_points s2 = ([1#2; 1#3], [2#1; 4#3])%Q /\ s_min s2 = false /\ s_min sx_first = true).
Proof. vm_compute. auto. Qed.

(** ** C42 *)
Theorem C42_distinct : forall (N : Num) (w : world N), eq_symmetric (N:=N) -> forall fs (s : sampler N), sreaches w fs s -> s_kind s = KGrid ->
  distinct (map fst (load_cache w (s_cs s) (fs (s_hash s)))) -> distinct (s_configs s).
Proof. exact @grid_distinct. Qed.
Print Assumptions C42_distinct.

Theorem C42_from_grid : forall (N : Num) (w : world N) fs (s : sampler N), sreaches w fs s -> s_kind s = KGrid ->
  Forall (fun c => In c (map fst (load_cache w (s_cs s) (fs (s_hash s)))) \/ exists n axes, axes_of w (s_cs s) n = Ok axes /\ on_axes axes c) (s_configs s).
Proof. exact @grid_points_from_grid. Qed.
Print Assumptions C42_from_grid.

Theorem C42_symmetric : eq_symmetric (N:=RNum) /\ eq_symmetric (N:=QNum) /\ forall fe fl fr, eq_symmetric (N:=B64 fe fl fr).
Proof. exact (conj R_eq_symmetric (conj Q_eq_symmetric B64_eq_symmetric)). Qed.
Print Assumptions C42_symmetric.

(** three calls that generate three grids *)
Example C42_example : let (s, r) := sx_grid None [OSample 2; OSample 1; OSample 4] in
  (s_kind s, length (load_cache (sx_grid_world None) (s_cs s) (sx_fs (s_hash s)))) = (KGrid, 0) /\ map is_ok r = [true; true; true] /\
  map sx_x (s_configs s) = [1#1; 0#1; 1#2; 1#6; 1#3; 2#3; 5#6]%Q.
Proof. vm_compute. auto. Qed.

(** ** C43 *)
Theorem C43_first_call : forall (w : world RNum) n (s s' : sampler RNum) r, s_kind s = KGrid -> s_configs s = [] -> s_grid s = None -> s_cs s <> [] -> Forall float_hp (s_cs s) ->
  n <= w_steps w n (length (s_cs s)) ^ length (s_cs s) -> length (s_cache s) < n -> sample w n s = (s', r) ->
  r = Ok tt \/ exists c e t, r = Err e /\ s_trace s' = EObj c (Err e) :: t.
Proof. exact grid_first_call. Qed.
Print Assumptions C43_first_call.

(** int(ceil(n ** (1 / d))) without rounding *)
Theorem C43_exact_steps : forall n d k, 1 <= n -> 1 <= d -> Z.of_nat k = Flocq.Core.Raux.Zceil (Rpower (INR n) (/ INR d)) -> n <= k ^ d.
Proof. exact exact_steps. Qed.
Print Assumptions C43_exact_steps.

Theorem C43_too_few_points : forall (N : Num) (w : world N) n (s : sampler N) g, (forall k c, is_ok (w_obj w k c) = true) -> s_kind s = KGrid -> s_configs s = [] -> s_grid s = None ->
  s_cs s <> [] -> length (s_cache s) < n -> grid_product w (s_cs s) (w_steps w n (length (s_cs s))) = Ok g -> length g < n -> snd (sample w n s) = Err IndexError.
Proof. exact @grid_first_short. Qed.
Print Assumptions C43_too_few_points.

Theorem C43_number_of_points : forall (N : Num) (w : world N) cs n g axes, grid_product w cs n = Ok g -> axes_of w cs n = Ok axes ->
  length g = fold_right Nat.mul 1 (map (fun a => length (snd a)) axes).
Proof. exact @grid_product_length. Qed.
Print Assumptions C43_number_of_points.

(** sample(4), sample(1), sample(4) on [0, 1] *)
Theorem C43_later_call_fails : exists (w : world QNum) rs, srun w [OSample 4; OSample 1; OSample 4] (sampler_new w KGrid sx_cs true "k" sx_fs) = rs /\
  map (fun r => match r with Err IndexError => true | _ => false end) (snd rs) = [false; false; true] /\ map is_ok (snd rs) = [true; true; false].
Proof. exists (sx_grid_world None). eexists. split; [reflexivity|vm_compute; auto]. Qed.
Print Assumptions C43_later_call_fails.

(** sample(5) with a Constant beside a float: three grid points *)
Theorem C43_constant_fails : exists (w : world QNum) (s : sampler QNum), s = sampler_new w KGrid sx_cs2 true "k" sx_fs /\
  snd (sample w 5 s) = Err IndexError /\ match grid_product w sx_cs2 (w_steps w 5 2) with Ok g => length g = 3 | Err _ => False end.
Proof. exists (sx_grid_world None). eexists. split; [reflexivity|vm_compute; auto]. Qed.
Print Assumptions C43_constant_fails.

(** hypotheses of the first call *)
Example C43_example : forall (w : world RNum), w_steps w 5 2 = 3 -> let cs := [mkhp "x"%string (KFloat (0:RNum)%R (1:RNum)%R false); mkhp "y"%string (KFloat (1:RNum)%R (2:RNum)%R true)] in
  let s := sampler_new w KGrid cs true "k" (fun _ => None) in
  s_kind s = KGrid /\ s_configs s = [] /\ s_grid s = None /\ s_cs s <> [] /\ Forall float_hp (s_cs s) /\ 5 <= w_steps w 5 (length (s_cs s)) ^ length (s_cs s) /\ length (s_cache s) < 5.
Proof.
  intros w E cs s. cbn [s cs sampler_new s_kind s_configs s_grid s_cs s_cache load_cache length]. rewrite E. repeat split; try discriminate; try (cbn; lia).
  repeat constructor; unfold float_hp; cbn; do 3 eexists; (split; [reflexivity|]); split; intros; try discriminate; lra.
Qed.

(** ** C44 *)
Theorem C44_fitted_after_sample : forall (N : Num), order_laws N -> forall (w : world N) fs (s s' : sampler N) ip n, sreaches w fs s -> s_kind s = KBO ip -> sample w n s = (s', Ok tt) ->
  s_fitted s' = Some (map c_vec (s_configs s'), s_ys s').
Proof. exact (fun N L w => @bo_fitted_after_sample N w L). Qed.
Print Assumptions C44_fitted_after_sample.

Theorem C44_acquisition_steps : forall (N : Num), order_laws N -> forall (w : world N) fs (s : sampler N) ip, sreaches w fs s -> s_kind s = KBO ip ->
  Forall (acq_informed (s_min s)) (s_trace s).
Proof. exact (fun N L w => @bo_steps_informed N w L). Qed.
Print Assumptions C44_acquisition_steps.

(** five random points, two acquisition steps, and a step whose objective raised *)
Example C44_example : sreaches sx_bo_world sx_fs sx_bo /\ s_kind sx_bo = KBO 3 /\
  sx_points sx_bo = ([1#2; 1#3; 1#4; 1#5; 1#6; 1#17; 1#18], [2#1; 4#3; 1#1; 4#5; 2#3; 4#17; 2#9])%Q /\
  fold_right (fun (e : event QNum) l => match e with EAcq _ (Some eta) (cs, _) => (length cs, eta : Q) :: l | _ => l end) [] (s_trace sx_bo) = [(7, (2#9)%Q); (6, (4#17)%Q); (5, (2#3)%Q)].
Proof. refine (conj _ _); [by_reach|vm_compute; auto]. Qed.

(** ** C45 *)
Theorem C45_random_points : forall (N : Num) (w : world N) k cs mn key fs ip ns (s : sampler N) rs, k = KBO ip -> load_cache w cs (fs key) = [] ->
  srun w (map OSample ns) (sampler_new w k cs mn key fs) = (s, rs) -> Forall (fun r => r = Ok tt) rs ->
  drawn_points (s_trace s) = initial_draws ip 0 ns.
Proof. exact @bo_random_points. Qed.
Print Assumptions C45_random_points.

Theorem C45_exact_if_enough : forall ip n ns, ip <= n -> initial_draws ip 0 (n :: ns) = ip.
Proof. exact initial_draws_exact. Qed.
Print Assumptions C45_exact_if_enough.

Theorem C45_bound : forall ip ns, 1 <= ip -> initial_draws ip 0 ns <= 2 * ip - 1.
Proof. exact (fun ip ns H => initial_draws_bound ip ns 0 H). Qed.
Print Assumptions C45_bound.

Theorem C45_bound_reached : forall ip, 1 <= ip -> initial_draws ip 0 [ip - 1; ip] = 2 * ip - 1.
Proof. exact initial_draws_max. Qed.
Print Assumptions C45_bound_reached.

Example C45_example : let (s, rs) := srun sx_bo_world (map OSample [2; 3; 1]) (sampler_new sx_bo_world (KBO 3) sx_cs true "k" sx_fs) in
  map is_ok rs = [true; true; true] /\ drawn_points (s_trace s) = 5.
Proof. vm_compute. auto. Qed.

(** ** C46 *)
Theorem C46_always_refits : forall (N : Num), order_laws N -> forall (w : world N) fs (s : sampler N) ip force, sreaches w fs s -> s_kind s = KBO ip ->
  let s' := fst (fit_surrogate w force s) in s_fits s' = S (s_fits s) /\ s_trace s' = EFit (s_configs s) (s_ys s) :: s_trace s.
Proof. exact (fun N L w => @bo_refits N w L). Qed.
Print Assumptions C46_always_refits.

(** fitted on the current points, and fitted again *)
Example C46_example : let s := fst (srun sx_bo_world [OSample 2] (sampler_new sx_bo_world (KBO 3) sx_cs true "k" sx_fs)) in
  option_map (fun f => length (fst f)) (s_fitted s) = Some 2 /\ slen s = 2 /\ s_fits s = 3 /\ s_fits (fst (fit_surrogate sx_bo_world false s)) = 4.
Proof. vm_compute. auto. Qed.

(** ** C63 *)
(** without a cache: the sample_configuration calls of the given sizes *)
Theorem C63_batches : forall (N : Num) (w : world N) ns (s s' : sampler N) rs, s_kind s = KRandom -> s_cache s = [] ->
  srun w (map OSample ns) s = (s', rs) -> Forall (fun r => r = Ok tt) rs -> s_configs s' = s_configs s ++ batches w (s_draws s) ns.
Proof. exact @random_batches. Qed.
Print Assumptions C63_batches.

Theorem C63_one_stream : forall (N : Num) (w : world N) f ns (s s' : sampler N) rs, one_stream w f -> s_kind s = KRandom -> s_cache s = [] ->
  srun w (map OSample ns) s = (s', rs) -> Forall (fun r => r = Ok tt) rs -> s_configs s' = s_configs s ++ map f (seq (list_sum (s_draws s)) (list_sum ns)).
Proof. exact @random_split. Qed.
Print Assumptions C63_one_stream.

(** one hyperparameter: one stream; more: sampling n at once and 1, then n - 1, give different points *)
Theorem C63_one_hyperparameter : forall (N : Num) (w : world N) mk u, columnwise w mk u 1 -> one_stream w (fun i => mk [u i]).
Proof. exact @columnwise_one. Qed.
Print Assumptions C63_one_hyperparameter.

Theorem C63_split_matters : forall (N : Num) (w : world N) mk u D n, columnwise w mk u D -> (forall a b, mk a = mk b -> a = b) -> (forall i j, u i = u j -> i = j) ->
  2 <= D -> 2 <= n -> batches w [] [n] <> batches w [] [1; n - 1].
Proof. exact @columnwise_split. Qed.
Print Assumptions C63_split_matters.

Theorem C63_repeats_after_drop : forall (N : Num) (w : world N) f K r n (s s' : sampler N), one_stream w f -> s_kind s = KRandom -> replayed K r s -> s_draws s = [] -> length K < 2 * r + n ->
  sample w n s = (s', Ok tt) -> map fst K = map f (seq 0 (length K)) ->
  forall i, i < min r n -> nth_error (s_configs s') (r + i) = nth_error (s_configs s') i /\ nth_error (s_configs s') i = Some (f i).
Proof. exact @random_repeats. Qed.
Print Assumptions C63_repeats_after_drop.

(** any generator, and a cache from one call of the same size *)
Theorem C63_repeats_call : forall (N : Num) (w : world N) K r n (s s' : sampler N), s_kind s = KRandom -> replayed K r s -> s_draws s = [] -> length K < 2 * r + n ->
  sample w n s = (s', Ok tt) -> map fst K = map (w_batch w [] n) (seq 0 n) -> s_configs s' = map fst (firstn r K) ++ map fst K.
Proof. exact @random_repeats_call. Qed.
Print Assumptions C63_repeats_call.

(** ten cached points of the same stream; sample(4), sample(4) gives every point twice *)
Example C63_example : let K := s_cache (sx_reload true) in one_stream sx_cached sx_stream /\ map fst K = map sx_stream (seq 0 (length K)) /\
  (let s := fst (srun sx_cached [OSample 4; OSample 4] (sx_reload true)) in map sx_x (s_configs s) = [1#2; 1#3; 1#4; 1#5; 1#2; 1#3; 1#4; 1#5]%Q).
Proof. split; [intros d n i _; reflexivity|]. split; [by_vm|vm_compute; reflexivity]. Qed.
(** a two-dimensional generator *)
Definition sx_columns : world QNum := mkworld (fun _ _ => Ok (JNum (0#1 : QNum)%Q)) (fun d n i => mkconf (map (fun j => (inject_Z (Z.of_nat (2 * list_sum d + j * n + i)) : QNum)) (seq 0 2)) [])
  false (fun _ => 0) sx_steps (fun _ _ _ _ => []) (fun _ _ _ => Ok tt) sx_acq sx_noload (fun _ => "file"%string) (fun s => s).
Example C63_example_columns : columnwise sx_columns (fun v => mkconf v []) (fun i => (inject_Z (Z.of_nat i) : QNum)) 2 /\
  map (fun c => c_vec c) (batches sx_columns [] [2]) = [[0#1; 2#1]; [1#1; 3#1]]%Q /\ map (fun c => c_vec c) (batches sx_columns [] [1; 1]) = [[0#1; 1#1]; [2#1; 3#1]]%Q.
Proof. split; [intros d n i _; reflexivity|]. split; reflexivity. Qed.
