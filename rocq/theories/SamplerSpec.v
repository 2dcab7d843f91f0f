(** SamplerSpec.v - vocabulary for the sampler properties. *)
From Verif Require Import Base Num ConfigSpaceModel SamplerModel.
From Coq Require Import Sorted.

Section Spec.
Context {N : Num}.
Variable w : world N.

(** the state of a constructed sampler after any list of operations *)
Definition sreaches (fs : files) (s : sampler N) : Prop :=
  exists k cs mn key ops, s = fst (srun w ops (sampler_new w k cs mn key fs)).

(** [y] was returned by one of the calls of the objective made so far, on the values of [c], or
    stood beside [c] in the cache file *)
Definition came_from (fs : files) (s : sampler N) (c : conf N) (y : json N) : Prop :=
  (exists k, k < s_calls s /\ w_obj w k (c_vals c) = Ok y) \/ In (c, y) (load_cache w (s_cs s) (fs (s_hash s))).

(** [s'] has exactly [n] points more than [s], at the end *)
Definition adds (n : nat) (s s' : sampler N) : Prop :=
  exists cs ys, length cs = n /\ length ys = n /\ s_configs s' = s_configs s ++ cs /\ s_ys s' = s_ys s ++ ys.

(** the content of a cache file with the points of [s] *)
Definition points_json (s : sampler N) : json N :=
  JObj [("X"%string, JList (map (fun c => JList (map JNum (c_vec c))) (s_configs s))); ("y"%string, JList (s_ys s))].

(** no two configurations of the list are equal (==) *)
Fixpoint distinct (l : list (conf N)) : Prop :=
  match l with [] => True | c :: t => Forall (fun d => conf_eqb c d = false /\ conf_eqb d c = false) t /\ distinct t end.

(** the value [v] at position [i] is the best one: not worse than all values, better than all
    earlier ones *)
Definition best_at (mn : bool) (l : list N) (i : nat) (v : N) : Prop :=
  nth_error l i = Some v /\
  (forall j u, nth_error l j = Some u -> if mn then nle v u = true else nle u v = true) /\
  (forall j u, j < i -> nth_error l j = Some u -> if mn then nlt v u = true else nlt u v = true).

(** what == on numbers must satisfy: it is symmetric (it holds for floats, including NaN) *)
Definition eq_symmetric : Prop := forall x y : N, neqb x y = neqb y x.

(** an acquisition step: the surrogate was fitted on all known points, and eta is the best known value *)
Definition acq_informed (mn : bool) (e : event N) : Prop :=
  match e with
  | EAcq fitted eta (cs, ys) =>
      length cs = length ys /\ fitted = Some (map c_vec cs, ys) /\
      exists l, ys = map JNum l /\ (l = [] -> eta = None) /\
                (l <> [] -> Forall ordinary l -> exists i v, eta = Some v /\ best_at mn l i v)
  | _ => True
  end.

(** the number of calls of the objective that raised *)
Fixpoint obj_failures (t : list (event N)) : nat :=
  match t with [] => 0 | EObj _ (Err _) :: t' => S (obj_failures t') | _ :: t' => obj_failures t' end.

(** a configuration with one value of every axis, in the order of the space *)
Definition on_axes (axes : list (hp N * list (cval N))) (c : conf N) : Prop :=
  Forall2 (fun a nv => fst nv = hp_name (fst a) /\ In (snd nv) (snd a)) axes (c_vals c).

(** every call of sizes [ns], made after [r] points were taken from a cache of [total], finds
    the cache large enough in the sense of sampler/__init__.py:143 *)
Fixpoint served (total r : nat) (ns : list nat) : Prop :=
  match ns with [] => True | n :: t => 2 * r + n <= total /\ served total (r + n) t end.

(** random points of a BO sampler for calls of sizes [ns], starting with [len] points *)
Fixpoint initial_draws (ip len : nat) (ns : list nat) : nat :=
  match ns with
  | [] => 0
  | n :: t => (if len <? ip then min ip n else 0) + initial_draws ip (len + n) t
  end.

(** the number of configurations drawn at random *)
Fixpoint drawn_points (t : list (event N)) : nat :=
  match t with [] => 0 | EDraw n :: t' => n + drawn_points t' | _ :: t' => drawn_points t' end.

(** the entries of a file that can be read: pairs up to the first vector that is not one of the space *)
Definition readable (cs : cspace N) (p : json N * json N) : Prop := exists c, conf_of_json cs (fst p) = Ok c.

(** what sample_configuration calls of sizes [ns] return after calls of sizes [d] (no call for 0) *)
Fixpoint batches (w : world N) (d : list nat) (ns : list nat) : list (conf N) :=
  match ns with
  | [] => []
  | n :: t => if Nat.eqb n 0 then batches w d t else map (w_batch w d n) (seq 0 n) ++ batches w (d ++ [n]) t
  end.
(** the batches are consecutive parts of one stream *)
Definition one_stream (w : world N) (f : nat -> conf N) : Prop :=
  forall d n i, i < n -> w_batch w d n i = f (list_sum d + i).
(** a batch takes n random numbers [u] for the first of D hyperparameters, then n for the second, ...
    (ConfigurationSpace.sample_configuration) *)
Definition columnwise (w : world N) (mk : list N -> conf N) (u : nat -> N) (D : nat) : Prop :=
  forall d n i, i < n -> w_batch w d n i = mk (map (fun j => u (D * list_sum d + j * n + i)) (seq 0 D)).

End Spec.

(** what the name of the cache file depends on, and that two samplers differ in exactly one of these *)
Definition key_parts (k : kind) (i : ident) : list string :=
  [i_cls i; i_space i; i_seed i] ++ match k with KBO _ => [i_acq i; i_kwargs i; i_points i; i_surrogate i] | _ => [] end ++ [i_obj i].
Definition one_part_differs (k : kind) (i i' : ident) : Prop :=
  exists pre x y post, x <> y /\ key_parts k i = pre ++ x :: post /\ key_parts k i' = pre ++ y :: post.
