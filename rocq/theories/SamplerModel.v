(** SamplerModel.v - pyPDP/sampler/{__init__,random_sampler,grid_sampler,bayesian_optimization}.py:
    sampling, the sample cache and its file, the incumbent.  Progress bars and logging have no
    effect and are left out; [n_points] is a natural number. *)
From Verif Require Import Base Num NumpyModel ConfigSpaceModel.

Section Sampler.
Context {N : Num}.

(** values that json can carry (json.loads / json.dumps, sampler/__init__.py:103, 126);
    also the values an objective may return *)
Inductive json :=
| JNum (x : N) | JStr (s : string) | JBool (b : bool) | JNull
| JList (l : list json) | JObj (kv : list (string * json)).

(** CS.Configuration: get_array() and dict(config): utils/utils.py:46, random_sampler.py:25 *)
Record conf := mkconf { c_vec : list N; c_vals : config N }.

(** Configuration.__eq__ (used by [in], grid_sampler.py:42): same values *)
Definition cval_eqb (a b : cval N) : bool :=
  match a, b with
  | VNum x, VNum y => neqb x y
  | VStr s, VStr t => String.eqb s t
  | _, _ => false
  end.
(** two configurations of one space, value by value: grid_sampler.py:42 *)
Fixpoint vals_eqb (a b : config N) : bool :=
  match a, b with
  | [], [] => true
  | (n, v) :: a', (m, w) :: b' => String.eqb n m && cval_eqb v w && vals_eqb a' b'
  | _, _ => false
  end.
(** sample == c, as used by [sample in self.config_list]: grid_sampler.py:42 *)
Definition conf_eqb (a b : conf) : bool := vals_eqb (c_vals a) (c_vals b).

(** what sample_configuration(n) returns: a bare configuration or a list (random_sampler.py:22,
    bayesian_optimization.py:62-64) *)
Inductive drawn := DBare (c : conf) | DList (l : list conf).

(** Everything outside of the sampler.  All fields are arbitrary: the properties quantify over
    worlds.  Functions of user code take the number of the call, so they may behave differently
    at every call and raise at any of them.
    What is called: obj_func (random_sampler.py:25, grid_sampler.py:45, bayesian_optimization.py:66, 104),
    sample_configuration (random_sampler.py:22, bayesian_optimization.py:62), the grid and its shuffling
    (grid_sampler.py:35-38), the surrogate and the acquisition function (bayesian_optimization.py:77, 102-103),
    json and md5 (sampler/__init__.py:50-56, 103, 126) *)
Record world := mkworld {
  w_obj : nat -> config N -> res json;             (* obj_func of the configuration's values *)
  w_batch : list nat -> nat -> nat -> conf;        (* sample_configuration after calls of these
                                                      sizes: of how many, number *)
  w_bare : bool;                                   (* sample_configuration(1) is not a list *)
  w_rand : nat -> nat;                             (* random.Random of the grid sampler *)
  w_steps : nat -> nat -> nat;                     (* int(np.ceil(n ** (1 / d))) for d >= 1 *)
  w_ints : Z -> Z -> bool -> nat -> list Z;        (* points of an integer axis in generate_grid *)
  w_fit : nat -> list (list N) -> list json -> res unit;           (* SurrogateModel._fit *)
  w_acq : nat -> option (list (list N) * list json) -> option N -> res conf;
      (* acq_func.get_optimum() of the surrogate as fitted and of eta (None: inf) *)
  w_loads : string -> res json;                    (* json.loads(file.read_text()) *)
  w_dumps : json -> string;                        (* json.dumps *)
  w_md5 : string -> string                         (* hashlib.md5(..).hexdigest() *)
}.

(** the class of a sampler; BayesianOptimizationSampler with its initial_points:
    random_sampler.py:10, grid_sampler.py:13, bayesian_optimization.py:16, 30 *)
Inductive kind := KRandom | KGrid | KBO (initial_points : nat).

(** what happened, in order, newest first (not part of the code: used to state properties):
    The calls recorded are those of random_sampler.py:22, 25, grid_sampler.py:45, bayesian_optimization.py:62, 66,
    77, 103, 104 *)
Inductive event :=
| EDraw (n : nat)                                          (* sample_configuration(n) of the sampler *)
| EObj (c : conf) (r : res json)                           (* a call of the objective *)
| EFit (x : list conf) (y : list json)                     (* surrogate_model.fit *)
| EAcq (fitted : option (list (list N) * list json)) (eta : option N) (known : list conf * list json).

(** a sampler object: sampler/__init__.py:22-38, grid_sampler.py:13-29,
    bayesian_optimization.py:17-54.  [s_fit_hash] is _model_fitted_hash: None for the empty
    string, otherwise the identity of the md5 object; [s_fresh] is the next unused identity.
    s_draws has the sizes of the sample_configuration calls; s_calls, s_rpos, s_fits, s_acqs
    count the calls made to the world. *)
Record sampler := mksampler {
  s_kind : kind; s_cs : cspace N; s_min : bool; s_hash : string;
  s_configs : list conf; s_ys : list json; s_cache : list (conf * json);
  s_draws : list nat; s_calls : nat;
  s_grid : option (list conf); s_rpos : nat;
  s_fitted : option (list (list N) * list json); s_fits : nat;
  s_fit_hash : option nat; s_fresh : nat; s_acqs : nat;
  s_trace : list event
}.

(** ** statements on a sampler: a new state and a value or an exception
    (the bodies of the methods, sampler/__init__.py:58-160, bayesian_optimization.py:56-113, grid_sampler.py:31-48,
    random_sampler.py:20-29) *)
Definition M (A : Type) := sampler -> sampler * res A.
(** the end of a method, or a branch that does nothing, e.g. sampler/__init__.py:157, bayesian_optimization.py:76 *)
Definition ret {A} (a : A) : M A := fun s => (s, Ok a).
(** an exception of Python or of a library, e.g. random_sampler.py:24, grid_sampler.py:41 *)
Definition raise {A} (e : err) : M A := fun s => (s, Err e).
(** one statement after the other; an exception keeps the changes made before it, e.g. sampler/__init__.py:142-160 *)
Definition bindM {A B} (m : M A) (k : A -> M B) : M B :=
  fun s => match m s with (s', Ok a) => k a s' | (s', Err e) => (s', Err e) end.
(** reading an attribute of self, e.g. bayesian_optimization.py:90-93 *)
Definition get {A} (f : sampler -> A) : M A := fun s => (s, Ok (f s)).
(** assigning attributes of self, e.g. sampler/__init__.py:59, 62-63, 143, 150-151 *)
Definition upd (f : sampler -> sampler) : M unit := fun s => (f s, Ok tt).
Notation "x <-- m ;;; k" := (bindM m (fun x => k)) (at level 61, m at next level, right associativity).
Notation "m ;;; k" := (bindM m (fun _ => k)) (at level 61, right associativity).
(** a for loop: random_sampler.py:23 *)
Fixpoint forM {A} (l : list A) (f : A -> M unit) : M unit :=
  match l with [] => ret tt | a :: t => f a ;;; forM t f end.
(** a list comprehension: bayesian_optimization.py:66 *)
Fixpoint collect {A B} (l : list A) (f : A -> M B) : M (list B) :=
  match l with [] => ret [] | a :: t => b <-- f a ;;; bs <-- collect t f ;;; ret (b :: bs) end.
(** for i in range(..): bayesian_optimization.py:100 *)
Fixpoint times (n : nat) (m : M unit) : M unit :=
  match n with 0 => ret tt | S k => m ;;; times k m end.

(** ** updates of single fields: self.config_list and self.y_list: sampler/__init__.py:62-63, 150-151 *)
Definition set_points (cs : list conf) (ys : list json) (s : sampler) : sampler :=
  mksampler (s_kind s) (s_cs s) (s_min s) (s_hash s) cs ys (s_cache s) (s_draws s) (s_calls s) (s_grid s) (s_rpos s)
            (s_fitted s) (s_fits s) (s_fit_hash s) (s_fresh s) (s_acqs s) (s_trace s).
(** self._cache: sampler/__init__.py:59, 143, 148 *)
Definition set_cache (c : list (conf * json)) (s : sampler) : sampler :=
  mksampler (s_kind s) (s_cs s) (s_min s) (s_hash s) (s_configs s) (s_ys s) c (s_draws s) (s_calls s) (s_grid s) (s_rpos s)
            (s_fitted s) (s_fits s) (s_fit_hash s) (s_fresh s) (s_acqs s) (s_trace s).
(** one more call of self.config_space.sample_configuration: random_sampler.py:22, bayesian_optimization.py:62 *)
Definition set_draws (p : list nat) (s : sampler) : sampler :=
  mksampler (s_kind s) (s_cs s) (s_min s) (s_hash s) (s_configs s) (s_ys s) (s_cache s) p (s_calls s) (s_grid s) (s_rpos s)
            (s_fitted s) (s_fits s) (s_fit_hash s) (s_fresh s) (s_acqs s) (s_trace s).
(** one more call of self.obj_func: random_sampler.py:25, grid_sampler.py:45, bayesian_optimization.py:66, 104 *)
Definition set_calls (p : nat) (s : sampler) : sampler :=
  mksampler (s_kind s) (s_cs s) (s_min s) (s_hash s) (s_configs s) (s_ys s) (s_cache s) (s_draws s) p (s_grid s) (s_rpos s)
            (s_fitted s) (s_fits s) (s_fit_hash s) (s_fresh s) (s_acqs s) (s_trace s).
(** self._grid and the state of self.rng: grid_sampler.py:37-38, 41 *)
Definition set_grid (g : option (list conf)) (p : nat) (s : sampler) : sampler :=
  mksampler (s_kind s) (s_cs s) (s_min s) (s_hash s) (s_configs s) (s_ys s) (s_cache s) (s_draws s) (s_calls s) g p
            (s_fitted s) (s_fits s) (s_fit_hash s) (s_fresh s) (s_acqs s) (s_trace s).
(** what the surrogate model was fitted to: bayesian_optimization.py:77 *)
Definition set_fitted (f : option (list (list N) * list json)) (k : nat) (s : sampler) : sampler :=
  mksampler (s_kind s) (s_cs s) (s_min s) (s_hash s) (s_configs s) (s_ys s) (s_cache s) (s_draws s) (s_calls s) (s_grid s) (s_rpos s)
            f k (s_fit_hash s) (s_fresh s) (s_acqs s) (s_trace s).
(** self._model_fitted_hash: bayesian_optimization.py:79 *)
Definition set_hash (h : option nat) (fresh : nat) (s : sampler) : sampler :=
  mksampler (s_kind s) (s_cs s) (s_min s) (s_hash s) (s_configs s) (s_ys s) (s_cache s) (s_draws s) (s_calls s) (s_grid s) (s_rpos s)
            (s_fitted s) (s_fits s) h fresh (s_acqs s) (s_trace s).
(** one more call of self.acq_func.get_optimum: bayesian_optimization.py:103 *)
Definition set_acqs (k : nat) (s : sampler) : sampler :=
  mksampler (s_kind s) (s_cs s) (s_min s) (s_hash s) (s_configs s) (s_ys s) (s_cache s) (s_draws s) (s_calls s) (s_grid s) (s_rpos s)
            (s_fitted s) (s_fits s) (s_fit_hash s) (s_fresh s) k (s_trace s).
(** recording an event, see [event] (random_sampler.py:22, 25, grid_sampler.py:45, bayesian_optimization.py:62, 66,
    77, 103, 104) *)
Definition log (e : event) (s : sampler) : sampler :=
  mksampler (s_kind s) (s_cs s) (s_min s) (s_hash s) (s_configs s) (s_ys s) (s_cache s) (s_draws s) (s_calls s) (s_grid s) (s_rpos s)
            (s_fitted s) (s_fits s) (s_fit_hash s) (s_fresh s) (s_acqs s) (e :: s_trace s).

(** len(self): sampler/__init__.py:43-44 *)
Definition slen (s : sampler) : nat := List.length (s_configs s).
(** self.X: sampler/__init__.py:65-67 *)
Definition sX (s : sampler) : list (list N) := map c_vec (s_configs s).

(** np.argmin / np.argmax of a list of floats: the first minimum (maximum), the first NaN if
    there is one; [better x y]: x replaces y.  sampler/__init__.py:77-80 *)
Fixpoint arg_best (better : N -> N -> bool) (best : nat) (x : N) (i : nat) (l : list N) : nat :=
  match l with
  | [] => best
  | y :: t => if negb (neqb x x) then best
              else if negb (neqb y y) || better y x then arg_best better i y (S i) t
              else arg_best better best x (S i) t
  end.
(** np.argmin, np.argmax: sampler/__init__.py:78, 80 *)
Definition np_arg (better : N -> N -> bool) (l : list N) : nat :=
  match l with [] => 0 | x :: t => arg_best better 0 x 1 t end.
(** a value of y_list as a number: sampler/__init__.py:78, 80, or an entry of a vector read from a file,
    sampler/__init__.py:105 *)
Definition jnum (j : json) : res N := match j with JNum x => Ok x | _ => Err TypeError end.

(** incumbent: sampler/__init__.py:73-84.  None stands for (None, float("inf")).  Values that
    are not numbers are outside of the model of np.argmin (TypeError here). *)
Definition incumbent (s : sampler) : res (option (conf * N)) :=
  match s_ys s with
  | [] => Ok None
  | _ => l <- mapM jnum (s_ys s) ;;
         let i := np_arg (if s_min s then nlt else fun a b => nlt b a) l in
         c <- py_nth (s_configs s) i ;;
         y <- py_nth l i ;;
         Ok (Some (c, y))
  end.

(** self.config_list.append(c); self.y_list.append(y):
    sampler/__init__.py:150-151, random_sampler.py:26-27, bayesian_optimization.py:107-108 *)
Definition append (c : conf) (y : json) : M unit := upd (fun s => set_points (s_configs s ++ [c]) (s_ys s ++ [y]) s).

Section World.
(** the world in which one run takes place: sampler/__init__.py:11-193 *)
Variable w : world.

(** self.obj_func( **config ): random_sampler.py:25, grid_sampler.py:45, bayesian_optimization.py:66, 104 *)
Definition call_obj (c : conf) : M json :=
  fun s => let r := w_obj w (s_calls s) (c_vals c) in (log (EObj c r) (set_calls (S (s_calls s)) s), r).
(** self.config_space.sample_configuration(n): random_sampler.py:22, bayesian_optimization.py:62 *)
Definition sample_configuration (n : nat) : M drawn :=
  fun s => let l := map (w_batch w (s_draws s) n) (seq 0 n) in
           (log (EDraw n) (set_draws (s_draws s ++ [n]) s),
            Ok (match l with [c] => if w_bare w then DBare c else DList l | _ => DList l end)).
(** samples[i] (KeyError for a configuration: it has no hyperparameter 0): random_sampler.py:24 *)
Definition drawn_nth (d : drawn) (i : nat) : M conf :=
  match d with
  | DBare _ => raise KeyError
  | DList l => match nth_error l i with Some c => ret c | None => raise IndexError end
  end.

(** RandomSampler._sample: random_sampler.py:20-29 *)
Definition random_sample (n : nat) : M unit :=
  samples <-- sample_configuration n ;;;
  forM (seq 0 n) (fun i => c <-- drawn_nth samples i ;;; v <-- call_obj c ;;; append c v).

(** ** GridSampler: grid_sampler.py:31-48 *)
(** one axis of ConfigSpace.util.generate_grid (external): grid_sampler.py:37 *)
Definition clip_ends (lo up : N) (l : list N) : list N :=
  match l with
  | [] => []
  | x :: t => let x' := if nlt x lo then lo else x in
              match rev t with
              | [] => [if nlt up x' then up else x']
              | z :: m => x' :: rev m ++ [if nlt up z then up else z]
              end
  end.
(** one axis, by the class of the hyperparameter: grid_sampler.py:37 *)
Definition grid_axis (h : hp N) (n : nat) : res (list (cval N)) :=
  match hp_kind h with
  | KFloat lo up lg =>
      let pts := if lg then map nexp (linspace (nln lo) (nln up) n) else linspace lo up n in
      Ok (map VNum (clip_ends lo up pts))
  | KInt lo up lg => Ok (map (fun z => VNum (nofZ z)) (w_ints w lo up lg n))
  | KCat ch => Ok ch
  | KConst v => Ok [v]
  | KOther => Err TypeError
  end.
(** the vector entry of a value (inverse transformation; external): grid_sampler.py:37 *)
Definition float_inverse (lo up : N) (lg : bool) (x : N) : N :=
  if lg then ndiv (nsub (nln x) (nln lo)) (nsub (nln up) (nln lo)) else ndiv (nsub x lo) (nsub up lo).
(** the index of a choice, the vector entry of a categorical value (external): grid_sampler.py:37 *)
Fixpoint cat_index (ch : list (cval N)) (v : cval N) (k : Z) : N :=
  match ch with [] => nofZ k | c :: t => if cval_eqb c v then nofZ k else cat_index t v (k + 1) end.
(** the vector entry of a value, by the class of the hyperparameter (external): grid_sampler.py:37 *)
Definition hp_inverse (h : hp N) (v : cval N) : N :=
  match hp_kind h, v with
  | KFloat lo up lg, VNum x => float_inverse lo up lg x
  | KInt lo up lg, VNum x => float_inverse (nsub (nofZ lo) int_margin) (nadd (nofZ up) int_margin) lg x
  | KCat ch, _ => cat_index ch v 0
  | _, _ => n0
  end.
(** itertools.product over the axes; Configuration(cs, values) of each tuple: generate_grid: grid_sampler.py:37 *)
Fixpoint grid_product (cs : cspace N) (n : nat) : res (list conf) :=
  match cs with
  | [] => Ok [mkconf [] []]
  | h :: t => vs <- grid_axis h n ;;
              rest <- grid_product t n ;;
              Ok (flat_map (fun v => map (fun c => mkconf (hp_inverse h v :: c_vec c) ((hp_name h, v) :: c_vals c)) rest) vs)
  end.
(** random.Random.shuffle: for i in reversed(range(1, len(x))): swap x[i], x[randbelow(i + 1)]:
    grid_sampler.py:38 *)
Definition swap {A} (i j : nat) (l : list A) : list A :=
  match nth_error l i, nth_error l j with
  | Some a, Some b => set_nth i b (set_nth j a l)
  | _, _ => l
  end.
(** the loop of random.Random.shuffle, from index i down: grid_sampler.py:38 *)
Fixpoint shuffle_from {A} (i pos : nat) (l : list A) : list A :=
  match i with
  | 0 => l
  | S i' => shuffle_from i' (S pos) (swap i (w_rand w pos mod (S i)) l)
  end.
(** self.rng.shuffle(self._grid): grid_sampler.py:38 *)
Definition shuffle {A} (pos : nat) (l : list A) : list A := shuffle_from (List.length l - 1) pos l.

(** grid_sampler.py:33-38 *)
Definition make_grid (expected : nat) : M unit :=
  fun s => match s_cs s with
           | [] => (s, Err ZeroDivisionError)
           | _ => match grid_product (s_cs s) (w_steps w expected (List.length (s_cs s))) with
                  | Err e => (s, Err e)
                  | Ok g => (set_grid (Some (shuffle (s_rpos s) g)) (s_rpos s + List.length g) s, Ok tt)
                  end
           end.
(** the loop of grid_sampler.py:40-48.  Every pass takes one point from the grid, so the length
    of the grid (plus one for the IndexError) bounds the number of passes. *)
Fixpoint grid_loop (fuel expected : nat) : M unit :=
  fun s =>
  if expected <=? slen s then (s, Ok tt) else
  match fuel with
  | 0 => (s, Err OutOfFuel)
  | S fuel' =>
    match s_grid s with
    | None => (s, Err AttributeError)
    | Some [] => (s, Err IndexError)
    | Some (c :: g) =>
      let s1 := set_grid (Some g) (s_rpos s) s in
      if existsb (conf_eqb c) (s_configs s) then grid_loop fuel' expected s1 else
      (upd (fun s => set_points (s_configs s ++ [c]) (s_ys s) s) ;;;
       y <-- call_obj c ;;;
       upd (fun s => set_points (s_configs s) (s_ys s ++ [y]) s) ;;;
       grid_loop fuel' expected) s1
    end
  end.
(** GridSampler._sample: grid_sampler.py:31-48 *)
Definition grid_sample (n : nat) : M unit :=
  fun s =>
  let expected := slen s + n in
  (match s_grid s with
   | None => make_grid expected
   | Some g => if slen s + List.length g <? expected then make_grid expected else ret tt
   end ;;;
   g <-- get s_grid ;;;
   grid_loop (S (match g with Some g => List.length g | None => 0 end)) expected) s.

(** ** BayesianOptimizationSampler *)
(** fit_surrogate: bayesian_optimization.py:70-79.  Two md5 objects are equal only if they are
    the same object; SurrogateModel.fit: surrogate_models/__init__.py:49-56. *)
Definition hash_eqb (a : option nat) (b : nat) : bool := match a with Some i => Nat.eqb i b | None => false end.
(** self.surrogate_model.fit(self.X, self.y_list): bayesian_optimization.py:77, surrogate_models/__init__.py:49-56 *)
Definition surrogate_fit : M unit :=
  fun s => let r := w_fit w (s_fits s) (sX s) (s_ys s) in
           let s1 := log (EFit (s_configs s) (s_ys s)) (set_fitted (s_fitted s) (S (s_fits s)) s) in
           match r with
           | Ok _ => (set_fitted (Some (sX s, s_ys s)) (S (s_fits s)) s1, Ok tt)
           | Err e => (set_fitted None (S (s_fits s)) s1, Err e)
           end.
(** fit_surrogate: bayesian_optimization.py:70-79 *)
Definition fit_surrogate (force : bool) : M unit :=
  fun s => let h := s_fresh s in
           let s1 := set_hash (s_fit_hash s) (S h) s in
           ((if force || negb (hash_eqb (s_fit_hash s1) h) then surrogate_fit else ret tt) ;;;
            upd (fun s' => set_hash (Some h) (s_fresh s') s')) s1.

(** the objective on an entry of [configs]; [**] of a list raises TypeError:
    bayesian_optimization.py:66 *)
Definition call_drawn (d : drawn) : M json := match d with DBare c => call_obj c | DList _ => raise TypeError end.
(** the configurations that self.config_list += configs appends: bayesian_optimization.py:67 *)
Fixpoint bare_all (l : list drawn) : list conf :=
  match l with [] => [] | DBare c :: t => c :: bare_all t | DList _ :: t => bare_all t end.
(** _sample_initial_points: bayesian_optimization.py:56-68 *)
Definition sample_initial (ip max_points : nat) : M unit :=
  let k := min ip max_points in
  configs <-- sample_configuration k ;;;
  let items := if Nat.eqb k 1 then [configs] else match configs with DBare c => [DBare c] | DList l => map DBare l end in
  ys <-- collect items call_drawn ;;;
  upd (fun s => set_points (s_configs s ++ bare_all items) (s_ys s ++ ys) s) ;;;
  fit_surrogate true.

(** one acquisition step: bayesian_optimization.py:100-111 *)
Definition bo_step : M unit :=
  inc <-- (fun s => (s, incumbent s)) ;;;
  c <-- (fun s => let eta := option_map snd inc in
                  let r := w_acq w (s_acqs s) (s_fitted s) eta in
                  (log (EAcq (s_fitted s) eta (s_configs s, s_ys s)) (set_acqs (S (s_acqs s)) s), r)) ;;;
  y <-- call_obj c ;;;
  append c y ;;;
  fit_surrogate false.
(** BayesianOptimizationSampler._sample: bayesian_optimization.py:86-113 *)
Definition bo_sample (ip n : nat) : M unit :=
  current <-- get slen ;;;
  already <-- (if current <? ip then sample_initial ip n ;;; get (fun s => slen s - current) else ret 0) ;;;
  fit_surrogate false ;;;
  times (n - already) bo_step.

(** self._sample: sampler/__init__.py:158, 162-165 *)
Definition sample_new (k : kind) (n : nat) : M unit :=
  match k with KRandom => random_sample n | KGrid => grid_sample n | KBO ip => bo_sample ip n end.

(** the cache loop of Sampler.sample, returning sampled_points: sampler/__init__.py:146-154 *)
Fixpoint replay (n : nat) : M nat :=
  match n with
  | 0 => ret 0
  | S n' => fun s => match s_cache s with
                     | [] => (s, Ok 0)
                     | (c, y) :: t => (append c y ;;; k <-- replay n' ;;; ret (S k)) (set_cache t s)
                     end
  end.
(** Sampler.sample: sampler/__init__.py:134-160 *)
Definition sample_base (n : nat) : M unit :=
  fun s =>
  let s1 := if List.length (s_cache s) <? slen s + n then set_cache [] s else s in
  (k <-- replay n ;;;
   if k <? n then sample_new (s_kind s) (n - k) else ret tt) s1.
(** sample: sampler/__init__.py:134-160, bayesian_optimization.py:81-84 *)
Definition sample (n : nat) : M unit :=
  fun s => (sample_base n ;;; match s_kind s with KBO _ => fit_surrogate false | _ => ret tt end) s.

(** ** the cache file *)
(** _hash: sampler/__init__.py:49-56; the arguments are the strings hashed: class, hyperparameters,
    the listed arguments and the objective.  For BO the listed arguments are those of
    bayesian_optimization.py:53, otherwise the seed (sampler/__init__.py:33). *)
Definition sampler_hash (cls space : string) (args : list string) (objective : string) : string :=
  w_md5 w (String.append cls (String.append space (fold_right String.append objective args))).

(** what the file name depends on: str(class), str(hyperparameters), str(seed), str(obj_func) and,
    for BO, str of the acquisition class, its kwargs, initial_points and the surrogate class
    (sampler/__init__.py:33, 49-56; bayesian_optimization.py:53) *)
Record ident := mkident {
  i_cls : string; i_space : string; i_seed : string; i_obj : string;
  i_acq : string; i_kwargs : string; i_points : string; i_surrogate : string
}.
(** self.hash: sampler/__init__.py:33, bayesian_optimization.py:53 *)
Definition sampler_key (k : kind) (i : ident) : string :=
  sampler_hash (i_cls i) (i_space i)
    (match k with KBO _ => [i_seed i; i_acq i; i_kwargs i; i_points i; i_surrogate i] | _ => [i_seed i] end) (i_obj i).

(** data[key]: KeyError, or TypeError when data is not a dict (a str key on a list or number):
    sampler/__init__.py:104 *)
Definition jget (j : json) (key : string) : res json :=
  match j with
  | JObj kv => match find (fun p => String.eqb (fst p) key) (rev kv) with Some p => Ok (snd p) | None => Err KeyError end
  | _ => Err TypeError
  end.
(** iteration over a JSON value: lists, the characters of a string, the keys of a dict: sampler/__init__.py:104 *)
Fixpoint chars (s : string) : list json :=
  match s with EmptyString => [] | String a t => JStr (String a EmptyString) :: chars t end.
(** what zip(data["X"], data["y"]) takes: sampler/__init__.py:104 *)
Definition jiter (j : json) : res (list json) :=
  match j with
  | JList l => Ok l
  | JStr s => Ok (chars s)
  | JObj kv => Ok (map (fun p => JStr (fst p)) kv)
  | _ => Err TypeError
  end.
(** CS.Configuration(cs, vector=X): sampler/__init__.py:105 *)
Definition conf_of_vector (cs : cspace N) (v : list N) : res conf :=
  vals <- config_of_vector cs v ;; Ok (mkconf v vals).
(** CS.Configuration(self.config_space, vector=X) of an X read from the file: sampler/__init__.py:105 *)
Definition conf_of_json (cs : cspace N) (j : json) : res conf :=
  match j with JList l => v <- mapM jnum l ;; conf_of_vector cs v | _ => Err ValueError end.
(** the loop of _load_cache: sampler/__init__.py:104-106; the cache so far survives an exception *)
Fixpoint load_pairs (cs : cspace N) (l : list (json * json)) : list (conf * json) * res unit :=
  match l with
  | [] => ([], Ok tt)
  | (x, y) :: t => match conf_of_json cs x with
                   | Err e => ([], Err e)
                   | Ok c => let (r, o) := load_pairs cs t in ((c, y) :: r, o)
                   end
  end.
(** _load_cache: sampler/__init__.py:94-111; every exception is caught (line 110) *)
Definition load_cache (cs : cspace N) (file : option string) : list (conf * json) :=
  match file with
  | None => []
  | Some text =>
      match (data <- w_loads w text ;; x <- jget data "X" ;; y <- jget data "y" ;;
             xs <- jiter x ;; ys <- jiter y ;; Ok (combine xs ys)) with
      | Err _ => []
      | Ok pairs => fst (load_pairs cs pairs)
      end
  end.
(** save_cache: sampler/__init__.py:113-132; None: nothing is written *)
Definition save_cache (s : sampler) : option string :=
  match s_cache s with
  | _ :: _ => None
  | [] => match s_configs s with
          | [] => None
          | _ => Some (w_dumps w (JObj [("X"%string, JList (map (fun v => JList (map JNum v)) (sX s))); ("y"%string, JList (s_ys s))]))
          end
  end.

(** the cache directory: file contents by hash: sampler/__init__.py:20, 96, 124 *)
Definition files := string -> option string.
(** file.write_text(..): sampler/__init__.py:126 *)
Definition write (fs : files) (key text : string) : files := fun k => if String.eqb k key then Some text else fs k.
(** the constructors (sampler/__init__.py:22-38, bayesian_optimization.py:17-54); for BO the
    second _load_cache replaces what the first one found *)
Definition sampler_new (k : kind) (cs : cspace N) (minimize : bool) (key : string) (fs : files) : sampler :=
  mksampler k cs minimize key [] [] (load_cache cs (fs key)) [] 0 None 0 None 0 None 0 0 [].
(** the constructor, with the file name computed from its arguments: sampler/__init__.py:33-38,
    bayesian_optimization.py:53-54 *)
Definition sampler_make (k : kind) (cs : cspace N) (minimize : bool) (i : ident) (fs : files) : sampler :=
  sampler_new k cs minimize (sampler_key k i) fs.
(** __del__: sampler/__init__.py:46-47 *)
Definition sampler_del (s : sampler) (fs : files) : files :=
  match save_cache s with Some text => write fs (s_hash s) text | None => fs end.

(** operations: sample, reset (sampler/__init__.py:61-63), clear_cache (58-59), and
    fit_surrogate of a BayesianOptimizationSampler *)
Inductive sop := OSample (n : nat) | OReset | OClear | OFit (force : bool).
(** one operation: sampler/__init__.py:58-63, 134-160, bayesian_optimization.py:70-84 *)
Definition sstep (op : sop) : M unit :=
  match op with
  | OSample n => sample n
  | OReset => upd (fun s => set_points [] [] s)
  | OClear => upd (fun s => set_cache [] s)
  | OFit force => fun s => match s_kind s with KBO _ => fit_surrogate force s | _ => (s, Err AttributeError) end
  end.
(** a history: every call may raise, the object stays usable:
    sampler/__init__.py:58-63, 134-160, bayesian_optimization.py:70-84 *)
Fixpoint srun (ops : list sop) (s : sampler) : sampler * list (res unit) :=
  match ops with
  | [] => (s, [])
  | op :: t => let (s1, r) := sstep op s in let (s2, rs) := srun t s1 in (s2, r :: rs)
  end.
End World.
End Sampler.

Arguments json : clear implicits.
Arguments conf : clear implicits.
Arguments world : clear implicits.
Arguments sampler : clear implicits.
Arguments event : clear implicits.
Arguments drawn : clear implicits.
Arguments M : clear implicits.
