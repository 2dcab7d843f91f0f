(** MemoryModel.v - which arrays an ICE object shares with its user, its surrogate and its
    curves (pyPDP/algorithms/ice.py:182-257).  No proofs here.

    IceModel.v treats arrays as values.  Here an array is a buffer in memory: reshape and
    transpose give views of it, [-=] writes into it, and whoever holds it can write into it.
    numpy's rules for views are the contract assumed (DESIGN.md, trusted base):
    - repeat, boolean masks, arithmetic and np.square give new buffers;
    - transpose, basic indexing and reshape of a contiguous array give views;
    - reshape of a transposed (n, f, g) array to (n*g, f) is a view when one of the three
      lengths is at most 1, and a copy otherwise. *)
From Verif Require Import Base Num NumpyModel ConfigSpaceModel UtilsModel IceModel.

Section Memory.
Context {N : Num}.

(** memory: the buffers by address (numpy; used in pyPDP/algorithms/ice.py:208-230) *)
Definition heap := list (list N).
(** the buffer at an address (numpy; pyPDP/algorithms/ice.py:208-230) *)
Definition buf (h : heap) (adr : nat) : list N := nth adr h [].

(** x_ice is the transposed view of a buffer of shape (n, f, g): pyPDP/algorithms/ice.py:211-213 *)
Definition x_view (n f g : nat) (b : list N) : list (list (list N)) :=
  match reshape3 n0 b n f g with Ok x3 => transpose021 n0 f g x3 | Err _ => [] end.
(** and the buffer behind given contents: pyPDP/algorithms/ice.py:211-214 *)
Definition x_buffer (f : nat) (x : list (list (list N))) : list N :=
  List.concat (List.concat (map (fun m => map (fun j => column n0 j m) (seq 0 f)) x)).
(** a two-dimensional view of a buffer, [] if it does not fit: pyPDP/algorithms/ice.py:218-219 *)
Definition rows_view (n m : nat) (b : list N) : list (list N) :=
  match reshape2 n0 b n m with Ok r => r | Err _ => [] end.

(** the argument of predict, an array with n*g rows of f entries: either a view of the buffer
    of x_ice or a copy in row order.  pyPDP/algorithms/ice.py:217 *)
Record argument := mkarg { g_adr : nat; g_view : bool; g_n : nat; g_f : nat; g_g : nat }.
(** its rows as the surrogate sees them: pyPDP/algorithms/ice.py:217 *)
Definition arg_rows (h : heap) (x : argument) : list (list N) :=
  if g_view x then List.concat (x_view (g_n x) (g_f x) (g_g x) (buf h (g_adr x)))
  else rows_view (g_n x * g_g x) (g_f x) (buf h (g_adr x)).

(** any surrogate: it may change memory, and returns the addresses of two one-dimensional
    arrays or raises.  pyPDP/surrogate_models/__init__.py:39-47 *)
Definition mpredictor := heap -> argument -> heap * res (nat * nat).

(** an ICE object: arrays are held by address.  pyPDP/algorithms/__init__.py:19-26, pyPDP/algorithms/ice.py:172-177 *)
Record mice := mkm {
  m_cs : cspace N; m_sel : list (hp N); m_gpa : nat;
  m_n : nat;                       (* num_samples *)
  m_samples : nat;                 (* address of samples *)
  m_centered : bool;
  m_predict : mpredictor;
  m_x : option nat; m_y : option nat; m_v : option nat    (* addresses of the caches *)
}.

(** the algorithm of IceModel.v with the samples as they are in memory now: pyPDP/algorithms/ice.py:211 *)
Definition alg_at (h : heap) (o : mice) : algorithm N :=
  mkalg (m_cs o) (m_sel o) (rows_view (m_n o) (List.length (m_cs o)) (buf h (m_samples o))) (m_gpa o).

(** is x_ice.reshape(-1, num_features) a view?  pyPDP/algorithms/ice.py:217 *)
Definition shares (n f g : nat) : bool := Nat.leb n 1 || Nat.leb f 1 || Nat.leb g 1.

(** ICE._calculate: pyPDP/algorithms/ice.py:200-232 *)
Definition m_calculate (h : heap) (o : mice) : heap * mice * res unit :=
  let a := alg_at h o in
  let n := m_n o in let f := List.length (m_cs o) in let g := num_grid_points a in
  match ice_x a with
  | Err e => (h, o, Err e)
  | Ok x =>
    let xa := List.length h in
    let h1 := h ++ [x_buffer f x] in                                  (* 211-214 *)
    let view := shares n f g in
    let h2 := if view then h1 else h1 ++ [List.concat (List.concat x)] in
    let arg := mkarg (if view then xa else S xa) view n f g in
    match m_predict o h2 arg with                                     (* 217 *)
    | (h3, Err e) => (h3, o, Err e)
    | (h3, Ok (ma, sa)) =>
      match reshape2 n0 (buf h3 ma) n g, reshape2 n0 (buf h3 sa) n g with
      | Ok y, Ok _ =>                                                 (* 218-219 *)
        let va := List.length h3 in
        let h4 := h3 ++ [map (fun s => nmul s s) (buf h3 sa)] in      (* 220 *)
        match (if m_centered o then center_rows g y else Ok y) with
        | Err e => (h4, o, Err e)
        | Ok y' =>
          let h5 := if m_centered o then set_nth ma (List.concat y') h4 else h4 in   (* 225: -= writes into means *)
          (h5, mkm (m_cs o) (m_sel o) (m_gpa o) n (m_samples o) (m_centered o) (m_predict o)
                   (Some xa) (Some ma) (Some va), Ok tt)               (* 228-230 *)
        end
      | Err e, _ => (h3, o, Err e)
      | _, Err e => (h3, o, Err e)
      end
    end
  end.

(** x_ice, y_ice, y_variances hand out the arrays themselves: pyPDP/algorithms/ice.py:241-257 *)
Definition m_read (f : mice -> option nat) (h : heap) (o : mice) : heap * mice * res nat :=
  match f o with
  | Some adr => (h, o, Ok adr)
  | None => match m_calculate h o with
            | (h1, o1, Err e) => (h1, o1, Err e)
            | (h1, o1, Ok _) => (h1, o1, match f o1 with Some adr => Ok adr | None => Err AssertionError end)
            end
  end.

(** operations: reads, reset, the flag, a new surrogate; assigning new contents to an array in
    place ([ice.y_ice[...] = ...], which reads the property first); assigning to the samples
    array the user passed in; writing to any array by its address.
    pyPDP/algorithms/ice.py:172, 192-198, 241-257 *)
Inductive mop := MReadX | MReadY | MReadV | MReset | MCenter (b : bool) | MRefit (p : mpredictor)
  | MWriteX (x : list (list (list N))) | MWriteY (y : list (list N)) | MWriteV (v : list (list N))
  | MWriteSamples (s : list (list N)).

(** what the user sees: the contents of the array when it is handed out.  pyPDP/algorithms/ice.py:241-257 *)
Definition m_step (h : heap) (o : mice) (op : mop) : heap * mice * ice_out N :=
  let n := m_n o in let f := List.length (m_cs o) in let g := m_gpa o ^ List.length (m_sel o) in
  match op with
  | MReadX => match m_read m_x h o with
              | (h1, o1, Ok adr) => (h1, o1, ROutX (Ok (x_view n f g (buf h1 adr))))
              | (h1, o1, Err e) => (h1, o1, ROutX (Err e)) end
  | MReadY => match m_read m_y h o with
              | (h1, o1, Ok adr) => (h1, o1, ROutY (Ok (rows_view n g (buf h1 adr))))
              | (h1, o1, Err e) => (h1, o1, ROutY (Err e)) end
  | MReadV => match m_read m_v h o with
              | (h1, o1, Ok adr) => (h1, o1, ROutV (Ok (rows_view n g (buf h1 adr))))
              | (h1, o1, Err e) => (h1, o1, ROutV (Err e)) end
  | MReset => (h, mkm (m_cs o) (m_sel o) (m_gpa o) n (m_samples o) (m_centered o) (m_predict o) None None None, RNone)
  | MCenter b => (h, mkm (m_cs o) (m_sel o) (m_gpa o) n (m_samples o) b (m_predict o) (m_x o) (m_y o) (m_v o), RNone)
  | MRefit p => (h, mkm (m_cs o) (m_sel o) (m_gpa o) n (m_samples o) (m_centered o) p (m_x o) (m_y o) (m_v o), RNone)
  | MWriteX x => match m_read m_x h o with
                 | (h1, o1, Ok adr) => (set_nth adr (x_buffer f x) h1, o1, RNone)
                 | (h1, o1, Err e) => (h1, o1, ROutX (Err e)) end
  | MWriteY y => match m_read m_y h o with
                 | (h1, o1, Ok adr) => (set_nth adr (List.concat y) h1, o1, RNone)
                 | (h1, o1, Err e) => (h1, o1, ROutY (Err e)) end
  | MWriteV v => match m_read m_v h o with
                 | (h1, o1, Ok adr) => (set_nth adr (List.concat v) h1, o1, RNone)
                 | (h1, o1, Err e) => (h1, o1, ROutV (Err e)) end
  | MWriteSamples s => (set_nth (m_samples o) (List.concat s) h, o, RNone)
  end.
(** any history of operations (pyPDP/algorithms/ice.py:159-257) *)
Fixpoint m_run (h : heap) (o : mice) (ops : list mop) : heap * mice * list (ice_out N) :=
  match ops with
  | [] => (h, o, [])
  | op :: t => let '(h1, o1, r) := m_step h o op in
               let '(h2, o2, rs) := m_run h1 o1 t in (h2, o2, r :: rs)
  end.

(** ICE.__init__ on an array at address [adr]: pyPDP/algorithms/ice.py:159-177 *)
Definition m_new (a : algorithm N) (adr : nat) (p : mpredictor) : mice :=
  mkm (a_cs a) (a_sel a) (a_gpa a) (List.length (a_samples a)) adr false p None None None.

(** the curve ice[i]: row i of the three arrays, as views.  pyPDP/algorithms/ice.py:182-190
    (non-negative i only; one beyond the end raises IndexError) *)
Record mcurve := mkcurve { c_x : nat; c_y : nat; c_v : nat; c_i : nat; c_n : nat; c_f : nat; c_g : nat }.
(** ICE.__getitem__: pyPDP/algorithms/ice.py:182-190 *)
Definition m_getitem (h : heap) (o : mice) (i : nat) : heap * mice * res mcurve :=
  match m_read m_x h o with
  | (h1, o1, Err e) => (h1, o1, Err e)
  | (h1, o1, Ok ax) =>
    if negb (Nat.ltb i (m_n o)) then (h1, o1, Err IndexError) else
    match m_read m_y h1 o1 with
    | (h2, o2, Err e) => (h2, o2, Err e)
    | (h2, o2, Ok ay) =>
      match m_read m_v h2 o2 with
      | (h3, o3, Err e) => (h3, o3, Err e)
      | (h3, o3, Ok av) => (h3, o3, Ok (mkcurve ax ay av i (m_n o) (List.length (m_cs o)) (m_gpa o ^ List.length (m_sel o))))
      end
    end
  end.
(** the values of a curve as they are in memory: ICECurve.y_ice, pyPDP/algorithms/ice.py:15-32, 187 *)
Definition curve_y (h : heap) (c : mcurve) : list N := nth (c_i c) (rows_view (c_n c) (c_g c) (buf h (c_y c))) [].
(** curve.y_ice[...] = row: writes into the row of the ICE array.  pyPDP/algorithms/ice.py:187 *)
Definition curve_write_y (h : heap) (c : mcurve) (row : list N) : heap :=
  set_nth (c_y c) (List.concat (set_nth (c_i c) row (rows_view (c_n c) (c_g c) (buf h (c_y c))))) h.

End Memory.

Arguments heap : clear implicits.
Arguments mpredictor : clear implicits.
Arguments mice : clear implicits.
Arguments mop : clear implicits.
