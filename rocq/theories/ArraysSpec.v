(** ArraysSpec.v - vocabulary for C92-C94: histories with assignments to attributes, the
    shapes of arrays, surrogates by what they do to memory, and histories on values. *)
From Verif Require Import Base Num NumpyModel ConfigSpaceModel UtilsModel IceModel IceAttrModel MemoryModel IceProofs IceProofs2.
Local Open Scope nat_scope.
Local Open Scope list_scope.

Section V.
Context {N : Num}.

(** ** attributes *)
(** no attribute is assigned except [centered] and the surrogate *)
Definition plain (op : xop N) : bool := match op with XIce _ | XReadGrid => true | _ => false end.
(** this operation looks at the grid *)
Definition looks (op : xop N) : bool := match op with XReadGrid => true | XIce o => is_read o | _ => false end.
Definition ice_part (ops : list (xop N)) : list (ice_op N) := flat_map (fun op => match op with XIce o => [o] | _ => [] end) ops.
Definition ice_shown (outs : list (xout N)) : list (ice_out N) := flat_map (fun o => match o with YIce r => [r] | _ => [] end) outs.
Definition grids (outs : list (xout N)) : list (res (list (list N))) := flat_map (fun o => match o with YGrid r => [r] | _ => [] end) outs.
Definition with_samples (a : algorithm N) (s : list (list N)) : algorithm N := mkalg (a_cs a) (a_sel a) s (a_gpa a).
(** every read raises [e] *)
Definition raises (e : err) (o : ice_out N) : Prop :=
  match o with ROutX r => r = Err e | ROutY r => r = Err e | ROutV r => r = Err e | RNone => True end.

(** ** memory *)
Definition shaped3 (n g f : nat) (x : list (list (list N))) : Prop :=
  length x = n /\ Forall (fun m => length m = g) x /\ Forall (Forall (fun r => length r = f)) x.
Definition shaped2 (n g : nat) (y : list (list N)) : Prop := length y = n /\ Forall (fun r => length r = g) y.
(** memory only grows: what was there keeps its contents *)
Definition keeps (h h' : heap N) : Prop := length h <= length h' /\ forall adr, adr < length h -> buf h' adr = buf h adr.
(** a surrogate that leaves memory alone and returns new arrays with the predictions of [p] *)
Definition fresh (mp : mpredictor N) (p : predictor N) : Prop := forall h x,
  keeps h (fst (mp h x)) /\
  match p (arg_rows h x), snd (mp h x) with
  | Ok (m, s), Ok (ma, sa) => length h <= ma < length (fst (mp h x)) /\ length h <= sa < length (fst (mp h x)) /\
                              buf (fst (mp h x)) ma = m /\ buf (fst (mp h x)) sa = s
  | Err e, Err e' => e = e'
  | _, _ => False
  end.
(** the same operations on values *)
Inductive pop := PIceOp (op : ice_op N) | PSetX (x : list (list (list N))) | PSetY (y : list (list N)) | PSetV (v : list (list N))
  | PSetSamples (s : list (list N)).
Definition p_step (q : ice N) (op : pop) : ice N * ice_out N :=
  match op with
  | PIceOp i => ice_step q i
  | PSetX x => let (q', r) := read_x q in
               match r with Ok _ => (mkiceobj (ic_alg q') (ic_centered q') (ic_predict q') (Some x) (ic_y q') (ic_v q'), RNone)
                          | Err e => (q', ROutX (Err e)) end
  | PSetY y => let (q', r) := read_y q in
               match r with Ok _ => (mkiceobj (ic_alg q') (ic_centered q') (ic_predict q') (ic_x q') (Some y) (ic_v q'), RNone)
                          | Err e => (q', ROutY (Err e)) end
  | PSetV v => let (q', r) := read_v q in
               match r with Ok _ => (mkiceobj (ic_alg q') (ic_centered q') (ic_predict q') (ic_x q') (ic_y q') (Some v), RNone)
                          | Err e => (q', ROutV (Err e)) end
  | PSetSamples s => (mkiceobj (mkalg (a_cs (ic_alg q)) (a_sel (ic_alg q)) s (a_gpa (ic_alg q))) (ic_centered q) (ic_predict q)
                               (ic_x q) (ic_y q) (ic_v q), RNone)
  end.
Fixpoint p_run (q : ice N) (ops : list pop) : ice N * list (ice_out N) :=
  match ops with
  | [] => (q, [])
  | op :: t => let (q1, r) := p_step q op in let (q2, rs) := p_run q1 t in (q2, r :: rs)
  end.
(** an operation on memory and the same on values; n samples, f features, g grid points *)
Definition matches (n f g : nat) (m : mop N) (p : pop) : Prop :=
  match m, p with
  | MReadX, PIceOp OReadX | MReadY, PIceOp OReadY | MReadV, PIceOp OReadV | MReset, PIceOp OReset => True
  | MCenter b, PIceOp (OCenter b') => b = b'
  | MRefit mp, PIceOp (ORefit q) => fresh mp q
  | MWriteX x, PSetX x' => x = x' /\ shaped3 n g f x
  | MWriteY y, PSetY y' => y = y' /\ shaped2 n g y
  | MWriteV v, PSetV v' => v = v' /\ shaped2 n g v
  | MWriteSamples s, PSetSamples s' => s = s' /\ shaped2 n f s
  | _, _ => False
  end.
Definition is_write_samples (op : mop N) : bool := match op with MWriteSamples _ => true | _ => false end.
Definition fits (a : algorithm N) : mop N -> pop -> Prop := matches (num_samples a) (num_features a) (num_grid_points a).
(** the samples are the array at [adr], and the surrogate makes new arrays *)
Definition set_up (h : heap N) (a : algorithm N) (adr : nat) (mp : mpredictor N) (p : predictor N) : Prop :=
  rect (num_features a) (a_samples a) /\ adr < length h /\ buf h adr = concat (a_samples a) /\ fresh mp p.
(** a surrogate that does not write into [adr] and does not return it as means *)
Definition harmless (adr : nat) (mp : mpredictor N) : Prop := forall h x, adr < length h -> g_adr x <> adr ->
  length h <= length (fst (mp h x)) /\ buf (fst (mp h x)) adr = buf h adr /\ forall ma sa, snd (mp h x) = Ok (ma, sa) -> ma <> adr.
Definition safe_op (adr : nat) (op : mop N) : Prop := match op with MWriteSamples _ => False | MRefit mp => harmless adr mp | _ => True end.
(** a surrogate that may overwrite its argument, but no other array, and returns new arrays *)
Definition scribbles (mp : mpredictor N) : Prop := forall h x,
  length h <= length (fst (mp h x)) /\ (forall c, c < length h -> c <> g_adr x -> buf (fst (mp h x)) c = buf h c) /\
  forall ma sa, snd (mp h x) = Ok (ma, sa) -> length h <= ma.
End V.
