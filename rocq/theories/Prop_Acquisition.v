(** Prop_Acquisition.v - acquisition functions and surrogate calls (C47-C50). *)
From Coq Require Import QArith Reals Lra.
From Coquelicot Require Import Coquelicot.
From Verif Require Import Base Num NumLaws NumpyModel ConfigSpaceModel SamplerModel SamplerSpec SamplerExamples AcquisitionModel AcquisitionSpec AcquisitionProofs Gauss AcquisitionReal.
Local Open Scope nat_scope.
Local Open Scope list_scope.

(** ** C47 *)
Theorem C47_values : forall (N : Num) predict (cdf pdf : N -> N) a mn x v, acq_call predict cdf pdf a mn x = Ok v ->
  exists rows means stds, stands_for x rows /\ predict rows = Ok (means, stds) /\ length means = length stds /\ length v = length means /\
    forall i m s, nth_error means i = Some m -> nth_error stds i = Some s -> nth_error v i = Some (acq_value cdf pdf a mn m s).
Proof. exact @call_values. Qed.
Print Assumptions C47_values.

Theorem C47_get_optimum : forall (N : Num), order_laws N -> forall predict (cdf pdf : N -> N) a mn (l : list (conf N)) v,
  l <> [] -> acq_call predict cdf pdf a mn (XList (map IConf l)) = Ok v -> length v = length l -> Forall ordinary v ->
  exists i c x, get_optimum_pair predict cdf pdf a mn (DList l) = Ok (EConf c, x) /\ get_optimum predict cdf pdf a mn (DList l) = Ok (EConf c) /\
    nth_error l i = Some c /\ best_at false v i x.
Proof. exact (fun N L => @optimum_best N L). Qed.
Print Assumptions C47_get_optimum.

Theorem C47_get_incumbent : forall (N : Num), order_laws N -> forall predict mn (l : list (conf N)) means stds,
  l <> [] -> predict (map (@c_vec N) l) = Ok (means, stds) -> length means = length l -> Forall ordinary means ->
  exists i c x, get_incumbent predict mn (DList l) = Ok (EConf c, x) /\ nth_error l i = Some c /\ best_at mn means i x.
Proof. exact (fun N L => @incumbent_of_surrogate N L). Qed.
Print Assumptions C47_get_incumbent.

(** a single candidate that is not in a list *)
Theorem C47_bare_candidate : forall (N : Num) predict (cdf pdf : N -> N) a mn (c : conf N) m s name val rest,
  predict [c_vec c] = Ok ([m], [s]) -> c_vals c = (name, val) :: rest ->
  get_optimum predict cdf pdf a mn (DBare c) = Ok (EName name) /\ get_incumbent predict mn (DBare c) = Err TypeError.
Proof. exact @bare_candidate. Qed.
Print Assumptions C47_bare_candidate.

(** 1/2 and 1/4 are tied for LCB with tau = 1; the first one is returned *)
Definition ax_predict (X : list (list QNum)) : res (list QNum * list QNum) :=
  Ok (map (fun r => match r with x :: _ => Qmult x x | [] => 0 end)%Q X, map (fun r => match r with x :: _ => Qmult (3#4) x | [] => 0 end)%Q X).
Definition ax_list : list (conf QNum) := map (fun q => sx_conf sx_cs [q : QNum]) [1#8; 1#2; 1#4; 3#4]%Q.
Example C47_example : match acq_call ax_predict (fun x => x) (fun x => x) (ALCB (1#1 : QNum)%Q) true (XList (map IConf ax_list)) with
    | Ok v => map (fun x : QNum => Qred x) v = [5#64; 1#8; 1#8; 0#1]%Q | Err _ => False end /\
  match get_optimum ax_predict (fun x => x) (fun x => x) (ALCB (1#1 : QNum)%Q) true (DList ax_list) with Ok (EConf c) => sx_x c = (1#2)%Q | _ => False end /\
  match get_incumbent ax_predict true (DList ax_list) with Ok (EConf c, _) => sx_x c = (1#8)%Q | _ => False end /\
  match get_incumbent ax_predict false (DList ax_list) with Ok (EConf c, _) => sx_x c = (3#4)%Q | _ => False end.
Proof. vm_compute. auto. Qed.
Example C47_example_bare : match get_optimum ax_predict (fun x => x) (fun x => x) (ALCB (1#1 : QNum)%Q) true (DBare (sx_conf sx_cs [(1#2)%Q : QNum])) with Ok (EName n) => n = "x"%string | _ => False end.
Proof. vm_compute. reflexivity. Qed.

(** ** C48 *)
(** update: expected and probable improvement are over the value given last, whatever was given before; LCB has none *)
Theorem C48_update : forall (N : Num) (cdf pdf : N -> N) a es e mn m s, acq_value cdf pdf (fold_left acq_update (es ++ [e]) a) mn m s =
  match a with AEI _ eps => ei_value cdf pdf e eps m s | API _ eps => pi_value cdf mn e eps m s | ALCB tau => lcb_value mn tau m s end.
Proof. exact @after_updates. Qed.
Print Assumptions C48_update.
Local Open Scope R_scope.
Theorem C48_lcb : forall (mn : bool) (tau tau' mean mean' s s' : R),
  (0 < s -> tau < tau' -> lcb_value (N:=RNum) mn tau mean s < lcb_value (N:=RNum) mn tau' mean s) /\
  (0 < tau -> s < s' -> lcb_value (N:=RNum) mn tau mean s < lcb_value (N:=RNum) mn tau mean s') /\
  (mean < mean' -> if mn then lcb_value (N:=RNum) mn tau mean' s < lcb_value (N:=RNum) mn tau mean s
                   else lcb_value (N:=RNum) mn tau mean s < lcb_value (N:=RNum) mn tau mean' s).
Proof. exact lcb_mono. Qed.
Print Assumptions C48_lcb.

(** norm_cdf is the distribution function of the standard normal distribution *)
Theorem C48_norm_cdf : (forall x : R, is_derive norm_cdf x (exp (- (x * x) / 2) / sqrt (2 * PI))) /\ is_lim norm_cdf m_infty 0 /\ is_lim norm_cdf p_infty 1.
Proof. exact (conj cdf_derive (conj cdf_lim_m cdf_lim)). Qed.
Print Assumptions C48_norm_cdf.

Theorem C48_pi_range : forall (mn : bool) (eta eps mean s : R), 0 <= pi_value (N:=RNum) norm_cdf mn eta eps mean s < 1.
Proof. exact pi_range. Qed.
Print Assumptions C48_pi_range.
Theorem C48_pi_zero : forall (mn : bool) (eta eps mean : R), pi_value (N:=RNum) norm_cdf mn eta eps mean 0 = 0.
Proof. exact pi_zero. Qed.
Print Assumptions C48_pi_zero.
Theorem C48_pi_eta : forall (mn : bool) (eta eta' eps mean s : R), 0 < s -> eta < eta' ->
  if mn then pi_value (N:=RNum) norm_cdf mn eta eps mean s < pi_value (N:=RNum) norm_cdf mn eta' eps mean s
  else pi_value (N:=RNum) norm_cdf mn eta' eps mean s < pi_value (N:=RNum) norm_cdf mn eta eps mean s.
Proof. exact pi_eta. Qed.
Print Assumptions C48_pi_eta.
(** a better mean makes an improvement more probable, a larger required improvement less *)
Theorem C48_pi_mean : forall (mn : bool) (eta eps mean mean' s : R), 0 < s -> mean < mean' ->
  if mn then pi mn eta eps mean' s < pi mn eta eps mean s else pi mn eta eps mean s < pi mn eta eps mean' s.
Proof. exact pi_mean. Qed.
Print Assumptions C48_pi_mean.
Theorem C48_pi_eps : forall (mn : bool) (eta eps eps' mean s : R), 0 < s -> eps < eps' -> pi mn eta eps' mean s < pi mn eta eps mean s.
Proof. exact pi_eps. Qed.
Print Assumptions C48_pi_eps.
Theorem C48_pi_half : forall (mn : bool) (eta eps mean s : R), 0 < s ->
  (/ 2 <= pi_value (N:=RNum) norm_cdf mn eta eps mean s <-> if mn then eps <= eta - mean else eps <= mean - eta).
Proof. exact pi_half. Qed.
Print Assumptions C48_pi_half.
(** P(Y <= eta - eps) when minimizing, P(Y >= eta + eps) = P(-T <= -(eta + eps - mean) / s) when maximizing *)
Theorem C48_pi_probability : forall eta eps mean s : R, 0 < s ->
  is_RInt_gen norm_pdf (Rbar_locally m_infty) (at_point ((eta - eps - mean) / s)) (pi_value (N:=RNum) norm_cdf true eta eps mean s) /\
  is_RInt_gen norm_pdf (Rbar_locally m_infty) (at_point (- ((eta + eps - mean) / s))) (pi_value (N:=RNum) norm_cdf false eta eps mean s).
Proof. exact pi_probability. Qed.
Print Assumptions C48_pi_probability.

Example C48_example : pi_value (N:=RNum) norm_cdf true 3 1 2 (1/2) = / 2 /\ pi_value (N:=RNum) norm_cdf false 3 1 4 (1/2) = / 2 /\
  lcb_value (N:=RNum) true 5 2 (1/2) = 1/2 /\ lcb_value (N:=RNum) false 5 2 (1/2) = 9/2.
Proof. exact acq_samples. Qed.

(** ** C49 *)
Theorem C49_nonneg : forall eta eps mean s : R, 0 <= s -> 0 <= ei_value (N:=RNum) norm_cdf norm_pdf eta eps mean s.
Proof. exact ei_nonneg. Qed.
Print Assumptions C49_nonneg.
Theorem C49_zero_sigma : forall eta eps mean : R, ei_value (N:=RNum) norm_cdf norm_pdf eta eps mean 0 = 0.
Proof. exact ei_zero. Qed.
Print Assumptions C49_zero_sigma.
Theorem C49_above_improvement : forall eta eps mean s : R, 0 < s -> eta - mean - eps < ei_value (N:=RNum) norm_cdf norm_pdf eta eps mean s.
Proof. exact ei_above. Qed.
Print Assumptions C49_above_improvement.
(** with sigma = 0 the result is 0 even where the mean improves on eta *)
Theorem C49_zero_sigma_below_improvement : exists eta eps mean : R, ei_value (N:=RNum) norm_cdf norm_pdf eta eps mean 0 < eta - mean - eps.
Proof. exact ei_below. Qed.
Print Assumptions C49_zero_sigma_below_improvement.
Theorem C49_increasing : forall eta eta' eps mean s : R, 0 < s -> eta < eta' ->
  ei_value (N:=RNum) norm_cdf norm_pdf eta eps mean s < ei_value (N:=RNum) norm_cdf norm_pdf eta' eps mean s.
Proof. exact ei_increasing. Qed.
Print Assumptions C49_increasing.
Theorem C49_mean_decreasing : forall eta eps mean mean' s : R, 0 < s -> mean < mean' ->
  ei_value (N:=RNum) norm_cdf norm_pdf eta eps mean' s < ei_value (N:=RNum) norm_cdf norm_pdf eta eps mean s.
Proof. exact ei_mean_decreasing. Qed.
Print Assumptions C49_mean_decreasing.
Theorem C49_sigma_increasing : forall eta eps mean s s' : R, 0 < s -> s < s' ->
  ei_value (N:=RNum) norm_cdf norm_pdf eta eps mean s < ei_value (N:=RNum) norm_cdf norm_pdf eta eps mean s'.
Proof. exact ei_sigma_increasing. Qed.
Print Assumptions C49_sigma_increasing.
(** the expectation of max(eta - eps - Y, 0) for Y = mean + s T, T standard normal *)
Theorem C49_expectation : forall eta eps mean s : R, 0 < s ->
  is_RInt_gen (fun t => Rmax (eta - eps - (mean + s * t)) 0 * norm_pdf t) (Rbar_locally m_infty) (Rbar_locally p_infty) (ei_value (N:=RNum) norm_cdf norm_pdf eta eps mean s).
Proof. exact ei_expectation. Qed.
Print Assumptions C49_expectation.
Theorem C49_no_maximization : forall (N : Num) (eps : N), acq_new (CEI eps) false = Err NotImplementedError.
Proof. exact @ei_no_maximize. Qed.
Print Assumptions C49_no_maximization.

Example C49_example : ei_value (N:=RNum) norm_cdf norm_pdf 3 1 2 2 = 2 * norm_pdf 0 /\ 0 < norm_pdf 0 /\ acq_new (N:=RNum) (CEI (0:RNum)) true = Ok (AEI (0:RNum) (0:RNum), true).
Proof. exact ei_samples. Qed.
Local Close Scope R_scope.

(** ** C50 *)
Theorem C50_array : forall (N : Num) predict (rows : list (list N)), (forall X m s, predict X = Ok (m, s) -> length m = length X /\ length s = length X) ->
  match surrogate_call predict (XArr rows) with
  | Ok (SList _) => False
  | Ok (SFloat x) => length rows = 2 /\ exists m s, predict rows = Ok (m, s) /\ nth_error m 0 = Some x
  | Err e => e = IndexError /\ rows = [] \/ predict rows = Err e \/ e = ValueError /\ length rows <> 2
  end.
Proof. exact @call_array. Qed.
Print Assumptions C50_array.
(** the documented behaviour on configurations and lists of configurations *)
Theorem C50_configurations : forall (N : Num) predict,
  (forall (c : conf N) m s, predict [c_vec c] = Ok ([m], [s]) -> surrogate_call predict (XConf c) = Ok (SFloat m)) /\
  (forall l, surrogate_call predict (XList (map IConf l)) = match predict (map (@c_vec N) l) with Ok p => Ok (SList (fst p)) | Err e => Err e end) /\
  (forall (r : list N) l, surrogate_call predict (XList (IRow r :: l)) = Err TypeError).
Proof. exact (fun N p => conj (@call_conf N p) (conj (@call_list N p) (@call_rows_list N p))). Qed.
Print Assumptions C50_configurations.
Theorem C50_surrogate_score : forall (N : Num) predict (x : xinput N), surrogate_score predict x =
  match x with XConf c => if c_vals c then Ok ([], []) else Err TypeError | XList [] | XArr [] => Ok ([], []) | _ => Err TypeError end.
Proof. exact @score_raises. Qed.
Print Assumptions C50_surrogate_score.

Example C50_example : (forall X m s, ax_predict X = Ok (m, s) -> length m = length X /\ length s = length X) /\
  map (fun rows => match surrogate_call ax_predict (XArr rows) with Ok (SFloat x) => Some (x : Q) | _ => None end) [[]; [[1#2]]; [[1#2]; [1#3]]; [[1#2]; [1#3]; [1#4]]]%Q = [None; None; Some (1#4)%Q; None].
Proof. split; [|vm_compute; reflexivity]. intros X m s E. injection E as <- <-. rewrite !map_length. auto. Qed.
