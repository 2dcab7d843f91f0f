(** RoundAcqSpec.v - the words of C122. *)
From Coq Require Import Reals Lra.
From Flocq Require Import Core.Core.
From Verif Require Import Base Num NumpyModel ConfigSpaceModel SamplerModel AcquisitionModel B64Proofs RoundProofs.
Local Open Scope R_scope.

Section Spec.
Variables fe fl fr : b64 -> b64.
Notation BN := (B64 fe fl fr).
Notation val := (val fe fl fr).
Notation fin := (fin fe fl fr).

(** the float function [c] gives the real function [f] with an absolute error of at most [d] *)
Definition accurate (d : R) (c : BN -> BN) (f : R -> R) : Prop := forall z, fin z -> fin (c z) /\ Rabs (val (c z) - f (val z)) <= d.

(** the acquisition function with the same parameters as exact numbers *)
Definition exact_acq (a : acq BN) : acq RNum :=
  match a with AEI eta eps => AEI (N:=RNum) (val eta) (val eps) | API eta eps => API (N:=RNum) (val eta) (val eps) | ALCB tau => ALCB (N:=RNum) (val tau) end.

(** the size of the numbers in the improvement eta - mean - eps *)
Definition spread3 (eta mean eps : BN) : R := Rabs (val eta) + Rabs (val mean) + Rabs (val eps).

(** finite numbers for which nothing overflows *)
Definition in_range (a : acq BN) (m s : BN) : Prop := fin m /\ fin s /\
  match a with
  | AEI eta eps | API eta eps => fin eta /\ fin eps /\ 0 <= val s <= bpow radix2 400 /\ (val s = 0 \/ spread3 eta m eps <= val s * bpow radix2 400)
  | ALCB tau => fin tau /\ Rabs (val m) <= bpow radix2 900 /\ Rabs (val tau * val s) <= bpow radix2 900
  end.
(** the error that rounding, and a cdf and pdf with error [d], may cause; 2^-53 is the unit of rounding *)
Definition acq_error (d : R) (a : acq BN) (m s : BN) : R :=
  match a with
  | AEI eta eps => (8 * bpow radix2 (-53) + 2 * d) * (spread3 eta m eps + val s) + 4 * bpow radix2 (-1075) * (val s + 1)
  | API eta eps => 2 * bpow radix2 (-53) * (spread3 eta m eps / val s) + d + bpow radix2 (-1075)
  | ALCB tau => bpow radix2 (-53) * (Rabs (val m) + 3 * Rabs (val tau * val s)) + 2 * bpow radix2 (-1075)
  end.
End Spec.
