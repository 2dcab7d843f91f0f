(** Num.v - the number interface used by the model, and its instances.

    Python floats (and numpy float64 scalars) are abstracted by a record of
    operations, so that the same model function can be read over exact reals,
    over rationals (for evaluation) and over IEEE binary64. *)
From Coq Require Import Reals QArith Qround.
From Flocq Require Import Core.Core IEEE754.BinarySingleNaN.
From Verif Require Import Base.

Record Num := MkNum {
  carrier :> Type;
  nle  : carrier -> carrier -> bool;      (* x <= y *)
  nlt  : carrier -> carrier -> bool;      (* x <  y ;  x > y is [nlt y x] *)
  neqb : carrier -> carrier -> bool;      (* x == y *)
  nadd : carrier -> carrier -> carrier;
  nsub : carrier -> carrier -> carrier;
  nmul : carrier -> carrier -> carrier;
  ndiv : carrier -> carrier -> carrier;
  nofZ : Z -> carrier;                    (* integer literal / int -> float *)
  nltinf : carrier -> bool;               (* x < np.inf *)
  nexp : carrier -> carrier;              (* np.exp *)
  nln  : carrier -> carrier;              (* np.log *)
  nsqrt : carrier -> carrier;             (* np.sqrt *)
  nround : carrier -> carrier             (* np.round (half to even) *)
}.
Arguments nle {n}. Arguments nlt {n}. Arguments neqb {n}.
Arguments nadd {n}. Arguments nsub {n}. Arguments nmul {n}. Arguments ndiv {n}.
Arguments nofZ {n}. Arguments nltinf {n}. Arguments nexp {n}. Arguments nln {n}.
Arguments nsqrt {n}. Arguments nround {n}.

Definition n0 {N : Num} : N := nofZ 0.
Definition n1 {N : Num} : N := nofZ 1.

(** [x == x] is false exactly for NaN. *)
Definition ordinary {N : Num} (x : N) : Prop := neqb x x = true.

(** np.minimum / np.maximum (NaN propagates). *)
Definition np_minimum {N : Num} (a b : N) : N :=
  if negb (neqb a a) then a else if negb (neqb b b) then b
  else if nle a b then a else b.
Definition np_maximum {N : Num} (a b : N) : N :=
  if negb (neqb a a) then a else if negb (neqb b b) then b
  else if nle a b then b else a.

(** The comparison laws shared by reals, rationals and binary64. *)
Record order_laws (N : Num) : Prop := {
  ol_irrefl : forall x : N, nlt x x = false;
  ol_trans : forall x y z : N, nlt x y = true -> nlt y z = true -> nlt x z = true;
  ol_le : forall x y : N, ordinary x -> ordinary y -> nle x y = negb (nlt y x);
  ol_cotrans : forall x y z : N, ordinary y -> nlt x z = true -> nlt x y = true \/ nlt y z = true;
  ol_lt_ordinary : forall x y : N, nlt x y = true -> ordinary x /\ ordinary y;
  ol_le_ordinary : forall x y : N, nle x y = true -> ordinary x /\ ordinary y;
  ol_ltinf : forall x y : N, nlt x y = true -> nltinf y = true -> nltinf x = true;
  ol_ltinf_ordinary : forall x : N, nltinf x = true -> ordinary x
}.

(** Sum and mean of a list, in list order. numpy sums pairwise; the order is
    irrelevant over the reals and not modelled for binary64. *)
Definition nsum {N : Num} (l : list N) : N := fold_left nadd l n0.
Definition nmean {N : Num} (l : list N) : N := ndiv (nsum l) (nofZ (Z.of_nat (List.length l))).

(** ** Reals *)
Definition Rleb (x y : R) : bool := if Rle_dec x y then true else false.
Definition Rltb (x y : R) : bool := if Rlt_dec x y then true else false.
Definition Reqb (x y : R) : bool := if Req_EM_T x y then true else false.

Definition RNum : Num := {|
  carrier := R; nle := Rleb; nlt := Rltb; neqb := Reqb;
  nadd := Rplus; nsub := Rminus; nmul := Rmult; ndiv := Rdiv;
  nofZ := IZR; nltinf := fun _ => true;
  nexp := exp; nln := ln; nsqrt := sqrt;
  nround := fun x => IZR (ZnearestE x)
|}.

(** ** Rationals, for evaluation of examples.
    exp/log/sqrt have no rational value; the placeholders below are never
    reached by the examples (which use linear scales only). *)
Definition Qround_half_even (q : Q) : Z :=
  let f := Qfloor q in
  let d := Qminus q (inject_Z f) in
  match Qcompare d (1 # 2) with
  | Lt => f
  | Gt => (f + 1)%Z
  | Eq => if Z.even f then f else (f + 1)%Z
  end.
Definition QNum : Num := {|
  carrier := Q;
  nle := Qle_bool; nlt := fun x y => negb (Qle_bool y x); neqb := Qeq_bool;
  nadd := fun x y => Qred (x + y); nsub := fun x y => Qred (x - y);
  nmul := fun x y => Qred (x * y); ndiv := fun x y => Qred (x / y);
  nofZ := inject_Z; nltinf := fun _ => true;
  nexp := fun x => x; nln := fun x => x; nsqrt := fun x => x;
  nround := fun x => inject_Z (Qround_half_even x)
|}.

(** ** IEEE-754 binary64, round to nearest even (Flocq).
    exp, log and rounding to integer come from libm and are parameters. *)
Definition b64 := binary_float 53 1024.
Definition prec53 : FLX.Prec_gt_0 53 := eq_refl.
Definition emax1024 : Prec_lt_emax 53 1024 := eq_refl.
Definition b64_inf : b64 := B754_infinity false.
Definition B64 (fexp fln fround : b64 -> b64) : Num := {|
  carrier := b64;
  nle := Bleb; nlt := Bltb; neqb := Beqb;
  nadd := @Bplus 53 1024 prec53 emax1024 mode_NE; nsub := @Bminus 53 1024 prec53 emax1024 mode_NE;
  nmul := @Bmult 53 1024 prec53 emax1024 mode_NE; ndiv := @Bdiv 53 1024 prec53 emax1024 mode_NE;
  nofZ := fun z => @binary_normalize 53 1024 prec53 emax1024 mode_NE z 0 false;
  nltinf := fun x => Bltb x b64_inf;
  nexp := fexp; nln := fln; nsqrt := @Bsqrt 53 1024 prec53 emax1024 mode_NE; nround := fround
|}.
