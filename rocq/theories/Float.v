(** Double precision.  Two more instances of the class [Num] of Num.v: the definitions of the model can be read in them.

    - [SFNum] : IEEE 754 binary64 (with infinities and NaN), executable: the operations of Coq's SpecFloat;
    - [DNum] : real numbers with every operation rounded by [rd], which is rounding to the nearest double, ties to even, with
      gradual underflow and without overflow.
    FloatProofs.v shows that the operations agree as long as the results are finite. *)
From Coq Require Import ZArith Reals Bool List Floats.SpecFloat.
From Flocq Require Import Core.
From Verif Require Import Num.
Import ListNotations.

(** [np.floor(x).astype(int)]; the integer for infinities and NaN is the one of the usual platforms. *)
Definition sf_floor (x : spec_float) : Z :=
  match x with
  | S754_zero _ => 0%Z
  | S754_finite s m e =>
      let z := if s then Z.neg m else Z.pos m in
      if (0 <=? e)%Z then (z * 2 ^ e)%Z else Z.div z (2 ^ (- e))
  | _ => (- 2 ^ 63)%Z
  end.
(** SIMPLIFICATION: [nltb] (Num.v) is the negation of [>=]; it differs from [<] on NaN. *)
Definition SFNum : Num spec_float := {|
  n0 := S754_zero false;
  n1 := S754_finite false (2 ^ 52) (-52);
  nadd := SFadd 53 1024;
  nsub := SFsub 53 1024;
  nmul := SFmul 53 1024;
  ndiv := SFdiv 53 1024;
  nopp := SFopp;
  nleb := SFleb;
  nofZ := fun z => binary_normalize 53 1024 z 0 false;
  nfloor := sf_floor
|}.

(** The doubles without a bound above: multiples of 2^-1074 with 53 significant bits; and rounding to them. *)
Definition dbl (x : R) : Prop := generic_format radix2 (FLT_exp (-1074) 53) x.
Definition rd (x : R) : R := round radix2 (FLT_exp (-1074) 53) ZnearestE x.
Definition DNum : Num R := {|
  n0 := 0%R;
  n1 := 1%R;
  nadd := fun a b => rd (a + b);
  nsub := fun a b => rd (a - b);
  nmul := fun a b => rd (a * b);
  ndiv := fun a b => rd (a / b);
  nopp := Ropp;
  nleb := Rleb;
  nofZ := fun z => rd (IZR z);
  nfloor := Int_part
|}.
