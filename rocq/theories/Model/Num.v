(** Scalar arithmetic as an explicit dictionary.

    The Go code computes with [float32] ([geom/vector3.go:5] [type Element = float32])
    and [float64].  The model is written once over an arbitrary scalar type with
    arbitrary operations; theorems that hold for *every* dictionary therefore hold
    for the machine floats, and geometric laws are proved for the dictionary of
    exact real numbers. *)
From Coq Require Import QArith ZArith Bool.

Class Num (T : Type) : Type := {
  nzero : T;
  none  : T;
  nadd  : T -> T -> T;
  nsub  : T -> T -> T;
  nmul  : T -> T -> T;
  ndiv  : T -> T -> T;
  nopp  : T -> T;
  nsqrt : T -> T;
  nltb  : T -> T -> bool;   (* a <  b *)
  nleb  : T -> T -> bool;   (* a <= b *)
  neqb  : T -> T -> bool    (* a == b *)
}.

(** Exact rationals, used to run the model on concrete inputs.  [nsqrt] is the
    floor square root of numerator and denominator of the reduced fraction, hence
    exact on squares of rationals; examples only use it there or where the value
    does not matter. *)
Definition Qsqrt (q : Q) : Q :=
  let r := Qred q in (Z.sqrt (Qnum r) # Pos.sqrt (Qden r))%Q.
#[global] Instance QNum : Num Q := {|
  nzero := 0%Q; none := 1%Q;
  nadd := fun a b => Qred (a + b)%Q; nsub := fun a b => Qred (a - b)%Q;
  nmul := fun a b => Qred (a * b)%Q; ndiv := fun a b => Qred (a / b)%Q;
  nopp := fun a => Qred (- a)%Q; nsqrt := Qsqrt;
  nltb := fun a b => negb (Qle_bool b a); nleb := Qle_bool; neqb := Qeq_bool |}.

(** Exact integers, for examples without division. *)
#[global] Instance ZNum : Num Z := {|
  nzero := 0%Z; none := 1%Z; nadd := Z.add; nsub := Z.sub; nmul := Z.mul;
  ndiv := Z.div; nopp := Z.opp; nsqrt := Z.sqrt;
  nltb := Z.ltb; nleb := Z.leb; neqb := Z.eqb |}.
