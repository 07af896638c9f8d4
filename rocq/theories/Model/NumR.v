(** The scalar dictionary of exact real numbers (see Model/Num.v). *)
From Coq Require Import Reals.
From Verif.Model Require Import Num.

Definition Rltb (a b : R) : bool := if Rlt_dec a b then true else false.
Definition Rleb (a b : R) : bool := if Rle_dec a b then true else false.
Definition Reqb (a b : R) : bool := if Req_EM_T a b then true else false.

(** Exact reals. *)
#[global] Instance RNum : Num R := {|
  nzero := 0%R; none := 1%R; nadd := Rplus; nsub := Rminus; nmul := Rmult;
  ndiv := Rdiv; nopp := Ropp; nsqrt := sqrt;
  nltb := Rltb; nleb := Rleb; neqb := Reqb |}.

