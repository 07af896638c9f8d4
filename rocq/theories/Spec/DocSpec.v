(** Notions used to state the MQO document properties. *)
From Coq Require Import String List ZArith Arith DecimalString.
Import ListNotations.

(** [new] is [old] with the suffix [_k]. *)
Definition with_suffix (old : string) (k : nat) : string :=
  (old ++ "_" ++ NilEmpty.string_of_uint (Nat.to_uint k))%string.

(** How a list of names may be changed: an entry keeps its name unless the name is taken by an
    earlier (possibly renamed) entry; then it gets the smallest suffix [_k], [k >= 2], that is
    not taken by an earlier entry. *)
Definition renaming (olds news : list string) : Prop :=
  length news = length olds /\
  forall i old new, nth_error olds i = Some old -> nth_error news i = Some new ->
    let before := firstn i news in
    (~ In old before /\ new = old) \/
    (In old before /\ exists k, 2 <= k /\ new = with_suffix old k /\ ~ In new before /\
       forall j, 2 <= j < k -> In (with_suffix old j) before).

(** The object [j] is the nearest before [i] whose depth satisfies [p]. *)
Definition nearest_before {M} (objs : list (Z * M)) (p : Z -> Prop) (i j : nat) : Prop :=
  j < i /\ (exists d l, nth_error objs j = Some (d, l) /\ p d) /\
  forall k d l, j < k < i -> nth_error objs k = Some (d, l) -> ~ p d.
Definition none_before {M} (objs : list (Z * M)) (p : Z -> Prop) (i : nat) : Prop :=
  forall k d l, k < i -> nth_error objs k = Some (d, l) -> ~ p d.

(** [ws] are the world transforms of [objs] when the parent of an object of depth [d] is the
    nearest preceding object whose depth [d'] satisfies [rel d' d]. *)
Definition world_by {M} (mul : M -> M -> M) (one : M) (rel : Z -> Z -> Prop)
    (objs : list (Z * M)) (ws : list M) : Prop :=
  length ws = length objs /\
  forall i d l w, nth_error objs i = Some (d, l) -> nth_error ws i = Some w ->
    (exists j wj, nearest_before objs (fun d' => rel d' d) i j /\ nth_error ws j = Some wj /\ w = mul wj l) \/
    (none_before objs (fun d' => rel d' d) i /\ w = mul one l).
