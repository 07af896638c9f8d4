(** The bones of a PMX model of a PMX model. *)
From Coq Require Import String List ZArith Bool.
From Verif.Model Require Import Num Vec Matrix Mqo MqoDoc Mmd2Mqo Mqo2Mmd.
Import ListNotations.
Local Open Scope Z_scope.

Section Spec.
Context {T : Type} {N : Num T}.

(** Bone [b] takes more of the rotation of the known bone [ip] than the threshold. *)
Definition takes (known : list string) (thr : T) (bs : list (pbone T)) (b : pbone T) (ip : Z) : Prop :=
  exists w q, pbInherit b = Some (ip, w) /\ nltb thr w = true /\ zidx bs ip = Some q /\ In (pbName q) known.
(** What bone [b] hangs on: the bone it takes its rotation from, otherwise its parent. *)
Definition hangs_on (known : list string) (thr : T) (bs : list (pbone T)) (b : pbone T) (i : Z) : Prop :=
  takes known thr bs b i \/ (forall ip, ~ takes known thr bs b ip) /\ i = pbParent b.
(** All parents are bones, or -1. *)
Definition parents_in (bs : list (pbone T)) : Prop := Forall (fun b => -1 <= pbParent b < Z.of_nat (length bs)) bs.
(** The same bone at another place. *)
Definition moved_bone (move : vec3 T -> vec3 T) (b b' : bone T) : Prop :=
  bID b' = bID b /\ bName b' = bName b /\ bParent b' = bParent b /\ bPos b' = move (bPos b).
(** The tail of bone [k] is its last child, or none. *)
Definition tail_is_child (bs : list (pbone T)) (k : nat) (t : Z) : Prop :=
  (t = -1 /\ Forall (fun b => pbParent b <> Z.of_nat k) bs) \/
  (exists l b r, bs = l ++ b :: r /\ t = Z.of_nat (length l) /\ pbParent b = Z.of_nat k /\ Forall (fun c => pbParent c <> Z.of_nat k) r).
End Spec.
