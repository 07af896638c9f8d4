(** Where the nodes of a glTF document are. *)
From Coq Require Import List ZArith Reals.
From Verif.Model Require Import Num NumR Vec Matrix GltfUtil.
From Verif Require Import Spec.GeomSpec.
Import ListNotations.
Local Open Scope list_scope.

Section Spec.
Context {T : Type} {N : Num T}.

(** [p] is the parent of [i]. *)
Definition parent_of (nodes : list (jnode T)) (p i : nat) : Prop :=
  exists n, nth_error nodes p = Some n /\ In i (jnChildren n).
(** The transformation of a node relative to its parent. *)
Definition local_mat (n : jnode T) : mat4 T := mat_trs (jnTrans n) (jnRot n) (jnScale n).
(** The matrix of node [i] in the scene. *)
Inductive world (nodes : list (jnode T)) : nat -> mat4 T -> Prop :=
| w_root i n : nth_error nodes i = Some n -> (forall p, ~ parent_of nodes p i) -> world nodes i (local_mat n)
| w_child p i n m : nth_error nodes i = Some n -> parent_of nodes p i -> world nodes p m -> world nodes i (mat_mul m (local_mat n)).
(** The number of ancestors. *)
Inductive depth (nodes : list (jnode T)) : nat -> nat -> Prop :=
| d_root i n : nth_error nodes i = Some n -> (forall p, ~ parent_of nodes p i) -> depth nodes i 0
| d_child p i n d : nth_error nodes i = Some n -> parent_of nodes p i -> depth nodes p d -> depth nodes i (S d).

(** As glTF demands: at most one parent, which lists the node once, and no node above itself. *)
Definition is_forest (nodes : list (jnode T)) : Prop :=
  NoDup (concat (map (@jnChildren T) nodes)) /\
  Forall (fun n => Forall (fun c => c < length nodes)%nat (jnChildren n)) nodes /\
  forall i n, nth_error nodes i = Some n -> exists d, depth nodes i d.

(** The place of a matrix. *)
Definition place_of (m : mat4 T) : vec3 T := mkV3 (m12 m) (m13 m) (m14 m).
Definition uniform (s : vec3 T) : Prop := vy s = vx s /\ vz s = vx s.
End Spec.

(** Rotations are rotations, and scales do not shear rotated children. *)
Definition rigid_nodes (nodes : list (jnode R)) : Prop :=
  Forall (fun n => unit_quat (jnRot n) /\ uniform (jnScale n)) nodes.

(** Component [c] of joint [k] of accessor [a]. *)
Local Open Scope Z_scope.
Definition joint_at (d : jdoc) (a : nat) (k c : Z) : option Z :=
  match nth_error (jdAccs d) a with
  | Some acc =>
      match jaView acc with
      | Some v =>
          match nth_error (jdViews d) v with
          | Some bv =>
              match nth_error (jdBufs d) (bvBuf bv) with
              | Some data =>
                  let byte i := if i <? 0 then None else nth_error data (Z.to_nat i) in
                  let size := if jaType acc =? 4 then 2 else 1 in
                  let stride := if bvStride bv =? 0 then 4 * size else bvStride bv in
                  let o := bvOff bv + jaOff acc + k * stride + c * size in
                  if jaType acc =? 4
                  then match byte o, byte (o + 1) with Some lo, Some hi => Some (lo + 256 * hi) | _, _ => None end
                  else byte o
              | None => None
              end
          | None => None
          end
      | None => None
      end
  | None => None
  end.
(** Joint [k] is inside the buffer view, starting at its first byte. *)
Definition in_view (bv : bview) (k c : Z) : Prop :=
  0 <= k /\ 0 <= c < 4 /\ 0 <= bvStride bv /\ k * (if bvStride bv =? 0 then 4 else bvStride bv) + c < bvLen bv.

(** Accessor [a] holds the positions of a primitive, or the offsets of a morph target. *)
Definition position_acc {T} (d : tdoc T) (a : nat) : Prop := exists p, In p (tdPrims d) /\ fst p = Some a.
Definition offset_acc {T} (d : tdoc T) (a : nat) : Prop := exists p, In p (tdPrims d) /\ In a (snd p).

(** [lo] and [hi] are the least and greatest [f] of [l]. *)
Definition tight (l : list (vec3 R)) (f : vec3 R -> R) (lo hi : R) : Prop :=
  (forall v, In v l -> (lo <= f v <= hi)%R) /\ (exists v, In v l /\ f v = lo) /\ (exists v, In v l /\ f v = hi).

(** The view of a JOINTS_0 attribute of bytes. *)
Definition byte_view (attrs : list nat) (d : jdoc) (v : nat) : Prop :=
  exists a acc, In a attrs /\ nth_error (jdAccs d) a = Some acc /\ jaType acc = 2 /\ jaView acc = Some v.
(** Such a view is used by such attributes only, from its start. *)
Definition own_views (attrs : list nat) (d : jdoc) : Prop :=
  forall a acc v, nth_error (jdAccs d) a = Some acc -> jaView acc = Some v -> byte_view attrs d v ->
  In a attrs /\ jaType acc = 2 /\ jaOff acc = 0.
(** Every reference is in range. *)
Definition views_ok (d : jdoc) : Prop :=
  Forall (fun acc => match jaView acc with Some v => (v < length (jdViews d))%nat | None => jaType acc <> 2 end) (jdAccs d) /\
  Forall (fun bv => exists data, nth_error (jdBufs d) (bvBuf bv) = Some data /\ 0 <= bvOff bv /\ 0 <= bvLen bv /\ bvOff bv + bvLen bv <= Z.of_nat (length data)) (jdViews d).
