(** [gltfutil/gltf_joint.go] and [ApplyTransform] of [gltfutil/gltf_utils.go].  Crashes of the Go
    program give [None]. *)
From Coq Require Import List ZArith Bool.
From Verif.Model Require Import Num Vec Matrix Mqo.
Import ListNotations.
Local Open Scope list_scope.

Section Util.
Context {T : Type} {N : Num T}.

(** [gltf.Node] with its transformation given by translation, rotation and scale (a node with a
    [Matrix] is not modelled); [jnSkin]: it draws a skinned mesh. *)
Record jnode := mkJN { jnTrans : vec3 T; jnRot : vec4 T; jnScale : vec3 T; jnChildren : list nat; jnSkin : bool }.

(** *** [ResetJointMatrix] *)

(** The new inverse bind matrix (gltf_joint.go 44-52). *)
Definition reset_bind (m : mat4 T) : mat4 T :=
  let dot a b c := nadd (nadd (nmul a (m12 m)) (nmul b (m13 m))) (nmul c (m14 m)) in
  mat_translate (dot (m0 m) (m1 m) (m2 m)) (dot (m4 m) (m5 m) (m6 m)) (dot (m8 m) (m9 m) (m10 m)).

Definition rot_id : vec4 T := mkV4 nzero nzero nzero none.
(** [node.Rotation == [4]float32{0, 0, 0, 1}] (gltf_joint.go 62). *)
Definition is_rot_id (q : vec4 T) : bool :=
  neqb (qx q) nzero && neqb (qy q) nzero && neqb (qz q) nzero && neqb (qw q) none.
Definition set_rot (q : vec4 T) (n : jnode) : jnode := mkJN (jnTrans n) q (jnScale n) (jnChildren n) (jnSkin n).
(** A child of a node whose rotation [a] is taken away (gltf_joint.go 71-85). *)
Definition turn_child (a : vec4 T) (n : jnode) : jnode :=
  let p2 := qmul (qmul a (mkV4 (vx (jnTrans n)) (vy (jnTrans n)) (vz (jnTrans n)) none)) (qinv a) in
  mkJN (mkV3 (qx p2) (qy p2) (qz p2)) (qmul a (jnRot n)) (jnScale n) (jnChildren n) (jnSkin n).
(** gltf_joint.go 68-86. *)
Fixpoint turn_children (a : vec4 T) (cs : list nat) (nodes : list jnode) : option (list jnode) :=
  match cs with
  | [] => Some nodes
  | c :: r => match nth_error nodes c with
              | Some n => turn_children a r (list_set nodes c (turn_child a n))
              | None => None
              end
  end.
(** One node (gltf_joint.go 62-86), and whether it counts as [fixed]. *)
Definition reset_at (nodes : list jnode) (i : nat) : option (list jnode * bool) :=
  match nth_error nodes i with
  | None => None
  | Some n =>
      if is_rot_id (jnRot n) || jnSkin n then Some (nodes, false)
      else option_map (fun l => (l, true)) (turn_children (jnRot n) (jnChildren n) (list_set nodes i (set_rot rot_id n)))
  end.
(** One pass over the nodes [is_] (gltf_joint.go 60-87). *)
Fixpoint reset_pass (is_ : list nat) (nodes : list jnode) (fixed : bool) : option (list jnode * bool) :=
  match is_ with
  | [] => Some (nodes, fixed)
  | i :: r => match reset_at nodes i with
              | Some (nodes1, f) => reset_pass r nodes1 (fixed || f)
              | None => None
              end
  end.
(** At most [k] passes, until nothing changes (gltf_joint.go 59-91). *)
Fixpoint reset_passes (k : nat) (nodes : list jnode) : option (list jnode) :=
  match k with
  | O => Some nodes
  | S k' => match reset_pass (seq 0 (length nodes)) nodes false with
            | Some (nodes1, true) => reset_passes k' nodes1
            | Some (nodes1, false) => Some nodes1
            | None => None
            end
  end.
Definition reset_joints (nodes : list jnode) : option (list jnode) := reset_passes 10 nodes.

(** *** [ApplyTransform] *)

(** An accessor of positions, with [Min] and [Max]. *)
Record pacc := mkPA { paData : list (vec3 T); paMin : vec3 T; paMax : vec3 T }.
(** The parts of a document [ApplyTransform] uses: for every primitive the accessors of POSITION and of the POSITION of the
    morph targets, the accessors, the nodes, and the inverse bind matrices. *)
Record tdoc := mkTD { tdPrims : list (option nat * list nat); tdAccs : list pacc; tdNodes : list jnode; tdBinds : list (list (mat4 T)) }.

(** [accs] (gltf_utils.go 88-100); later entries replace earlier ones. *)
Definition marks (ps : list (option nat * list nat)) : list (nat * bool) :=
  flat_map (fun p => (match fst p with Some a => [(a, false)] | None => [] end) ++ map (fun a => (a, true)) (snd p)) ps.
Fixpoint last_mark (l : list (nat * bool)) (a : nat) : option bool :=
  match l with
  | [] => None
  | (k, b) :: r => match last_mark r a with Some x => Some x | None => if Nat.eqb k a then Some b else None end
  end.

Definition nmin (a b : T) : T := if nltb b a then b else a.
Definition nmaxi (a b : T) : T := if nltb a b then b else a.
(** [acr.Min] and [acr.Max] (gltf_utils.go 112-123); [big] is math.MaxFloat32. *)
Definition bounds (big : T) (l : list (vec3 T)) : vec3 T * vec3 T :=
  fold_left (fun b v => (mkV3 (nmin (vx (fst b)) (vx v)) (nmin (vy (fst b)) (vy v)) (nmin (vz (fst b)) (vz v)),
                         mkV3 (nmaxi (vx (snd b)) (vx v)) (nmaxi (vy (snd b)) (vy v)) (nmaxi (vz (snd b)) (vz v))))
    l (mkV3 big big big, mkV3 (nopp big) (nopp big) (nopp big)).
(** [scaleMat] (gltf_utils.go 85-86): the identity. *)
Definition scale_mat : mat4 T := mat_id.
(** gltf_utils.go 101-131. *)
Definition apply_acc (big : T) (m : mat4 T) (mark : option bool) (a : pacc) : pacc :=
  match mark with
  | None => a
  | Some diff =>
      let l := map (mat_apply (if diff then scale_mat else m)) (paData a) in
      mkPA l (fst (bounds big l)) (snd (bounds big l))
  end.
(** gltf_utils.go 132-134. *)
Definition apply_node (n : jnode) : jnode := mkJN (mat_apply scale_mat (jnTrans n)) (jnRot n) (jnScale n) (jnChildren n) (jnSkin n).
(** gltf_utils.go 147-154. *)
Definition apply_bind (b : mat4 T) : mat4 T :=
  let m := mat_mul scale_mat b in
  let x := v3normalize (mkV3 (m0 m) (m1 m) (m2 m)) in
  let y := v3normalize (mkV3 (m4 m) (m5 m) (m6 m)) in
  let z := v3normalize (mkV3 (m8 m) (m9 m) (m10 m)) in
  mkM (vx x) (vy x) (vz x) (m3 m) (vx y) (vy y) (vz y) (m7 m) (vx z) (vy z) (vz z) (m11 m) (m12 m) (m13 m) (m14 m) (m15 m).
(** [ApplyTransform] (gltf_utils.go 81-159); an accessor is the list of its positions, accessors do not share memory.
    [None]: an accessor that does not exist. *)
Definition apply_transform (big : T) (m : mat4 T) (d : tdoc) : option tdoc :=
  if forallb (fun p => (fst p <? length (tdAccs d))%nat) (marks (tdPrims d))
  then Some (mkTD (tdPrims d)
               (map (fun p => apply_acc big m (last_mark (marks (tdPrims d)) (fst p)) (snd p)) (combine (seq 0 (length (tdAccs d))) (tdAccs d)))
               (map apply_node (tdNodes d)) (map (map apply_bind) (tdBinds d)))
  else None.
End Util.
Arguments jnode : clear implicits.
Arguments pacc : clear implicits.
Arguments tdoc : clear implicits.

(** *** [FixJointComponentType] *)
Local Open Scope Z_scope.

(** [gltf.BufferView] and [gltf.Accessor]; component type 2 is an unsigned byte, 4 an unsigned
    short. *)
Record bview := mkBV { bvBuf : nat; bvOff : Z; bvLen : Z; bvStride : Z }.
Record jacc := mkJA { jaView : option nat; jaOff : Z; jaType : Z }.
(** Accessors, buffer views, and the bytes of the buffers. *)
Record jdoc := mkJD { jdAccs : list jacc; jdViews : list bview; jdBufs : list (list Z) }.

(** [data[off : off+len]]; [None]: out of range. *)
Definition slice (data : list Z) (off len : Z) : option (list Z) :=
  if (0 <=? off) && (0 <=? len) && (off + len <=? Z.of_nat (length data))
  then Some (firstn (Z.to_nat len) (skipn (Z.to_nat off) data)) else None.
Definition widen (l : list Z) : list Z := flat_map (fun b => [b; 0]) l.
(** One JOINTS_0 attribute (gltf_joint.go 99-123); [seen] is [fixedbuffer].  Sizes are unbounded
    integers instead of uint32. *)
Definition fix_attr (a : nat) (seen : list nat) (d : jdoc) : option (list nat * jdoc) :=
  match nth_error (jdAccs d) a with
  | None => None
  | Some acc =>
      if negb (jaType acc =? 2) then Some (seen, d)
      else
        match jaView acc with
        | None => None
        | Some v =>
            match nth_error (jdViews d) v with
            | None => None
            | Some bv =>
                match nth_error (jdBufs d) (bvBuf bv) with
                | None => None
                | Some data =>
                    let accs := list_set (jdAccs d) a (mkJA (jaView acc) (jaOff acc) 4) in
                    if existsb (Nat.eqb v) seen then Some (seen, mkJD accs (jdViews d) (jdBufs d))
                    else
                      match slice data (bvOff bv) (bvLen bv) with
                      | None => None
                      | Some src =>
                          Some (v :: seen,
                                mkJD accs
                                  (list_set (jdViews d) v (mkBV (bvBuf bv) (Z.of_nat (length data)) (bvLen bv * 2) (bvStride bv * 2)))
                                  (list_set (jdBufs d) (bvBuf bv) (data ++ widen src)))
                      end
                end
            end
        end
  end.
(** [FixJointComponentType] (gltf_joint.go 94-127); [attrs] are the accessors of JOINTS_0 of all
    primitives. *)
Fixpoint fix_attrs (attrs : list nat) (seen : list nat) (d : jdoc) : option jdoc :=
  match attrs with
  | [] => Some d
  | a :: r => match fix_attr a seen d with Some (seen1, d1) => fix_attrs r seen1 d1 | None => None end
  end.
Definition fix_joint_type (attrs : list nat) (d : jdoc) : option jdoc := fix_attrs attrs [] d.
