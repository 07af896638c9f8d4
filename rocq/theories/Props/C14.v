(** C14: applying a morph.  The vertex part and the updated flag hold; "never crashes" is false:
    a morph material naming a missing material is a nil dereference. *)
From Coq Require Import String List ZArith Arith Bool Reals Lia.
From Verif.Model Require Import Num NumR Vec Matrix Mqo MqoDoc.
From Verif.Proofs Require Import MorphProofs MorphBase.
Import ListNotations.
Local Open Scope nat_scope.

(** For every document and all morph lists the vertex part never crashes; only vertices of
    same-length lists change ([same_shapes]); the flag says whether some list with a target of
    this name had base and target objects of equal vertex count; objects not mentioned in
    these lists are untouched. *)
Theorem C14_total_and_frame (T : Type) (N : Num T) (os : list (object T)) ms name v :
  exists os' u, morph_lists os ms name v false = Some (os', u) /\ same_shapes os os' /\
  (u = true <-> exists m, In m ms /\ In name (tlTargets m) /\
     exists b t bo to_, obj_by_name os (tlBase m) = Some b /\ obj_by_name os name = Some t /\
       nth_error os b = Some bo /\ nth_error os t = Some to_ /\ length (oVerts bo) = length (oVerts to_)) /\
  (forall k o, nth_error os k = Some o ->
     (forall m, In m ms -> In name (tlTargets m) -> oName o <> tlBase m /\ ~ In (oName o) (tlTargets m)) ->
     nth_error os' k = Some o).
Proof. exact (lists_total_false ms name v os). Qed.
Print Assumptions C14_total_and_frame.

(** The name occurs once, in one list, whose base is not among its targets: the base moves by
    the scaled difference, the target stays, the other targets of the list are moved by the
    same amount (so that they keep their distance to the base), all else stays. *)
Theorem C14_moves (T : Type) (N : Num T) (os : list (object T)) ms1 m ms2 name v ts1 ts2 b t bo to_ :
  (forall m', In m' (ms1 ++ ms2) -> ~ In name (tlTargets m')) ->
  tlTargets m = ts1 ++ name :: ts2 -> NoDup (tlTargets m) -> ~ In (tlBase m) (tlTargets m) ->
  obj_by_name os (tlBase m) = Some b -> obj_by_name os name = Some t ->
  nth_error os b = Some bo -> nth_error os t = Some to_ -> length (oVerts bo) = length (oVerts to_) ->
  exists os', morph_lists os (ms1 ++ m :: ms2) name v false = Some (os', true) /\ length os' = length os /\
    nth_error os' b = Some (shift_verts (morph_diff bo to_ v) bo) /\
    nth_error os' t = Some to_ /\
    (forall k o n, n <> name -> In n (tlTargets m) -> obj_by_name os n = Some k -> nth_error os k = Some o ->
       nth_error os' k = Some (if Nat.eqb (length (oVerts o)) (length (oVerts to_))
                               then shift_verts (morph_diff bo to_ v) o else o)) /\
    (forall k, k <> b -> (forall n, In n (tlTargets m) -> obj_by_name os n <> Some k) -> nth_error os' k = nth_error os k).
Proof. exact (morph_one os ms1 m ms2 name v ts1 ts2 b t bo to_). Qed.
Print Assumptions C14_moves.

(** The moved base: vertex [x] with target [y] goes to [x + (y - x) * v]; in exact arithmetic
    value 0 is the identity and value 1 gives the target. *)
Theorem C14_base_vertex (T : Type) (N : Num T) (bo to_ : object T) v i x y :
  nth_error (oVerts bo) i = Some x -> nth_error (oVerts to_) i = Some y ->
  nth_error (oVerts (shift_verts (morph_diff bo to_ v) bo)) i = Some (v3add x (v3scale (v3sub y x) v)).
Proof. exact (shift_base bo to_ v i x y). Qed.
Print Assumptions C14_base_vertex.
(** Any other moved target keeps its distance to the base. *)
Theorem C14_other_vertex (T : Type) (N : Num T) (bo to_ o : object T) v i x y p :
  nth_error (oVerts bo) i = Some x -> nth_error (oVerts to_) i = Some y -> nth_error (oVerts o) i = Some p ->
  nth_error (oVerts (shift_verts (morph_diff bo to_ v) o)) i = Some (v3add p (v3scale (v3sub y x) v)).
Proof. exact (shift_other bo to_ o v i x y p). Qed.
Print Assumptions C14_other_vertex.
Theorem C14_value_0_1 (bo to_ : object R) :
  length (oVerts bo) = length (oVerts to_) ->
  oVerts (shift_verts (morph_diff bo to_ 0%R) bo) = oVerts bo /\
  oVerts (shift_verts (morph_diff bo to_ 1%R) bo) = oVerts to_.
Proof. exact (fun L => conj (shift_base_zero bo to_ L) (shift_base_one bo to_ L)). Qed.
Print Assumptions C14_value_0_1.

(** Materials: exactly the dangling morph materials crash. *)
Theorem C14_material_crash (T : Type) (N : Num T) (ms : list (material T)) name v :
  apply_material_morph ms name v = None <->
  exists m x, In m ms /\ mtName m = (morph_prefix name ++ x)%string /\ ~ In x (map mtName ms).
Proof. exact (material_crash ms name v). Qed.
Print Assumptions C14_material_crash.
(** One morph material: the material it names is blended, nothing else changes. *)
Theorem C14_material_blend (T : Type) (N : Num T) (ms : list (material T)) name v i m x k :
  nth_error ms i = Some m -> mtName m = (morph_prefix name ++ x)%string ->
  (forall j m', j <> i -> nth_error ms j = Some m' -> strip_prefix (morph_prefix name) (mtName m') = None) ->
  mat_by_name (map mtName ms) x = Some k ->
  apply_material_morph ms name v =
  Some (list_upd ms k (fun t => set_mat_color t (blend v (mtColor t) (mtColor m)))).
Proof. exact (material_morph_one ms name v i m x k). Qed.
Print Assumptions C14_material_blend.
(** The blended colour goes from the material's own at 0 to the morph material's at 1. *)
Theorem C14_blend_value (a b : vec4 R) (v : R) : blend v a b =
  mkV4 (qx a + v * (qx b - qx a))%R (qy a + v * (qy b - qy a))%R (qz a + v * (qz b - qz a))%R (qw a + v * (qw b - qw a))%R.
Proof. exact (blend_between a b v). Qed.
Print Assumptions C14_blend_value.

Local Open Scope string_scope.
Definition obj (n : string) (vs : list (vec3 Z)) : object Z :=
  mkObj 0 n vs [] true false 0 false 1 0%Z 0 0 0 0%Z None None None None [] None.
Definition mat (n : string) (r : Z) : material Z :=
  mkMat n 0 (mkV4 r 1 1 1)%Z 0%Z 0%Z 0%Z 0%Z 0%Z "" "" "" None false 0 None.
Theorem C14_no_crash_refuted : exists (d : document Z) morphs name v, morph_apply morphs d name v = None.
Proof. exists (mkDocument [mat "$MORPH:smile:skin" 1] []), [], "smile", 1%Z. vm_compute. reflexivity. Qed.
Print Assumptions C14_no_crash_refuted.

Definition face_doc : document Z :=
  mkDocument [mat "skin" 0; mat "$MORPH:smile:skin" 8]
    [obj "face" [mkV3 0 0 0; mkV3 1 1 1]%Z; obj "smile" [mkV3 0 2 0; mkV3 1 1 5]%Z;
     obj "angry" [mkV3 7 0 0; mkV3 1 1 1]%Z; obj "other" [mkV3 3 3 3]%Z].
Example C14_run :
  option_map (fun r => (map (@oVerts Z) (dObjects (fst r)), map (fun m => qx (mtColor m)) (dMaterials (fst r)), snd r))
    (morph_apply [mkTL "face" ["angry"; "smile"]; mkTL "missing" ["smile"]] face_doc "smile" 1%Z) =
  Some ([[mkV3 0 2 0; mkV3 1 1 5]; [mkV3 0 2 0; mkV3 1 1 5]; [mkV3 7 2 0; mkV3 1 1 5]; [mkV3 3 3 3]], [8; 8], true)%Z.
Proof. vm_compute. reflexivity. Qed.
