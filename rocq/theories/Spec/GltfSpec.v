(** What a glTF document says, and what the conversion of an MQO document should say. *)
From Coq Require Import String List ZArith Bool.
From Verif.Model Require Import Num Vec Matrix Mqo MqoDoc Gltf.
From Verif Require Import Spec.MqoSpec Spec.NormalsSpec Spec.Mqo2MmdSpec.
Import ListNotations.
Local Open Scope Z_scope.

(** *** Object trees given by depths *)

(** The parent of object [i] is the nearest earlier object of smaller depth. *)
Definition tree_parent (depths : list Z) (i p : nat) : Prop :=
  exists di dp, nth_error depths i = Some di /\ nth_error depths p = Some dp /\ (p < i)%nat /\ dp < di /\
    forall j dj, (p < j < i)%nat -> nth_error depths j = Some dj -> di <= dj.
Definition tree_root (depths : list Z) (i : nat) : Prop :=
  exists di, nth_error depths i = Some di /\ forall j dj, (j < i)%nat -> nth_error depths j = Some dj -> di <= dj.
(** Depths count up by one at most, from 0. *)
Definition proper_depths (depths : list Z) : Prop :=
  forall i d, nth_error depths i = Some d ->
    0 <= d /\ (i = O -> d = 0) /\ forall e, (0 < i)%nat -> nth_error depths (i - 1) = Some e -> d <= e + 1.

Section Spec.
Context {T : Type} {N : Num T}.

(** *** Node graphs *)

Definition child_of (d : gdoc T) (p c : nat) : Prop :=
  exists n, nth_error (gdNodes d) p = Some n /\ In c (gnChildren n).
(** All references to nodes from the scene and from other nodes. *)
Definition references (d : gdoc T) : list nat := gdRoots d ++ flat_map gnChildren (gdNodes d).
Inductive reachable (d : gdoc T) : nat -> Prop :=
| re_root i : In i (gdRoots d) -> reachable d i
| re_child p c : reachable d p -> child_of d p c -> reachable d c.
(** Position of a node in the scene, if all nodes above only translate. *)
Inductive world_pos (d : gdoc T) : nat -> vec3 T -> Prop :=
| wp_root i n : In i (gdRoots d) -> nth_error (gdNodes d) i = Some n -> world_pos d i (gnTrans n)
| wp_child p c n q : world_pos d p q -> child_of d p c -> nth_error (gdNodes d) c = Some n ->
    world_pos d c (v3add q (gnTrans n)).

(** The objects that get a node. *)
Definition exported_objects (ignore : bool) (sets : list target_list) (objs : list (object T)) : list (object T) :=
  filter (fun o => if existsb (fun s => existsb (fun t => String.eqb t (oName o)) (tlTargets s)) sets then false
                   else if ignore then oVisible o && negb (Nat.eqb (length (oFaces o)) 0) else true) objs.

(** Bones have different ids and existing parents, and form a forest. *)
Definition proper_bones (bones : list (bone T)) : Prop :=
  NoDup (map bID bones) /\
  Forall (fun b => 0 < bParent b -> In (bParent b) (map bID bones)) bones /\
  exists rank : Z -> nat, Forall (fun b => 0 < bParent b -> (rank (bParent b) < rank (bID b))%nat) bones.
(** Bone [i] is the parent of bone [k]. *)
Definition bone_parent (bones : list (bone T)) (i k : nat) : Prop :=
  exists b pb, nth_error bones k = Some b /\ nth_error bones i = Some pb /\ 0 < bParent b /\ bID pb = bParent b.

(** *** Meshes *)

Variables (scale eps : T).
Definition at_scale (v : vec3 T) : vec3 T := mkV3 (nmul (vx v) scale) (nmul (vy v) scale) (nmul (vz v) scale).
Definition uv_close (u t : vec2 T) : Prop :=
  t = u \/ nltb (nadd (nmul (nsub (v2x u) (v2x t)) (nsub (v2x u) (v2x t)))
                      (nmul (nsub (v2y u) (v2y t)) (nsub (v2y u) (v2y t)))) eps = true.

(** Vertex [id] of primitive [p] has the position, the weights and the morph offsets of vertex
    [x] of the object; [ws] are the weights of the object's vertices. *)
Definition exports_vertex (o : object T) (ws : list (slots T)) (morphs : list (object T)) (p : prim T) (id x : Z) : Prop :=
  exists pos q, gpPos p = Some pos /\ zidx (oVerts o) x = Some q /\ zidx pos id = Some (at_scale q) /\
    Forall2 (fun m offs => exists mq, zidx (oVerts m) x = Some mq /\ zidx offs id = Some (v3sub (at_scale mq) (at_scale q)))
            morphs (gpTargets p) /\
    (forall sk, gpSkin p = Some sk -> exists s, zidx ws x = Some s /\ zidx sk id = Some s).
(** ... and texture coordinate and normal of corner [i] of face [f]; [nrm x n] says that [n] is
    a normal vertex [x] may have. *)
Definition exports_corner (o : object T) (ws : list (slots T)) (morphs : list (object T)) (nrm : Z -> vec3 T -> Prop)
  (p : prim T) (f : face T) (i : nat) (id : Z) : Prop :=
  exists x, nth_error (fVerts f) i = Some x /\ exports_vertex o ws morphs p id x /\
    (fUVs f <> [] -> exists uvs u t, gpUV p = Some uvs /\ nth_error (fUVs f) i = Some u /\ zidx uvs id = Some t /\ uv_close u t) /\
    (forall ns, gpNormals p = Some ns -> exists n, zidx ns id = Some n /\ nrm x n).
(** Three indices draw a face, turned over. *)
Definition exports_face (o : object T) (ws : list (slots T)) (morphs : list (object T)) (nrm : Z -> vec3 T -> Prop)
  (p : prim T) (f : face T) (t : list Z) : Prop :=
  exists a b c, t = [c; b; a] /\ exports_corner o ws morphs nrm p f 0 a /\
    exports_corner o ws morphs nrm p f 1 b /\ exports_corner o ws morphs nrm p f 2 c.
(** The primitive of glTF material [k] draws exactly the faces whose material became [k]. *)
Definition exports_faces (o : object T) (ws : list (slots T)) (morphs : list (object T)) (nrm : Z -> vec3 T -> Prop)
  (mmap : Z -> option Z) (fs : list (face T)) (p : prim T) : Prop :=
  exists k tris, gpMaterial p = Some k /\ gpIndices p = Some (concat tris) /\
    Forall2 (exports_face o ws morphs nrm p)
      (filter (fun f => match mmap (fMaterial f) with Some k' => k' =? k | None => false end) fs) tris.
(** [n] is the normal some face gives to vertex [x]. *)
Definition given_normal (fs : list (face T)) (x : Z) (n : vec3 T) : Prop :=
  exists f i, In f fs /\ nth_error (fVerts f) i = Some x /\ nth_error (fNormals f) i = Some (Some n).

(** *** Weights *)

Variable centi : T.
(** The weights of vertex [v], in the order of the object's weight lists, which number the
    joints. *)
Definition lists_of (o : object T) (bones : list (bone T)) : list (list (Z * T)) :=
  flat_map (fun b => map snd (filter (fun bw => fst bw =? oUID o) (bWeights b))) bones.
Definition influences (o : object T) (bones : list (bone T)) (v : Z) : list (Z * T) :=
  flat_map (fun jl => map (fun e => (Z.of_nat (fst jl), nmul (snd e) centi))
                          (filter (fun e => get_vertex_index_by_id o (fst e) =? v) (snd jl)))
           (combine (seq 0 (length (lists_of o bones))) (lists_of o bones)).
(** [s] are the slots of a vertex with influences [l]: all of them, if they fit. *)
Definition slots_for (l : list (Z * T)) (s : slots T) : Prop :=
  length s = 4%nat /\ Forall (fun e => fst e = 0 \/ In (fst e) (map fst l)) s /\
  ((length l <= 4)%nat -> s = l ++ repeat (0, nzero) (4 - length l)).
(** The bone of every weight list. *)
Definition list_owners (o : object T) (bones : list (bone T)) : list (bone T) :=
  flat_map (fun b => map (fun _ => b) (filter (fun bw => fst bw =? oUID o) (bWeights b))) bones.

(** *** Objects *)

(** [f'] is [f], with smooth normals if it lacks some. *)
Definition completed (o : object T) (f f' : face T) : Prop :=
  fVerts f' = fVerts f /\ fMaterial f' = fMaterial f /\ fUVs f' = fUVs f /\
  fNormals f' = if complete f then fNormals f else map (fun v => Some (v3normalize (v3sum (normals_around o v)))) (fVerts f).
(** [tris] are the faces of the object, with normals and cut into triangles. *)
Definition triangles_of (o : object T) (tris : list (face T)) : Prop :=
  exists fs gss, Forall2 (completed o) (oFaces o) fs /\ Forall2 triangulates fs gss /\ tris = concat gss.
(** The morph targets of the object that have as many vertices. *)
Definition morphs_of (objs : list (object T)) (sets : list target_list) (o : object T) (morphs : list (object T)) : Prop :=
  exists names targets, (targets_of sets (oName o) names \/ names = [] /\ ~ In (oName o) (map tlBase sets)) /\
    Forall2 (named objs) names targets /\
    morphs = filter (fun t => Nat.eqb (length (oVerts t)) (length (oVerts o))) targets.
(** Faces have valid vertex indices and texture coordinates for all corners or none. *)
Definition well_indexed (o : object T) : Prop :=
  Forall (fun f => Forall (fun v => 0 <= v < Z.of_nat (length (oVerts o))) (fVerts f) /\
                   (fUVs f = [] \/ length (fUVs f) = length (fVerts f))) (oFaces o).

(** All primitives use the same vertices. *)
Definition shares_vertices (prims : list (prim T)) : Prop :=
  exists pos uv, Forall (fun p => gpPos p = pos /\ gpUV p = uv) prims /\
    forall us, uv = Some us -> exists ps, pos = Some ps /\ length us = length ps.

Definition exports_mesh (unlit : bool) (objs : list (object T)) (sets : list target_list) (bones : list (bone T))
  (mmap : Z -> option Z) (o : object T) (mesh : gmesh T) : Prop :=
  exists tris ws morphs, triangles_of o tris /\ morphs_of objs sets o morphs /\
    length ws = length (oVerts o) /\ (forall v s, zidx ws v = Some s -> slots_for (influences o bones v) s) /\
    gmName mesh = oName o /\ gmTargetNames mesh = map (@oName T) morphs /\
    NoDup (map gpMaterial (gmPrims mesh)) /\
    (forall k, In (Some k) (map gpMaterial (gmPrims mesh)) <-> exists f, In f tris /\ mmap (fMaterial f) = Some k) /\
    Forall (fun p => exports_faces o ws morphs (given_normal tris) mmap tris p /\
                     (gpSkin p = None <-> lists_of o bones = []) /\
                     (gpNormals p = None <-> oShading o <= 0 \/ unlit = true)) (gmPrims mesh) /\
    shares_vertices (gmPrims mesh).
(** Joint [j] of the skin is the node of the bone of weight list [j]. *)
Definition exports_skin (base : nat) (bones : list (bone T)) (o : object T) (s : gskin T) : Prop :=
  Forall2 (fun b j => exists i, nth_error bones i = Some b /\ j = (base + i)%nat) (list_owners o bones) (gsJoints s).
(** The node of an object. *)
Definition exports_object (unlit : bool) (objs : list (object T)) (sets : list target_list) (bones : list (bone T)) (base : nat)
  (mmap : Z -> option Z) (d : gdoc T) (o : object T) (n : gnode T) : Prop :=
  gnName n = oName o /\ gnTrans n = mkV3 nzero nzero nzero /\
  (oVisible o = false -> gnMesh n = None /\ gnSkin n = None) /\
  (oVisible o = true ->
     (exists mesh, exports_mesh unlit objs sets bones mmap o mesh /\
        (gmPrims mesh = [] /\ gnMesh n = None \/
         gmPrims mesh <> [] /\ exists mi, gnMesh n = Some mi /\ nth_error (gdMeshes d) mi = Some mesh)) /\
     (lists_of o bones = [] /\ gnSkin n = None \/
      lists_of o bones <> [] /\ exists si s, gnSkin n = Some si /\ nth_error (gdSkins d) si = Some s /\ exports_skin base bones o s)).

(** What an object needs to be exported: complete normals that are given, weights of existing
    vertices, existing morph targets. *)
Definition exportable (objs : list (object T)) (sets : list target_list) (bones : list (bone T)) (o : object T) : Prop :=
  0 <= oDepth o /\ well_indexed o /\
  Forall (fun f => complete f = true -> ~ In None (fNormals f)) (oFaces o) /\
  (forall l e, In l (lists_of o bones) -> In e l -> 0 <= get_vertex_index_by_id o (fst e) < Z.of_nat (length (oVerts o))) /\
  (forall names t, targets_of sets (oName o) names -> In t names -> In t (map (@oName T) objs)).

(** *** Materials *)

(** A material some visible exported object uses. *)
Definition used (os : list (object T)) (i : Z) : Prop :=
  exists o f, In o os /\ oVisible o = true /\ In f (oFaces o) /\ fMaterial f = i.
(** Names that keep a material from being exported. *)
Definition left_out (name : string) : Prop :=
  (exists a, name = String.append a "$IGNORE") \/ exists b, name = String.append "$MORPH:" b.
(** MQO material [i] became glTF material [mmap i]. *)
Definition renumbers (os : list (object T)) (mats : list (material T)) (gmats : list (gmat T)) (mmap : Z -> option Z) : Prop :=
  (forall i k, mmap i = Some k -> exists m g, zidx mats i = Some m /\ zidx gmats k = Some g /\
     gtName g = mtName m /\ gtColor g = mtColor m /\ gtDouble g = mtDouble m) /\
  (forall i, (exists k, mmap i = Some k) <-> exists m, zidx mats i = Some m /\ used os i /\ ~ left_out (mtName m)) /\
  (forall i j k l, mmap i = Some k -> mmap j = Some l -> i < j -> k < l) /\
  (forall k, 0 <= k < Z.of_nat (length gmats) -> exists i, mmap i = Some k).
End Spec.
