(** [converter/mqo2gltf.go] with the options ReuseGeometry and ExportLights: meshes that share
    accessors, and the matrices of nodes.  Crashes of the Go program give [None]. *)
From Coq Require Import String List ZArith Bool.
From Verif.Model Require Import Num Vec Matrix Triangulate Mqo MqoDoc Mmd2Mqo Normals Mqo2Mmd Gltf Mqo2Gltf.
Import ListNotations.
Local Open Scope Z_scope.
Local Open Scope list_scope.

Section Shared.
Context {T : Type} {N : Num T}.
Variables (scale centi eps : T) (force_unlit : bool).
(** What accessor 0 of the document reads as.  A key that is not in a Go map gives 0, so the
    attribute is taken from there. *)
Variables (acc0 : list (vec3 T)) (acc0uv : list (vec2 T)).

(** The accessors of [attributes] (mqo2gltf.go 665-689), as their contents. *)
Record gattrs := mkGA {
  gaPos : option (list (vec3 T)); gaUV : option (list (vec2 T)); gaNormals : option (list (vec3 T)); gaSkin : option (list (slots T)) }.
(** What [ConvertObject] knows before it writes accessors (mqo2gltf.go 587-663): its own
    attributes, [useTexcood0], [partial], the indices of every material, and further on the morph
    targets (697-710) and joints. *)
Record parts := mkParts {
  paAttrs : gattrs; paUseUV : bool; paPartial : bool; paPrims : list (Z * list Z); paTargets : list (list (vec3 T)); paJoints : list nat }.
(** [geomCache] (mqo2gltf.go 138-143) without the count. *)
Record gcache := mkGC { gcMatrix : option (mat4 T); gcAttrs : option gattrs; gcIndices : list (list Z) }.
Definition gcache0 : gcache := mkGC None None [].

(** mqo2gltf.go 607-615. *)
Definition is_partial (mmap : Z -> option Z) (fs : list (face T)) : bool :=
  existsb (fun f => negb (length (fVerts f) <? 3)%nat && match mmap (fMaterial f) with None => true | Some _ => false end) fs.

(** [ConvertObject] (mqo2gltf.go 587-663, 697-710). *)
Definition object_parts (o : object T) (bones : list (bone T)) (node_of : Z -> option nat)
  (morphs : list (object T)) (mmap : Z -> option Z) : option parts :=
  match fixh_normals o with
  | None => None
  | Some o1 =>
      match triangulate_object o1 with
      | None => None
      | Some o2 =>
          match get_weights centi o2 bones with
          | None => None
          | Some (ids, inf) =>
              let skinned := negb (Nat.eqb (length ids) 0) in
              let vs := map (v3scaled scale) (oVerts o2) in
              match conv_gfaces eps mmap skinned (oFaces o2)
                      (mkCS vs (map Z.of_nat (seq 0 (length vs))) (repeat v2zero (length vs)) (repeat v3zero (length vs))
                            (if skinned then inf else []) [] false []) with
              | None => None
              | Some st =>
                  match all_some (fun m => all_some (target_offset scale (csVerts st) (oVerts m)) (csSrc st)) morphs, all_some node_of ids with
                  | Some targets, Some joints =>
                      let has := match csVerts st with [] => false | _ => true end in
                      Some (mkParts (mkGA (if has then Some (csVerts st) else None)
                                          (if has && csUseUV st then Some (csUV st) else None)
                                          (if has && (0 <? oShading o) && negb force_unlit then Some (csNormals st) else None)
                                          (if skinned then Some (map ifSlots (csSkin st)) else None))
                                    (csUseUV st) (is_partial mmap (oFaces o2)) (csPrims st) targets joints)
                  | _, _ => None
                  end
              end
          end
      end
  end.

(** One primitive for every material, with the indices at its position (mqo2gltf.go 720-730). *)
Definition make_prims (a : gattrs) (targets : list (list (vec3 T))) (mats : list Z) (indices : list (list Z)) : option (list (prim T)) :=
  all_some (fun im => option_map (fun is_ => mkPrim (gaPos a) (gaUV a) (gaNormals a) (gaSkin a) targets (Some is_) (Some (snd im)))
                                 (nth_error indices (fst im)))
           (combine (seq 0 (length mats)) mats).
Definition or0 {A} (d : A) (o : option A) : option A := match o with Some x => Some x | None => Some d end.
(** Accessors and primitives of an object with [shared] (mqo2gltf.go 665-737). *)
Definition shared_mesh (o : object T) (morphs : list (object T)) (p : parts) (shared : option gcache) : option (gmesh T * option gcache) :=
  let mats := map fst (paPrims p) in
  let mesh a indices := option_map (fun ps => mkMesh (oName o) ps (map (@oName T) morphs)) (make_prims a (paTargets p) mats indices) in
  match shared with
  | Some c =>
      if paPartial p then option_map (fun m => (m, shared)) (mesh (paAttrs p) (map snd (paPrims p)))
      else match gcAttrs c with
           | Some s =>
               let a := mkGA (or0 acc0 (gaPos s)) (if paUseUV p then or0 acc0uv (gaUV s) else None)
                             (if (0 <? oShading o) && negb force_unlit then or0 acc0 (gaNormals s) else None) (gaSkin (paAttrs p)) in
               option_map (fun m => (m, shared)) (mesh a (gcIndices c))
           | None =>
               let indices := gcIndices c ++ map snd (paPrims p) in
               option_map (fun m => (m, Some (mkGC (gcMatrix c) (Some (paAttrs p)) indices))) (mesh (paAttrs p) indices)
           end
  | None => option_map (fun m => (m, None)) (mesh (paAttrs p) (map snd (paPrims p)))
  end.

(** *** The loop over the objects *)

(** An object with the entries sharedGeometryKey and light of [Extra]. *)
Record sobj := mkSO { soObj : object T; soKey : option string; soLight : bool }.
(** The mesh of its node (before it is put into the list), its joints, and [node.Matrix] if it was set. *)
Record snode := mkSN { snMesh : option (gmesh T); snJoints : list nat; snMatrix : option (mat4 T) }.

Definition caches : Type := list (string * gcache).
Fixpoint cache_of (l : caches) (k : string) : gcache :=
  match l with [] => gcache0 | (k', c) :: r => if String.eqb k' k then c else cache_of r k end.
(** [count] (mqo2gltf.go 808-816): over all exported objects, visible or not. *)
Definition key_count (os : list sobj) (k : string) : nat :=
  length (filter (fun o => match soKey o with Some k' => String.eqb k' k | None => false end) os).

(** mqo2gltf.go 862-873. *)
Definition node_matrix (lights : bool) (o : sobj) (shared : option gcache) : option (mat4 T) :=
  if lights && soLight o || match shared with Some _ => true | None => false end
  then match oInternal (soObj o) with
       | None => None
       | Some t =>
           let m := mat_translation_scale t scale in
           let m := match shared with
                    | Some c => match gcMatrix c with Some i => mat_mul m i | None => m end
                    | None => m
                    end in
           Some (mkM (m0 m) (m1 m) (m2 m) nzero (m4 m) (m5 m) (m6 m) nzero (m8 m) (m9 m) (m10 m) nzero (m12 m) (m13 m) (m14 m) none)
       end
  else None.

(** mqo2gltf.go 836-844; the outer [None] is the nil pointer of an object without InternalTransform. *)
Definition find_shared (reuse : bool) (all : list sobj) (cs : caches) (o : sobj) : option (option (string * gcache)) :=
  match soKey o with
  | Some k =>
      if reuse && (1 <? key_count all k)%nat
      then let c := cache_of cs k in
           match gcMatrix c with
           | Some _ => Some (Some (k, c))
           | None => match oInternal (soObj o) with
                     | Some t => Some (Some (k, mkGC (Some (mat_inverse t)) (gcAttrs c) (gcIndices c)))
                     | None => None
                     end
           end
      else Some None
  | None => Some None
  end.

(** The loop (mqo2gltf.go 820-874); [morphs] gives the morph targets of an object. *)
Fixpoint conv_shared (reuse lights : bool) (bones : list (bone T)) (node_of : Z -> option nat) (mmap : Z -> option Z)
  (morphs : object T -> option (list (object T))) (all os : list sobj) (cs : caches) : option (list snode) :=
  match os with
  | [] => Some []
  | o :: r =>
      match morphs (soObj o) with
      | None => None
      | Some mo =>
          if oVisible (soObj o)
          then match find_shared reuse all cs o with
               | None => None
               | Some sh =>
                   match object_parts (soObj o) bones node_of mo mmap with
                   | None => None
                   | Some p =>
                       match shared_mesh (soObj o) mo p (option_map snd sh) with
                       | None => None
                       | Some (mesh, c) =>
                           let cs' := match sh, c with Some (k, _), Some c => (k, c) :: cs | _, _ => cs end in
                           option_map (cons (mkSN (match gmPrims mesh with [] => None | _ => Some mesh end) (paJoints p)
                                                  (node_matrix lights o (option_map snd sh))))
                             (conv_shared reuse lights bones node_of mmap morphs all r cs')
                       end
                   end
               end
          else option_map (cons (mkSN None [] None)) (conv_shared reuse lights bones node_of mmap morphs all r cs)
      end
  end.

(** [node.MatrixOrDefault() == gltf.DefaultMatrix] (mqo2gltf.go 886); a matrix that was set is
    not zero, as its last element is 1. *)
Definition meqb (a b : mat4 T) : bool :=
  neqb (m0 a) (m0 b) && neqb (m1 a) (m1 b) && neqb (m2 a) (m2 b) && neqb (m3 a) (m3 b) &&
  neqb (m4 a) (m4 b) && neqb (m5 a) (m5 b) && neqb (m6 a) (m6 b) && neqb (m7 a) (m7 b) &&
  neqb (m8 a) (m8 b) && neqb (m9 a) (m9 b) && neqb (m10 a) (m10 b) && neqb (m11 a) (m11 b) &&
  neqb (m12 a) (m12 b) && neqb (m13 a) (m13 b) && neqb (m14 a) (m14 b) && neqb (m15 a) (m15 b).
Definition default_matrix (n : snode) : bool := match snMatrix n with None => true | Some m => meqb m mat_id end.

(** Nodes of the exported objects and their tree (mqo2gltf.go 808-888). *)
Definition shared_nodes (reuse lights ignore : bool) (bones : list (bone T)) (node_of : Z -> option nat) (mmap : Z -> option Z)
  (morphs : object T -> option (list (object T))) (os : list sobj) (g : graph) : option (list snode * graph) :=
  match conv_shared reuse lights bones node_of mmap morphs os os [] with
  | None => None
  | Some ns =>
      option_map (pair ns)
        (place ignore 0 (map (fun p => (oDepth (soObj (fst p)), default_matrix (snd p))) (combine os ns)) [] g)
  end.
End Shared.
Arguments gattrs : clear implicits.
Arguments parts : clear implicits.
Arguments gcache : clear implicits.
Arguments sobj : clear implicits.
Arguments snode : clear implicits.
