(** [converter/mqo2mmd.go]: MQO to PMX, without colours and textures.  The result is the PMX
    model of [Mmd2Mqo].  Out-of-range indices are crashes of the Go program and give [None]. *)
From Coq Require Import String List ZArith Bool.
From Verif.Model Require Import Num Vec Matrix Mqo MqoDoc Mmd2Mqo Normals.
Import ListNotations.
Local Open Scope Z_scope.
Local Open Scope list_scope.

Section Convert.
Context {T : Type} {N : Num T}.
(** [Scale] (mqo2mmd.go 11-16) and the constant 0.01 (148). *)
Variables (scale centi : T).

(** [convertVec3] (mqo2mmd.go 218-220). *)
Definition to_pmx (v : vec3 T) : vec3 T :=
  mkV3 (nmul (vx v) scale) (nmul (vy v) scale) (nmul (nmul (vz v) scale) (nopp none)).

(** The key of an emitted vertex (mqo2mmd.go 62-66): Go compares the floats. *)
Definition vkey : Type := Z * vec2 T.
Definition vkey_eqb (a b : vkey) : bool :=
  (fst a =? fst b) && neqb (v2x (snd a)) (v2x (snd b)) && neqb (v2y (snd a)) (v2y (snd b)).
Fixpoint find_key (m : list (vkey * Z)) (k : vkey) : option Z :=
  match m with [] => None | (a, i) :: r => if vkey_eqb a k then Some i else find_key r k end.

(** The growing PMX document: vertices and morphs, and the maps of one object (mqo2mmd.go
    67-68); [imap] is [indicesMap], newest entry last, [vm] is [vmap] as a list of pairs. *)
Record mstate := mkMS { msVerts : list (pvert T); msMorphs : list (pmorph T); msKeys : list (vkey * Z); msVmap : list (Z * Z) }.

Definition v2zero : vec2 T := mkV2 nzero nzero.
(** mqo2mmd.go 77-80. *)
Definition corner_uv (f : face T) (i : nat) : vec2 T := match nth_error (fUVs f) i with Some u => u | None => v2zero end.

(** Adding an offset to the morph of that name; the map holds the last one created (mqo2mmd.go
    51, 101-104). *)
Definition add_offset (ms : list (pmorph T)) (name : string) (e : Z * vec3 T) : list (pmorph T) :=
  match last_index (fun m => String.eqb (phName m) name) ms with
  | Some i => match nth_error ms i with
              | Some m => list_set ms i (mkPMorph (phName m) (phVerts m ++ [e]) (phUVs m))
              | None => ms
              end
  | None => ms
  end.
(** The loop over the targets of the base object (mqo2mmd.go 94-108).  The vertices are compared
    as pointers, which are different because the objects are; the Z component of the offset is
    not set. *)
Fixpoint target_offsets (objs : list (object T)) (targets : list string) (v id : Z) (pos : vec3 T) (ms : list (pmorph T)) : list (pmorph T) :=
  match targets with
  | [] => ms
  | t :: r =>
      target_offsets objs r v id pos
        (match last_index (fun o => String.eqb (oName o) t) objs with
         | Some i =>
             match option_map (@oVerts T) (nth_error objs i) with
             | Some tv => match zidx tv v with
                          | Some q => let p := to_pmx q in
                                      add_offset ms t (id, mkV3 (nsub (vx p) (vx pos)) (nsub (vy p) (vy pos)) nzero)
                          | None => ms
                          end
             | None => ms
             end
         | None => ms
         end)
  end.

(** One corner (mqo2mmd.go 76-111): its PMX index and the new state. *)
Definition conv_corner (objs : list (object T)) (targets : list string) (o : object T) (normals : list (vec3 T))
  (f : face T) (i : nat) (v : Z) (st : mstate) : option (Z * mstate) :=
  let uv := corner_uv f i in
  match find_key (msKeys st) (v, uv) with
  | Some id => Some (id, st)
  | None =>
      match zidx (oVerts o) v, zidx normals v with
      | Some q, Some n =>
          let id := Z.of_nat (length (msVerts st)) in
          let pos := to_pmx q in
          Some (id, mkMS (msVerts st ++ [mkPV pos n uv [] []]) (target_offsets objs targets v id pos (msMorphs st))
                         (msKeys st ++ [((v, uv), id)]) (msVmap st ++ [(v, id)]))
      | _, _ => None
      end
  end.
Fixpoint conv_corners (objs : list (object T)) (targets : list string) (o : object T) (normals : list (vec3 T))
  (f : face T) (i : nat) (verts : list Z) (st : mstate) : option (list Z * mstate) :=
  match verts with
  | [] => Some ([], st)
  | v :: r =>
      match conv_corner objs targets o normals f i v st with
      | None => None
      | Some (id, st') =>
          match conv_corners objs targets o normals f (S i) r st' with
          | Some (ids, st'') => Some (id :: ids, st'')
          | None => None
          end
      end
  end.
(** The fan (mqo2mmd.go 109-113). *)
Fixpoint fan_from (a : Z) (l : list Z) : list (list Z) :=
  match l with
  | b :: (c :: _) as r => [a; b; c] :: fan_from a r
  | _ => []
  end.
Definition fan (l : list Z) : list (list Z) := match l with [] => [] | a :: r => fan_from a r end.

(** The loop over the faces of an object (mqo2mmd.go 71-117). *)
Fixpoint obj_faces (objs : list (object T)) (targets : list string) (o : object T) (normals : list (vec3 T)) (mi : Z)
  (fs : list (face T)) (st : mstate) : option (list (list Z) * mstate) :=
  match fs with
  | [] => Some ([], st)
  | f :: r =>
      if (length (fVerts f) <? 3)%nat || negb (fMaterial f =? mi)
      then obj_faces objs targets o normals mi r st
      else match conv_corners objs targets o normals f 0 (fVerts f) st with
           | None => None
           | Some (ids, st') =>
               match obj_faces objs targets o normals mi r st' with
               | Some (out, st'') => Some (fan ids ++ out, st'')
               | None => None
               end
           end
  end.

(** [setWeights] (mqo2mmd.go 134-153). *)
Definition add_weight (bi : Z) (w : T) (vs : list (pvert T)) (id : Z) : list (pvert T) :=
  match zidx vs id with
  | Some v => if (4 <=? length (pvWeights v))%nat then vs
              else list_set vs (Z.to_nat id)
                     (mkPV (pvPos v) (pvNormal v) (pvUV v) (pvBones v ++ [bi]) (pvWeights v ++ [nmul w centi]))
  | None => vs
  end.
Definition vm_get (vm : list (Z * Z)) (v : Z) : list Z := map snd (filter (fun e => fst e =? v) vm).
Definition bone_step (o : object T) (vm : list (Z * Z)) (bi : Z) (vs : list (pvert T)) (b : bone T) : list (pvert T) :=
  fold_left (fun vs (bw : Z * list (Z * T)) =>
    if fst bw =? oUID o
    then fold_left (fun vs vw => fold_left (add_weight bi (snd vw)) (vm_get vm (get_vertex_index_by_id o (fst vw))) vs)
           (snd bw) vs
    else vs) (bWeights b) vs.
Fixpoint set_weights (o : object T) (vm : list (Z * Z)) (bi : Z) (bones : list (bone T)) (vs : list (pvert T)) : list (pvert T) :=
  match bones with
  | [] => vs
  | b :: r => set_weights o vm (bi + 1) r (bone_step o vm bi vs b)
  end.

(** The morph lists (mqo2mmd.go 43-54): the new morphs, and the list with a base of that name. *)
Definition new_morphs (sets : list target_list) : list (pmorph T) :=
  flat_map (fun s => map (fun t => mkPMorph t [] []) (tlTargets s)) sets.
Definition is_target (sets : list target_list) (name : string) : bool :=
  existsb (fun s => existsb (String.eqb name) (tlTargets s)) sets.
Definition base_targets (sets : list target_list) (name : string) : list string :=
  match last_index (fun s => String.eqb (tlBase s) name) sets with
  | Some i => match nth_error sets i with Some s => tlTargets s | None => [] end
  | None => []
  end.

(** One material of one object after the other (mqo2mmd.go 58-119). *)
Fixpoint mat_objects (objs : list (object T)) (sets : list target_list) (bones : list (bone T)) (mi : Z) (os : list (object T))
  (vs : list (pvert T)) (ms : list (pmorph T)) : option (list (list Z) * list (pvert T) * list (pmorph T)) :=
  match os with
  | [] => Some ([], vs, ms)
  | o :: r =>
      if negb (oVisible o) || is_target sets (oName o) then mat_objects objs sets bones mi r vs ms
      else match smooth_normals o with
           | None => None
           | Some normals =>
               match obj_faces objs (base_targets sets (oName o)) o normals mi (oFaces o) (mkMS vs ms [] []) with
               | None => None
               | Some (fs, st) =>
                   match mat_objects objs sets bones mi r (set_weights o (msVmap st) 0 bones (msVerts st)) (msMorphs st) with
                   | Some (fs', vs', ms') => Some (fs ++ fs', vs', ms')
                   | None => None
                   end
               end
           end
  end.
Fixpoint all_mats (objs : list (object T)) (sets : list target_list) (bones : list (bone T)) (mi : Z) (names : list string)
  (vs : list (pvert T)) (ms : list (pmorph T)) : option (list pmat * list (list Z) * list (pvert T) * list (pmorph T)) :=
  match names with
  | [] => Some ([], [], vs, ms)
  | name :: r =>
      match mat_objects objs sets bones mi objs vs ms with
      | None => None
      | Some (fs, vs', ms') =>
          match all_mats objs sets bones (mi + 1) r vs' ms' with
          | Some (mats, fs', vs'', ms'') => Some (mkPMat name (Z.of_nat (length fs) * 3) :: mats, fs ++ fs', vs'', ms'')
          | None => None
          end
      end
  end.

(** [Convert] (mqo2mmd.go 18-132), as far as vertices, faces, materials and morphs go. *)
Definition to_mmd (d : document T) (bones : list (bone T)) (sets : list target_list) : option (pmodel T) :=
  let objs := fix_ids 0 (dObjects d) in
  match all_mats objs sets bones 0 (map (@mtName T) (dMaterials d)) [] (new_morphs sets) with
  | Some (mats, fs, vs, ms) => Some (mkPModel vs fs mats ms (length bones))
  | None => None
  end.

(** *** Bones *)

(** The parts of a PMX bone used here. *)
Record pbone := mkPB { pbName : string; pbPos : vec3 T; pbParent : Z; pbTail : Z; pbInherit : option (Z * T) }.

(** [boneIndexByID] (mqo2mmd.go 21-25): 0 for unknown ids. *)
Definition bone_index (bones : list (bone T)) (id : Z) : Z :=
  match bone_by_id bones id with Some i => Z.of_nat i | None => 0 end.
(** [convertBone] (155-163) and the loop setting parents and tails (26-33). *)
Definition conv_bone (b : bone T) : pbone := mkPB (bName b) (to_pmx (bPos b)) (-1) (-1) None.
Definition set_parent (bs : list pbone) (i p : Z) : list pbone :=
  match zidx bs i with
  | Some b => list_set bs (Z.to_nat i) (mkPB (pbName b) (pbPos b) p (pbTail b) (pbInherit b))
  | None => bs
  end.
Definition set_tail (bs : list pbone) (i t : Z) : list pbone :=
  match zidx bs i with
  | Some b => list_set bs (Z.to_nat i) (mkPB (pbName b) (pbPos b) (pbParent b) t (pbInherit b))
  | None => bs
  end.
Fixpoint link_bones (bones : list (bone T)) (i : Z) (l : list (bone T)) (out : list pbone) : list pbone :=
  match l with
  | [] => out
  | b :: r =>
      link_bones bones (i + 1) r
        (if 0 <? bParent b
         then let p := bone_index bones (bParent b) in set_tail (set_parent out i p) p i
         else out)
  end.
Definition to_mmd_bones (bones : list (bone T)) : list pbone := link_bones bones 0 bones (map conv_bone bones).

(** [convertBones] (mmd2mqo.go 52-75): ids count from 1; a bone that inherits the rotation of a
    known bone by more than the threshold gets that bone as parent.  [None] is the index panic
    for a negative inherit parent. *)
Definition from_mmd_parent (known : list string) (threshold : T) (bs : list pbone) (b : pbone) : option Z :=
  match pbInherit b with
  | Some (ip, w) =>
      if nltb threshold w && (ip <? Z.of_nat (length bs))
      then match known with
           | [] => Some (pbParent b + 1)
           | _ => match zidx bs ip with
                  | Some q => Some (if existsb (String.eqb (pbName q)) known then ip + 1 else pbParent b + 1)
                  | None => None
                  end
           end
      else Some (pbParent b + 1)
  | None => Some (pbParent b + 1)
  end.
Fixpoint from_mmd_loop (known : list string) (threshold : T) (all : list pbone) (i : Z) (bs : list pbone) : option (list (bone T)) :=
  match bs with
  | [] => Some []
  | b :: r =>
      match from_mmd_parent known threshold all b, from_mmd_loop known threshold all (i + 1) r with
      | Some p, Some out => Some (mkBone (i + 1) (pbName b) p (mirror (pbPos b)) [] :: out)
      | _, _ => None
      end
  end.
Definition from_mmd_bones (known : list string) (threshold : T) (bs : list pbone) : option (list (bone T)) :=
  from_mmd_loop known threshold bs 0 bs.

(** *** Rigid bodies *)

(** [mqo.PhysicsBody] with one shape (mqo/physics_plugin.go) and [mmd.RigidBody], the parts used. *)
Record mbody := mkMB { mbName : string; mbSize : vec3 T; mbPos : vec3 T; mbKinematic : bool; mbBone : Z }.
Record rbody := mkRBody { rbName : string; rbSize : vec3 T; rbPos : vec3 T; rbMode : Z; rbBone : Z }.
(** [convertBody] (mqo2mmd.go 176-216). *)
Definition to_mmd_body (bones : list (bone T)) (b : mbody) : rbody :=
  mkRBody (mbName b) (to_pmx (mbSize b)) (to_pmx (mbPos b)) (if mbKinematic b then 1 else 0) (bone_index bones (mbBone b)).
(** mmd2mqo.go 357-390. *)
Definition from_mmd_body (b : rbody) : mbody :=
  mkMB (rbName b) (mirror (rbSize b)) (mirror (rbPos b)) (rbMode b =? 0) (rbBone b + 1).
End Convert.
Arguments mstate : clear implicits.
Arguments pbone : clear implicits.
Arguments mbody : clear implicits.
Arguments rbody : clear implicits.
