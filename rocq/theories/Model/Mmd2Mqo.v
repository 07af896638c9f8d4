(** [converter/mmd2mqo.go]: PMX to MQO, without materials' colours, IK and physics.
    Out-of-range indices are crashes of the Go program and give [None]. *)
From Coq Require Import String List ZArith Bool.
From Verif.Model Require Import Num Vec Matrix Mqo MqoDoc.
Import ListNotations.
Local Open Scope Z_scope.
Local Open Scope list_scope.

(** *** Groups *)

Definition fset (f : nat -> nat) (k v x : nat) : nat := if Nat.eqb x k then v else f x.

(** [newFg] (mmd2mqo.go 135-146) and [newMg] (148-159) are the same search over different
    neighbour lists: [next i] lists, in the order of the nested loops, the nodes looked at from
    [i].  The result is the new labels and the visited nodes; [None] if the recursion is deeper
    than [fuel]. *)
Fixpoint dfs (fuel : nat) (next : nat -> list nat) (mk : nat -> nat) (i id : nat) (acc : list nat)
  : option ((nat -> nat) * list nat) :=
  match fuel with
  | O => None
  | S f =>
      fold_left (fun st j =>
        match st with
        | None => None
        | Some (mk, acc) => if Nat.eqb (mk j) 0 then dfs f next mk j id acc else Some (mk, acc)
        end) (next i) (Some (fset mk i id, acc ++ [i]))
  end.

(** The loops calling them (mmd2mqo.go 170-174 and 206-210): [start] tells which nodes may start
    a group, [gs] are the groups so far, beginning with an empty group 0. *)
Fixpoint grouping (fuel : nat) (next : nat -> list nat) (start : nat -> bool) (nodes : list nat)
  (mk : nat -> nat) (gs : list (list nat)) : option ((nat -> nat) * list (list nat)) :=
  match nodes with
  | [] => Some (mk, gs)
  | i :: r =>
      if start i && Nat.eqb (mk i) 0
      then match dfs fuel next mk i (length gs) [] with
           | Some (mk', g) => grouping fuel next start r mk' (gs ++ [g])
           | None => None
           end
      else grouping fuel next start r mk gs
  end.

Section Convert.
Context {T : Type} {N : Num T}.

(** The parts of a PMX document used here: [mmd.Vertex], [mmd.Face], [mmd.Material],
    [mmd.Morph] (mmd/mmd.go). *)
Record pvert := mkPV { pvPos : vec3 T; pvNormal : vec3 T; pvUV : vec2 T; pvBones : list Z; pvWeights : list T }.
Record pmat := mkPMat { pmName : string; pmCount : Z }.
Record pmorph := mkPMorph { phName : string; phVerts : list (Z * vec3 T); phUVs : list (Z * vec2 T) }.
Record pmodel := mkPModel {
  pVerts : list pvert; pFaces : list (list Z); pMats : list pmat; pMorphs : list pmorph; pNBones : nat }.

Definition minus1 : T := nopp none.

(** [convertVec3] (mmd2mqo.go 25-27). *)
Definition mirror (v : vec3 T) : vec3 T := mkV3 (vx v) (vy v) (nmul (vz v) minus1).

Definition valid {A} (l : list A) (i : Z) : bool := (0 <=? i) && (i <? Z.of_nat (length l)).

(** [v2f[v]] (mmd2mqo.go 163-168): the faces of a vertex, once for each corner. *)
Definition faces_of (fs : list (list Z)) (v : Z) : list nat :=
  flat_map (fun p => map (fun _ => fst p) (filter (Z.eqb v) (snd p))) (combine (seq 0 (length fs)) fs).

Definition face_at (fs : list (list Z)) (i : nat) : list Z := nth i fs [].

(** The distinct groups of the faces of some vertices, in order of appearance
    (mmd2mqo.go 179-201); a vertex without faces is passed over. *)
Fixpoint groups_of (fs : list (list Z)) (f2fg : nat -> nat) (targets : list Z) (seen : list nat) : list nat :=
  match targets with
  | [] => seen
  | t :: r =>
      match faces_of fs t with
      | [] => groups_of fs f2fg r seen
      | f :: _ => groups_of fs f2fg r (if nmem (f2fg f) seen then seen else seen ++ [f2fg f])
      end
  end.

Definition morph_targets_of (m : pmorph) : list Z := map fst (phVerts m) ++ map fst (phUVs m).

(** [genMorphGroup] (mmd2mqo.go 161-231): the morphs and the faces of each group. *)
Definition gen_morph_group (p : pmodel) : option (list (list nat) * list (list nat)) :=
  let fs := pFaces p in
  let n := length fs in
  if negb (forallb (forallb (valid (pVerts p))) fs) then None else
  match grouping (S n) (fun i => flat_map (faces_of fs) (face_at fs i)) (fun _ => true) (seq 0 n) (fun _ => O) [[]] with
  | None => None
  | Some (f2fg, fgs) =>
      if negb (forallb (fun m => forallb (valid (pVerts p)) (morph_targets_of m)) (pMorphs p)) then None else
      let m2fg := map (fun m => groups_of fs f2fg (morph_targets_of m) []) (pMorphs p) in
      let nm := length m2fg in
      let fg2m fg := filter (fun mi => nmem fg (nth mi m2fg [])) (seq 0 nm) in
      match grouping (S nm) (fun mi => flat_map fg2m (nth mi m2fg []))
              (fun mi => match nth mi m2fg [] with [] => false | _ => true end) (seq 0 nm) (fun _ => O) [[]] with
      | None => None
      | Some (_, mg2m) =>
          let fg2mg := fold_left (fun h mg => fold_left (fun h mi => fold_left (fun h fg => fset h fg mg) (nth mi m2fg []) h)
                                              (nth mg mg2m []) h)
                         (seq 0 (length mg2m)) (fun _ => O) in
          Some (mg2m, map (fun mg => filter (fun fi => Nat.eqb (fg2mg (f2fg fi)) mg) (seq 0 n)) (seq 0 (length mg2m)))
      end
  end.

(** *** Faces and vertices *)

Definition vmap := list (Z * Z).

(** The inner loop of [convertFaces] (mmd2mqo.go 103-114): new indices, uvs, normals of one
    face; the vertices and the map grow. *)
Fixpoint conv_corners (vs : list pvert) (face : list Z) (st : list (vec3 T) * vmap)
  : option (list Z * list (vec2 T) * list (option (vec3 T)) * (list (vec3 T) * vmap)) :=
  match face with
  | [] => Some ([], [], [], st)
  | vi :: r =>
      match zidx vs vi with
      | None => None
      | Some v =>
          let '(out, m) := st in
          let '(k, st') := match assoc m vi with
                           | Some k => (k, st)
                           | None => (Z.of_nat (length out), (out ++ [mirror (pvPos v)], m ++ [(vi, Z.of_nat (length out))]))
                           end in
          match conv_corners vs r st' with
          | None => None
          | Some (ks, us, ns, st'') => Some (k :: ks, pvUV v :: us, Some (mirror (pvNormal v)) :: ns, st'')
          end
      end
  end.

(** [convertFaces] (mmd2mqo.go 95-117). *)
Fixpoint conv_faces (p : pmodel) (f2m : list Z) (faces : list nat) (st : list (vec3 T) * vmap)
  : option (list (face T) * (list (vec3 T) * vmap)) :=
  match faces with
  | [] => Some ([], st)
  | fi :: r =>
      match nth_error (pFaces p) fi, nth_error f2m fi with
      | Some f, Some mat =>
          match conv_corners (pVerts p) f st with
          | None => None
          | Some (ks, us, ns, st') =>
              match conv_faces p f2m r st' with
              | None => None
              | Some (out, st'') => Some (mkFace 0 ks mat us ns :: out, st'')
              end
          end
      | _, _ => None
      end
  end.

(** *** Weights *)

(** [SetVertexWeight] (mqo/bone_plugin.go 152-165) on the weights of one bone. *)
Fixpoint set_vertex_weight (ws : list (Z * list (Z * T))) (obj vid : Z) (w : T) : list (Z * list (Z * T)) :=
  match ws with
  | [] => [(obj, [(vid, w)])]
  | (o, l) :: r => if o =? obj then (o, l ++ [(vid, w)]) :: r else (o, l) :: set_vertex_weight r obj vid w
  end.

(** The weights of one vertex by bone, in order of first use (mmd2mqo.go 122-131 with
    [more w] = 100 w, and 287-296 with [more w] = w). *)
Fixpoint weight_add (c : list (Z * T)) (b : Z) (first more : T) : list (Z * T) :=
  match c with
  | [] => [(b, first)]
  | (b', w) :: r => if b' =? b then (b', nadd w more) :: r else (b', w) :: weight_add r b first more
  end.
Fixpoint vertex_weights (more : T -> T) (hundred : T) (bones : list Z) (ws : list T) (c : list (Z * T)) : option (list (Z * T)) :=
  match bones, ws with
  | [], _ => Some c
  | _ :: _, [] => None
  | b :: br, w :: wr =>
      vertex_weights more hundred br wr
        (if nltb nzero w then weight_add c b (nmul hundred w) (more w) else c)
  end.

Definition bone_weights := list (list (Z * list (Z * T))).

(** Storing them in the bones; [None] for a bone that does not exist. *)
Fixpoint store_weights (bw : bone_weights) (c : list (Z * T)) (obj vid : Z) : option bone_weights :=
  match c with
  | [] => Some bw
  | (b, w) :: r =>
      match zidx bw b with
      | Some ws => store_weights (list_set bw (Z.to_nat b) (set_vertex_weight ws obj vid w)) r obj vid
      | None => None
      end
  end.
(** [setWeight] (mmd2mqo.go 119-133) and 285-297; [entries] is the map in the order of the
    iteration. *)
Fixpoint set_weights (more : T -> T) (hundred : T) (vs : list pvert) (entries : vmap) (obj : Z) (bw : bone_weights)
  : option bone_weights :=
  match entries with
  | [] => Some bw
  | (pv, mv) :: r =>
      match zidx vs pv with
      | None => None
      | Some v =>
          match vertex_weights more hundred (pvBones v) (pvWeights v) [] with
          | None => None
          | Some c =>
              match store_weights bw c obj (mv + 1) with
              | None => None
              | Some bw' => set_weights more hundred vs r obj bw'
              end
          end
      end
  end.

(** *** Objects *)

(** [hundred] is the constant 100, [facet] the default smoothing angle and [shuffle] the order
    in which Go iterates over a map. *)
Variables (hundred facet : T) (shuffle : vmap -> vmap).

(** [NewObject] (mqo/mqo.go 278-286). *)
Definition new_object (name : string) (vs : list (vec3 T)) (fs : list (face T)) : object T :=
  mkObj 0 name vs fs true false 0 false 1 facet 0 0 0 nzero
    (Some (mkV3 none none none)) (Some (mkV3 nzero nzero nzero)) (Some (mkV3 nzero nzero nzero)) None [] None.

(** The range loop writing [face2mat] (mmd2mqo.go 252-254); a negative [n] writes nothing. *)
Fixpoint set_range (f2m : list Z) (from : Z) (n : nat) (mat : Z) : option (list Z) :=
  match n with
  | O => Some f2m
  | S n' => if valid f2m from then set_range (list_set f2m (Z.to_nat from) mat) (from + 1) n' mat else None
  end.

Fixpoint range_faces (base : list nat) (from : Z) (n : nat) : list nat :=
  match n with
  | O => []
  | S n' => (if (0 <=? from) && nmem (Z.to_nat from) base then [Z.to_nat from] else []) ++ range_faces base (from + 1) n'
  end.

(** The loop over the materials (mmd2mqo.go 246-273): objects, bone weights and [face2mat]. *)
Fixpoint mat_loop (p : pmodel) (base : list nat) (idx vpos : Z) (mats : list pmat)
  (os : list (object T)) (bw : bone_weights) (f2m : list Z) : option (list (object T) * bone_weights * list Z) :=
  match mats with
  | [] => Some (os, bw, f2m)
  | mat :: r =>
      let cnt := Z.quot (pmCount mat) 3 in
      match set_range f2m vpos (Z.to_nat cnt) idx with
      | None => None
      | Some f2m' =>
          let faces := range_faces base vpos (Z.to_nat cnt) in
          match conv_faces p f2m' faces ([], []) with
          | None => None
          | Some (fs, (vs, m)) =>
              if (match fs with [] => true | _ => false end) && negb (pmCount mat =? 0)
              then mat_loop p base (idx + 1) (vpos + cnt) r os bw f2m'
              else match set_weights (nmul hundred) hundred (pVerts p) (shuffle m) (Z.of_nat (length os) + 1) bw with
                   | None => None
                   | Some bw' =>
                       mat_loop p base (idx + 1) (vpos + cnt) r (os ++ [new_object ("M_" ++ pmName mat) vs fs]) bw' f2m'
                   end
          end
      end
  end.

(** One vertex offset (mmd2mqo.go 309-314); a vertex that is not in the map goes to vertex 0. *)
Definition map_at (m : vmap) (k : Z) : Z := match assoc m k with Some v => v | None => 0 end.
Definition move_vertex (m : vmap) (vs : list (vec3 T)) (mv : Z * vec3 T) : option (list (vec3 T)) :=
  let k := map_at m (fst mv) in
  match zidx vs k with
  | Some v => Some (list_set vs (Z.to_nat k)
                (mkV3 (nadd (vx v) (vx (snd mv))) (nadd (vy v) (vy (snd mv))) (nadd (vz v) (nmul (vz (snd mv)) minus1))))
  | None => None
  end.
Fixpoint move_vertices (m : vmap) (vs : list (vec3 T)) (l : list (Z * vec3 T)) : option (list (vec3 T)) :=
  match l with
  | [] => Some vs
  | mv :: r => match move_vertex m vs mv with Some vs' => move_vertices m vs' r | None => None end
  end.

(** One uv offset (mmd2mqo.go 322-331): all corners of the vertex move. *)
Fixpoint move_corners (k : Z) (d : vec2 T) (ks : list Z) (us : list (vec2 T)) : list (vec2 T) :=
  match ks, us with
  | k' :: kr, u :: ur =>
      (if k' =? k then mkV2 (nadd (v2x u) (v2x d)) (nadd (v2y u) (v2y d)) else u) :: move_corners k d kr ur
  | _, _ => us
  end.
Definition move_uv (m : vmap) (fs : list (face T)) (mu : Z * vec2 T) : list (face T) :=
  if fst mu <? 0 then fs
  else map (fun f => mkFace (fUID f) (fVerts f) (fMaterial f)
                       (move_corners (map_at m (fst mu)) (snd mu) (fVerts f) (fUVs f)) (fNormals f)) fs.

(** A morph target (mmd2mqo.go 302-333): [Clone] drops the normals (mqo/mqo.go 308-323). *)
Definition clone_face (f : face T) : face T := mkFace 0 (fVerts f) (fMaterial f) (fUVs f) [].
Definition target_object (name : string) (vs : list (vec3 T)) (fs : list (face T)) : object T :=
  mkObj 0 name vs fs false false 1 false 1 facet 0 0 0 nzero
    (Some (mkV3 none none none)) (Some (mkV3 nzero nzero nzero)) (Some (mkV3 nzero nzero nzero)) None [] None.
Definition morph_object (m : vmap) (vs : list (vec3 T)) (fs : list (face T)) (mo : pmorph) : option (object T) :=
  match move_vertices m vs (phVerts mo) with
  | Some vs' => Some (target_object (phName mo) vs' (fold_left (move_uv m) (phUVs mo) (map clone_face fs)))
  | None => None
  end.

Fixpoint all_morphs (p : pmodel) (m : vmap) (vs : list (vec3 T)) (fs : list (face T)) (l : list nat) : option (list (object T)) :=
  match l with
  | [] => Some []
  | mi :: r =>
      match nth_error (pMorphs p) mi with
      | None => None
      | Some mo => match morph_object m vs fs mo, all_morphs p m vs fs r with
                   | Some o, Some os => Some (o :: os)
                   | _, _ => None
                   end
      end
  end.

(** The loop over the groups (mmd2mqo.go 276-335), from group [mg] on. *)
Fixpoint group_loop (p : pmodel) (f2m : list Z) (mg : nat) (ms : list (list nat)) (fss : list (list nat))
  (os : list (object T)) (bw : bone_weights) (sets : list target_list)
  : option (list (object T) * bone_weights * list target_list) :=
  match ms, fss with
  | l :: mr, faces :: fr =>
      match conv_faces p f2m faces ([], []) with
      | None => None
      | Some (fs, (vs, m)) =>
          match set_weights (fun w => w) hundred (pVerts p) (shuffle m) (Z.of_nat (length os) + 1) bw with
          | None => None
          | Some bw' =>
              let base := new_object ("MorphBase" ++ dec mg) vs fs in
              match all_morphs p m vs fs l with
              | None => None
              | Some ts => group_loop p f2m (S mg) mr fr (os ++ base :: ts) bw'
                             (sets ++ [mkTL (oName base) (map oName ts)])
              end
          end
      end
  | _, _ => Some (os, bw, sets)
  end.

(** [Convert] (mmd2mqo.go 233-407) as far as objects, bone weights and morph sets go. *)
Definition convert (p : pmodel) : option (list (object T) * bone_weights * list target_list) :=
  match gen_morph_group p with
  | None => None
  | Some (mg2m, mg2fs) =>
      match mat_loop p (nth 0 mg2fs []) 0 0 (pMats p) [] (repeat [] (pNBones p)) (repeat 0 (length (pFaces p))) with
      | None => None
      | Some (os, bw, f2m) =>
          match group_loop p f2m 1 (skipn 1 mg2m) (skipn 1 mg2fs) os bw [] with
          | None => None
          | Some (os', bw', sets) => Some (fix_ids 0 os', bw', sets)
          end
      end
  end.
End Convert.
Arguments pmodel : clear implicits.
Arguments pvert : clear implicits.
Arguments pmorph : clear implicits.
