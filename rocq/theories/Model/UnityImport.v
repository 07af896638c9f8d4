(** [importMesh] (converter/unity2mqo.go 327-371) with the use that [convertObject] makes of it (156-183), and the parts of [unity/unity_assets.go] that it calls.
    Assets are given by what the methods of [unity.Assets] find.  Log messages and the closing of files are left out. *)
From Coq Require Import String Ascii List ZArith Bool DecimalString.
From Verif.Model Require Import Num Vec Matrix Mqo MqoDoc Mmd2Mqo FbxDoc UnityProject Fbx2Mqo.
Import ListNotations.
Local Open Scope string_scope.
Local Open Scope list_scope.
Local Open Scope Z_scope.

(** [fmt.Sprint] of an [int64] (unity2mqo.go 367). *)
Definition sprint (z : Z) : string := NilEmpty.string_of_int (Z.to_int z).
(** [Ref] (unity/unity.go 53-57), without the type, which [importMesh] does not read. *)
Record mref := mkMRef { mrFile : Z; mrGUID : string }.

Section Import.
Context {T : Type} {N : Num T}.

(** [fileIDToRecycleName] of a meta file (unity/unity_assets.go 36-38): a map from numbers to names; an absent table is an empty one. *)
Definition recycle : Type := list (Z * string).
(** [GetRecycleNameByFileID] (unity/unity_assets.go 42-47). *)
Definition recycle_name (t : recycle) (id : Z) : string := match find (fun e => fst e =? id) t with Some e => snd e | None => "" end.
(** [GetAsset] (the path of the asset), [GetMetaFile] (the table, or an error), and what [Open] and [fbx.Parse] give for a path (the document with its [UnitScaleFactor], or an error):
    unity2mqo.go 328, 332, 343-351, 359. *)
Record assets := mkAssets { asPath : string -> option string; asMeta : string -> option recycle; asRead : string -> option (fdoc T * T) }.
(** [lastFbxID] and [lastFbx] (unity2mqo.go 35-36). *)
Record memory := mkMem { lastID : string; lastDoc : option (fdoc T * T) }.
(** unity2mqo.go 57-63: no document yet. *)
Definition no_memory : memory := mkMem "" None.
(** What an import adds to the document: objects, the [sharedGeometryKey] of the only one, materials, and bones (none: those of the document are left as they are). *)
Record added := mkAdded { adObjs : list (object T); adKey : option string; adMats : list (material T); adBones : list (bone T) }.

Variables tenth facet hundredth : T.
Variable as_ : assets.

(** unity2mqo.go 339-355: the document, and what is remembered; [FOk None] is an error. *)
Definition load_fbx (mem : memory) (guid path : string) : memory * fres (option (fdoc T * T)) :=
  if String.eqb (lastID mem) guid then (mem, match lastDoc mem with Some d => FOk (Some d) | None => FCrash end)
  else if (match trim_suffix ".fbx" path with Some _ => true | None => false end) then
    match asRead as_ path with
    | Some d => (mkMem guid (Some d), FOk (Some d))
    | None => (mem, FOk None)
    end
  else (mem, FOk None).
(** unity2mqo.go 359-365: the options; a slice of materials to which nothing was appended is nil (97). *)
Definition import_options (name : string) (scale : T) (mats : list Z) (depth : Z) (tr : mat4 T) : foption T :=
  let s := nmul scale hundredth in
  mkFOpt false false false (depth + 1) (Some (mat_mul tr (mat_scale (nopp s) s (nopp s)))) name (match mats with [] => None | _ => Some mats end).
(** unity2mqo.go 358-370: [objs] are the objects of the document so far (the last one is that of the scene, at depth [depth]), [base] is the number of its materials. *)
Definition import_doc (fuel : nat) (d : fdoc T * T) (r : mref) (name : string) (mats : list Z) (depth : Z) (tr : mat4 T) (objs : list (object T)) (base : nat) : fres added :=
  fbind (convert_fbx tenth facet (fst d) fuel (import_options name (snd d) mats depth tr) objs base) (fun res =>
  let '(st, ms) := res in
  match skipn (length objs) (fsObjs st) with
  | [x] => FOk (mkAdded [set_internal x (Some tr)] (Some (mrGUID r ++ sprint (mrFile r))%string) ms (fsBones st))
  | new => FOk (mkAdded new None ms (fsBones st))
  end).
(** [importMesh] (unity2mqo.go 327-371). *)
Definition import_mesh (fuel : nat) (mem : memory) (r : mref) (mats : list Z) (depth : Z) (tr : mat4 T) (objs : list (object T)) (base : nat) : memory * fres (option added) :=
  match asPath as_ (mrGUID r) with
  | None => (mem, FOk None)
  | Some path =>
      match asMeta as_ (mrGUID r) with
      | None => (mem, FOk None)
      | Some table =>
          let '(mem, d) := load_fbx mem (mrGUID r) path in
          (mem, fbind d (fun d => match d with
                                  | None => FOk None
                                  | Some d => fbind (import_doc fuel d r (recycle_name table (mrFile r)) mats depth tr objs base) (fun a => FOk (Some a))
                                  end))
      end
  end.

(** The loop over the new objects (unity2mqo.go 168-170): all are as visible as the object of the scene. *)
Definition as_visible (v : bool) (o : object T) : object T :=
  mkObj (oUID o) (oName o) (oVerts o) (oFaces o) v (oLocked o) (oDepth o) (oFolding o) (oShading o) (oFacet o) (oPatch o) (oPatchSegment o) (oMirror o) (oMirrorDis o)
        (oScale o) (oRotation o) (oTranslation o) (oColor o) (oVertexByUID o) (oInternal o).
Definition shown_added (visible : bool) (a : added) : list (object T) := map (as_visible visible) (adObjs a).
(** [SetBones] (fbx2mqo.go 85-87): new bones replace all earlier ones. *)
Definition with_bones (old : list (bone T)) (a : added) : list (bone T) := match adBones a with [] => old | bs => bs end.

(** Several imports in a row, each with the objects of the document at that time; a crash or endless recursion ends them. *)
Record request := mkReq { rqRef : mref; rqMats : list Z; rqDepth : Z; rqTr : mat4 T; rqObjs : list (object T); rqBase : nat }.
Fixpoint import_all (fuel : nat) (mem : memory) (l : list request) : list (fres (option added)) :=
  match l with
  | [] => []
  | q :: l =>
      let '(mem, a) := import_mesh fuel mem (rqRef q) (rqMats q) (rqDepth q) (rqTr q) (rqObjs q) (rqBase q) in
      a :: match a with FOk _ => import_all fuel mem l | _ => [] end
  end.
End Import.
Arguments assets T : clear implicits.
Arguments memory T : clear implicits.
Arguments added T : clear implicits.
Arguments request T : clear implicits.
